(** * Model of a connection pool in use: map.go get and remove with their lock (31-70), node.go dialIfNotExists (390-441) and the
    accepting of connections (228-231), and the clients of the pool with all their goroutines (M_Client).

    Any number of goroutines call dialIfNotExists (Ping, Send and Request begin with it), or accept connections, on one of the two
    pools of a node; each call may be cancelled at any time.  The pool's data structure is that of M_Maps. *)
From Verif Require Import Base M_Table M_Maps M_Client.
Local Open Scope nat_scope.

(** What a call may fail with: its context's error, or an error of the client.  node.go:399-408. *)
Inductive derr := ECtx | EClient (e : nat).

(** Program points of dialIfNotExists.  [i] counts the attempts made before this one. *)
Inductive dpc :=
| DLoop (i : nat)                                   (* 393-394 *)
| DEvict (i : nat) (k v : nat) (m : climap)         (* map.go:44-45, with the pool's lock: [v] is evicted, [m] is the pool to be, with the new client [k] *)
| DSelect (i k : nat)                               (* 399-408 *)
| DClose (i k : nat) (e : derr)                     (* 414 *)
| DWait (i k : nat) (e : derr)                      (* 415 *)
| DFail (e : derr) (j : nat)                        (* 418-424/432-438: callbacks, [j] of them done *)
| DOk (k : nat) (existed : bool)                    (* returned the client *)
| DErr (e : derr).                                  (* returned an error *)

(** A call of dialIfNotExists, node.go:390-441: its address, program point, and whether its context is over. *)
Record caller := mkD { d_addr : bytes; d_pc : dpc; d_cancelled : bool }.
(** A client with the address it is for and the context it was made with, node.go:394-397. *)
Record client := mkK { k_addr : bytes; k_ctx : nat (* the call whose context outbound dials with *); k_st : cstate }.

(** The calls, the clients, the pool with its lock (map.go:15-21), and history. *)
Record dstate := mkDS {
  ds_callers : list caller;
  ds_clients : list client;
  ds_pool : climap;               (* while the lock is held: as it was when it was taken; nobody else looks *)
  ds_lock : option nat;           (* the caller that holds the pool's lock across steps *)
  (* history *)
  ds_gets : list (nat * nat);     (* (caller, attempt): get was called *)
  ds_failed : list (nat * nat);   (* (caller, protocol): OnPingFailed was called *)
  ds_late : list nat              (* callers that began an attempt after their context was cancelled *)
}.
(** After NewNode, node.go:96-97. *)
Definition d_start : dstate := mkDS [] [] newClientMap None [] [] [].

Inductive branch := BCtx | BReady | BReader | BWriter.   (* node.go:400, 402, 404, 406 *)
Inductive dact :=
| DaCall (a : bytes)                     (* somebody calls dialIfNotExists, or a connection from [a] arrives *)
| DaCancel (i : nat)                     (* the context of call [i] is cancelled or expires *)
| DaGet (i : nat)                        (* 393-397, or giving up *)
| DaEvicted (i : nat)                    (* map.go:45-51 *)
| DaSelect (i : nat) (b : branch)        (* 399-412 *)
| DaClose (i : nat)                      (* 414 *)
| DaWait (i : nat)                       (* 415-417 *)
| DaFail (i : nat)                       (* one callback, or the return *)
| DaClient (k : nat) (a : caction).      (* a step of client [k] *)

(** Moves a call of dialIfNotExists (node.go:390-441) on. *)
Definition set_pc (i : nat) (c : caller) (p : dpc) (s : dstate) : dstate :=
  mkDS (set_nth i (mkD (d_addr c) p (d_cancelled c)) (ds_callers s)) (ds_clients s) (ds_pool s) (ds_lock s) (ds_gets s) (ds_failed s) (ds_late s).

(** What the caller does with the client it got from the pool: node.go:399, or nothing more when accepting (231). *)
Definition got (sd : cside) (i k : nat) (existed : bool) : dpc :=
  match sd with SideOutbound => DSelect i k | SideInbound => DOk k existed end.

Section Dial.
(** [max]: maxInboundConnections (map.go:37, for both pools); [att]: maxDialAttempts; [p]: number of protocols with an OnPingFailed;
    [idle]: idleTimeout; [isctx e]: errors.Is says that the client's error [e] is a context's (417). *)
Variables (sd : cside) (max att p idle : nat) (isctx : nat -> bool).

(** One step of a call (node.go:390-441), of a context, or of a client (M_Client). *)
Definition dstep (s : dstate) (a : dact) : option dstate :=
  match a with
  | DaCall ad => Some (mkDS (ds_callers s ++ [mkD ad (DLoop 0) false]) (ds_clients s) (ds_pool s) (ds_lock s) (ds_gets s) (ds_failed s) (ds_late s))
  | DaCancel i =>
      match nth_error (ds_callers s) i with
      | Some c => Some (mkDS (set_nth i (mkD (d_addr c) (d_pc c) true) (ds_callers s)) (ds_clients s) (ds_pool s) (ds_lock s) (ds_gets s) (ds_failed s) (ds_late s))
      | None => None
      end
  | DaGet i =>
      match nth_error (ds_callers s) i with
      | Some c =>
          match d_pc c with
          | DLoop n =>
              if n <? att then
                match ds_lock s with
                | Some _ => None
                | None =>
                    let fresh := length (ds_clients s) in
                    let gets := ds_gets s ++ [(i, n)] in
                    let late := if d_cancelled c then ds_late s ++ [i] else ds_late s in
                    match cm_fetch max (ds_pool s) (d_addr c) fresh with
                    | Ok (m, k, existed, None) =>
                        let clients := if existed then ds_clients s else ds_clients s ++ [mkK (d_addr c) i (newClient sd)] in
                        Some (mkDS (set_nth i (mkD (d_addr c) (got sd n k existed) (d_cancelled c)) (ds_callers s)) clients m None gets (ds_failed s) late)
                    | Ok (m, k, _, Some v) =>
                        Some (mkDS (set_nth i (mkD (d_addr c) (DEvict n k v m) (d_cancelled c)) (ds_callers s)) (ds_clients s) (ds_pool s) (Some i) gets (ds_failed s) late)
                    | _ => None
                    end
                end
              else None
          | _ => None
          end
      | None => None
      end
  | DaEvicted i =>
      match nth_error (ds_callers s) i with
      | Some c =>
          match d_pc c with
          | DEvict n k v m =>
              match nth_error (ds_clients s) v with
              | Some q =>
                  if (c_once (k_st q) =? 2) && c_cdone (k_st q) then
                    Some (mkDS (set_nth i (mkD (d_addr c) (got sd n k false) (d_cancelled c)) (ds_callers s)) (ds_clients s ++ [mkK (d_addr c) i (newClient sd)]) m None
                               (ds_gets s) (ds_failed s) (ds_late s))
                  else None
              | None => None
              end
          | _ => None
          end
      | None => None
      end
  | DaSelect i b =>
      match nth_error (ds_callers s) i with
      | Some c =>
          match d_pc c with
          | DSelect n k =>
              match nth_error (ds_clients s) k with
              | Some q =>
                  let st := k_st q in
                  if match b with BCtx => d_cancelled c | BReady => c_ready st | BReader => c_rdone st | BWriter => c_wdone st end then
                    Some (set_pc i c match b with
                                     | BCtx => DClose n k ECtx
                                     | _ => match c_err st with None => DOk k false | Some e => DClose n k (EClient e) end
                                     end s)
                  else None
              | None => None
              end
          | _ => None
          end
      | None => None
      end
  | DaClose i =>
      (* close() has run, here or in another goroutine *)
      match nth_error (ds_callers s) i with
      | Some c =>
          match d_pc c with
          | DClose n k e =>
              match nth_error (ds_clients s) k with
              | Some q => if c_once (k_st q) =? 2 then Some (set_pc i c (DWait n k e) s) else None
              | None => None
              end
          | _ => None
          end
      | None => None
      end
  | DaWait i =>
      match nth_error (ds_callers s) i with
      | Some c =>
          match d_pc c with
          | DWait n k e =>
              match nth_error (ds_clients s) k with
              | Some q =>
                  if c_cdone (k_st q) then
                    Some (set_pc i c (if match e with ECtx => true | EClient x => isctx x end then DFail e 0 else if S n <? att then DLoop (S n) else DFail e 0) s)
                  else None
              | None => None
              end
          | _ => None
          end
      | None => None
      end
  | DaFail i =>
      match nth_error (ds_callers s) i with
      | Some c =>
          match d_pc c with
          | DFail e j =>
              if j <? p then
                Some (mkDS (set_nth i (mkD (d_addr c) (DFail e (S j)) (d_cancelled c)) (ds_callers s)) (ds_clients s) (ds_pool s) (ds_lock s) (ds_gets s) (ds_failed s ++ [(i, j)]) (ds_late s))
              else Some (set_pc i c (DErr e) s)
          | _ => None
          end
      | None => None
      end
  | DaClient k a =>
      match nth_error (ds_clients s) k with
      | Some q =>
          match cact idle (k_st q) a with
          | Some st =>
              let upd pool := Some (mkDS (ds_callers s) (set_nth k (mkK (k_addr q) (k_ctx q) st) (ds_clients s)) pool (ds_lock s) (ds_gets s) (ds_failed s) (ds_late s)) in
              match c_main (k_st q), a with
              | MRemove, AMain _ =>
                  (* client.go:213/254, map.go:59-70 *)
                  match ds_lock s with None => upd (cm_remove (ds_pool s) (k_addr q)) | Some _ => None end
              | _, _ => upd (ds_pool s)
              end
          | None => None
          end
      | None => None
      end
  end.
(** Several steps, in order (node.go:390-441). *)
Fixpoint drun (s : dstate) (l : list dact) : option dstate :=
  match l with [] => Some s | a :: l' => match dstep s a with Some s' => drun s' l' | None => None end end.
End Dial.
