(** * Model of a node's life: node.go Listen (107-236), its listener goroutine and workers, and Close (378-388), with both connection
    pools and all their clients (M_Dial, M_Client).

    Listen is called at most once, as its documentation demands; Close and everything that connects may be called any number of
    times from any goroutines.  What a handler does is left out except for when it returns (M_Work has the rest). *)
From Verif Require Import Base M_Table M_Maps M_Client M_Dial.
Local Open Scope nat_scope.

(** Program points of the listener goroutine (node.go:199-233). *)
Inductive lpc :=
| LNone                              (* Listen has not got this far *)
| LStore                             (* 200 *)
| LAccept                            (* 220 *)
| LGet (i : nat)                     (* 228, as call [i] of the inbound pool's get *)
| LReport                            (* 222 *)
| LRelease                           (* 203, map.go:73-79 *)
| LClosing (todo : list nat)         (* map.go:81, the clients still to be closed *)
| LJoin (k : nat) (todo : list nat)  (* map.go:82-83 *)
| LWait                              (* node.go:206 *)
| LUnset                             (* 208 *)
| LFinish                            (* 209 *)
| LEnd.

(** Program points of Close. *)
Inductive kpc :=
| KCas                               (* 379 *)
| KListener                          (* 380 *)
| KRecv                              (* 385 *)
| KNil (early : bool)                (* returned nil; [early]: it received the listener's error, not the closing of the channel *)
| KErr.                              (* returned the listener's error (381) *)

(** A worker, node.go:181-195: idle, at a message of client [k], gone. *)
Inductive wkpc := KIdle | KBusy (side : cside) (k : nat) | KGone.

Record nstate := mkND {
  nd_in : dstate; nd_out : dstate;   (* n.inbound, n.outbound with their clients *)
  nd_lst : lpc;
  nd_listening : bool;               (* n.listening *)
  nd_open : bool;                    (* the listener is open *)
  nd_done : nat;                     (* values in n.listenerDone, which has capacity 1 (64) *)
  nd_dclosed : bool;                 (* n.listenerDone is closed *)
  nd_closers : list kpc;
  nd_made : bool;                    (* n.work != nil *)
  nd_wclosed : bool;                 (* n.work is closed *)
  nd_queue : list (cside * nat);     (* its contents: the client of each message *)
  nd_workers : list wkpc;
  nd_stuck : list nat;               (* outbound clients whose reader sends on the nil channel *)
  nd_panic : bool
}.
(** After NewNode.  node.go:62-102. *)
Definition n_start : nstate := mkND d_start d_start LNone false false 0 false [] false false [] [] [] false.

(** Moves the listener goroutine (node.go:199-233) on. *)
Definition set_lst (s : nstate) (x : lpc) : nstate :=
  mkND (nd_in s) (nd_out s) x (nd_listening s) (nd_open s) (nd_done s) (nd_dclosed s) (nd_closers s) (nd_made s) (nd_wclosed s) (nd_queue s) (nd_workers s) (nd_stuck s) (nd_panic s).
(** Replaces the inbound pool (node.go:48). *)
Definition set_in (s : nstate) (d : dstate) : nstate :=
  mkND d (nd_out s) (nd_lst s) (nd_listening s) (nd_open s) (nd_done s) (nd_dclosed s) (nd_closers s) (nd_made s) (nd_wclosed s) (nd_queue s) (nd_workers s) (nd_stuck s) (nd_panic s).
(** Replaces the outbound pool (node.go:47). *)
Definition set_out (s : nstate) (d : dstate) : nstate :=
  mkND (nd_in s) d (nd_lst s) (nd_listening s) (nd_open s) (nd_done s) (nd_dclosed s) (nd_closers s) (nd_made s) (nd_wclosed s) (nd_queue s) (nd_workers s) (nd_stuck s) (nd_panic s).
(** Replaces the content of n.work (node.go:55, 178). *)
Definition set_queue (s : nstate) (q : list (cside * nat)) : nstate :=
  mkND (nd_in s) (nd_out s) (nd_lst s) (nd_listening s) (nd_open s) (nd_done s) (nd_dclosed s) (nd_closers s) (nd_made s) (nd_wclosed s) q (nd_workers s) (nd_stuck s) (nd_panic s).
(** Moves a worker (node.go:181-195) on. *)
Definition set_worker (s : nstate) (j : nat) (x : wkpc) : nstate :=
  mkND (nd_in s) (nd_out s) (nd_lst s) (nd_listening s) (nd_open s) (nd_done s) (nd_dclosed s) (nd_closers s) (nd_made s) (nd_wclosed s) (nd_queue s) (set_nth j x (nd_workers s)) (nd_stuck s) (nd_panic s).
(** Records a handshake that nothing will end (client.go:380-515). *)
Definition add_stuck (s : nstate) (k : nat) : nstate :=
  mkND (nd_in s) (nd_out s) (nd_lst s) (nd_listening s) (nd_open s) (nd_done s) (nd_dclosed s) (nd_closers s) (nd_made s) (nd_wclosed s) (nd_queue s) (nd_workers s) (k :: nd_stuck s) (nd_panic s).
(** A panic in any goroutine ends the process: nothing happens afterwards.  For the panics of client.go:548 (n.work is closed at node.go:205) and node.go:209. *)
Definition die (s : nstate) : nstate :=
  mkND (nd_in s) (nd_out s) (nd_lst s) (nd_listening s) (nd_open s) (nd_done s) (nd_dclosed s) (nd_closers s) (nd_made s) (nd_wclosed s) (nd_queue s) (nd_workers s) (nd_stuck s) true.

Inductive nact :=
| NaListen                (* Listen starts the goroutines (178-199); a Listen that fails before that has no effect here *)
| NaStore                 (* the listener goroutine, in the order of its program points *)
| NaAccept (a : bytes)
| NaAcceptFails
| NaGot
| NaReport
| NaRelease
| NaPick (k : nat)        (* the order in which Go iterates over the map is unspecified *)
| NaJoined
| NaCloseWork
| NaWaited
| NaUnset
| NaFinish
| NaClose                 (* somebody calls Close *)
| NaCloser (i : nat)      (* a step of Close *)
| NaTake (j : nat)        (* 185: worker [j] receives a message *)
| NaHandled (j : nat) (ok : bool)  (* 186-195: its handlers return *)
| NaQuit (j : nat)        (* 185: the channel is closed and empty *)
| NaIn (a : dact)         (* a step of an inbound client, or of the listener in get *)
| NaOut (a : dact).       (* a step of an outbound client, or of dialIfNotExists *)

Section Node.
(** [w]: numWorkers; the others as in M_Dial. *)
Variables (w max att p idle : nat) (isctx : nat -> bool).
Notation in_step := (dstep SideInbound max 1 0 idle isctx).
Notation out_step := (dstep SideOutbound max att p idle isctx).

(** The reader of client [k] has a message and is at client.go:541 (to 548): is this step the sending to n.work?  [Fails]: the message
    is the response to a pending request instead (541-546). *)
Definition handing (d : dstate) (k : nat) (a : caction) : bool :=
  match a, nth_error (ds_clients d) k with
  | AMain Fine, Some q => match c_main (k_st q) with MDispatch => true | _ => false end
  | _, _ => false
  end.
(** A step of outbound or inbound, client.go:208-280. *)
Definition is_main (a : caction) : bool := match a with AMain _ => true | _ => false end.

Definition nstep (s : nstate) (a : nact) : option nstate :=
  if nd_panic s then None else
  match a with
  | NaListen =>
      match nd_lst s with
      | LNone => Some (mkND (nd_in s) (nd_out s) LStore (nd_listening s) true (nd_done s) (nd_dclosed s) (nd_closers s) true (nd_wclosed s) (nd_queue s) (repeat KIdle w) (nd_stuck s) (nd_panic s))
      | _ => None
      end
  | NaStore =>
      match nd_lst s with
      | LStore => Some (mkND (nd_in s) (nd_out s) LAccept true (nd_open s) (nd_done s) (nd_dclosed s) (nd_closers s) (nd_made s) (nd_wclosed s) (nd_queue s) (nd_workers s) (nd_stuck s) (nd_panic s))
      | _ => None
      end
  | NaAccept ad =>
      match nd_lst s with
      | LAccept =>
          if nd_open s then
            match in_step (nd_in s) (DaCall ad) with
            | Some d => Some (set_lst (set_in s d) (LGet (length (ds_callers (nd_in s)))))
            | None => None
            end
          else None
      | _ => None
      end
  | NaAcceptFails => match nd_lst s with LAccept => Some (set_lst s LReport) | _ => None end
  | NaGot =>
      (* 229-231: the client's goroutine is started with the connection if the client is new *)
      match nd_lst s with
      | LGet i =>
          match nth_error (ds_callers (nd_in s)) i with
          | Some c => match d_pc c with DOk _ _ => Some (set_lst s LAccept) | _ => None end
          | None => None
          end
      | _ => None
      end
  | NaReport =>
      match nd_lst s with
      | LReport =>
          if nd_dclosed s then Some (die s)
          else if nd_done s <? 1 then
            Some (mkND (nd_in s) (nd_out s) LRelease (nd_listening s) (nd_open s) (S (nd_done s)) (nd_dclosed s) (nd_closers s) (nd_made s) (nd_wclosed s) (nd_queue s) (nd_workers s) (nd_stuck s) (nd_panic s))
          else None
      | _ => None
      end
  | NaRelease =>
      match nd_lst s, ds_lock (nd_in s) with
      | LRelease, None =>
          let d := nd_in s in
          Some (set_lst (set_in s (mkDS (ds_callers d) (ds_clients d) (cm_release (ds_pool d)) None (ds_gets d) (ds_failed d) (ds_late d))) (LClosing (map snd (cm_entries (ds_pool d)))))
      | _, _ => None
      end
  | NaPick k =>
      match nd_lst s with
      | LClosing todo => if existsb (Nat.eqb k) todo then Some (set_lst s (LJoin k (filter (fun j => negb (j =? k)) todo))) else None
      | _ => None
      end
  | NaJoined =>
      (* close() has run, here or in another goroutine, and clientDone is closed *)
      match nd_lst s with
      | LJoin k todo =>
          match nth_error (ds_clients (nd_in s)) k with
          | Some q => if (c_once (k_st q) =? 2) && c_cdone (k_st q) then Some (set_lst s (LClosing todo)) else None
          | None => None
          end
      | _ => None
      end
  | NaCloseWork =>
      match nd_lst s with
      | LClosing [] =>
          if nd_wclosed s then Some (die s)
          else Some (mkND (nd_in s) (nd_out s) LWait (nd_listening s) (nd_open s) (nd_done s) (nd_dclosed s) (nd_closers s) (nd_made s) true (nd_queue s) (nd_workers s) (nd_stuck s) (nd_panic s))
      | _ => None
      end
  | NaWaited =>
      match nd_lst s with
      | LWait => if forallb (fun k => match k with KGone => true | _ => false end) (nd_workers s) then Some (set_lst s LUnset) else None
      | _ => None
      end
  | NaUnset =>
      match nd_lst s with
      | LUnset => Some (mkND (nd_in s) (nd_out s) LFinish false (nd_open s) (nd_done s) (nd_dclosed s) (nd_closers s) (nd_made s) (nd_wclosed s) (nd_queue s) (nd_workers s) (nd_stuck s) (nd_panic s))
      | _ => None
      end
  | NaFinish =>
      match nd_lst s with
      | LFinish =>
          if nd_dclosed s then Some (die s)
          else Some (mkND (nd_in s) (nd_out s) LEnd (nd_listening s) (nd_open s) (nd_done s) true (nd_closers s) (nd_made s) (nd_wclosed s) (nd_queue s) (nd_workers s) (nd_stuck s) (nd_panic s))
      | _ => None
      end
  | NaClose => Some (mkND (nd_in s) (nd_out s) (nd_lst s) (nd_listening s) (nd_open s) (nd_done s) (nd_dclosed s) (nd_closers s ++ [KCas]) (nd_made s) (nd_wclosed s) (nd_queue s) (nd_workers s) (nd_stuck s) (nd_panic s))
  | NaCloser i =>
      let upd listening op done x := Some (mkND (nd_in s) (nd_out s) (nd_lst s) listening op done (nd_dclosed s) (set_nth i x (nd_closers s)) (nd_made s) (nd_wclosed s) (nd_queue s) (nd_workers s) (nd_stuck s) (nd_panic s)) in
      match nth_error (nd_closers s) i with
      | Some KCas => if nd_listening s then upd false (nd_open s) (nd_done s) KListener else upd (nd_listening s) (nd_open s) (nd_done s) KRecv
      | Some KListener => if nd_open s then upd (nd_listening s) false (nd_done s) KRecv else upd (nd_listening s) (nd_open s) (nd_done s) KErr
      | Some KRecv =>
          match nd_done s with
          | S n => upd (nd_listening s) (nd_open s) n (KNil true)
          | O => if nd_dclosed s then upd (nd_listening s) (nd_open s) 0 (KNil false) else None
          end
      | _ => None
      end
  | NaTake j =>
      match nth_error (nd_workers s) j, nd_queue s with
      | Some KIdle, (sd, k) :: q => Some (set_worker (set_queue s q) j (KBusy sd k))
      | _, _ => None
      end
  | NaHandled j ok =>
      match nth_error (nd_workers s) j with
      | Some (KBusy _ _) => Some (set_worker s j (if ok then KIdle else KGone))
      | _ => None
      end
  | NaQuit j =>
      match nth_error (nd_workers s) j, nd_queue s with
      | Some KIdle, [] => if nd_wclosed s then Some (set_worker s j KGone) else None
      | _, _ => None
      end
  | NaIn da =>
      match da with
      | DaGet _ | DaEvicted _ | DaClient _ _ =>
          match in_step (nd_in s) da with
          | Some d =>
              match da with
              | DaClient k a =>
                  if handing (nd_in s) k a then
                    if nd_wclosed s then Some (die s)
                    else if length (nd_queue s) <? w then Some (set_queue (set_in s d) (nd_queue s ++ [(SideInbound, k)])) else None
                  else Some (set_in s d)
              | _ => Some (set_in s d)
              end
          | None => None
          end
      | _ => None
      end
  | NaOut da =>
      match out_step (nd_out s) da with
      | Some d =>
          match da with
          | DaClient k a =>
              if is_main a && existsb (Nat.eqb k) (nd_stuck s) then None
              else if handing (nd_out s) k a then
                if negb (nd_made s) then Some (add_stuck s k)
                else if nd_wclosed s then Some (die s)
                else if length (nd_queue s) <? w then Some (set_queue (set_out s d) (nd_queue s ++ [(SideOutbound, k)])) else None
              else Some (set_out s d)
          | _ => Some (set_out s d)
          end
      | None => None
      end
  end.
(** Several steps of the node (node.go:109-236, 378-387), in order. *)
Fixpoint nrun (s : nstate) (l : list nact) : option nstate :=
  match l with [] => Some s | a :: l' => match nstep s a with Some s' => nrun s' l' | None => None end end.
End Node.
