(** * Model of calls that a protocol's callbacks make to the node: mod.go OnPeerConnected and OnPeerDisconnected, run by the client's own
    goroutine (client.go:508-514, before handshake's deferred close(ready); 240-246, before outbound's deferred remove and close(clientDone)),
    calling Ping, Send or Request, all of which begin with dialIfNotExists (node.go:390-441).

    On top of M_Dial's outbound pool: while such a call has not returned, the goroutine that makes it does nothing else. *)
From Verif Require Import Base M_Table M_Maps M_Client M_Dial.
Local Open Scope nat_scope.

(** The outbound pool (node.go:47, 390-441) and the calls made by callbacks (client.go:240-246, 508-514). *)
Record bstate := mkB {
  b_pool : dstate;
  b_calls : list (nat * nat)      (* (client, call): the call was made by the client's goroutine, from a callback *)
}.
(** After NewNode, node.go:62-102. *)
Definition b_start : bstate := mkB d_start [].

(** Steps: of the pool and its callers (node.go:390-441), and of a callback that makes a call (client.go:240-246, 508-514). *)
Inductive bact :=
| BaPool (a : dact)               (* anything M_Dial knows *)
| BaCall (k : nat) (ad : bytes).  (* a callback run by client [k]'s goroutine calls the node with address [ad] *)

(** The call has returned.  dialIfNotExists has come to node.go:411, 426 or 440. *)
Definition call_over (d : dstate) (i : nat) : bool :=
  match nth_error (ds_callers d) i with Some c => match d_pc c with DOk _ _ | DErr _ => true | _ => false end | None => false end.
(** The client's goroutine is inside a call made from a callback.  client.go:240-246, 508-514: protocols' callbacks run on it. *)
Definition busy (s : bstate) (k : nat) : bool := existsb (fun x => (fst x =? k) && negb (call_over (b_pool s) (snd x))) (b_calls s).
(** The client's goroutine is at its callbacks: after a handshake without error (508-514), or at 240-246. *)
Definition in_callback (st : cstate) : bool :=
  match c_main st with MReady => match c_err st with None => true | Some _ => false end | MDisconnected => true | _ => false end.

Section Callback.
Variables (max att p idle : nat) (isctx : nat -> bool).
(** One step; a goroutine in a callback waits for its call (client.go:240-246, 508-514). *)
Definition bstep (s : bstate) (a : bact) : option bstate :=
  match a with
  | BaPool da =>
      if match da with DaClient k (AMain _) => busy s k | _ => false end then None
      else match dstep SideOutbound max att p idle isctx (b_pool s) da with Some d => Some (mkB d (b_calls s)) | None => None end
  | BaCall k ad =>
      match nth_error (ds_clients (b_pool s)) k with
      | Some q =>
          if in_callback (k_st q) && negb (busy s k) then
            match dstep SideOutbound max att p idle isctx (b_pool s) (DaCall ad) with
            | Some d => Some (mkB d (b_calls s ++ [(k, length (ds_callers (b_pool s)))]))
            | None => None
            end
          else None
      | None => None
      end
  end.
(** Several steps of [bstep] (node.go:390-441, client.go:240-246, 508-514), in order. *)
Fixpoint brun (s : bstate) (l : list bact) : option bstate :=
  match l with [] => Some s | a :: l' => match bstep s a with Some s' => brun s' l' | None => None end end.
End Callback.
