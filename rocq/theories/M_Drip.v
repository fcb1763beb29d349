(** * Model of sending to a peer that reads slowly: client.go send (340-347) and writeLoop (560-651) with its write deadline.

    The peer reads all the time: while the writer has bytes to write, at least one is taken in every unit of time.  Messages are represented by the lengths of their
    frames (M_Frame has their bytes).  Simplified: what the connection itself can hold is full, so bytes are written as they are taken; what the node computes takes no time; the client is not closed, and
    the callbacks (643-649) take no time. *)
From Verif Require Import Base.
Local Open Scope nat_scope.

(** The goroutine writeLoop: before the deadline is set (576), before it takes the messages (587-593), writing with [todo] bytes of the batch to go (599-634), ended with a timeout (616-640). *)
Inductive dpc := DTop | DWait | DWrite (todo : nat) | DFailed.
(** The client (client.go:340-347, 560-651). *)
Record drip := mkD {
  d_now : nat;
  d_pc : dpc;
  d_dl : option nat;      (* write deadline *)
  d_buf : list nat;       (* writerBuf *)
  d_acc : nat;            (* bytes of all frames accepted by send *)
  d_out : nat             (* bytes that the peer has been given *)
}.
(** A connection whose handshake has just been completed at time [t] (client.go:497-515); no deadline is left unless the handshake set one, which the first step replaces. *)
Definition d_start (t : nat) : drip := mkD t DTop None [] 0 0.

Inductive dact :=
| DAccept (n : nat)       (* send, 340-347: a message whose frame has [n] bytes *)
| DBegin                  (* 576-585 *)
| DTake                   (* 587-597 *)
| DTick (k : nat)         (* time passes; the peer takes [k] bytes *)
| DExpire                 (* a write fails with a timeout, 616-640 *)
| DFlushed.               (* the batch is written, 634-649 *)

(** Bytes of the batch that a list of messages makes (client.go:599-632). *)
Definition total (l : list nat) : nat := list_sum l.
(** Has the deadline passed (client.go:577)? *)
Definition late (now : nat) (d : option nat) : bool := match d with Some t => t <=? now | None => false end.

Section Drip.
(** [idle]: idleTimeout, 0 for none (client.go:576). *)
Variable idle : nat.

(** One step (client.go:340-347, 560-651). *)
Definition dstep (s : drip) (a : dact) : option drip :=
  match a, d_pc s with
  | DAccept n, p => Some (mkD (d_now s) p (d_dl s) (d_buf s ++ [n]) (d_acc s + n) (d_out s))
  | DBegin, DTop => Some (mkD (d_now s) DWait (if idle =? 0 then d_dl s else Some (d_now s + idle)) (d_buf s) (d_acc s) (d_out s))
  | DTake, DWait => match d_buf s with [] => None | _ => Some (mkD (d_now s) (DWrite (total (d_buf s))) (d_dl s) [] (d_acc s) (d_out s)) end
  | DTick k, DWait => match d_buf s, k with [], 0 => Some (mkD (S (d_now s)) DWait (d_dl s) (d_buf s) (d_acc s) (d_out s)) | _, _ => None end
  | DTick k, DWrite todo =>
      if (0 <? k) && (k <=? todo) && negb (late (d_now s) (d_dl s)) then Some (mkD (S (d_now s)) (DWrite (todo - k)) (d_dl s) (d_buf s) (d_acc s) (d_out s + k)) else None
  | DTick k, DFailed => match k with 0 => Some (mkD (S (d_now s)) DFailed (d_dl s) (d_buf s) (d_acc s) (d_out s)) | _ => None end
  | DExpire, DWrite todo => if (0 <? todo) && late (d_now s) (d_dl s) then Some (mkD (d_now s) DFailed (d_dl s) (d_buf s) (d_acc s) (d_out s)) else None
  | DFlushed, DWrite todo => match todo with 0 => Some (mkD (d_now s) DTop (d_dl s) (d_buf s) (d_acc s) (d_out s)) | _ => None end
  | _, _ => None
  end.
(** Several steps, in order (client.go:340-347, 560-651). *)
Fixpoint drun (s : drip) (l : list dact) : option drip :=
  match l with [] => Some s | a :: l' => match dstep s a with Some s' => drun s' l' | None => None end end.
End Drip.
