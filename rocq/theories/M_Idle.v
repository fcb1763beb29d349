(** * Model of the idle timeout: client.go read (281-313) in recvLoop (516-556), with the deadline that it sets, and the writer's (577-586,
    628-635), over a connection whose bytes arrive in pieces.

    Time is a number that grows; an expired deadline makes a call of conn.Read fail, also when there are bytes to be read, and conn.Write
    likewise (net.Conn).  Bytes are counted, not represented (M_Frame has them).  What the client does when its reader has stopped is in
    M_Client.  Simplified: the buffered reader may hold any number of bytes; errors other than a timeout do not happen. *)
From Verif Require Import Base.
Local Open Scope nat_scope.

(** Program points of the reader. *)
Inductive ipc :=
| ITop                 (* 282 *)
| IBody                (* 288-300: io.ReadFull of the header, then of the rest *)
| IBusy                (* 528-556: findRequest, or node.work and the callbacks *)
| IStopped (t : nat).  (* read failed at time [t] *)

(** The reader and the writer of a client (client.go:282-313, 560-651), the deadlines, the bytes underway and the time. *)
Record istate := mkI {
  i_now : nat;
  i_pc : ipc;
  i_rdl : option nat;             (* read deadline of conn *)
  i_sock : nat;                   (* bytes that have arrived and have not been read from conn *)
  i_have : nat;                   (* bytes in the buffered reader, and those of the present frame already copied *)
  i_wdl : option nat;             (* write deadline of conn *)
  (* history *)
  i_arrived : list nat;           (* times at which bytes arrived, latest first *)
  i_wrote : list nat;             (* times at which the writer put messages on the connection, latest first *)
  i_done : list nat               (* times at which frames were completed, latest first *)
}.
(** After the handshake, client.go:380-515. *)
Definition i_start : istate := mkI 0 ITop None 0 0 None [] [] [].

Inductive iact :=
| ITick                           (* time passes *)
| IArrive (k : nat)               (* [k] bytes arrive *)
| IRead                           (* 282-286: the deadline *)
| IFill (k : nat)                 (* conn.Read returns [k] bytes *)
| IFrame                          (* the frame is complete *)
| ITimeout                        (* conn.Read fails, the deadline having passed *)
| IHandled                        (* on to the next frame *)
| IWriteTop                       (* 577-586 *)
| IWrite.                         (* 628-635: conn.Write succeeds *)

(** An expired deadline makes conn.Read or conn.Write fail (client.go:289, 299, 615, 624, 634). *)
Definition expired (now : nat) (d : option nat) : bool := match d with Some t => t <=? now | None => false end.

Section Idle.
(** [idle]: idleTimeout, 0 for none; [frame i]: length of the [i]-th frame that the peer sends, header included. *)
Variables (idle : nat) (frame : nat -> nat).

(** SetReadDeadline and SetWriteDeadline, client.go:283-287, 576-585. *)
Definition deadline (now : nat) (old : option nat) : option nat := if idle =? 0 then old else Some (now + idle).

(** One step of the reader, the writer, the network or the clock (client.go:282-313, 560-651). *)
Definition istep (s : istate) (a : iact) : option istate :=
  let need := frame (length (i_done s)) in
  match a with
  | ITick => Some (mkI (S (i_now s)) (i_pc s) (i_rdl s) (i_sock s) (i_have s) (i_wdl s) (i_arrived s) (i_wrote s) (i_done s))
  | IArrive k => if 0 <? k then Some (mkI (i_now s) (i_pc s) (i_rdl s) (i_sock s + k) (i_have s) (i_wdl s) (i_now s :: i_arrived s) (i_wrote s) (i_done s)) else None
  | IRead => match i_pc s with
             | ITop => Some (mkI (i_now s) IBody (deadline (i_now s) (i_rdl s)) (i_sock s) (i_have s) (i_wdl s) (i_arrived s) (i_wrote s) (i_done s))
             | _ => None
             end
  | IFill k => match i_pc s with
               | IBody => if (i_have s <? need) && (0 <? k) && (k <=? i_sock s) && negb (expired (i_now s) (i_rdl s))
                          then Some (mkI (i_now s) IBody (i_rdl s) (i_sock s - k) (i_have s + k) (i_wdl s) (i_arrived s) (i_wrote s) (i_done s)) else None
               | _ => None
               end
  | IFrame => match i_pc s with
              | IBody => if need <=? i_have s
                         then Some (mkI (i_now s) IBusy (i_rdl s) (i_sock s) (i_have s - need) (i_wdl s) (i_arrived s) (i_wrote s) (i_now s :: i_done s)) else None
              | _ => None
              end
  | ITimeout => match i_pc s with
                | IBody => if (i_have s <? need) && expired (i_now s) (i_rdl s)
                           then Some (mkI (i_now s) (IStopped (i_now s)) (i_rdl s) (i_sock s) (i_have s) (i_wdl s) (i_arrived s) (i_wrote s) (i_done s)) else None
                | _ => None
                end
  | IHandled => match i_pc s with
                | IBusy => Some (mkI (i_now s) ITop (i_rdl s) (i_sock s) (i_have s) (i_wdl s) (i_arrived s) (i_wrote s) (i_done s))
                | _ => None
                end
  | IWriteTop => Some (mkI (i_now s) (i_pc s) (i_rdl s) (i_sock s) (i_have s) (deadline (i_now s) (i_wdl s)) (i_arrived s) (i_wrote s) (i_done s))
  | IWrite => if expired (i_now s) (i_wdl s) then None
              else Some (mkI (i_now s) (i_pc s) (i_rdl s) (i_sock s) (i_have s) (i_wdl s) (i_arrived s) (i_now s :: i_wrote s) (i_done s))
  end.
(** Several steps, in order (client.go:282-313, 560-651). *)
Fixpoint irun (s : istate) (l : list iact) : option istate :=
  match l with [] => Some s | a :: l' => match istep s a with Some s' => irun s' l' | None => None end end.
End Idle.
