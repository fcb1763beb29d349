(** * How the end of a connection is reported: io.ReadFull's errors, isEOF and the warning of recvLoop. *)
From Verif Require Import Base M_Msg M_AEAD M_Frame.
Local Open Scope nat_scope.

(** client.go:653-667 isEOF.  [closed] tells whether the connection's own error, which the model writes [ErrOther], is a *net.OpError
    whose text is "use of closed network connection" (lines 658-663); the errors of read are not wrapped (client.go:289-301), save
    ErrMessageTooLarge (296). *)
Definition is_eof (closed : bool) (e : goerr) : bool :=
  match e with ErrEOF => true | ErrOther => closed | _ => false end.

(** client.go:518-535: what recvLoop leaves behind when it ends: the messages handed on, the error it reports (527, 534), and
    whether it warned (523-525, 533).  The error of unmarshalMessage is always warned about (533); it is io.ErrUnexpectedEOF
    (msg.go:25-27), of which isEOF does not hold, so that the two warnings are one here. *)
Definition recv_ends (closed : bool) (max : N) (A : option aead) (fuel : nat) (c : conn) : option (list message * goerr * bool) :=
  match recv_all fuel max A (new_rstate max c) with
  | Some (ms, Err e) => Some (ms, e, negb (is_eof closed e))
  | _ => None
  end.
