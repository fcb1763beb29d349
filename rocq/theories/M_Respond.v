(** * Model of answering through a HandlerContext: msg.go Send (72-78), SendMessage (101-108), codec.go, client.go send (340-347).

    One call of a handler, whose context any number of goroutines use at the same time, while types are being registered.  A nil message
    makes EncodeMessage panic (C06) and is left out.  What happens to what has been queued on the connection is M_Conn's. *)
From Verif Require Import Base M_Table M_Codec.
Local Open Scope nat_scope.

(** A call of Send (msg.go:72) or of SendMessage (101), with its argument. *)
Inductive attempt := ASend (d : bytes) | AMessage (v : value).

(** Where a call is. *)
Inductive rpt :=
| RpBegin                 (* 72, 101 *)
| RpSend (d : bytes)      (* 73: about to swap the flag; SendMessage has encoded its argument (102) *)
| RpQueue (d : bytes)     (* 77: about to queue *)
| RpSent (d : bytes)      (* nil returned *)
| RpTwice                 (* 74: an error, a response was sent already *)
| RpUnregistered.         (* 104: an error, the type is not registered *)

(** The context (msg.go:37-41), the node's codec (node.go:50), and what has been appended to the connection's buffer through the context. *)
Record rstate := mkRS { rs_codec : codec; rs_sent : bool; rs_out : list (N * bytes); rs_calls : list (attempt * rpt) }.

(** A handler has just been called (node.go:187); the flag of its copy of the context is unset (client.go:548). *)
Definition r_start (c : codec) : rstate := mkRS c false [] [].

(** Steps. *)
Inductive ract :=
| RaCall (a : attempt)                     (* Send or SendMessage is called, msg.go:72, 101 *)
| RaStep (i : nat)                         (* a call goes on, msg.go:73-77, 102-107 *)
| RaRegister (t : gotype) (d : decoder).   (* RegisterMessage, node.go:252-254 *)

(** One step, on a message with nonce [n]. *)
Definition rstep (n : N) (s : rstate) (a : ract) : option rstate :=
  match a with
  | RaCall k => Some (mkRS (rs_codec s) (rs_sent s) (rs_out s) (rs_calls s ++ [(k, RpBegin)]))
  | RaRegister t d =>
      match register (rs_codec s) t d with
      | Ok (c, _) => Some (mkRS c (rs_sent s) (rs_out s) (rs_calls s))
      | _ => None
      end
  | RaStep i =>
      match nth_error (rs_calls s) i with
      | Some (k, RpBegin) =>
          match k with
          | ASend d => Some (mkRS (rs_codec s) (rs_sent s) (rs_out s) (set_nth i (k, RpSend d) (rs_calls s)))
          | AMessage v =>
              (* msg.go:102-105; the codec's lock makes encode one step (codec.go:59-60) *)
              match encode (rs_codec s) (Some v) with
              | Ok d => Some (mkRS (rs_codec s) (rs_sent s) (rs_out s) (set_nth i (k, RpSend d) (rs_calls s)))
              | _ => Some (mkRS (rs_codec s) (rs_sent s) (rs_out s) (set_nth i (k, RpUnregistered) (rs_calls s)))
              end
          end
      | Some (k, RpSend d) =>
          (* msg.go:73-75 *)
          if (0 <? n)%N then
            if rs_sent s then Some (mkRS (rs_codec s) (rs_sent s) (rs_out s) (set_nth i (k, RpTwice) (rs_calls s)))
            else Some (mkRS (rs_codec s) true (rs_out s) (set_nth i (k, RpQueue d) (rs_calls s)))
          else Some (mkRS (rs_codec s) (rs_sent s) (rs_out s) (set_nth i (k, RpQueue d) (rs_calls s)))
      | Some (k, RpQueue d) =>
          (* msg.go:77, client.go:340-347 *)
          Some (mkRS (rs_codec s) (rs_sent s) (rs_out s ++ [(n, d)]) (set_nth i (k, RpSent d) (rs_calls s)))
      | _ => None
      end
  end.

(** Several steps, in order (msg.go:72-108). *)
Fixpoint rrun (n : N) (s : rstate) (l : list ract) : option rstate :=
  match l with [] => Some s | a :: l' => match rstep n s a with Some s' => rrun n s' l' | None => None end end.
