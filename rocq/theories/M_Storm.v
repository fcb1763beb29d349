(** * Model of the exchange that requests start on one connection, with handlers on both sides that answer every request.

    client.go request (349-378) on the side that dialled, recvLoop's matching of responses (541-548) on both sides, the workers
    running all handlers in turn (node.go:180-195) and HandlerContext.Send (msg.go:72-78).

    Node.Request dials (node.go:343-355), so only the dialling side has requests outstanding on a connection.  Each handler is given its own
    copy of the context (node.go:186-187), so each can answer a request once (C32).  [ha]: handlers on the accepting side that answer every
    request; [hd]: on the dialling side.  The reading of one message and its handlers are one step.  Messages that are no requests, and the
    cancelling of requests (which leaves the entry in the map, client.go:373-375), play no part. *)
From Verif Require Import Base M_Maps.
Local Open Scope nat_scope.

(** The dialling side's request map (map.go:99-103) and the messages underway in both directions (client.go:517-651). *)
Record storm := mkStorm {
  sm_map : reqmap;       (* the dialling side's requestMap *)
  sm_toA : list N;       (* nonces of the messages on their way to the accepting side, oldest first *)
  sm_toD : list N
}.
(** A connection after its handshake, client.go:88-108. *)
Definition storm_start : storm := mkStorm newRequestMap [] [].

Inductive sact :=
| SRequest     (* client.go:352-359 *)
| SArriveA     (* recvLoop on the accepting side, and the handlers *)
| SArriveD.    (* on the dialling side *)

Section Storm.
Variables ha hd : nat.
(** client.go:541-548 for a message with nonce [n]; [h] handlers answer if it is a request (msg.go:63-65) nobody waits for. *)
Definition answers (h : nat) (n : N) : list N := if N.eqb n 0 then [] else repeat n h.
(** One step (client.go:349-378, 541-548, msg.go:72-78). *)
Definition sstep (s : storm) (a : sact) : option storm :=
  match a with
  | SRequest =>
      match nextNonce (sm_map s) with
      | (m, None) => Some (mkStorm m (sm_toA s) (sm_toD s))
      | (m, Some (_, n)) => Some (mkStorm m (sm_toA s ++ [n]) (sm_toD s))
      end
  | SArriveA =>
      match sm_toA s with
      | [] => None
      | n :: r => Some (mkStorm (sm_map s) r (sm_toD s ++ answers ha n))
      end
  | SArriveD =>
      match sm_toD s with
      | [] => None
      | n :: r =>
          match findRequest (sm_map s) n with
          | (m, Some _) => Some (mkStorm m (sm_toA s) r)
          | (m, None) => Some (mkStorm m (sm_toA s ++ answers hd n) r)
          end
      end
  end.
(** Several steps, in order (client.go:349-378, 541-548, msg.go:72-78). *)
Fixpoint srun (s : storm) (l : list sact) : option storm :=
  match l with [] => Some s | a :: l' => match sstep s a with Some s' => srun s' l' | None => None end end.
End Storm.
