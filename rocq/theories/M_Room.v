(** * Peers that arrive at a full bucket, on a network where addresses are answered by nodes.

    Ack (M_Kad) pings an address.  Whoever answers there, the ping makes the node call Ack with the ID of that connection's peer. *)
From Verif Require Import Base M_ID M_Table M_Kad.
Local Open Scope nat_scope.

(** protocol.go:109: the outcome of the ping, when [at_ a] is the ID announced (client.go:457-495) by the node that answers pings
    sent to address [a]; if there is none, the ping fails in any way at all. *)
Definition net_ping (at_ : bytes -> option ID) (fail : ID -> ping_outcome) (e : ID) : ping_outcome :=
  match at_ (id_addr e) with Some _ => GotPong | None => fail e end.

(** protocol.go:84, 106: the entry that Ack(id) pings, if any. *)
Definition pinged (t : table) (id : ID) : option ID :=
  match Update t id with
  | (_, (_, Some _)) => match Last t (id_key id) with Ok e => Some e | _ => None end
  | _ => None
  end.

(** A peer arrives: Ack(id) (protocol.go:82-152, 188-190), and, if its ping was answered, the Ack of the answerer's ID that
    OnMessageSent makes for the ping (protocol.go:205-207, client.go:643-649; answers are not announced, client.go:541-546).  It is
    taken to run after the first has returned; the ping that it may send in turn has the same outcomes, but is not followed by
    further calls.  A connected peer that is sent the ping and does not answer counts as nobody. *)
Definition arrives (at_ : bytes -> option ID) (fail : ID -> ping_outcome) (t : table) (id : ID) (t' : table) : Prop :=
  exists t1 evs, ack_alone (net_ping at_ fail) t id t1 evs /\
    match pinged t id with
    | Some e => match at_ (id_addr e) with
                | Some x => exists evs', ack_alone (net_ping at_ fail) t1 x t' evs'
                | None => t' = t1
                end
    | None => t' = t1
    end.

(** Several peers, one after the other (protocol.go:82-152). *)
Fixpoint arrive_all (at_ : bytes -> option ID) (fail : ID -> ping_outcome) (t : table) (ids : list ID) (t' : table) : Prop :=
  match ids with
  | [] => t' = t
  | id :: r => exists t1, arrives at_ fail t id t1 /\ arrive_all at_ fail t1 r t'
  end.
