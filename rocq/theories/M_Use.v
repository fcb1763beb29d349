(** * A connection pool together with the use made of its connections. *)
From Verif Require Import Base M_Maps.
Local Open Scope nat_scope.

(** What happens to a pool and to its connections.  [UGet]: the address is looked up, by a call of Send, Request or Ping (node.go:394)
    in the outbound pool, by an accepted connection (node.go:228) in the inbound one.  [UTraffic]: something is sent or received on the
    connection by goroutines that have it already, or a call waits on it (client.go:340-378, 517-651).  [UGone]: the connection has ended and
    leaves the pool (client.go:213, 254). *)
Inductive uop := UGet (a : bytes) | UTraffic (a : bytes) | UGone (a : bytes).

(** The operations on the pool, map.go:31-70: sending and receiving make none (client.go:340-378, 517-651). *)
Definition pool_ops (o : uop) : list cm_op :=
  match o with UGet a => [CGet a] | UTraffic _ => [] | UGone a => [CRemove a] end.

(** The pool, with the number of clients made, after a history; map.go:31-70. *)
Definition urun (max : nat) (os : list uop) : res (climap * nat) := cm_run max (newClientMap, 0) (flat_map pool_ops os).
