(** * Options of Find, of the Kademlia protocol and of gossip. *)
From Verif Require Import Base M_ID M_Table M_Iter.
Local Open Scope Z_scope.

(** kademlia/iterator.go:12-29: the configurable fields.  Loggers and callbacks stand as numbers, 0 being the node's own logger; a duration
    is a number of nanoseconds. *)
Record iter_conf := mkIC { ic_logger : nat; ic_max : Z; ic_lookups : Z; ic_requests : Z; ic_timeout : Z }.

(** kademlia/iterator_options.go:14-50. *)
Inductive iter_option :=
| WithIteratorLogger (l : nat) | WithIteratorMaxNumResults (n : Z) | WithIteratorNumParallelLookups (n : Z)
| WithIteratorNumParallelRequestsPerLookup (n : Z) | WithIteratorLookupTimeout (d : Z).
(** Applying one option, kademlia/iterator.go:46-48, iterator_options.go:14-50. *)
Definition apply_iter (c : iter_conf) (o : iter_option) : iter_conf :=
  match o with
  | WithIteratorLogger l => mkIC l (ic_max c) (ic_lookups c) (ic_requests c) (ic_timeout c)
  | WithIteratorMaxNumResults n => mkIC (ic_logger c) n (ic_lookups c) (ic_requests c) (ic_timeout c)
  | WithIteratorNumParallelLookups n => mkIC (ic_logger c) (ic_max c) n (ic_requests c) (ic_timeout c)
  | WithIteratorNumParallelRequestsPerLookup n => mkIC (ic_logger c) (ic_max c) (ic_lookups c) n (ic_timeout c)
  | WithIteratorLookupTimeout d => mkIC (ic_logger c) (ic_max c) (ic_lookups c) (ic_requests c) d
  end.

(** kademlia/iterator.go:33-51 NewIterator. *)
Definition NewIterator (opts : list iter_option) : iter_conf :=
  fold_left apply_iter opts (mkIC 0 (Z.of_nat BucketSize) 3 8 (3 * 1000000000)).

(** kademlia/protocol.go:48-50 Find and 54-56 Discover: a new iterator for each call.  A call ends, under a schedule of its goroutines, in
    the slice returned or in a crash of the process: in init or in one of the goroutines (iterator.go:74-121), or in the truncation
    (iterator.go:67-69). *)
Definition find_returns (t : table) (target : pubkey) (opts : list iter_option) (sched : list iaction) (l : list ID) : Prop :=
  let c := NewIterator opts in
  exists peers s0 s, Peers t = Ok peers /\ iter_init (id_key (t_self t)) target peers (ic_lookups c) (ic_requests c) = Ok s0 /\
    irun (Z.to_nat (ic_requests c)) s0 sched = Some s /\ i_done s = true /\ find_result target (ic_max c) (i_found s) = Ok l.
(** Find of an Iterator made with these options panics, kademlia/iterator.go:33-106. *)
Definition find_crashes (t : table) (target : pubkey) (opts : list iter_option) (sched : list iaction) : Prop :=
  let c := NewIterator opts in
  Peers t = Panic \/
  exists peers, Peers t = Ok peers /\
    (iter_init (id_key (t_self t)) target peers (ic_lookups c) (ic_requests c) = Panic \/
     exists s0 s, iter_init (id_key (t_self t)) target peers (ic_lookups c) (ic_requests c) = Ok s0 /\
       irun (Z.to_nat (ic_requests c)) s0 sched = Some s /\ i_done s = true /\ find_result target (ic_max c) (i_found s) = Panic).

(** kademlia/protocol.go:17-44 New and kademlia/protocol_options.go:9-33; [None] is the nil logger that Bind replaces by the node's
    (kademlia/protocol.go:171-173); events are numbers, 0 being the zero value without callbacks. *)
Record kad_conf := mkKC { kc_events : nat; kc_logger : option nat; kc_ping : Z }.
(** kademlia/protocol_options.go:9-33. *)
Inductive kad_option := WithProtocolEvents (e : nat) | WithProtocolLogger (l : option nat) | WithProtocolPingTimeout (d : Z).
(** Applying one option, kademlia/protocol.go:39-41, protocol_options.go:12-33. *)
Definition apply_kad (c : kad_conf) (o : kad_option) : kad_conf :=
  match o with
  | WithProtocolEvents e => mkKC e (kc_logger c) (kc_ping c)
  | WithProtocolLogger l => mkKC (kc_events c) l (kc_ping c)
  | WithProtocolPingTimeout d => mkKC (kc_events c) (kc_logger c) d
  end.
(** kademlia/protocol.go:34-44 New. *)
Definition kademlia_New (opts : list kad_option) : kad_conf := fold_left apply_kad opts (mkKC 0 None (3 * 1000000000)).
(** kademlia/protocol.go:168-175: the logger once bound to a node whose logger is [l]. *)
Definition kad_Bind (l : nat) (c : kad_conf) : kad_conf :=
  mkKC (kc_events c) (Some (match kc_logger c with None => l | Some x => x end)) (kc_ping c).

(** gossip/protocol.go:24-35 New and gossip/events.go:13-21. *)
Inductive gossip_option := WithEvents (e : nat).
(** gossip/protocol.go:24-35 New. *)
Definition gossip_New (opts : list gossip_option) : nat := fold_left (fun _ o => match o with WithEvents e => e end) opts 0%nat.
