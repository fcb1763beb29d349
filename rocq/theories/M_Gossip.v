(** * Model of gossip/protocol.go: one node's goroutines, and a network of nodes. *)
From Verif Require Import Base M_ID M_Msg M_Codec M_Table.
Local Open Scope nat_scope.

(** ** The cache (fastcache): a set of keys.  Set silently skips keys of 64 KB or more; an entry may disappear at any time
    when the cache is full (an action of the machine below).  Keys are compared in full. *)
Definition max_cache_key : N := 65536.
(** seen.Has, gossip/protocol.go:75, 110. *)
Definition cache_has (k : bytes) (c : list bytes) : bool := existsb (bytes_eqb k) c.
(** seen.Set, gossip/protocol.go:62, 83, 106, 114. *)
Definition cache_set (k : bytes) (c : list bytes) : list bytes := if (N.of_nat (length k) <? max_cache_key)%N then k :: c else c.

(** gossip/protocol.go:127-129 hash. *)
Definition hash (key : pubkey) (data : bytes) : bytes := key ++ data.

(** gossip/protocol.go:92-104: what Handle takes from a message; [None]: it returns nil at once.  The type gossip.Message is
    registered with UnmarshalMessage (line 51). *)
Definition TMessage := TNamed 2001.
(** RegisterMessage in Bind, gossip/protocol.go:51. *)
Definition gossip_registration : gotype * decoder :=
  (TMessage, mkDec TMessage (fun b => let! m := UnmarshalMessage b in Ok (mkVal TMessage (Message_marshal m)))).
(** The beginning of Handle, gossip/protocol.go:91-104: the data of a gossip message, or nothing. *)
Definition gossip_accept (c : codec) (isRequest : bool) (data : bytes) : res (option bytes) :=
  if isRequest then Ok None else
  match decode c data with
  | Panic => Panic
  | Err _ => Ok None
  | Ok v => if gotype_eq_dec (v_type v) TMessage then Ok (Some (v_bytes v)) else Ok None
  end.

(** ** One node *)

(** Program points of a goroutine in Handle (the first four) and in Push; the last three are Push's goroutine for one peer. *)
Inductive gpc :=
| GSetSender (from : ID) (d : bytes)   (* line 106 *)
| GHasSelf (from : ID) (d : bytes)     (* line 110 *)
| GSetSelf (from : ID) (d : bytes)     (* line 114 *)
| GEvent (from : ID) (d : bytes)       (* line 117 *)
| GPush (d : bytes)                    (* line 62 *)
| GEntries (d : bytes)                 (* lines 64-72 *)
| GCheck (to : ID) (d : bytes)         (* line 75 *)
| GSend (to : ID) (d : bytes)          (* line 79 *)
| GMark (to : ID) (d : bytes)          (* line 83 *)
| GEnd.

(** What can be observed, oldest first: a gossip message from a peer is being handled; OnGossipReceived is called; Push
    skips a peer, decides to send to it, has sent to it, and has recorded that.  gossip/protocol.go:61-125. *)
Inductive gev :=
| EvFrom (from : ID) (d : bytes) | EvReceived (from : ID) (d : bytes)
| EvSkip (to : ID) (d : bytes) | EvDecide (to : ID) (d : bytes) | EvSent (to : ID) (d : bytes) | EvPushed (to : ID) (d : bytes)
| EvOwn (d : bytes).

(** The cache of messages seen (gossip/protocol.go:15-21), the overlay's entries, the goroutines, the events so far. *)
Record gstate := mkG { g_cache : list bytes; g_entries : list ID; g_threads : list gpc; g_log : list gev }.

(** Handle is running its part before Push.  gossip/protocol.go:106-120. *)
Definition handling (p : gpc) : bool := match p with GSetSender _ _ | GHasSelf _ _ | GSetSelf _ _ | GEvent _ _ => true | _ => false end.

(** A call of Handle or Push begins (gossip/protocol.go:61, 91), a goroutine takes a step, the overlay's table changes. *)
Inductive gaction :=
| GStep (i : nat) (ok : bool)          (* goroutine [i]; [ok]: its callback or its send does not fail *)
| GArrive (from : ID) (d : bytes)      (* a worker starts Handle on a gossip message *)
| GCall (d : bytes)                    (* the application calls Push *)
| GTable (es : list ID)                (* the routing table changes *)
| GEvict (k : bytes).                  (* the cache drops an entry *)

(** One step of a goroutine: cache, new program point, goroutines started, event.  gossip/protocol.go:61-125. *)
Definition gstep (self : pubkey) (es : list ID) (ok : bool) (c : list bytes) (p : gpc) : list bytes * gpc * list gpc * list gev :=
  match p with
  | GSetSender from d => (cache_set (hash (id_key from) d) c, GHasSelf from d, [], [EvFrom from d])
  | GHasSelf from d => (c, if cache_has (hash self d) c then GEnd else GSetSelf from d, [], [])
  | GSetSelf from d => (cache_set (hash self d) c, GEvent from d, [], [EvOwn d])
  | GEvent from d => (c, if ok then GPush d else GEnd, [], [EvReceived from d])
  | GPush d => (cache_set (hash self d) c, GEntries d, [], [EvOwn d])
  | GEntries d => (c, GEnd, map (fun id => GCheck id d) es, [])
  | GCheck to d => if cache_has (hash (id_key to) d) c then (c, GEnd, [], [EvSkip to d]) else (c, GSend to d, [], [EvDecide to d])
  | GSend to d => if ok then (c, GMark to d, [], [EvSent to d]) else (c, GEnd, [], [])
  | GMark to d => (cache_set (hash (id_key to) d) c, GEnd, [], [EvPushed to d])
  | GEnd => (c, GEnd, [], [])
  end.

(** [w] is the number of workers (node.go:180-195), the bound on Handle calls running at once. *)
Definition gact (self : pubkey) (w : nat) (s : gstate) (a : gaction) : option gstate :=
  match a with
  | GStep i ok =>
      match nth_error (g_threads s) i with
      | Some p => let '(c, p', new, ev) := gstep self (g_entries s) ok (g_cache s) p in
                  Some (mkG c (g_entries s) (set_nth i p' (g_threads s) ++ new) (g_log s ++ ev))
      | None => None
      end
  | GArrive from d => if length (filter handling (g_threads s)) <? w
                      then Some (mkG (g_cache s) (g_entries s) (g_threads s ++ [GSetSender from d]) (g_log s)) else None
  | GCall d => Some (mkG (g_cache s) (g_entries s) (g_threads s ++ [GPush d]) (g_log s))
  | GTable es => Some (mkG (g_cache s) es (g_threads s) (g_log s))
  | GEvict k => Some (mkG (filter (fun x => negb (bytes_eqb k x)) (g_cache s)) (g_entries s) (g_threads s) (g_log s))
  end.
(** Several steps, in order (gossip/protocol.go:61-125). *)
Fixpoint grun (self : pubkey) (w : nat) (s : gstate) (l : list gaction) : option gstate :=
  match l with [] => Some s | a :: l' => match gact self w s a with Some s' => grun self w s' l' | None => None end end.
(** gossip/protocol.go:24-35 New. *)
Definition gossip_new (es : list ID) : gstate := mkG [] es [] [].

(** ** A network of nodes gossiping one message

    Nodes are numbers below [length peers]; [nth i peers] is what Entries returns on node [i] (its table does not change,
    and may contain [i] itself).  Every node accepts the message; links deliver everything, in any order.  Different
    contents do not interact (Props_Gossip.C28_hash_injective), so one suffices.  [keep]: the message is small enough for
    the cache, which does not drop entries.  A node's cache is the list of the peers (and itself) it has marked. *)
Inductive nthread :=
| NPass (i : nat)            (* node i's Handle has passed line 110; lines 114-122 and 62-72 are one step *)
| NCheck (i j : nat)         (* line 75 *)
| NSend (i j : nat)          (* line 79 *)
| NMark (i j : nat).         (* line 83 *)
Record net := mkNet {
  nt_seen : list (list nat);           (* per node *)
  nt_threads : list nthread;
  nt_wire : list (nat * nat);          (* messages in flight: sender, receiver *)
  nt_received : list nat;              (* OnGossipReceived calls, newest first *)
  nt_sent : list (nat * nat)           (* every message sent, newest first *)
}.
(** seen.Has (gossip/protocol.go:75) of node [i], for node [j]. *)
Definition nseen (s : net) (i j : nat) : bool := existsb (Nat.eqb j) (nth i (nt_seen s) []).
(** seen.Set (gossip/protocol.go:83, 106) of node [i], for node [j]. *)
Definition nmark (keep : bool) (s : net) (i j : nat) : list (list nat) :=
  if keep then set_nth i (j :: nth i (nt_seen s) []) (nt_seen s) else nt_seen s.
(** A goroutine ends; no code of its own (gossip/protocol.go:72-84). *)
Fixpoint remove_nth {A} (n : nat) (l : list A) : list A :=
  match l, n with [], _ => [] | _ :: r, O => r | x :: r, S n' => x :: remove_nth n' r end.

Inductive naction :=
| NDeliver (m : nat)   (* message number m of the wire is handled up to line 110 *)
| NThread (k : nat).   (* thread number k takes a step *)
(** One step of the network of gossiping nodes (gossip/protocol.go:61-125). *)
Definition nact (keep : bool) (peers : list (list nat)) (s : net) (a : naction) : option net :=
  match a with
  | NDeliver m =>
      match nth_error (nt_wire s) m with
      | Some (i, j) =>
          let s1 := mkNet (nmark keep s j i) (nt_threads s) (remove_nth m (nt_wire s)) (nt_received s) (nt_sent s) in
          Some (mkNet (nt_seen s1) (if nseen s1 j j then nt_threads s1 else nt_threads s1 ++ [NPass j]) (nt_wire s1) (nt_received s1) (nt_sent s1))
      | None => None
      end
  | NThread k =>
      match nth_error (nt_threads s) k with
      | Some (NPass i) => Some (mkNet (nmark keep s i i) (remove_nth k (nt_threads s) ++ map (NCheck i) (nth i peers []))
                                 (nt_wire s) (i :: nt_received s) (nt_sent s))
      | Some (NCheck i j) => Some (mkNet (nt_seen s) (if nseen s i j then remove_nth k (nt_threads s) else set_nth k (NSend i j) (nt_threads s))
                                    (nt_wire s) (nt_received s) (nt_sent s))
      | Some (NSend i j) => Some (mkNet (nt_seen s) (set_nth k (NMark i j) (nt_threads s)) (nt_wire s ++ [(i, j)]) (nt_received s) ((i, j) :: nt_sent s))
      | Some (NMark i j) => Some (mkNet (nmark keep s i j) (remove_nth k (nt_threads s)) (nt_wire s) (nt_received s) (nt_sent s))
      | None => None
      end
  end.
(** Several steps, in order (gossip/protocol.go:61-125). *)
Fixpoint nrun (keep : bool) (peers : list (list nat)) (s : net) (l : list naction) : option net :=
  match l with [] => Some s | a :: l' => match nact keep peers s a with Some s' => nrun keep peers s' l' | None => None end end.

(** Node [o] has called Push and marked itself (lines 62-72). *)
Definition net_start (keep : bool) (peers : list (list nat)) (o : nat) : net :=
  let s := mkNet (map (fun _ => []) peers) [] [] [] [] in
  mkNet (nmark keep s o o) (map (NCheck o) (nth o peers [])) [] [] [].
