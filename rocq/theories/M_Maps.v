(** * Model of map.go: the request map and the connection pools, as data structures.

    Each method holds the structure's mutex throughout, so a call is one step.  Closing and awaiting an evicted client
    inside [get] (map.go:44-45) involves other goroutines and is modelled in M_Dial; here the evicted client is returned. *)
From Verif Require Import Base.
Local Open Scope nat_scope.

(** ** requestMap, map.go:99-158 *)

(** math.MaxUint64, map.go:113. *)
Definition MaxUint64 : N := 18446744073709551615.

(** A channel is represented by the number of its creation.  map.go:99-103. *)
Record reqmap := mkRM { rm_nonce : N; rm_entries : list (N * nat); rm_made : nat }.

(** map.go:105-107. *)
Definition newRequestMap : reqmap := mkRM 0 [] 0.

(** The lookup r.entries[nonce], map.go:120, 134, 142. *)
Fixpoint rm_get (n : N) (l : list (N * nat)) : option nat :=
  match l with [] => None | (m, ch) :: l' => if N.eqb n m then Some ch else rm_get n l' end.
(** delete(r.entries, nonce), map.go:135, 144. *)
Definition rm_del (n : N) (l : list (N * nat)) : list (N * nat) := filter (fun e => negb (N.eqb n (fst e))) l.

(** map.go:109-128 nextNonce: the channel and the nonce, or an error ([None]); the counter has advanced either way. *)
Definition nextNonce (r : reqmap) : reqmap * option (nat * N) :=
  let nonce := if N.eqb (rm_nonce r) MaxUint64 then 0%N else rm_nonce r in
  let nonce := ((nonce + 1) mod 2 ^ 64)%N in
  match rm_get nonce (rm_entries r) with
  | Some _ => (mkRM nonce (rm_entries r) (rm_made r), None)
  | None => (mkRM nonce ((nonce, rm_made r) :: rm_entries r) (S (rm_made r)), Some (rm_made r, nonce))
  end.

(** map.go:130-136 markRequestFailed: close of a nil channel panics. *)
Definition markRequestFailed (r : reqmap) (n : N) : res reqmap :=
  match rm_get n (rm_entries r) with
  | None => Panic
  | Some _ => Ok (mkRM (rm_nonce r) (rm_del n (rm_entries r)) (rm_made r))
  end.

(** map.go:138-148 findRequest: the channel, nil ([None]) if the nonce is unknown. *)
Definition findRequest (r : reqmap) (n : N) : reqmap * option nat :=
  match rm_get n (rm_entries r) with
  | Some ch => (mkRM (rm_nonce r) (rm_del n (rm_entries r)) (rm_made r), Some ch)
  | None => (r, None)
  end.

(** Calls and what they returned.  map.go:109-148. *)
Inductive rq_op := RNext | RFind (n : N) | RFail (n : N).
(** A call of map.go:109-148 and what it returned. *)
Inductive rq_event := EvNext (o : option (nat * N)) | EvFind (n : N) (o : option nat) | EvFail (n : N).
(** One call, map.go:109-148. *)
Definition rq_step (r : reqmap) (o : rq_op) : res (reqmap * rq_event) :=
  match o with
  | RNext => let (r', x) := nextNonce r in Ok (r', EvNext x)
  | RFind n => let (r', x) := findRequest r n in Ok (r', EvFind n x)
  | RFail n => let! r' := markRequestFailed r n in Ok (r', EvFail n)
  end.
(** Several calls, in order, map.go:109-148. *)
Fixpoint rq_run (r : reqmap) (os : list rq_op) : res (reqmap * list rq_event) :=
  match os with
  | [] => Ok (r, [])
  | o :: os' => let! (r1, e) := rq_step r o in let! (r2, es) := rq_run r1 os' in Ok (r2, e :: es)
  end.

(** ** clientMap, map.go:10-97 *)

(** [cm_order] is the list from front to back, [cm_entries] the map; a client is represented by the number of its
    creation.  The list elements stored in the map's entries (map.go:11) are represented by their value, the address. *)
Record climap := mkCM { cm_order : list bytes; cm_entries : list (bytes * nat) }.

(** map.go:23-29. *)
Definition newClientMap : climap := mkCM [] [].

(** The lookup c.entries[addr], map.go:35, 41, 63, 93. *)
Fixpoint cm_get (a : bytes) (l : list (bytes * nat)) : option nat :=
  match l with [] => None | (b, c) :: l' => if bytes_eqb a b then Some c else cm_get a l' end.
(** delete(c.entries, addr), map.go:42, 69. *)
Definition cm_del (a : bytes) (l : list (bytes * nat)) : list (bytes * nat) := filter (fun e => negb (bytes_eqb a (fst e))) l.
(** c.order.Remove, map.go:39 and 68, and the first half of MoveToFront, 53. *)
Definition del_addr (a : bytes) (l : list bytes) : list bytes := filter (fun b => negb (bytes_eqb a b)) l.

(** map.go:31-57 get, for a node whose maxInboundConnections is [max]; [fresh] is the client newClient would make.
    Result: the pool, the client returned, whether it existed, and the client evicted.  With no element at the back
    (only when [max] is 0), Remove(nil) panics. *)
Definition cm_fetch (max : nat) (m : climap) (a : bytes) (fresh : nat) : res (climap * nat * bool * option nat) :=
  match cm_get a (cm_entries m) with
  | Some c => Ok (mkCM (a :: del_addr a (cm_order m)) (cm_entries m), c, true, None)
  | None =>
      let insert (m : climap) := mkCM (a :: cm_order m) ((a, fresh) :: cm_entries m) in
      if length (cm_entries m) =? max then
        match rev (cm_order m) with
        | [] => Panic
        | v :: _ =>
            match cm_get v (cm_entries m) with
            | None => Panic (* nil client *)
            | Some e => Ok (insert (mkCM (removelast (cm_order m)) (cm_del v (cm_entries m))), fresh, false, Some e)
            end
        end
      else Ok (insert m, fresh, false, None)
  end.

(** map.go:59-70 remove. *)
Definition cm_remove (m : climap) (a : bytes) : climap :=
  match cm_get a (cm_entries m) with
  | None => m
  | Some _ => mkCM (del_addr a (cm_order m)) (cm_del a (cm_entries m))
  end.

(** map.go:72-85 release, the part under the lock. *)
Definition cm_release (m : climap) : climap := mkCM [] [].

(** map.go:87-97 slice: [None] stands for a nil client. *)
Definition cm_slice (m : climap) : list (option nat) := map (fun a => cm_get a (cm_entries m)) (cm_order m).

(** The calls of map.go:31-85. *)
Inductive cm_op := CGet (a : bytes) | CRemove (a : bytes) | CRelease.
(** The pool after a history of calls, with the number of clients created.  map.go:31-85. *)
Definition cm_step (max : nat) (s : climap * nat) (o : cm_op) : res (climap * nat) :=
  let (m, k) := s in
  match o with
  | CGet a => let! (m', _, existed, _) := cm_fetch max m a k in Ok (m', if existed then k else S k)
  | CRemove a => Ok (cm_remove m a, k)
  | CRelease => Ok (cm_release m, k)
  end.
(** Several calls, in order, map.go:31-85. *)
Fixpoint cm_run (max : nat) (s : climap * nat) (os : list cm_op) : res (climap * nat) :=
  match os with
  | [] => Ok s
  | o :: os' => let! s' := cm_step max s o in cm_run max s' os'
  end.

(** ** The two pools of a node: node.go:96-97 (creation), 228 (accept), 394 (dial), 479-488 (Inbound, Outbound).  [get] is
    always given the node, and consults its maxInboundConnections (map.go:37). *)
Record limits := mkLimits { maxInboundConnections : nat; maxOutboundConnections : nat }.
(** What makes a node change its pools: node.go:228 and 394; client.go:213 and 254. *)
Inductive pool_op := Accept (a : bytes) | Dial (a : bytes) | InboundClosed (a : bytes) | OutboundClosed (a : bytes).
(** node.go:47-48. *)
Record pools := mkPools { p_in : climap; p_out : climap; p_made : nat }.
(** node.go:96-97. *)
Definition newPools : pools := mkPools newClientMap newClientMap 0.
(** node.go:228, 394; client.go:213, 254. *)
Definition pool_step (l : limits) (p : pools) (o : pool_op) : res pools :=
  match o with
  | Accept a => let! (m, k) := cm_step (maxInboundConnections l) (p_in p, p_made p) (CGet a) in Ok (mkPools m (p_out p) k)
  | Dial a => let! (m, k) := cm_step (maxInboundConnections l) (p_out p, p_made p) (CGet a) in Ok (mkPools (p_in p) m k)
  | InboundClosed a => Ok (mkPools (cm_remove (p_in p) a) (p_out p) (p_made p))
  | OutboundClosed a => Ok (mkPools (p_in p) (cm_remove (p_out p) a) (p_made p))
  end.
(** Several such events, in order (node.go:228, 394; client.go:213, 254). *)
Fixpoint pool_run (l : limits) (p : pools) (os : list pool_op) : res pools :=
  match os with [] => Ok p | o :: os' => let! p' := pool_step l p o in pool_run l p' os' end.
(** node.go:479-481 Inbound. *)
Definition Inbound (p : pools) : list (option nat) := cm_slice (p_in p).
(** node.go:486-488 Outbound. *)
Definition Outbound (p : pools) : list (option nat) := cm_slice (p_out p).
