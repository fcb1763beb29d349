(** * Model of kademlia/table.go.  Every method holds the table's lock for its whole body, so each is one atomic step. *)
From Verif Require Import Base M_ID M_Binary.
From Coq Require Import Strings.Byte.
Local Open Scope nat_scope.

(** protocol.go:14-15. *)
Definition BucketSize : nat := 16.
(** table.go:14: noise.SizePublicKey * 8 buckets. *)
Definition NumBuckets : nat := 256.

(** table.go:11-17.  A bucket is the list of its elements from front to back; size is a Go int. *)
Record table := mkTable { t_entries : list (list ID); t_self : ID; t_size : Z }.

(** t.entries[i], kademlia/table.go:53. *)
Definition bucket_at (t : table) (i : nat) : list ID := nth i (t_entries t) [].

(** Replaces an element of a list; no code of its own (kademlia/table.go:67-131). *)
Fixpoint set_nth {A} (i : nat) (x : A) (l : list A) : list A :=
  match l, i with
  | [], _ => []
  | _ :: l', O => x :: l'
  | y :: l', S i' => y :: set_nth i' x l'
  end.
(** Replaces a bucket and the size, kademlia/table.go:67-151. *)
Definition set_bucket (t : table) (i : nat) (b : list ID) (size : Z) : table :=
  mkTable (set_nth i b (t_entries t)) (t_self t) size.

(** table.go:222-229 getBucketIndex. *)
Definition getBucketIndex (t : table) (target : pubkey) : nat :=
  let l := PrefixLen (XOR target (id_key (t_self t))) in
  if l =? SizePublicKey * 8 then l - 1 else l.

(** e.Value.(noise.ID).ID == target (table.go:78,103,122). *)
Definition has_key (k : pubkey) (e : ID) : bool := bytes_eqb (id_key e) k.

(** Walk from the front to the first match: the element and the bucket without it (container/list Remove).  kademlia/table.go:77-82, 119-127. *)
Fixpoint take_first (p : ID -> bool) (b : list ID) : option (ID * list ID) :=
  match b with
  | [] => None
  | e :: b' => if p e then Some (e, b')
               else match take_first p b' with Some (x, r) => Some (x, e :: r) | None => None end
  end.

(** table.go:67-93 Update.  The recorded element is moved to the front unchanged (line 79), so an entry keeps the ID
    it was inserted with. *)
Definition Update (t : table) (target : ID) : table * (bool * option goerr) :=
  if bytes_eqb (id_key target) ZeroPublicKey then (t, (false, None)) else
  let i := getBucketIndex t (id_key target) in
  let bucket := bucket_at t i in
  match take_first (has_key (id_key target)) bucket with
  | Some (e, rest) => (set_bucket t i (e :: rest) (t_size t), (false, None))
  | None =>
      if length bucket <? BucketSize
      then (set_bucket t i (target :: bucket) (t_size t + 1), (true, None))
      else (t, (false, Some ErrBucketFull))
  end.

(** table.go:21-33 NewTable: empty buckets, then Update(self); panics if that fails. *)
Definition NewTable (self : ID) : res table :=
  let '(t, (_, e)) := Update (mkTable (repeat [] NumBuckets) self 0) self in
  match e with None => Ok t | Some _ => Panic end.

(** table.go:41-46 Last: Back() is nil on an empty bucket, and nil.Value panics. *)
Definition Last (t : table) (target : pubkey) : res ID :=
  match rev (bucket_at t (getBucketIndex t target)) with
  | [] => Panic
  | e :: _ => Ok e
  end.

(** table.go:49-61 Bucket. *)
Definition Bucket (t : table) (target : pubkey) : list ID := bucket_at t (getBucketIndex t target).

(** table.go:96-109 Recorded. *)
Definition Recorded (t : table) (target : pubkey) : bool :=
  existsb (has_key target) (bucket_at t (getBucketIndex t target)).

(** table.go:113-130 Delete. *)
Definition Delete (t : table) (target : pubkey) : table * (ID * bool) :=
  let i := getBucketIndex t target in
  match take_first (has_key target) (bucket_at t i) with
  | Some (e, rest) => (set_bucket t i rest (t_size t - 1), (e, true))
  | None => (t, (ZeroID, false))
  end.

(** table.go:134-151 DeleteByAddress: the first bucket, from the front, holding that address; [i] is the bucket
    index reached. *)
Fixpoint find_addr (i : nat) (addr : bytes) (bs : list (list ID)) : option (nat * ID * list ID) :=
  match bs with
  | [] => None
  | b :: bs' => match take_first (fun e => bytes_eqb (id_addr e) addr) b with
                | Some (e, rest) => Some (i, e, rest)
                | None => find_addr (S i) addr bs'
                end
  end.
(** kademlia/table.go:134-151 DeleteByAddress. *)
Definition DeleteByAddress (t : table) (addr : bytes) : table * (ID * bool) :=
  match find_addr 0 addr (t_entries t) with
  | Some (i, e, rest) => (set_bucket t i rest (t_size t - 1), (e, true))
  | None => (t, (ZeroID, false))
  end.

(** table.go:162-170: the closure [f] appends the entries of a bucket other than target. *)
Definition others (target : pubkey) (b : list ID) : list ID := filter (fun e => negb (has_key target e)) b.

(** table.go:179-187: the loop; [i] counts from 1, [fuel] bounds it by the number of buckets (beyond that the loop
    condition is false). *)
Fixpoint expand (fuel i idx : nat) (t : table) (target : pubkey) (k : Z) (closest : list ID) : list ID :=
  match fuel with
  | O => closest
  | S fuel' =>
      if ((Z.of_nat (length closest) <? k)%Z && ((i <=? idx) || (idx + i <? length (t_entries t))))%bool then
        let c1 := if i <=? idx then closest ++ others target (bucket_at t (idx - i)) else closest in
        let c2 := if idx + i <? length (t_entries t) then c1 ++ others target (bucket_at t (idx + i)) else c1 in
        expand fuel' (S i) idx t target k c2
      else closest
  end.

(** table.go:159-196 FindClosest; closest[:k] panics for a negative k. *)
Definition FindClosest (t : table) (target : pubkey) (k : Z) : res (list ID) :=
  let idx := getBucketIndex t target in
  let closest := expand (length (t_entries t)) 1 idx t target k (others target (bucket_at t idx)) in
  let sorted := SortByDistance target closest in
  if (k <? Z.of_nat (length sorted))%Z
  then if (k <? 0)%Z then Panic else Ok (firstn (Z.to_nat k) sorted)
  else Ok sorted.

(** table.go:154-156 Peers. *)
Definition Peers (t : table) : res (list ID) := FindClosest t (id_key (t_self t)) (Z.of_nat BucketSize).

(** table.go:199-212 Entries.  make([]noise.ID, 0, t.size) would panic for a negative size. *)
Definition Entries (t : table) : res (list ID) :=
  if (t_size t <? 0)%Z then Panic else Ok (concat (t_entries t)).

(** table.go:215-220 NumEntries. *)
Definition NumEntries (t : table) : Z := t_size t.

(** A history of mutating calls on a table.  kademlia/table.go:67, 113, 134. *)
Inductive table_op := OpUpdate (id : ID) | OpDelete (k : pubkey) | OpDeleteByAddress (a : bytes).
(** Keys are of Go's fixed-size array type.  keys.go:26. *)
Definition op_wf (o : table_op) : Prop :=
  match o with
  | OpUpdate id => length (id_key id) = SizePublicKey
  | OpDelete k => length k = SizePublicKey
  | OpDeleteByAddress _ => True
  end.
(** One call, kademlia/table.go:67-151. *)
Definition table_step (t : table) (o : table_op) : table :=
  match o with
  | OpUpdate id => fst (Update t id)
  | OpDelete k => fst (Delete t k)
  | OpDeleteByAddress a => fst (DeleteByAddress t a)
  end.
(** Several calls, in order, kademlia/table.go:67-151. *)
Definition table_run (t : table) (os : list table_op) : table := fold_left table_step os t.

(** [t] is the table of a node with identity [self] after the calls [ops].  kademlia/table.go:21-33 NewTable, 67-151. *)
Definition table_of (self : ID) (ops : list table_op) (t : table) : Prop :=
  length (id_key self) = SizePublicKey /\ Forall op_wf ops /\
  exists t0, NewTable self = Ok t0 /\ t = table_run t0 ops.
