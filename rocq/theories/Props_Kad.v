(** * Properties of the Kademlia metric and routing table (C12-C19). *)
From Verif Require Import Base Spec M_Addr M_ID M_Binary M_Table P_Binary P_Table.
From Coq Require Import Strings.Byte Sorting.Permutation.
Local Open Scope nat_scope.

(** Concrete keys and IDs for the examples: a first byte followed by zeros, and a last byte preceded by a first. *)
Definition ex_key (first last : N) : bytes := n2b first :: zeros 30 ++ [n2b last].
Definition ex_id (first last : N) : ID := NewID (ex_key first last) [] 9000.

(** ** C12: the XOR metric *)

(** Comparing XORs bytewise is comparing integer distances. *)
Theorem C12_order : forall a b t : bytes, length a = length t -> length b = length t ->
  bytes_compare (XOR a t) (XOR b t) = N.compare (dist a t) (dist b t).
Proof.
  intros a b t Ha Hb. rewrite bytes_compare_decode by (rewrite !XOR_length by assumption; congruence).
  rewrite !be_decode_XOR by assumption. reflexivity.
Qed.
Print Assumptions C12_order.

Example C12_order_nonvacuous :
  bytes_compare (XOR (ex_key 200 1) (ex_key 3 7)) (XOR (ex_key 4 9) (ex_key 3 7)) = Gt /\
  length (ex_key 200 1) = length (ex_key 3 7).
Proof. vm_compute. auto. Qed.

(** XOR(a,b), read as an integer, is a metric on keys of one length, with exactly one key at each distance. *)
Theorem C12_metric :
  (forall a b, length a = length b -> length (XOR a b) = length a /\
     be_decode (XOR a b) = N.lxor (be_decode a) (be_decode b)) /\
  (forall a b, length a = length b -> be_decode (XOR a b) = be_decode (XOR b a)) /\
  (forall a b, length a = length b -> (be_decode (XOR a b) = 0%N <-> a = b)) /\
  (forall a b c, length a = length b -> length b = length c ->
     (be_decode (XOR a c) <= be_decode (XOR a b) + be_decode (XOR b c))%N) /\
  (forall a d, (d < 256 ^ N.of_nat (length a))%N ->
     exists b, (length b = length a /\ be_decode (XOR a b) = d) /\
       forall b', length b' = length a /\ be_decode (XOR a b') = d -> b' = b).
Proof.
  repeat split.
  - apply XOR_length. assumption.
  - apply be_decode_XOR. assumption.
  - intros a b H. rewrite !be_decode_XOR by congruence. apply dist_sym.
  - rewrite be_decode_XOR by assumption. apply dist_zero. assumption.
  - rewrite be_decode_XOR by assumption. apply dist_zero. assumption.
  - intros a b c H1 H2. rewrite !be_decode_XOR by congruence. apply dist_triangle.
  - intros a d Hd. destruct (dist_unidirectional a d Hd) as (b & L & D & U). exists b. repeat split; auto.
    + rewrite be_decode_XOR by congruence. exact D.
    + intros b' [L' D']. apply U; auto. rewrite be_decode_XOR in D' by congruence. exact D'.
Qed.
Print Assumptions C12_metric.

Example C12_metric_nonvacuous : be_decode (XOR (ex_key 200 1) (ex_key 200 6)) = 7%N.
Proof. vm_compute. reflexivity. Qed.

(** PrefixLen of the XOR is the number of leading bits the keys share. *)
Theorem C12_prefix_len : forall a b : bytes, length a = length b ->
  PrefixLen (XOR a b) = lcp (bits a) (bits b).
Proof. exact PrefixLen_XOR. Qed.
Print Assumptions C12_prefix_len.

Example C12_prefix_len_nonvacuous :
  PrefixLen (XOR (ex_key 200 1) (ex_key 200 6)) = 253 /\ PrefixLen (XOR (ex_key 200 1) (ex_key 216 1)) = 3.
Proof. vm_compute. auto. Qed.

(** A longer shared prefix means strictly closer. *)
Theorem C12_prefix_closer : forall x y t : bytes, length x = length t -> length y = length t ->
  PrefixLen (XOR y t) < PrefixLen (XOR x t) -> bytes_compare (XOR x t) (XOR y t) = Lt.
Proof.
  intros x y t Hx Hy H. rewrite C12_order by assumption. rewrite !PrefixLen_XOR in H by assumption.
  apply N.compare_lt_iff. apply longer_prefix_closer; assumption.
Qed.
Print Assumptions C12_prefix_closer.

(** ** C13: PrefixDiff *)

(** As documented: the number of equal prefixed bits among the first [n]. *)
Definition C13_statement : Prop := forall (a b : bytes) (n : Z), length a = length b -> (0 <= n <= 8 * Z.of_nat (length a))%Z ->
  PrefixDiff a b n = lcp (firstn (Z.to_nat n) (bits a)) (firstn (Z.to_nat n) (bits b)).

Theorem C13_refuted : ~ C13_statement.
Proof. intros H. specialize (H [Byte.x00] [Byte.x00] 8%Z eq_refl ltac:(cbn; lia)). vm_compute in H. discriminate. Qed.
Print Assumptions C13_refuted.

(** It is wrong on every pair of keys whose first [n] > 0 bits agree... *)
Theorem C13_equal_prefix_gives_zero : forall a b n, length a = length b ->
  firstn (Z.to_nat n) (bits a) = firstn (Z.to_nat n) (bits b) -> PrefixDiff a b n = 0.
Proof.
  intros a b n H E. rewrite PrefixDiff_hamming by exact H. rewrite E.
  generalize (firstn (Z.to_nat n) (bits b)). intros l. induction l as [|x l IH]; [reflexivity|].
  cbn [hamming]. rewrite eqb_reflx. exact IH.
Qed.
Print Assumptions C13_equal_prefix_gives_zero.

(** ... because what it counts is the differing bits among the first [n] (none for [n] <= 0, all for large [n]). *)
Theorem C13_partial : forall (a b : bytes) (n : Z), length a = length b ->
  PrefixDiff a b n = hamming (firstn (Z.to_nat n) (bits a)) (firstn (Z.to_nat n) (bits b)).
Proof. exact PrefixDiff_hamming. Qed.
Print Assumptions C13_partial.

Example C13_nonvacuous : PrefixDiff (ex_key 255 1) (ex_key 0 0) 11 = 8 /\ PrefixDiff (ex_key 255 1) (ex_key 0 0) 3 = 3 /\
  PrefixDiff (ex_key 255 1) (ex_key 0 0) (-5) = 0 /\ PrefixDiff (ex_key 255 1) (ex_key 0 0) 1000 = 9.
Proof. vm_compute. auto. Qed.

(** ** C14: SortByDistance *)

Theorem C14_sort : forall (t : bytes) (l : list ID), (forall x, In x l -> length (id_key x) = length t) ->
  Permutation l (SortByDistance t l) /\ sorted_by (fun x => dist (id_key x) t) (SortByDistance t l).
Proof. intros t l H. split; [apply SortByDistance_perm | apply SortByDistance_sorted; exact H]. Qed.
Print Assumptions C14_sort.

(** Any other sorting algorithm gives the same list when public keys are pairwise distinct. *)
Theorem C14_any_sort : forall (t : bytes) (l l' : list ID), (forall x, In x l -> length (id_key x) = length t) ->
  NoDup (map id_key l) -> Permutation l l' ->
  (forall i j x y, i < j -> nth_error l' i = Some x -> nth_error l' j = Some y ->
     bytes_compare (XOR (id_key y) t) (XOR (id_key x) t) <> Lt) ->
  l' = SortByDistance t l.
Proof.
  intros t l l' HL ND P HS.
  assert (HL' : forall x, In x l' -> length (id_key x) = length t).
  { intros x Hx. apply HL. apply (Permutation_in _ (Permutation_sym P)). exact Hx. }
  symmetry. apply (sorted_unique (fun x => dist (id_key x) t) (dist_less t)).
  - apply (Permutation_trans (Permutation_sym (SortByDistance_perm t l))). exact P.
  - apply SortByDistance_sorted. exact HL.
  - clear P ND HL. induction l' as [|x l' IH]; [constructor|]. constructor.
    + intros y Hy. apply (In_nth_error l' y) in Hy as (j & Hj).
      specialize (HS 0 (S j) x y ltac:(lia) eq_refl Hj).
      assert (Iy : In y (x :: l')) by (right; eapply nth_error_In; eauto).
      rewrite C12_order in HS by (apply HL'; cbn; auto). rewrite N.compare_lt_iff in HS. lia.
    + apply IH.
      * intros i j u v Hij Hu Hv. apply (HS (S i) (S j)); auto. lia.
      * intros u Hu. apply HL'. right. exact Hu.
  - intros a b Ha Hb E. apply (Permutation_in _ (Permutation_sym (SortByDistance_perm t l))) in Ha, Hb.
    apply dist_inj in E; [|rewrite !HL by assumption; reflexivity].
    clear - ND Ha Hb E. induction l as [|x l IH]; [contradiction|]. cbn [map] in ND. inversion ND; subst.
    destruct Ha as [->|Ha], Hb as [->|Hb]; auto.
    + exfalso. apply H1. rewrite E. apply in_map. exact Hb.
    + exfalso. apply H1. rewrite <- E. apply in_map. exact Ha.
Qed.
Print Assumptions C14_any_sort.

Example C14_nonvacuous :
  map id_key (SortByDistance (ex_key 7 0) [ex_id 1 0; ex_id 6 5; ex_id 7 1; ex_id 255 0]) =
  [ex_key 7 1; ex_key 6 5; ex_key 1 0; ex_key 255 0].
Proof. vm_compute. reflexivity. Qed.

(** ** C15: structure of the routing table *)

Lemma table_of_inv self ops t : table_of self ops t -> table_inv t /\ t_self t = self.
Proof.
  intros (Hk & Hops & t0 & Hn & ->). destruct (NewTable_ok self Hk) as (t1 & E & I & Es & _).
  rewrite Hn in E. injection E as <-. destruct (run_inv ops t0 I Hops) as [I' E']. split; [exact I' | congruence].
Qed.

(** NewTable does not panic. *)
Theorem C15_new_table : forall self, length (id_key self) = 32 -> exists t, NewTable self = Ok t /\
  Entries t = Ok (if bytes_eqb (id_key self) ZeroPublicKey then [] else [self]).
Proof.
  intros self H. destruct (NewTable_ok self H) as (t & E & I & _ & C). exists t. split; [exact E|].
  unfold Entries. rewrite (inv_count t I). destruct (Z.ltb_spec (Z.of_nat (length (concat (t_entries t)))) 0); [lia|].
  rewrite C. reflexivity.
Qed.
Print Assumptions C15_new_table.

Theorem C15_structure : forall self ops t, table_of self ops t ->
  exists es, Entries t = Ok es /\
    NumEntries t = Z.of_nat (length es) /\
    NoDup (map id_key es) /\
    ~ In (zeros 32) (map id_key es) /\
    (forall k, key32 k -> (Recorded t k = true <-> In k (map id_key es))) /\
    (forall k, key32 k -> length (Bucket t k) <= 16) /\
    (forall k e, key32 k -> (In e (Bucket t k) <->
       In e es /\ bucket_of (id_key self) (id_key e) = bucket_of (id_key self) k)) /\
    (forall k, key32 k -> (Last t k = Panic <-> Bucket t k = [])) /\
    (forall k n, key32 k -> (0 <= n)%Z -> exists l, FindClosest t k n = Ok l) /\
    (exists l, Peers t = Ok l).
Proof.
  intros self ops t H. destruct (table_of_inv self ops t H) as [I Es]. exists (concat (t_entries t)).
  split; [|split; [|split; [|split; [|split; [|split; [|split; [|split; [|split]]]]]]]].
  - unfold Entries. rewrite (inv_count t I). destruct (Z.ltb_spec (Z.of_nat (length (concat (t_entries t)))) 0); [lia|reflexivity].
  - apply (inv_count t I).
  - apply entries_nodup. exact I.
  - intros C. apply in_map_iff in C as (e & Ek & He). apply entries_elem in He as [_ He]; [|exact I]. apply He. exact Ek.
  - intros k Hk. apply Recorded_iff; assumption.
  - intros k Hk. apply (inv_size t I).
  - intros k e Hk. rewrite bucket_at_idx by assumption. rewrite in_bucket_at by exact I. rewrite Es. reflexivity.
  - intros k Hk. unfold Last, Bucket. destruct (bucket_at t (getBucketIndex t k)) as [|x b] using rev_ind.
    + cbn. tauto.
    + rewrite rev_app_distr. cbn [rev app]. split; [discriminate|]. intros C. destruct b; discriminate.
  - intros k n Hk Hn. destruct (FindClosest_window t k n I Hk Hn) as (r & l & E & _). eauto.
  - destruct (Peers_spec t I) as (l & E & _). eauto.
Qed.
Print Assumptions C15_structure.

(** The table a history leads to, for examples. *)
Definition mk_table (self : ID) (ops : list table_op) : table :=
  match NewTable self with Ok t0 => table_run t0 ops | _ => mkTable [] self 0 end.
Lemma mk_table_of self ops : length (id_key self) = 32 -> Forall op_wf ops -> table_of self ops (mk_table self ops).
Proof.
  intros H HF. destruct (C15_new_table self H) as (t0 & E & _). split; [exact H|]. split; [exact HF|].
  exists t0. unfold mk_table. rewrite E. auto.
Qed.

Definition ex_ops : list table_op :=
  map (fun i => OpUpdate (ex_id 255 i)) [1;2;3;4;5;6;7;8;9;10;11;12;13;14;15;16;17]%N
  ++ [OpUpdate (ex_id 64 1); OpDelete (ex_key 255 3); OpUpdate (ex_id 255 18); OpUpdate ZeroID].

Example C15_nonvacuous : exists t, table_of (ex_id 1 1) ex_ops t /\ NumEntries t = 18%Z /\
  length (Bucket t (ex_key 255 9)) = 16 /\ Recorded t (ex_key 255 3) = false /\ Recorded t (ex_key 255 17) = false.
Proof.
  exists (mk_table (ex_id 1 1) ex_ops). split.
  - apply mk_table_of; [reflexivity | repeat constructor].
  - vm_compute. auto.
Qed.

(** ** C16: order within buckets *)

Lemma set_bucket_idx t i b z k : table_inv t -> key32 k -> i < NumBuckets ->
  Bucket (set_bucket t i b z) k = if bucket_of (id_key (t_self t)) k =? i then b else Bucket t k.
Proof.
  intros I Hk Hi. unfold Bucket. change (getBucketIndex (set_bucket t i b z) k) with (getBucketIndex t k).
  rewrite inv_bucket_index by assumption. rewrite bucket_at_set, (inv_len t I).
  destruct (Nat.ltb_spec i NumBuckets); [|lia]. rewrite andb_true_r. reflexivity.
Qed.

(** What Update returns and does to every bucket: a recorded entry moves to the front of its bucket as it was, a new one
    is put in front if its bucket has fewer than 16 entries, and otherwise ErrBucketFull is returned and the table is
    unchanged.  [Bucket t k] for [k] ranging over all keys describes the whole table. *)
Theorem C16_update : forall self ops t id t' ins err, table_of self ops t -> key32 (id_key id) ->
  id_key id <> zeros 32 ->
  Update t id = (t', (ins, err)) ->
  let b := Bucket t (id_key id) in
  (exists l1 e l2, b = l1 ++ e :: l2 /\ id_key e = id_key id /\ ins = false /\ err = None /\
     forall k, key32 k -> Bucket t' k =
       if bucket_of (id_key self) k =? bucket_of (id_key self) (id_key id) then e :: l1 ++ l2 else Bucket t k) \/
  (~ In (id_key id) (map id_key b) /\ length b < 16 /\ ins = true /\ err = None /\
     forall k, key32 k -> Bucket t' k =
       if bucket_of (id_key self) k =? bucket_of (id_key self) (id_key id) then id :: b else Bucket t k) \/
  (~ In (id_key id) (map id_key b) /\ length b = 16 /\ ins = false /\ err = Some ErrBucketFull /\ t' = t).
Proof.
  intros self ops t id t' ins err H Hk Hz U b. destruct (table_of_inv self ops t H) as [I Es].
  unfold b. rewrite bucket_at_idx by assumption.
  destruct (Update_cases t id I Hk) as [(E & U')|[(E & l1 & e & l2 & Eb & Ek & U')|[(E & NI & L & U')|(E & NI & L & U')]]];
    rewrite U in U'; injection U' as -> -> ->.
  - contradiction.
  - left. exists l1, e, l2. repeat split; auto. intros k Hkk.
    rewrite set_bucket_idx by (auto using bucket_of_lt). rewrite Es. reflexivity.
  - right. left. repeat split; auto. intros k Hkk.
    rewrite set_bucket_idx by (auto using bucket_of_lt). rewrite Es. reflexivity.
  - right. right. auto.
Qed.
Print Assumptions C16_update.

Theorem C16_update_zero : forall t id, id_key id = zeros 32 -> Update t id = (t, (false, None)).
Proof. intros t id H. unfold Update. rewrite H. reflexivity. Qed.
Print Assumptions C16_update_zero.

Theorem C16_delete : forall self ops t k t' e found, table_of self ops t -> key32 k ->
  Delete t k = (t', (e, found)) ->
  (found = true /\ id_key e = k /\ exists l1 l2, Bucket t k = l1 ++ e :: l2 /\
     forall k', key32 k' -> Bucket t' k' =
       if bucket_of (id_key self) k' =? bucket_of (id_key self) k then l1 ++ l2 else Bucket t k') \/
  (found = false /\ e = ZeroID /\ Recorded t k = false /\ t' = t).
Proof.
  intros self ops t k t' e found H Hk D. destruct (table_of_inv self ops t H) as [I Es].
  destruct (Delete_cases t k I Hk) as [(l1 & x & l2 & Eb & Ek & D')|(NI & D')]; rewrite D in D'; injection D' as -> -> ->.
  - left. repeat split; auto. exists l1, l2. rewrite bucket_at_idx by assumption. split; [exact Eb|].
    intros k' Hk'. rewrite set_bucket_idx by (auto using bucket_of_lt). rewrite Es. reflexivity.
  - right. repeat split; auto. destruct (Recorded t k) eqn:R; [|reflexivity]. exfalso. apply NI.
    apply Recorded_iff in R; auto. apply in_map_iff in R as (e & <- & He). apply in_map. apply in_entries; assumption.
Qed.
Print Assumptions C16_delete.

(** DeleteByAddress removes the first entry, in Entries order, that has the address. *)
Theorem C16_delete_by_address : forall self ops t a t' e found es, table_of self ops t -> Entries t = Ok es ->
  DeleteByAddress t a = (t', (e, found)) ->
  (found = true /\ id_addr e = a /\ exists l1 l2, es = l1 ++ e :: l2 /\ (forall x, In x l1 -> id_addr x <> a) /\
     Entries t' = Ok (l1 ++ l2)) \/
  (found = false /\ e = ZeroID /\ (forall x, In x es -> id_addr x <> a) /\ t' = t).
Proof.
  intros self ops t a t' e found es H HE D. destruct (table_of_inv self ops t H) as [I Es].
  assert (HE' : forall t2, table_inv t2 -> Entries t2 = Ok (concat (t_entries t2))).
  { intros t2 I2. unfold Entries. rewrite (inv_count t2 I2).
    destruct (Z.ltb_spec (Z.of_nat (length (concat (t_entries t2)))) 0); [lia|reflexivity]. }
  rewrite HE' in HE by exact I. assert (es = concat (t_entries t)) as -> by congruence.
  destruct (DeleteByAddress_inv t a I) as [I' _]. rewrite D in I'. cbn [fst] in I'.
  destruct (DeleteByAddress_cases t a I) as [(bs1 & l1 & x & l2 & bs2 & E & Ea & Hf & D')|(Hn & D')];
    rewrite D in D'; injection D' as -> -> ->.
  - left. repeat split; auto. exists (concat bs1 ++ l1), (l2 ++ concat bs2). rewrite E.
    split; [|split; [exact Hf|]].
    + rewrite concat_app. cbn [concat]. rewrite <- !app_assoc. reflexivity.
    + rewrite HE' by exact I'. f_equal. cbn [set_bucket t_entries]. rewrite E, set_nth_split, concat_app. cbn [concat].
      rewrite <- !app_assoc. reflexivity.
  - right. auto.
Qed.
Print Assumptions C16_delete_by_address.

Example C16_nonvacuous : exists t, table_of (ex_id 1 1) ex_ops t /\
  map id_key (firstn 3 (Bucket t (ex_key 255 0))) = [ex_key 255 18; ex_key 255 16; ex_key 255 15] /\
  snd (Update t (ex_id 255 17)) = (false, Some ErrBucketFull) /\
  map id_key (firstn 3 (Bucket (fst (Update t (ex_id 255 2))) (ex_key 255 0))) = [ex_key 255 2; ex_key 255 18; ex_key 255 16] /\
  snd (snd (DeleteByAddress t (id_addr (ex_id 255 4)))) = true.
Proof.
  exists (mk_table (ex_id 1 1) ex_ops). split.
  - apply mk_table_of; [reflexivity | repeat constructor].
  - vm_compute. auto.
Qed.

(** ** C17: a peer that reconnects under a new address *)

Definition C17_statement : Prop := forall self ops t id t' ins es, table_of self ops t -> key32 (id_key id) ->
  id_key id <> zeros 32 -> Update t id = (t', (ins, None)) -> Entries t' = Ok es ->
  exists e, In e es /\ id_key e = id_key id /\ id_addr e = id_addr id.

Theorem C17_refuted : ~ C17_statement.
Proof.
  intros H.
  set (p1 := NewID (ex_key 9 9) [] 1000). set (p2 := NewID (ex_key 9 9) [] 2000).
  assert (T : table_of (ex_id 1 1) [OpUpdate p1] (mk_table (ex_id 1 1) [OpUpdate p1])).
  { apply mk_table_of; [reflexivity | repeat constructor]. }
  destruct (H _ _ _ p2 _ _ [p1; ex_id 1 1] T eq_refl ltac:(discriminate) eq_refl ltac:(vm_compute; reflexivity)) as (e & He & Hk & Ha).
  destruct He as [<- | [<- | []]]; vm_compute in Ha, Hk; discriminate.
Qed.
Print Assumptions C17_refuted.

(** For every peer that is already recorded the table keeps the old entry; a new peer is recorded as given. *)
Theorem C17_partial : forall self ops t id t' ins es es', table_of self ops t -> key32 (id_key id) ->
  id_key id <> zeros 32 -> Entries t = Ok es -> Update t id = (t', (ins, None)) -> Entries t' = Ok es' ->
  if ins then In id es' else exists e, In e es /\ id_key e = id_key id /\ In e es' /\
    forall x, In x es' -> id_key x = id_key id -> x = e.
Proof.
  intros self ops t id t' ins es es' H Hk Hz HE U HE'. destruct (table_of_inv self ops t H) as [I Es].
  destruct (Update_inv t id I Hk) as [I' Es']. rewrite U in I', Es'. cbn [fst] in I', Es'.
  assert (HC : forall t2, table_inv t2 -> Entries t2 = Ok (concat (t_entries t2))).
  { intros t2 I2. unfold Entries. rewrite (inv_count t2 I2).
    destruct (Z.ltb_spec (Z.of_nat (length (concat (t_entries t2)))) 0); [lia|reflexivity]. }
  rewrite HC in HE by exact I. rewrite HC in HE' by exact I'.
  assert (es = concat (t_entries t)) as -> by congruence. assert (es' = concat (t_entries t')) as -> by congruence.
  destruct (C16_update self ops t id t' ins None H Hk Hz U) as [(l1 & e & l2 & Eb & Ek & -> & _ & Hb)|[(NI & L & -> & _ & Hb)|(_ & _ & _ & C & _)]].
  - specialize (Hb _ Hk). rewrite Nat.eqb_refl in Hb. rewrite bucket_at_idx in Hb, Eb by assumption.
    rewrite Es' in Hb.
    assert (Ie : In e (concat (t_entries t'))).
    { apply in_entries; auto. rewrite Es', Ek, Hb. left. reflexivity. }
    exists e. repeat split; auto.
    + apply in_entries; auto. rewrite Ek, Eb. apply in_or_app. right. left. reflexivity.
    + intros x Hx Kx. pose proof (entries_nodup t' I') as ND. clear - Hx Kx Ie Ek ND. rewrite <- Ek in Kx. clear Ek.
      induction (concat (t_entries t')) as [|y l IH]; [contradiction|]. cbn [map] in ND. inversion ND; subst.
      destruct Hx as [->|Hx], Ie as [->|Ie]; auto.
      * exfalso. apply H1. rewrite Kx. apply in_map. exact Ie.
      * exfalso. apply H1. rewrite <- Kx. apply in_map. exact Hx.
  - specialize (Hb _ Hk). rewrite Nat.eqb_refl in Hb. rewrite bucket_at_idx in Hb by assumption. rewrite Es' in Hb.
    apply in_entries; auto. rewrite Es', Hb. left. reflexivity.
  - discriminate.
Qed.
Print Assumptions C17_partial.

(** ** C18: Peers *)

Definition other_than (k : bytes) (e : ID) : bool := negb (bytes_eqb (id_key e) k).

Theorem C18_peers : forall self ops t es, table_of self ops t -> Entries t = Ok es ->
  exists l, Peers t = Ok l /\
    k_smallest (fun e => dist (id_key e) (id_key self)) 16 (filter (other_than (id_key self)) es) l.
Proof.
  intros self ops t es H HE. destruct (table_of_inv self ops t H) as [I Es].
  unfold Entries in HE. destruct (t_size t <? 0)%Z; [discriminate|]. assert (es = concat (t_entries t)) as -> by congruence.
  destruct (Peers_spec t I) as (l & E & K). exists l. rewrite Es in K. split; [exact E | exact K].
Qed.
Print Assumptions C18_peers.

Example C18_nonvacuous : exists t l, table_of (ex_id 1 1) ex_ops t /\ Peers t = Ok l /\ length l = 16 /\
  map id_key (firstn 2 l) = [ex_key 64 1; ex_key 255 1] /\ NumEntries t = 18%Z.
Proof.
  exists (mk_table (ex_id 1 1) ex_ops). eexists. split.
  - apply mk_table_of; [reflexivity | repeat constructor].
  - split; [vm_compute; reflexivity|]. vm_compute. auto.
Qed.

(** ** C19: FindClosest for any target *)

Definition C19_statement : Prop := forall self ops t es target k, table_of self ops t -> Entries t = Ok es ->
  key32 target -> (0 <= k)%Z ->
  exists l, FindClosest t target k = Ok l /\
    k_smallest (fun e => dist (id_key e) target) (Z.to_nat k) (filter (other_than target) es) l.

(** Sixteen peers one bucket below the target's crowd out the much closer own entry. *)
Definition far_ops : list table_op :=
  map (fun i => OpUpdate (ex_id 64 i)) [1;2;3;4;5;6;7;8;9;10;11;12;13;14;15;16]%N.

Theorem C19_refuted : ~ C19_statement.
Proof.
  intros H. set (t := mk_table (ex_id 1 1) far_ops).
  assert (T : table_of (ex_id 1 1) far_ops t) by (apply mk_table_of; [reflexivity | repeat constructor]).
  set (es := match Entries t with Ok es => es | _ => [] end).
  assert (HE : Entries t = Ok es) by (vm_compute; reflexivity).
  set (l0 := match FindClosest t (ex_key 32 0) 16 with Ok l => l | _ => [] end).
  assert (HF : FindClosest t (ex_key 32 0) 16 = Ok l0) by (vm_compute; reflexivity).
  destruct (H _ _ _ es (ex_key 32 0) 16%Z T HE eq_refl ltac:(lia)) as (l & F & L & ND & Inc & HS & Far).
  rewrite HF in F. assert (l = l0) as -> by congruence.
  assert (B1 : existsb (fun e => bytes_eqb (id_key e) (ex_key 1 1)) l0 = false) by (vm_compute; reflexivity).
  specialize (Far (hd ZeroID l0) (ex_id 1 1)).
  apply Far.
  - vm_compute. left. reflexivity.
  - refine (proj2 (filter_In (other_than (ex_key 32 0)) (ex_id 1 1) es) (conj _ eq_refl)).
    vm_compute. repeat ((left; reflexivity) || right).
  - intros C. assert (existsb (fun e => bytes_eqb (id_key e) (ex_key 1 1)) l0 = true); [|congruence].
    apply existsb_exists. exists (ex_id 1 1). split; [exact C | reflexivity].
  - vm_compute. reflexivity.
Qed.
Print Assumptions C19_refuted.

(** What it does return: the [k] closest among the entries in buckets at most [r] away from target's bucket, for the
    smallest [r] that gives [k] entries (everything if there are fewer). *)
Definition near (self target : bytes) (r : nat) (e : ID) : bool :=
  other_than target e &&
  (bucket_of self target <=? bucket_of self (id_key e) + r) && (bucket_of self (id_key e) <=? bucket_of self target + r).

Lemma filter_near self target r l : filter (near self target r) l =
  filter (fun e => within (bucket_of self target) r (bucket_of self (id_key e))) (others target l).
Proof.
  induction l as [|e l IH]; [reflexivity|]. cbn [filter others]. unfold near at 1, other_than. fold (others target l).
  unfold has_key. destruct (bytes_eqb (id_key e) target); cbn [negb andb]; [exact IH|].
  cbn [filter]. unfold within at 1. rewrite IH. reflexivity.
Qed.

Theorem C19_partial : forall self ops t es target k, table_of self ops t -> Entries t = Ok es ->
  key32 target -> (0 <= k)%Z ->
  exists r l, FindClosest t target k = Ok l /\
    k_smallest (fun e => dist (id_key e) target) (Z.to_nat k) (filter (near (id_key self) target r) es) l /\
    length l = Nat.min (Z.to_nat k) (length (filter (other_than target) es)) /\
    (r = 0 \/ length (filter (near (id_key self) target (r - 1)) es) < Z.to_nat k).
Proof.
  intros self ops t es target k H HE Hk K0. destruct (table_of_inv self ops t H) as [I Es].
  unfold Entries in HE. destruct (t_size t <? 0)%Z; [discriminate|]. assert (es = concat (t_entries t)) as -> by congruence.
  destruct (FindClosest_window t target k I Hk K0) as (r & l & E & K & Big & Small).
  unfold wpool, pool in *. rewrite Es in *. rewrite <- !filter_near in *. fold (pool t target) in *.
  exists r, l. split; [exact E|]. split; [exact K|]. split.
  - destruct K as (L & _). rewrite L.
    change (filter (other_than target) (concat (t_entries t))) with (pool t target).
    destruct Big as [Big|Big]; [|rewrite Big; reflexivity].
    assert (length (filter (near (id_key self) target r) (concat (t_entries t))) <= length (pool t target)).
    { rewrite filter_near. unfold pool. clear. generalize (others target (concat (t_entries t))). intros l.
      induction l as [|e l IH]; cbn; [lia|]. destruct (within _ _ _); cbn; lia. }
    lia.
  - destruct Small as [->|Small]; [left; reflexivity | right; lia].
Qed.
Print Assumptions C19_partial.

(** It is right when at most [k] entries are eligible, or target's own bucket holds [k] of them. *)
Theorem C19_right_when : forall self ops t es target k, table_of self ops t -> Entries t = Ok es ->
  key32 target -> (0 <= k)%Z ->
  length (filter (other_than target) es) <= Z.to_nat k \/ Z.to_nat k <= length (filter (other_than target) (Bucket t target)) ->
  exists l, FindClosest t target k = Ok l /\
    k_smallest (fun e => dist (id_key e) target) (Z.to_nat k) (filter (other_than target) es) l.
Proof.
  intros self ops t es target k H HE Hk K0 C. destruct (table_of_inv self ops t H) as [I Es].
  unfold Entries in HE. destruct (t_size t <? 0)%Z; [discriminate|]. assert (es = concat (t_entries t)) as -> by congruence.
  apply (FindClosest_right t target k I Hk K0).
  unfold pool. change (other_than target) with (fun e => negb (has_key target e)) in C.
  unfold others. destruct C as [C|C]; [left | right]; lia.
Qed.
Print Assumptions C19_right_when.

Example C19_right_when_nonvacuous :
  table_of (ex_id 1 1) far_ops (mk_table (ex_id 1 1) far_ops) /\
  length (filter (other_than (ex_key 65 0)) (Bucket (mk_table (ex_id 1 1) far_ops) (ex_key 65 0))) = 16.
Proof. split; [apply mk_table_of; [reflexivity | repeat constructor] | vm_compute; reflexivity]. Qed.

(** A negative [k] panics (slice bounds out of range). *)
Theorem C19_negative_panics : forall t target k, (k < 0)%Z -> FindClosest t target k = Panic.
Proof.
  intros t target k H. unfold FindClosest.
  match goal with |- (if (k <? Z.of_nat ?n)%Z then _ else _) = _ => destruct (Z.ltb_spec k (Z.of_nat n)); [|lia] end.
  destruct (Z.ltb_spec k 0); [reflexivity | lia].
Qed.
Print Assumptions C19_negative_panics.
