(** * Proofs about M_Table. *)
From Verif Require Import Base Spec M_ID M_Binary M_Table P_Binary.
From Coq Require Import Strings.Byte Sorting.Permutation.
Local Open Scope nat_scope.

(** ** Small list facts *)

Lemma NoDup_app_intro {A} (l1 l2 : list A) : NoDup l1 -> NoDup l2 -> (forall x, In x l1 -> In x l2 -> False) -> NoDup (l1 ++ l2).
Proof.
  intros H1 H2 D. induction H1 as [|x l1 Hx H1 IH]; cbn; [exact H2|]. constructor.
  - intros H. apply in_app_or in H as [H|H]; [contradiction | apply (D x); [left; reflexivity | exact H]].
  - apply IH. intros y Hy. apply D. right. exact Hy.
Qed.

Lemma NoDup_app_remove_r {A} (l1 l2 : list A) : NoDup (l1 ++ l2) -> NoDup l1.
Proof.
  induction l1 as [|x l1 IH]; cbn; intros H; [constructor|]. inversion H; subst. constructor; auto.
  intros C. apply H2. apply in_or_app. auto.
Qed.

Lemma filter_all {A} p (l : list A) : (forall x, In x l -> p x = true) -> filter p l = l.
Proof.
  induction l as [|x l IH]; cbn; intros H; [reflexivity|]. rewrite (H x) by auto. f_equal. apply IH. auto.
Qed.

Lemma nth_set_nth {A} (l : list A) i x j d :
  nth j (set_nth i x l) d = if (j =? i) && (i <? length l) then x else nth j l d.
Proof.
  revert i j. induction l as [|y l IH]; intros i j.
  - cbn [set_nth length]. destruct (Nat.ltb_spec i 0); [lia|]. rewrite andb_false_r. destruct i; reflexivity.
  - destruct i as [|i], j as [|j]; cbn [set_nth nth length]; try reflexivity.
    rewrite IH. change (S j =? S i) with (j =? i). change (S i <? S (length l)) with (i <? length l). reflexivity.
Qed.

Lemma set_nth_length {A} (l : list A) : forall i x, length (set_nth i x l) = length l.
Proof. induction l as [|y l IH]; intros [|i] x; cbn; auto. Qed.

Lemma set_nth_split {A} (l1 : list A) x y l2 : set_nth (length l1) y (l1 ++ x :: l2) = l1 ++ y :: l2.
Proof. induction l1 as [|a l1 IH]; cbn; [reflexivity|]. rewrite IH. reflexivity. Qed.

Lemma nth_in_split {A} (l : list A) i d : i < length l -> exists l1 l2, l = l1 ++ nth i l d :: l2 /\ length l1 = i.
Proof. apply nth_split. Qed.

Lemma take_first_some p b e r : take_first p b = Some (e, r) ->
  exists l1 l2, b = l1 ++ e :: l2 /\ r = l1 ++ l2 /\ p e = true /\ forall x, In x l1 -> p x = false.
Proof.
  revert e r. induction b as [|x b IH]; intros e r H; cbn in H; [discriminate|].
  destruct (p x) eqn:E.
  - injection H as <- <-. exists [], b. repeat split; auto. intros ? [].
  - destruct (take_first p b) as [[e' r']|]; [|discriminate]. injection H as <- <-.
    destruct (IH e' r' eq_refl) as (l1 & l2 & -> & -> & Hp & H1).
    exists (x :: l1), l2. repeat split; auto. intros y [<-|Hy]; auto.
Qed.

Lemma take_first_none p b : take_first p b = None <-> forall x, In x b -> p x = false.
Proof.
  induction b as [|x b IH]; cbn; [split; [intros _ ? [] | auto]|].
  destruct (p x) eqn:E; [split; [discriminate|]; intros H; specialize (H x (or_introl eq_refl)); congruence|].
  destruct (take_first p b) as [[e r]|].
  - split; [discriminate|]. intros H. assert (Some (e, r) = None) by (apply IH; auto). discriminate.
  - split; auto. intros _ y [<-|Hy]; auto. apply IH; auto.
Qed.

Lemma has_key_eq k e : has_key k e = true <-> id_key e = k.
Proof. apply bytes_eqb_eq. Qed.

Lemma has_key_neq k e : has_key k e = false <-> id_key e <> k.
Proof. apply bytes_eqb_neq. Qed.

Lemma find_addr_some i a bs j e r : find_addr i a bs = Some (j, e, r) ->
  exists bs1 b bs2, bs = bs1 ++ b :: bs2 /\ j = i + length bs1 /\
    take_first (fun e => bytes_eqb (id_addr e) a) b = Some (e, r) /\
    forall b' x, In b' bs1 -> In x b' -> id_addr x <> a.
Proof.
  revert i. induction bs as [|b bs IH]; intros i H; cbn in H; [discriminate|].
  destruct (take_first (fun e => bytes_eqb (id_addr e) a) b) as [[e' r']|] eqn:E.
  - injection H as <- <- <-. exists [], b, bs. split; [reflexivity|]. split; [cbn; lia|]. split; [exact E | intros ? ? []].
  - apply IH in H as (bs1 & b' & bs2 & -> & -> & H1 & H2).
    exists (b :: bs1), b', bs2. split; [reflexivity|]. split; [cbn; lia|]. split; [exact H1|].
    intros b'' x [<-|Hb] Hx; [|eauto].
    rewrite take_first_none in E. apply bytes_eqb_neq. auto.
Qed.

Lemma find_addr_none i a bs : find_addr i a bs = None -> forall b x, In b bs -> In x b -> id_addr x <> a.
Proof.
  revert i. induction bs as [|b bs IH]; intros i H b' x Hb Hx; cbn in H; [contradiction|].
  destruct (take_first (fun e => bytes_eqb (id_addr e) a) b) as [[e' r']|] eqn:E; [discriminate|].
  destruct Hb as [<-|Hb]; [|eauto].
  rewrite take_first_none in E. apply bytes_eqb_neq. auto.
Qed.

(** ** The invariant *)

Record table_inv (t : table) : Prop := {
  inv_len : length (t_entries t) = NumBuckets;
  inv_self : key32 (id_key (t_self t));
  inv_elem : forall i e, In e (bucket_at t i) ->
      key32 (id_key e) /\ id_key e <> ZeroPublicKey /\ bucket_of (id_key (t_self t)) (id_key e) = i;
  inv_nodup : forall i, NoDup (map id_key (bucket_at t i));
  inv_size : forall i, length (bucket_at t i) <= BucketSize;
  inv_count : t_size t = Z.of_nat (length (concat (t_entries t)))
}.

Lemma bucket_of_lt s k : bucket_of s k < NumBuckets.
Proof. unfold bucket_of, NumBuckets. lia. Qed.

Lemma getBucketIndex_eq t k : key32 (id_key (t_self t)) -> key32 k ->
  getBucketIndex t k = bucket_of (id_key (t_self t)) k.
Proof.
  intros Hs Hk. unfold getBucketIndex, bucket_of, key32 in *.
  rewrite PrefixLen_XOR by congruence.
  pose proof (common_prefix_le k (id_key (t_self t))) as L. rewrite Hk in L.
  specialize (L ltac:(congruence)). unfold SizePublicKey in *.
  destruct (Nat.eqb_spec (common_prefix k (id_key (t_self t))) (32 * 8)); lia.
Qed.

Lemma bucket_at_set t i b z j : bucket_at (set_bucket t i b z) j =
  if (j =? i) && (i <? length (t_entries t)) then b else bucket_at t j.
Proof. unfold bucket_at, set_bucket. cbn. apply nth_set_nth. Qed.

Lemma concat_length_set (l : list (list ID)) i b : i < length l ->
  length (concat (set_nth i b l)) + length (nth i l []) = length (concat l) + length b.
Proof.
  revert i. induction l as [|x l IH]; intros i H; cbn [length] in H; [lia|].
  destruct i as [|i]; cbn [set_nth concat nth]; rewrite !app_length; [lia|].
  specialize (IH i ltac:(lia)). lia.
Qed.

(** Replacing one bucket keeps the invariant. *)
Lemma inv_set t i b z : table_inv t -> i < NumBuckets ->
  (forall e, In e b -> key32 (id_key e) /\ id_key e <> ZeroPublicKey /\ bucket_of (id_key (t_self t)) (id_key e) = i) ->
  NoDup (map id_key b) -> length b <= BucketSize ->
  z = (t_size t + Z.of_nat (length b) - Z.of_nat (length (bucket_at t i)))%Z ->
  table_inv (set_bucket t i b z).
Proof.
  intros I Hi He Hn Hl Hz. destruct I. split.
  - unfold set_bucket. cbn. rewrite set_nth_length. assumption.
  - assumption.
  - intros j e. rewrite bucket_at_set. cbn [t_self set_bucket].
    destruct (Nat.eqb_spec j i); cbn [andb]; [|apply inv_elem0].
    destruct (i <? length (t_entries t)); [subst j; apply He | apply inv_elem0].
  - intros j. rewrite bucket_at_set. destruct ((j =? i) && (i <? length (t_entries t))); auto.
  - intros j. rewrite bucket_at_set. destruct ((j =? i) && (i <? length (t_entries t))); auto.
  - cbn [t_size t_entries set_bucket].
    pose proof (concat_length_set (t_entries t) i b ltac:(lia)) as L. unfold bucket_at in Hz. lia.
Qed.

Lemma inv_empty self : key32 (id_key self) -> table_inv (mkTable (repeat [] NumBuckets) self 0).
Proof.
  intros H.
  assert (N0 : forall i, bucket_at (mkTable (repeat [] NumBuckets) self 0) i = []).
  { intros i. unfold bucket_at. cbn [t_entries]. generalize NumBuckets. intros n. revert i.
    induction n as [|n IH]; intros [|i]; cbn; auto. }
  split; cbn [t_self t_entries t_size]; auto.
  - intros i e. rewrite N0. intros [].
  - intros i. rewrite N0. constructor.
  - intros i. rewrite N0. cbn. lia.
Qed.

Lemma inv_bucket_index t k : table_inv t -> key32 k -> getBucketIndex t k = bucket_of (id_key (t_self t)) k.
Proof. intros I. apply getBucketIndex_eq. apply I. Qed.

(** What Update does, on buckets. *)
Lemma Update_cases t id : table_inv t -> key32 (id_key id) ->
  let k := id_key id in let i := bucket_of (id_key (t_self t)) k in let b := bucket_at t i in
  (k = ZeroPublicKey /\ Update t id = (t, (false, None))) \/
  (k <> ZeroPublicKey /\ exists l1 e l2, b = l1 ++ e :: l2 /\ id_key e = k /\
     Update t id = (set_bucket t i (e :: l1 ++ l2) (t_size t), (false, None))) \/
  (k <> ZeroPublicKey /\ ~ In k (map id_key b) /\ length b < BucketSize /\
     Update t id = (set_bucket t i (id :: b) (t_size t + 1), (true, None))) \/
  (k <> ZeroPublicKey /\ ~ In k (map id_key b) /\ length b = BucketSize /\
     Update t id = (t, (false, Some ErrBucketFull))).
Proof.
  intros I Hk k i b. unfold Update. destruct (bytes_eqb_spec (id_key id) ZeroPublicKey) as [E|E].
  - left. auto.
  - right. rewrite inv_bucket_index by assumption. fold k i b.
    destruct (take_first (has_key k) b) as [[e r]|] eqn:T.
    + left. apply take_first_some in T as (l1 & l2 & Eb & -> & Hp & _).
      split; [exact E|]. exists l1, e, l2. apply has_key_eq in Hp. auto.
    + right. rewrite take_first_none in T.
      assert (NI : ~ In k (map id_key b)).
      { intros H. apply in_map_iff in H as (x & Hx & Hin). apply T in Hin. apply has_key_neq in Hin. auto. }
      pose proof (inv_size t I i) as L. fold b in L.
      destruct (Nat.ltb_spec (length b) BucketSize); [left | right]; repeat split; auto. lia.
Qed.

Lemma bucket_at_idx t k : table_inv t -> key32 k -> Bucket t k = bucket_at t (bucket_of (id_key (t_self t)) k).
Proof. intros I H. unfold Bucket. rewrite inv_bucket_index by assumption. reflexivity. Qed.

Lemma nodup_move {A} (x : A) l1 l2 : NoDup (l1 ++ x :: l2) -> NoDup (x :: l1 ++ l2).
Proof. intros H. apply NoDup_remove in H as [H1 H2]. constructor; assumption. Qed.

Lemma Update_inv t id : table_inv t -> key32 (id_key id) -> table_inv (fst (Update t id)) /\ t_self (fst (Update t id)) = t_self t.
Proof.
  intros I Hk. destruct (Update_cases t id I Hk) as [(E & ->)|[(E & l1 & e & l2 & Eb & Ek & ->)|[(E & NI & L & ->)|(E & NI & L & ->)]]];
    cbn [fst]; (split; [|reflexivity]); try exact I.
  - apply inv_set; auto.
    + apply bucket_of_lt.
    + intros x Hx. apply (inv_elem t I). rewrite Eb. apply in_or_app.
      destruct Hx as [<-|Hx]; [right; left; auto|]. apply in_app_or in Hx as [Hx|Hx]; [left|right;right]; auto.
    + pose proof (inv_nodup t I (bucket_of (id_key (t_self t)) (id_key id))) as N. rewrite Eb, map_app in N.
      cbn [map] in *. rewrite map_app. apply nodup_move. exact N.
    + pose proof (inv_size t I (bucket_of (id_key (t_self t)) (id_key id))) as N. rewrite Eb, app_length in N.
      cbn [length] in *. rewrite app_length. lia.
    + rewrite Eb, !app_length. cbn [length]. rewrite app_length. lia.
  - apply inv_set; auto.
    + apply bucket_of_lt.
    + intros x [<-|Hx]; [auto | apply (inv_elem t I); exact Hx].
    + cbn [map]. constructor; [exact NI | apply (inv_nodup t I)].
    + cbn [length]. lia.
Qed.

Lemma remove_inv t i e l1 l2 : table_inv t -> i < NumBuckets -> bucket_at t i = l1 ++ e :: l2 ->
  table_inv (set_bucket t i (l1 ++ l2) (t_size t - 1)).
Proof.
  intros I Hi Eb. apply inv_set; auto.
  - intros x Hx. apply (inv_elem t I). rewrite Eb. apply in_or_app.
    apply in_app_or in Hx as [Hx|Hx]; [left|right;right]; auto.
  - pose proof (inv_nodup t I i) as N. rewrite Eb, map_app in N. cbn [map] in N.
    apply NoDup_remove_1 in N. rewrite map_app. exact N.
  - pose proof (inv_size t I i) as N. rewrite Eb, app_length in N. cbn [length] in N. rewrite app_length. lia.
  - rewrite Eb, !app_length. cbn [length]. lia.
Qed.

Lemma Delete_cases t k : table_inv t -> key32 k ->
  let i := bucket_of (id_key (t_self t)) k in let b := bucket_at t i in
  (exists l1 e l2, b = l1 ++ e :: l2 /\ id_key e = k /\
     Delete t k = (set_bucket t i (l1 ++ l2) (t_size t - 1), (e, true))) \/
  (~ In k (map id_key b) /\ Delete t k = (t, (ZeroID, false))).
Proof.
  intros I Hk i b. unfold Delete. rewrite inv_bucket_index by assumption. fold i b.
  destruct (take_first (has_key k) b) as [[e r]|] eqn:T.
  - left. apply take_first_some in T as (l1 & l2 & Eb & -> & Hp & _). exists l1, e, l2.
    apply has_key_eq in Hp. auto.
  - right. split; auto. rewrite take_first_none in T. intros H. apply in_map_iff in H as (x & Hx & Hin).
    apply T in Hin. apply has_key_neq in Hin. auto.
Qed.

Lemma Delete_inv t k : table_inv t -> key32 k -> table_inv (fst (Delete t k)) /\ t_self (fst (Delete t k)) = t_self t.
Proof.
  intros I Hk. destruct (Delete_cases t k I Hk) as [(l1 & e & l2 & Eb & Ek & ->)|(NI & ->)]; cbn [fst]; (split; [|reflexivity]).
  - eapply remove_inv; eauto. apply bucket_of_lt.
  - exact I.
Qed.

Lemma DeleteByAddress_cases t a : table_inv t ->
  (exists bs1 l1 e l2 bs2, t_entries t = bs1 ++ (l1 ++ e :: l2) :: bs2 /\ id_addr e = a /\
     (forall x, In x (concat bs1 ++ l1) -> id_addr x <> a) /\
     DeleteByAddress t a = (set_bucket t (length bs1) (l1 ++ l2) (t_size t - 1), (e, true))) \/
  ((forall x, In x (concat (t_entries t)) -> id_addr x <> a) /\ DeleteByAddress t a = (t, (ZeroID, false))).
Proof.
  intros I. unfold DeleteByAddress. destruct (find_addr 0 a (t_entries t)) as [[[j e] r]|] eqn:F.
  - left. apply find_addr_some in F as (bs1 & b & bs2 & E & -> & T & H).
    apply take_first_some in T as (l1 & l2 & -> & -> & Hp & H1).
    exists bs1, l1, e, l2, bs2. repeat split; auto.
    + apply bytes_eqb_eq in Hp. exact Hp.
    + intros x Hx. apply in_app_or in Hx as [Hx|Hx].
      * apply in_concat in Hx as (b & Hb & Hx). eauto.
      * apply bytes_eqb_neq. apply H1. exact Hx.
  - right. split; auto. intros x Hx. apply in_concat in Hx as (b & Hb & Hx). eapply find_addr_none; eauto.
Qed.

Lemma bucket_at_mid t bs1 b bs2 : t_entries t = bs1 ++ b :: bs2 -> bucket_at t (length bs1) = b.
Proof. intros E. unfold bucket_at. rewrite E, app_nth2, Nat.sub_diag by lia. reflexivity. Qed.

Lemma DeleteByAddress_inv t a : table_inv t -> table_inv (fst (DeleteByAddress t a)) /\ t_self (fst (DeleteByAddress t a)) = t_self t.
Proof.
  intros I. destruct (DeleteByAddress_cases t a I) as [(bs1 & l1 & e & l2 & bs2 & E & Ea & H & ->)|(H & ->)]; cbn [fst]; (split; [|reflexivity]).
  - apply (remove_inv t (length bs1) e); auto.
    + pose proof (inv_len t I) as L. rewrite E, app_length in L. cbn [length] in L. lia.
    + eapply bucket_at_mid. exact E.
  - exact I.
Qed.

Lemma step_inv t o : table_inv t -> op_wf o -> table_inv (table_step t o) /\ t_self (table_step t o) = t_self t.
Proof.
  intros I H. destruct o; cbn [table_step op_wf] in *.
  - apply Update_inv; assumption.
  - apply Delete_inv; assumption.
  - apply DeleteByAddress_inv; assumption.
Qed.

Lemma run_inv os : forall t, table_inv t -> Forall op_wf os -> table_inv (table_run t os) /\ t_self (table_run t os) = t_self t.
Proof.
  induction os as [|o os IH]; intros t I H; cbn [table_run fold_left]; [auto|].
  inversion H; subst. destruct (step_inv t o I H2) as [I' E]. unfold table_run in IH.
  destruct (IH _ I' H3) as [I2 E2]. split; [exact I2 | congruence].
Qed.

Lemma NewTable_ok self : key32 (id_key self) ->
  exists t, NewTable self = Ok t /\ table_inv t /\ t_self t = self /\
    concat (t_entries t) = (if bytes_eqb (id_key self) ZeroPublicKey then [] else [self]).
Proof.
  intros H. pose proof (inv_empty self H) as I0. unfold NewTable.
  set (t0 := mkTable (repeat [] NumBuckets) self 0) in *.
  assert (N0 : forall i, bucket_at t0 i = []).
  { intros i. unfold bucket_at, t0. cbn [t_entries]. generalize NumBuckets. intros n. revert i.
    induction n as [|n IH]; intros [|i]; cbn; auto. }
  assert (C0 : forall n b, concat (repeat [] n ++ b :: repeat [] (255 - n)) = (b : list ID)).
  { assert (R : forall n, concat (repeat (@nil ID) n) = []) by (induction n; auto).
    intros n b. rewrite concat_app, R. cbn [app concat]. rewrite R. apply app_nil_r. }
  destruct (Update_inv t0 self I0 H) as [I1 E1].
  destruct (Update_cases t0 self I0 H) as [(E & U)|[(E & l1 & e & l2 & Eb & Ek & U)|[(E & NI & L & U)|(E & NI & L & U)]]];
    rewrite U in I1, E1 |- *; cbn [fst] in I1, E1.
  - exists t0. split; [reflexivity|]. split; [exact I0|]. split; [reflexivity|].
    rewrite E, bytes_eqb_refl. reflexivity.
  - rewrite N0 in Eb. destruct l1; discriminate.
  - eexists. split; [reflexivity|]. split; [exact I1|]. split; [exact E1|].
    apply bytes_eqb_neq in E. rewrite E. cbn [set_bucket t_entries].
    rewrite N0. unfold t0. cbn [t_entries t_self].
    set (i := bucket_of (id_key self) (id_key self)).
    assert (Hi : i < 256) by apply bucket_of_lt.
    replace (repeat (@nil ID) NumBuckets) with (repeat (@nil ID) i ++ [] :: repeat [] (255 - i)).
    + assert (R : length (repeat (@nil ID) i) = i) by apply repeat_length.
      rewrite <- R at 1. rewrite set_nth_split. apply C0.
    + change ([] :: repeat [] (255 - i)) with (repeat (@nil ID) (S (255 - i))). rewrite <- repeat_app. f_equal.
      unfold NumBuckets. lia.
  - rewrite N0 in L. cbn in L. discriminate.
Qed.

(** ** Entries *)

Lemma in_entries t e : table_inv t ->
  (In e (concat (t_entries t)) <-> In e (bucket_at t (bucket_of (id_key (t_self t)) (id_key e)))).
Proof.
  intros I. split; intros H.
  - apply in_concat in H as (b & Hb & He). apply (In_nth _ _ []) in Hb as (i & Hi & <-).
    pose proof (inv_elem t I i e He) as (_ & _ & ->). exact He.
  - unfold bucket_at in H. apply in_concat. eexists. split; [|exact H]. apply nth_In.
    rewrite (inv_len t I). apply bucket_of_lt.
Qed.

Lemma entries_elem t e : table_inv t -> In e (concat (t_entries t)) -> key32 (id_key e) /\ id_key e <> ZeroPublicKey.
Proof.
  intros I H. apply in_entries in H; auto. apply (inv_elem t I) in H as (? & ? & _). auto.
Qed.

Lemma nodup_concat {A B} (key : A -> B) (f : B -> nat) (bs : list (list A)) : forall off,
  (forall i e, In e (nth i bs []) -> f (key e) = off + i) -> (forall i, NoDup (map key (nth i bs []))) ->
  NoDup (map key (concat bs)).
Proof.
  induction bs as [|b bs IH]; intros off He Hn; cbn; [constructor|].
  rewrite map_app. apply NoDup_app_intro.
  - apply (Hn 0).
  - apply (IH (S off)).
    + intros i e H. rewrite (He (S i) e H). lia.
    + intros i. apply (Hn (S i)).
  - intros k H1 H2. apply in_map_iff in H1 as (x & <- & H1). apply in_map_iff in H2 as (y & E & H2).
    apply in_concat in H2 as (b' & Hb & H2). apply (In_nth _ _ []) in Hb as (i & Hi & <-).
    pose proof (He 0 x H1). pose proof (He (S i) y H2). rewrite E in *. lia.
Qed.

Lemma entries_nodup t : table_inv t -> NoDup (map id_key (concat (t_entries t))).
Proof.
  intros I. apply (nodup_concat id_key (bucket_of (id_key (t_self t))) _ 0).
  - intros i e H. apply (inv_elem t I) in H as (_ & _ & ->). lia.
  - apply (inv_nodup t I).
Qed.

Lemma Recorded_iff t k : table_inv t -> key32 k -> (Recorded t k = true <-> In k (map id_key (concat (t_entries t)))).
Proof.
  intros I Hk. unfold Recorded. rewrite inv_bucket_index by assumption. rewrite existsb_exists, in_map_iff. split.
  - intros (e & He & E). apply has_key_eq in E. exists e. split; [exact E|]. apply in_entries; auto. rewrite E. exact He.
  - intros (e & <- & He). exists e. apply in_entries in He; auto. split; [exact He|]. apply has_key_eq. reflexivity.
Qed.

(** ** FindClosest *)

Definition within (idx r j : nat) : bool := (idx <=? j + r) && (j <=? idx + r).

(** Entries other than target in buckets at most [r] away from target's. *)
Definition in_window (t : table) (target : bytes) (r : nat) (e : ID) : Prop :=
  In e (concat (t_entries t)) /\ id_key e <> target /\
  within (bucket_of (id_key (t_self t)) target) r (bucket_of (id_key (t_self t)) (id_key e)) = true.

Definition is_window t target r c : Prop := NoDup (map id_key c) /\ forall e, In e c <-> in_window t target r e.

Lemma others_in target b e : In e (others target b) <-> In e b /\ id_key e <> target.
Proof. unfold others. rewrite filter_In, negb_true_iff, has_key_neq. reflexivity. Qed.

Lemma nodup_filter_map {A B} (key : A -> B) p l : NoDup (map key l) -> NoDup (map key (filter p l)).
Proof.
  induction l as [|x l IH]; cbn; [auto|]. intros H. inversion H; subst. destruct (p x); cbn; auto.
  constructor; auto. intros C. apply H2. apply in_map_iff in C as (y & <- & Hy). apply in_map.
  apply filter_In in Hy. tauto.
Qed.

Lemma add_bucket t target c b i :
  table_inv t -> NoDup (map id_key c) -> b = bucket_at t i ->
  (forall e, In e c -> bucket_of (id_key (t_self t)) (id_key e) <> i) ->
  NoDup (map id_key (c ++ others target b)).
Proof.
  intros I N -> D. rewrite map_app. apply NoDup_app_intro.
  - exact N.
  - apply nodup_filter_map. apply (inv_nodup t I).
  - intros k H1 H2. apply in_map_iff in H1 as (x & <- & H1). apply in_map_iff in H2 as (y & E & H2).
    apply others_in in H2 as [H2 _]. apply (inv_elem t I) in H2 as (_ & _ & H2). rewrite E in H2. exact (D x H1 H2).
Qed.

Lemma in_bucket_at t i e : table_inv t ->
  (In e (bucket_at t i) <-> In e (concat (t_entries t)) /\ bucket_of (id_key (t_self t)) (id_key e) = i).
Proof.
  intros I. split.
  - intros H. pose proof (inv_elem t I i e H) as (_ & _ & E). split; [|exact E]. apply in_entries; auto. rewrite E. exact H.
  - intros [H <-]. apply in_entries; auto.
Qed.

Lemma within_spec idx r j : within idx r j = true <-> idx <= j + r /\ j <= idx + r.
Proof. unfold within. rewrite andb_true_iff, !Nat.leb_le. reflexivity. Qed.

Lemma window_0 t target : table_inv t -> key32 target ->
  is_window t target 0 (others target (bucket_at t (bucket_of (id_key (t_self t)) target))).
Proof.
  intros I Hk. split.
  - apply nodup_filter_map. apply (inv_nodup t I).
  - intros e. rewrite others_in, in_bucket_at by exact I. unfold in_window. rewrite within_spec.
    intuition lia.
Qed.

Lemma window_step t target i c : table_inv t -> key32 target ->
  let idx := bucket_of (id_key (t_self t)) target in 1 <= i ->
  is_window t target (i - 1) c ->
  let c1 := if i <=? idx then c ++ others target (bucket_at t (idx - i)) else c in
  let c2 := if idx + i <? length (t_entries t) then c1 ++ others target (bucket_at t (idx + i)) else c1 in
  is_window t target i c2.
Proof.
  intros I Hk idx Hi [N M] c1. rewrite (inv_len t I). intros c2.
  assert (M1 : forall e, In e c1 <-> In e c \/ (i <= idx /\ In e (bucket_at t (idx - i)) /\ id_key e <> target)).
  { intros e. unfold c1. destruct (Nat.leb_spec i idx).
    - rewrite in_app_iff, others_in. intuition lia.
    - intuition lia. }
  assert (N1 : NoDup (map id_key c1)).
  { unfold c1. destruct (Nat.leb_spec i idx); [|exact N]. eapply add_bucket; eauto.
    intros e He. apply M in He as (_ & _ & W). apply within_spec in W. fold idx in W. lia. }
  split.
  - unfold c2. destruct (Nat.ltb_spec (idx + i) NumBuckets); [|exact N1]. eapply add_bucket; eauto.
    intros e He. apply M1 in He as [He|(L & He & _)].
    + apply M in He as (_ & _ & W). apply within_spec in W. fold idx in W. lia.
    + apply (inv_elem t I) in He as (_ & _ & ->). lia.
  - intros e.
    assert (M2 : In e c2 <-> In e c1 \/ (idx + i < NumBuckets /\ In e (bucket_at t (idx + i)) /\ id_key e <> target)).
    { unfold c2. destruct (Nat.ltb_spec (idx + i) NumBuckets).
      - rewrite in_app_iff, others_in. intuition lia.
      - intuition lia. }
    rewrite M2, M1, M, !in_bucket_at by exact I. unfold in_window. rewrite !within_spec. fold idx.
    pose proof (bucket_of_lt (id_key (t_self t)) (id_key e)) as BL.
    set (j := bucket_of (id_key (t_self t)) (id_key e)) in *.
    split.
    + intros [[(? & ? & ?)|(? & (? & ?) & ?)]|(? & (? & ?) & ?)]; repeat split; auto; lia.
    + intros (H1 & H2 & H3).
      destruct (Nat.eq_dec j (idx + i)); [right; repeat split; auto; lia|].
      destruct (Nat.eq_dec (j + i) idx); [left; right; repeat split; auto; lia|].
      left. left. repeat split; auto; lia.
Qed.

(** The result of the loop is a window; it is the smallest one with [k] elements, or everything. *)
Lemma expand_window t target k : table_inv t -> key32 target ->
  let idx := bucket_of (id_key (t_self t)) target in
  forall fuel i c, 1 <= i -> NumBuckets < fuel + i -> is_window t target (i - 1) c ->
  (i = 1 \/ exists c0, is_window t target (i - 2) c0 /\ (Z.of_nat (length c0) < k)%Z) ->
  exists r, is_window t target r (expand fuel i idx t target k c) /\
    ((k <= Z.of_nat (length (expand fuel i idx t target k c)))%Z \/ forall j, j < NumBuckets -> within idx r j = true) /\
    (r = 0 \/ exists c0, is_window t target (r - 1) c0 /\ (Z.of_nat (length c0) < k)%Z).
Proof.
  intros I Hk idx. pose proof (bucket_of_lt (id_key (t_self t)) target) as Hidx. fold idx in Hidx.
  induction fuel as [|fuel IH]; intros i c Hi Hf W P.
  - cbn [expand]. exists (i - 1). split; [exact W|]. split.
    + right. intros j Hj. apply within_spec. lia.
    + destruct P as [->|(c0 & W0 & L0)]; [left; reflexivity|].
      right. exists c0. replace (i - 1 - 1) with (i - 2) by lia. auto.
  - cbn [expand].
    destruct ((Z.of_nat (length c) <? k)%Z && ((i <=? idx) || (idx + i <? length (t_entries t)))) eqn:G.
    + apply andb_true_iff in G as [G1 _].
      apply IH.
      * lia.
      * lia.
      * replace (S i - 1) with i by lia. apply window_step; assumption.
      * right. exists c. replace (S i - 2) with (i - 1) by lia. split; [exact W|]. lia.
    + exists (i - 1). split; [exact W|]. split.
      * apply andb_false_iff in G as [G|G]; [left; lia|].
        apply orb_false_iff in G as [G1 G2]. rewrite (inv_len t I) in G2. right. intros j Hj. apply within_spec.
        unfold NumBuckets in *. lia.
      * destruct P as [->|(c0 & W0 & L0)]; [left; reflexivity|].
        right. exists c0. replace (i - 1 - 1) with (i - 2) by lia. auto.
Qed.

(** Sorting and truncating gives a choice of [k] smallest. *)
Lemma nodup_keys {A B} (key : A -> B) l : NoDup (map key l) -> NoDup l.
Proof. apply NoDup_map_inv. Qed.

Lemma nodup_firstn {A} n (l : list A) : NoDup l -> NoDup (firstn n l).
Proof.
  intros H. rewrite <- (firstn_skipn n l) in H. apply NoDup_app_remove_r in H. exact H.
Qed.

Lemma firstn_incl {A} n (l : list A) x : In x (firstn n l) -> In x l.
Proof. intros H. rewrite <- (firstn_skipn n l). apply in_or_app. auto. Qed.

Lemma k_smallest_firstn {A} (f : A -> N) k pool l : Permutation pool l -> NoDup pool -> sorted_by f l ->
  k_smallest f k pool (firstn k l).
Proof.
  intros P N HS. unfold k_smallest. repeat split.
  - rewrite firstn_length, (Permutation_length P). reflexivity.
  - apply nodup_firstn. eapply Permutation_NoDup; eauto.
  - intros x Hx. apply firstn_incl in Hx. apply (Permutation_in _ (Permutation_sym P)). exact Hx.
  - apply sorted_firstn. exact HS.
  - intros x y Hx Hy Hn. rewrite <- (firstn_skipn k l) in HS. eapply sorted_app_le; [exact HS | exact Hx |].
    apply (Permutation_in _ P) in Hy. rewrite <- (firstn_skipn k l) in Hy. apply in_app_or in Hy as [Hy|Hy]; [contradiction|exact Hy].
Qed.

Lemma k_smallest_equiv {A} (f : A -> N) k pool pool' l : NoDup pool -> NoDup pool' -> (forall x, In x pool <-> In x pool') ->
  k_smallest f k pool l -> k_smallest f k pool' l.
Proof.
  intros N N' E (L & ND & Inc & HS & Far).
  assert (P : Permutation pool pool') by (apply NoDup_Permutation; assumption).
  repeat split; auto.
  - rewrite L, (Permutation_length P). reflexivity.
  - intros x Hx. apply E. apply Inc. exact Hx.
  - intros x y Hx Hy Hn. apply Far; auto. apply E. exact Hy.
Qed.

Lemma k_smallest_extend {A} (f : A -> N) k pool all l : NoDup pool -> NoDup all -> incl pool all -> k <= length pool ->
  k_smallest f k pool l -> (forall x y, In x l -> In y all -> ~ In y pool -> (f x <= f y)%N) ->
  (forall x, {In x pool} + {~ In x pool}) ->
  k_smallest f k all l.
Proof.
  intros N N' Inc Hk (L & ND & Inc' & HS & Far) Out Dec.
  pose proof (NoDup_incl_length N Inc) as LL.
  repeat split; auto.
  - lia.
  - intros x Hx. apply Inc. apply Inc'. exact Hx.
  - intros x y Hx Hy Hn. destruct (Dec y); [apply Far; auto | apply Out; auto].
Qed.

Definition id_eq_dec : forall a b : ID, {a = b} + {a <> b}.
Proof.
  intros a b. destruct a as [a1 a2 a3 a4], b as [b1 b2 b3 b4].
  destruct (bytes_eq_dec a1 b1) as [->|]; [|right; congruence].
  destruct (bytes_eq_dec a2 b2) as [->|]; [|right; congruence].
  destruct (N.eq_dec a3 b3) as [->|]; [|right; congruence].
  destruct (bytes_eq_dec a4 b4) as [->|]; [left; reflexivity|right; congruence].
Defined.

Definition dkey (target : bytes) (e : ID) : N := dist (id_key e) target.

(** The entries of a table other than target, and those in a window. *)
Definition pool (t : table) (target : bytes) : list ID := others target (concat (t_entries t)).
Definition wpool (t : table) (target : bytes) (r : nat) : list ID :=
  filter (fun e => within (bucket_of (id_key (t_self t)) target) r (bucket_of (id_key (t_self t)) (id_key e))) (pool t target).

Lemma wpool_in t target r e : In e (wpool t target r) <-> in_window t target r e.
Proof. unfold wpool, pool, in_window. rewrite filter_In, others_in. tauto. Qed.

Lemma wpool_nodup t target r : table_inv t -> NoDup (wpool t target r).
Proof.
  intros I. apply (nodup_keys id_key). apply nodup_filter_map, nodup_filter_map, entries_nodup, I.
Qed.

Lemma pool_nodup t target : table_inv t -> NoDup (pool t target).
Proof. intros I. apply (nodup_keys id_key). apply nodup_filter_map, entries_nodup, I. Qed.

Lemma window_perm t target r c : table_inv t -> is_window t target r c -> Permutation c (wpool t target r).
Proof.
  intros I [N M]. apply NoDup_Permutation.
  - apply (nodup_keys id_key). exact N.
  - apply wpool_nodup. exact I.
  - intros x. rewrite M, wpool_in. reflexivity.
Qed.

Lemma FindClosest_window t target k : table_inv t -> key32 target -> (0 <= k)%Z ->
  exists r l, FindClosest t target k = Ok l /\
    k_smallest (dkey target) (Z.to_nat k) (wpool t target r) l /\
    ((k <= Z.of_nat (length (wpool t target r)))%Z \/ wpool t target r = pool t target) /\
    (r = 0 \/ (Z.of_nat (length (wpool t target (r - 1))) < k)%Z).
Proof.
  intros I Hk K0. unfold FindClosest. rewrite inv_bucket_index by assumption.
  set (idx := bucket_of (id_key (t_self t)) target).
  destruct (expand_window t target k I Hk (length (t_entries t)) 1 (others target (bucket_at t idx))) as (r & W & Big & Small).
  - lia.
  - rewrite (inv_len t I). lia.
  - apply window_0; assumption.
  - left. reflexivity.
  - fold idx in W, Big, Small.
    set (c := expand (length (t_entries t)) 1 idx t target k (others target (bucket_at t idx))) in *.
    pose proof (window_perm t target r c I W) as P.
    assert (HS : sorted_by (dkey target) (SortByDistance target c)).
    { apply SortByDistance_sorted. intros x Hx. apply (proj2 W) in Hx as (Hx & _ & _).
      apply entries_elem in Hx as [Hx _]; [|exact I]. unfold key32 in *. congruence. }
    assert (LS : length (SortByDistance target c) = length c).
    { symmetry. apply Permutation_length. apply SortByDistance_perm. }
    exists r, (firstn (Z.to_nat k) (SortByDistance target c)). split; [|split; [|split]].
    + destruct (Z.ltb_spec k (Z.of_nat (length (SortByDistance target c)))).
      * destruct (Z.ltb_spec k 0); [lia|]. reflexivity.
      * rewrite firstn_all2; [reflexivity | lia].
    + apply k_smallest_firstn.
      * rewrite <- P. apply SortByDistance_perm.
      * apply wpool_nodup. exact I.
      * exact HS.
    + rewrite <- (Permutation_length P). destruct Big as [Big|Big]; [left; exact Big|right].
      unfold wpool. apply filter_all. intros x _. apply Big. apply bucket_of_lt.
    + destruct Small as [->|(c0 & W0 & L0)]; [left; reflexivity|right].
      rewrite <- (Permutation_length (window_perm t target (r - 1) c0 I W0)). exact L0.
Qed.

(** ** Buckets and distance *)

Lemma bucket_closer self target x y : key32 self -> key32 target -> key32 x -> key32 y ->
  bucket_of self x = bucket_of self target -> bucket_of self y <> bucket_of self target ->
  (dist x target < dist y target)%N.
Proof.
  unfold key32, bucket_of. intros Ls Lt Lx Ly Hx Hy. apply longer_prefix_closer; [congruence|congruence|].
  assert (M : Nat.min (common_prefix x self) (common_prefix target self) <= common_prefix x target).
  { apply lcp_min; rewrite !bits_length; congruence. }
  assert (L1 : common_prefix target self < common_prefix y self -> common_prefix y target = common_prefix target self).
  { intros H. rewrite common_prefix_sym. apply lcp_lt. exact H. }
  assert (L2 : common_prefix y self < common_prefix target self -> common_prefix y target = common_prefix y self).
  { intros H. apply lcp_lt. exact H. }
  assert (L3 : common_prefix x self = common_prefix target self -> common_prefix target self < 256 ->
               common_prefix x self < common_prefix x target).
  { intros E H. apply lcp_eq_lt; try (rewrite !bits_length; congruence); auto.
    rewrite bits_length, Ls. change (common_prefix x self < 8 * 32). lia. }
  destruct (Nat.lt_trichotomy (common_prefix y self) (common_prefix target self)) as [H|[H|H]].
  - rewrite (L2 H). lia.
  - rewrite H in Hy. congruence.
  - rewrite (L1 H). lia.
Qed.

Lemma bucket_closer_self self x y : key32 self -> key32 x -> key32 y ->
  bucket_of self y < bucket_of self x -> (dist x self < dist y self)%N.
Proof.
  unfold key32, bucket_of. intros Ls Lx Ly H. apply longer_prefix_closer; [congruence|congruence|]. lia.
Qed.

Lemma in_pool t target e : In e (pool t target) <-> In e (concat (t_entries t)) /\ id_key e <> target.
Proof. apply others_in. Qed.

Lemma wpool_incl t target r : incl (wpool t target r) (pool t target).
Proof. intros x H. apply filter_In in H. tauto. Qed.

Lemma pool_key t target e : table_inv t -> In e (pool t target) -> key32 (id_key e).
Proof. intros I H. apply in_pool in H as [H _]. apply entries_elem in H; tauto. Qed.

Lemma in_dec_pool t target r (x : ID) : {In x (wpool t target r)} + {~ In x (wpool t target r)}.
Proof. apply in_dec. exact id_eq_dec. Qed.

Lemma not_wpool t target r y : In y (pool t target) -> ~ In y (wpool t target r) ->
  within (bucket_of (id_key (t_self t)) target) r (bucket_of (id_key (t_self t)) (id_key y)) = false.
Proof.
  intros H N. destruct (within _ _ _) eqn:E; [|reflexivity]. exfalso. apply N. apply filter_In. auto.
Qed.

Lemma Peers_spec t : table_inv t ->
  exists l, Peers t = Ok l /\ k_smallest (dkey (id_key (t_self t))) 16 (pool t (id_key (t_self t))) l.
Proof.
  intros I. set (s := id_key (t_self t)). pose proof (inv_self t I) as Ks. fold s in Ks.
  destruct (FindClosest_window t s (Z.of_nat BucketSize) I Ks ltac:(lia)) as (r & l & E & K & Big & _).
  exists l. split; [exact E|]. change (Z.to_nat (Z.of_nat BucketSize)) with 16 in K.
  destruct Big as [Big|Big]; [|rewrite <- Big; exact K].
  apply (k_smallest_extend (dkey s) 16 (wpool t s r)); auto.
  - apply wpool_nodup. exact I.
  - apply pool_nodup. exact I.
  - apply wpool_incl.
  - unfold BucketSize in Big. lia.
  - intros x y Hx Hy Hn. destruct K as (_ & _ & Inc & _). apply Inc in Hx.
    pose proof (not_wpool t s r y Hy Hn) as Wy. fold s in Wy.
    pose proof (wpool_incl t s r x Hx) as Px. apply filter_In in Hx as [_ Wx]. fold s in Wx.
    apply N.lt_le_incl. unfold dkey. apply bucket_closer_self; eauto using pool_key.
    apply within_spec in Wx. unfold within in Wy.
    assert (Eself : bucket_of s s = 255).
    { unfold bucket_of. assert (C : common_prefix s s = 8 * length s) by (apply common_prefix_full; reflexivity).
      rewrite C, Ks. reflexivity. }
    rewrite Eself in Wx, Wy. pose proof (bucket_of_lt s (id_key y)) as B. unfold NumBuckets in B.
    destruct (Nat.leb_spec 255 (bucket_of s (id_key y) + r)); [|lia].
    cbn [andb] in Wy. destruct (Nat.leb_spec (bucket_of s (id_key y)) (255 + r)); [discriminate | lia].
  - intros x. apply in_dec_pool.
Qed.

(** FindClosest is right when all other entries are wanted, or when target's own bucket has enough of them. *)
Lemma FindClosest_right t target k : table_inv t -> key32 target -> (0 <= k)%Z ->
  (Z.of_nat (length (pool t target)) <= k)%Z \/
  (k <= Z.of_nat (length (others target (Bucket t target))))%Z ->
  exists l, FindClosest t target k = Ok l /\ k_smallest (dkey target) (Z.to_nat k) (pool t target) l.
Proof.
  intros I Hk K0 H.
  destruct (FindClosest_window t target k I Hk K0) as (r & l & E & K & Big & Small).
  exists l. split; [exact E|].
  assert (Wn := wpool_nodup t target r I). assert (Pn := pool_nodup t target I).
  assert (Inc := wpool_incl t target r).
  destruct Big as [Big|Big]; [|rewrite <- Big; exact K].
  destruct H as [H|H].
  - apply (k_smallest_equiv (dkey target) _ (wpool t target r)); auto.
    intros x. split; [apply Inc|]. apply (NoDup_length_incl Wn); [lia | exact Inc].
  - assert (W0 : is_window t target 0 (others target (Bucket t target))).
    { rewrite bucket_at_idx by assumption. apply window_0; assumption. }
    pose proof (Permutation_length (window_perm t target 0 _ I W0)) as L0.
    assert (Hr : r = 0).
    { destruct Small as [Small|Small]; [exact Small|].
      assert (L : length (wpool t target 0) <= length (wpool t target (r - 1))).
      { apply NoDup_incl_length; [apply wpool_nodup; exact I|]. intros x Hx. apply wpool_in in Hx as (A & B & C).
        apply wpool_in. repeat split; auto. apply within_spec in C. apply within_spec. lia. }
      lia. }
    subst r. apply (k_smallest_extend (dkey target) _ (wpool t target 0)); auto.
    + lia.
    + intros x y Hx Hy Hn. destruct K as (_ & _ & Inc' & _). apply Inc' in Hx.
      pose proof (not_wpool t target 0 y Hy Hn) as Wy. pose proof (Inc x Hx) as Px.
      apply filter_In in Hx as [_ Wx]. apply within_spec in Wx.
      apply N.lt_le_incl. unfold dkey. apply (bucket_closer (id_key (t_self t))); eauto using pool_key.
      * apply (inv_self t I).
      * lia.
      * intros C. rewrite C in Wy. unfold within in Wy.
        destruct (Nat.leb_spec (bucket_of (id_key (t_self t)) target) (bucket_of (id_key (t_self t)) target + 0)); [|lia].
        cbn in Wy. discriminate.
    + intros x. apply in_dec_pool.
Qed.
