(** * Proofs about M_Kad: Ack alone, Ack under interleaving, Handle. *)
From Verif Require Import Base Spec M_ID M_Msg M_Codec M_Table M_Kad P_Binary P_Table.
From Coq Require Import Strings.Byte Sorting.Permutation.
Local Open Scope nat_scope.

(** ** Running alone *)

Lemma call_done ping n t log : call_run ping n t KDone log = Ok (t, KDone, log).
Proof. induction n as [|n IH]; [reflexivity|]. cbn. exact IH. Qed.

Lemma call_more ping n : forall m t pc log t' log', call_run ping n t pc log = Ok (t', KDone, log') -> n <= m ->
  call_run ping m t pc log = Ok (t', KDone, log').
Proof.
  induction n as [|n IH]; intros m t pc log t' log' H L.
  - cbn in H. assert (pc = KDone) as -> by congruence. assert (t' = t) as -> by congruence. assert (log' = log) as -> by congruence.
    apply call_done.
  - destruct m as [|m]; [lia|]. cbn [call_run] in *. destruct (kad_step _ t pc) as [[[t1 pc1] ev]| |]; cbn [bind] in *; try discriminate.
    apply IH; [exact H | lia].
Qed.

Lemma call_det ping n m t pc log t1 l1 t2 l2 :
  call_run ping n t pc log = Ok (t1, KDone, l1) -> call_run ping m t pc log = Ok (t2, KDone, l2) -> t1 = t2 /\ l1 = l2.
Proof.
  intros H1 H2. apply (call_more ping n (Nat.max n m)) in H1; [|lia]. apply (call_more ping m (Nat.max n m)) in H2; [|lia].
  rewrite H1 in H2. split; congruence.
Qed.

Lemma call_step ping t pc log t' pc' ev n r :
  kad_step (match pc with KPing _ last => ping last | _ => GotPong end) t pc = Ok (t', pc', ev) ->
  call_run ping n t' pc' (emit log ev) = r -> call_run ping (S n) t pc log = r.
Proof. intros E H. cbn [call_run]. rewrite E. exact H. Qed.

Lemma full_last {A} (b : list A) : length b = BucketSize -> exists l x, b = l ++ [x].
Proof.
  intros H. destruct (exists_last (l := b)) as (l & x & E); [intros ->; discriminate|]. eauto.
Qed.

Lemma Last_of t k l x : table_inv t -> key32 k -> bucket_at t (bucket_of (id_key (t_self t)) k) = l ++ [x] -> Last t k = Ok x.
Proof. intros I Hk E. unfold Last. rewrite inv_bucket_index by assumption. rewrite E, rev_unit. reflexivity. Qed.

(** Removing a recorded key. *)
Lemma Delete_at t i l1 e l2 : table_inv t -> bucket_at t i = l1 ++ e :: l2 ->
  Delete t (id_key e) = (set_bucket t i (l1 ++ l2) (t_size t - 1), (e, true)).
Proof.
  intros I E. assert (He : In e (bucket_at t i)) by (rewrite E; apply in_or_app; right; left; reflexivity).
  destruct (inv_elem t I i e He) as (Hk & _ & Hi).
  assert (N : NoDup (map id_key (bucket_at t i))) by apply (inv_nodup t I).
  destruct (Delete_cases t (id_key e) I Hk) as [(m1 & x & m2 & Eb & Ek & ->)|(NI & _)].
  - rewrite Hi in *. rewrite Eb in E.
    assert (X : m1 = l1 /\ x = e /\ m2 = l2).
    { clear - N E Ek Eb. rewrite Eb in N. clear Eb. revert l1 E N. induction m1 as [|y m1 IH]; intros [|z l1] E N; cbn in E.
      - injection E as -> ->. auto.
      - injection E as -> E. exfalso. cbn in N. inversion N; subst. apply H1. rewrite Ek. apply in_map. apply in_or_app. right. left. reflexivity.
      - injection E as -> E. exfalso. cbn in N. inversion N; subst. apply H1. rewrite <- Ek. apply in_map. apply in_or_app. right. left. reflexivity.
      - injection E as -> E. destruct (IH l1 E) as (-> & -> & ->); [cbn in N; inversion N; assumption | auto]. }
    destruct X as (-> & -> & ->). reflexivity.
  - exfalso. apply NI. rewrite Hi. apply in_map. exact He.
Qed.

Lemma Update_room t id : table_inv t -> key32 (id_key id) -> id_key id <> ZeroPublicKey ->
  let i := bucket_of (id_key (t_self t)) (id_key id) in
  ~ In (id_key id) (map id_key (bucket_at t i)) -> length (bucket_at t i) < BucketSize ->
  Update t id = (set_bucket t i (id :: bucket_at t i) (t_size t + 1), (true, None)).
Proof.
  intros I Hk Hz i NI L. destruct (Update_cases t id I Hk) as [(E & _)|[(E & l1 & e & l2 & Eb & Ek & _)|[(E & _ & _ & U)|(E & _ & L' & _)]]].
  - congruence.
  - exfalso. apply NI. unfold i. rewrite Eb, <- Ek. apply in_map. apply in_or_app. right. left. reflexivity.
  - exact U.
  - unfold i in L. lia.
Qed.

(** What a call of Ack that runs alone does, in terms of buckets. *)
Inductive ack_spec (ping : ID -> ping_outcome) (t : table) (id : ID) : table -> list kad_event -> Prop :=
| as_zero : id_key id = ZeroPublicKey -> ack_spec ping t id t [Activity id]
| as_recorded i l1 e l2 : id_key id <> ZeroPublicKey -> i = bucket_of (id_key (t_self t)) (id_key id) ->
    bucket_at t i = l1 ++ e :: l2 -> id_key e = id_key id ->
    ack_spec ping t id (set_bucket t i (e :: l1 ++ l2) (t_size t)) [Activity id]
| as_room i : id_key id <> ZeroPublicKey -> i = bucket_of (id_key (t_self t)) (id_key id) ->
    ~ In (id_key id) (map id_key (bucket_at t i)) -> length (bucket_at t i) < BucketSize ->
    ack_spec ping t id (set_bucket t i (id :: bucket_at t i) (t_size t + 1)) [Admitted id]
| as_pong i l last : id_key id <> ZeroPublicKey -> i = bucket_of (id_key (t_self t)) (id_key id) ->
    ~ In (id_key id) (map id_key (bucket_at t i)) -> length (bucket_at t i) = BucketSize -> bucket_at t i = l ++ [last] ->
    ping last = GotPong -> ack_spec ping t id t [Evicted id]
| as_evict i l last t1 : id_key id <> ZeroPublicKey -> i = bucket_of (id_key (t_self t)) (id_key id) ->
    ~ In (id_key id) (map id_key (bucket_at t i)) -> length (bucket_at t i) = BucketSize -> bucket_at t i = l ++ [last] ->
    ping last = GotOther \/ ping last = ReqError \/
      (ping last = DialError /\ DeleteByAddress t (id_addr last) = (t1, (last, true))) ->
    ack_spec ping t id (set_bucket (set_bucket t i l (t_size t - 1)) i (id :: l) (t_size t)) [Evicted last; Admitted id]
| as_evict_two i l last v t1 l' : id_key id <> ZeroPublicKey -> i = bucket_of (id_key (t_self t)) (id_key id) ->
    ~ In (id_key id) (map id_key (bucket_at t i)) -> length (bucket_at t i) = BucketSize -> bucket_at t i = l ++ [last] ->
    ping last = DialError -> DeleteByAddress t (id_addr last) = (t1, (v, true)) -> v <> last ->
    bucket_at t1 i = l' ++ [last] ->
    ack_spec ping t id (set_bucket (set_bucket t1 i l' (t_size t1 - 1)) i (id :: l') (t_size t1 - 1 + 1))
      [Evicted v; Evicted last; Admitted id].

Lemma set_bucket_same_index t i b z j : bucket_at (set_bucket t i b z) j = if (j =? i) && (i <? length (t_entries t)) then b else bucket_at t j.
Proof. apply bucket_at_set. Qed.

Lemma ack_result ping t id : table_inv t -> key32 (id_key id) ->
  exists t' evs n, call_run ping n t (KUpdate id) [] = Ok (t', KDone, evs) /\ ack_spec ping t id t' evs.
Proof.
  intros I Hk. set (i := bucket_of (id_key (t_self t)) (id_key id)).
  assert (Hi : i < NumBuckets) by apply bucket_of_lt.
  pose proof (Update_cases t id I Hk) as UC. cbv zeta in UC. fold i in UC.
  destruct UC as [(E & U)|[(E & l1 & e & l2 & Eb & Ek & U)|[(E & NI & L & U)|(E & NI & L & U)]]].
  - exists t, [Activity id], 2. split; [cbn; rewrite U; reflexivity | apply as_zero; exact E].
  - eexists _, _, 2. split; [cbn; rewrite U; reflexivity|]. eapply as_recorded; eauto.
  - eexists _, _, 2. split; [cbn; rewrite U; reflexivity|]. eapply as_room; eauto.
  - destruct (full_last _ L) as (l & last & El).
    assert (HL : Last t (id_key id) = Ok last) by (eapply Last_of; eauto).
    assert (S2 : forall n r, call_run ping n t (KPing id last) [] = r -> call_run ping (S (S n)) t (KUpdate id) [] = r).
    { intros n r <-. cbn [plus call_run kad_step]. rewrite U. cbn [bind emit call_run kad_step]. rewrite HL. reflexivity. }
    assert (Hrest : forall t1 l' log, table_inv t1 -> t_self t1 = t_self t -> bucket_at t1 i = l' ++ [last] ->
              ~ In (id_key id) (map id_key l') -> length l' < BucketSize ->
              call_run ping 4 t1 (KDelete id last) log
              = Ok (set_bucket (set_bucket t1 i l' (t_size t1 - 1)) i (id :: l') (t_size t1 - 1 + 1), KDone, (log ++ [Evicted last]) ++ [Admitted id])).
    { intros t1 l' log I1 S1 E1 N1 L1.
      pose proof (Delete_at t1 i l' last [] I1 E1) as D. rewrite app_nil_r in D.
      destruct (Delete_inv t1 (id_key last) I1) as [I2 S2'].
      { apply (inv_elem t I i). rewrite El. apply in_or_app. right. left. reflexivity. }
      rewrite D in I2, S2'. cbn [fst] in I2, S2'.
      assert (B2 : bucket_at (set_bucket t1 i l' (t_size t1 - 1)) i = l').
      { rewrite bucket_at_set, Nat.eqb_refl, (inv_len t1 I1). destruct (Nat.ltb_spec i NumBuckets); [reflexivity | lia]. }
      assert (U2 : Update (set_bucket t1 i l' (t_size t1 - 1)) id =
                   (set_bucket (set_bucket t1 i l' (t_size t1 - 1)) i (id :: l') (t_size t1 - 1 + 1), (true, None))).
      { pose proof (Update_room (set_bucket t1 i l' (t_size t1 - 1)) id I2 Hk E) as U2. cbv zeta in U2.
        rewrite S2', S1 in U2. fold i in U2. rewrite B2 in U2. apply U2; assumption. }
      cbn [call_run kad_step]. rewrite D. cbn [bind emit call_run kad_step]. rewrite U2. reflexivity. }
    assert (Nl : ~ In (id_key id) (map id_key l)).
    { intros C. apply NI. rewrite El, map_app. apply in_or_app. auto. }
    assert (Ll : length l < BucketSize) by (rewrite El, app_length in L; cbn in L; lia).
    assert (Ets : (t_size t - 1 + 1 = t_size t)%Z) by lia.
    destruct (ping last) eqn:P.
    + exists t, [Evicted id], 4. split; [apply S2; cbn [call_run kad_step]; rewrite P; reflexivity | eapply as_pong; eauto].
    + eexists _, _, 7. split.
      * apply S2. eapply call_step; [cbn [kad_step]; rewrite P; reflexivity|]. apply (Hrest t l []); auto.
      * rewrite Ets. apply (as_evict ping t id i l last t); auto.
    + eexists _, _, 7. split.
      * apply S2. eapply call_step; [cbn [kad_step]; rewrite P; reflexivity|]. apply (Hrest t l []); auto.
      * rewrite Ets. apply (as_evict ping t id i l last t); auto.
    + destruct (DeleteByAddress t (id_addr last)) as [t1 [v found]] eqn:D.
      destruct (DeleteByAddress_inv t (id_addr last) I) as [I1 S1]. rewrite D in I1, S1. cbn [fst] in I1, S1.
      destruct (DeleteByAddress_cases t (id_addr last) I) as [(bs1 & m1 & x & m2 & bs2 & Eb & Ea & Hf & D')|(Hn & _)].
      2:{ exfalso. apply (Hn last); [|reflexivity]. apply (proj2 (in_entries t last I)).
          assert (In last (bucket_at t i)) as Hin by (rewrite El; apply in_or_app; right; left; reflexivity).
          destruct (inv_elem t I i last Hin) as (_ & _ & ->). exact Hin. }
      rewrite D in D'. assert (found = true) as -> by congruence. assert (v = x) as -> by congruence.
      assert (Et1 : t1 = set_bucket t (length bs1) (m1 ++ m2) (t_size t - 1)) by congruence. clear D'.
      assert (Hj : length bs1 < NumBuckets) by (rewrite <- (inv_len t I), Eb, app_length; cbn; lia).
      pose proof (bucket_at_mid t bs1 _ bs2 Eb) as Bj.
      assert (S1E : kad_step GotPong t (KDialFailed id last) = Ok (t1, KEmit (Evicted x) (KDelete id last), None))
        by (cbn [kad_step]; rewrite D; reflexivity).
      destruct (id_eq_dec x last) as [-> | Nx].
      * (* the entry deleted by address is the pinged one *)
        assert (Ei : length bs1 = i).
        { assert (A1 : In last (bucket_at t (length bs1))) by (rewrite Bj; apply in_or_app; right; left; reflexivity).
          assert (A2 : In last (bucket_at t i)) by (rewrite El; apply in_or_app; right; left; reflexivity).
          destruct (inv_elem t I _ _ A1) as (_ & _ & <-). destruct (inv_elem t I _ _ A2) as (_ & _ & <-). reflexivity. }
        assert (Dx : Delete t (id_key last) = (set_bucket t i l (t_size t - 1), (last, true))).
        { pose proof (Delete_at t i l last [] I El) as X. rewrite app_nil_r in X. exact X. }
        assert (Dx' : Delete t (id_key last) = (set_bucket t i (m1 ++ m2) (t_size t - 1), (last, true))).
        { apply (Delete_at t i m1 last m2 I). rewrite <- Ei. exact Bj. }
        assert (Et : t1 = set_bucket t i l (t_size t - 1)) by (rewrite Et1, Ei; congruence).
        assert (B1 : bucket_at t1 i = l).
        { rewrite Et, bucket_at_set, Nat.eqb_refl, (inv_len t I). destruct (Nat.ltb_spec i NumBuckets); [reflexivity | lia]. }
        assert (D1 : Delete t1 (id_key last) = (t1, (ZeroID, false))).
        { assert (K : key32 (id_key last)) by (apply (inv_elem t I i); rewrite El; apply in_or_app; right; left; reflexivity).
          destruct (Delete_cases t1 (id_key last) I1 K) as [(n1 & y & n2 & Ey & Ky & _)|(_ & X)]; [|exact X]. exfalso.
          assert (Bi : bucket_of (id_key (t_self t1)) (id_key last) = i).
          { rewrite S1. apply (inv_elem t I i). rewrite El. apply in_or_app. right. left. reflexivity. }
          rewrite Bi, B1 in Ey. pose proof (inv_nodup t I i) as Nd. rewrite El, map_app in Nd. cbn [map] in Nd.
          apply NoDup_remove_2 in Nd. apply Nd. rewrite app_nil_r, Ey, <- Ky. apply in_map. apply in_or_app. right. left. reflexivity. }
        assert (U1 : Update t1 id = (set_bucket t1 i (id :: l) (t_size t1 + 1), (true, None))).
        { pose proof (Update_room t1 id I1 Hk E) as X. cbv zeta in X. rewrite S1 in X. fold i in X. rewrite B1 in X. apply X; assumption. }
        eexists _, _, 8. split.
        -- apply S2. eapply call_step; [cbn [kad_step]; rewrite P; reflexivity|].
           eapply call_step; [exact S1E|]. cbn [call_run kad_step bind emit]. rewrite D1. cbn [bind emit call_run kad_step].
           rewrite U1. cbn [bind emit]. reflexivity.
        -- rewrite Et. change (t_size (set_bucket t i l (t_size t - 1)) + 1)%Z with (t_size t - 1 + 1)%Z. rewrite Ets.
           eapply as_evict; eauto.
      * assert (B1 : exists l', bucket_at t1 i = l' ++ [last] /\ ~ In (id_key id) (map id_key l') /\ length l' < BucketSize).
        { rewrite Et1, bucket_at_set, (inv_len t I). destruct (Nat.ltb_spec (length bs1) NumBuckets); [|lia]. rewrite andb_true_r.
          destruct (Nat.eqb_spec i (length bs1)) as [Ei|Ei]; [|exists l; auto].
          rewrite <- Ei in Bj. rewrite El in Bj.
          destruct m2 as [|y m2 _] using rev_ind.
          - apply app_inj_tail in Bj as [_ Bj]. congruence.
          - change (m1 ++ x :: m2 ++ [y]) with (m1 ++ (x :: m2) ++ [y]) in Bj. rewrite app_assoc in Bj.
            apply app_inj_tail in Bj as [Bj <-]. exists (m1 ++ m2). rewrite app_assoc. split; [reflexivity|]. split.
            + intros C. apply Nl. rewrite Bj. rewrite map_app in *. cbn [map]. apply in_app_or in C. apply in_or_app. cbn. tauto.
            + rewrite Bj, app_length in Ll. cbn [length] in Ll. rewrite app_length. lia. }
        destruct B1 as (l' & B1 & N1 & L1).
        eexists _, _, 9. split.
        -- apply S2. eapply call_step; [cbn [kad_step]; rewrite P; reflexivity|].
           eapply call_step; [exact S1E|]. eapply call_step; [reflexivity|]. cbn [emit app].
           apply (Hrest t1 l' [Evicted x]); auto.
        -- cbn [app]. eapply as_evict_two; eauto.
Qed.

Lemma ack_alone_spec ping t id t' evs : table_inv t -> key32 (id_key id) -> ack_alone ping t id t' evs -> ack_spec ping t id t' evs.
Proof.
  intros I Hk [n H]. destruct (ack_result ping t id I Hk) as (t2 & e2 & m & H2 & A).
  destruct (call_det ping n m _ _ _ _ _ _ _ H H2) as [-> ->]. exact A.
Qed.

Lemma kad_step_inv o t pc t' pc' ev : table_inv t ->
  (match pc with KUpdate id | KLast id => key32 (id_key id) | KPing id last | KDialFailed id last | KDelete id last => key32 (id_key id) /\ key32 (id_key last) | _ => True end) ->
  kad_step o t pc = Ok (t', pc', ev) -> table_inv t' /\ t_self t' = t_self t.
Proof.
  intros I W H. destruct pc; cbn [kad_step] in H.
  - pose proof (Update_inv t id I W). destruct (Update t id) as [t1 [b [e|]]]; assert (t' = t1) as -> by congruence; assumption.
  - destruct (Last t (id_key id)); cbn in H; try discriminate. assert (t' = t) as -> by congruence. auto.
  - destruct o; assert (t' = t) as -> by congruence; auto.
  - pose proof (DeleteByAddress_inv t (id_addr last) I). destruct (DeleteByAddress t _) as [t1 [b []]]; assert (t' = t1) as -> by congruence; assumption.
  - pose proof (Delete_inv t (id_key last) I (proj2 W)). destruct (Delete t _) as [t1 [b []]]; assert (t' = t1) as -> by congruence; assumption.
  - pose proof (DeleteByAddress_inv t addr I). destruct (DeleteByAddress t _) as [t1 [b []]]; assert (t' = t1) as -> by congruence; assumption.
  - assert (t' = t) as -> by congruence. auto.
  - assert (t' = t) as -> by congruence. auto.
Qed.

(** ** The last bucket never fills up *)

Lemma bits_of_byte_inj a b : bits_of_byte a = bits_of_byte b -> a = b.
Proof.
  assert (X : forallb (fun i => forallb (fun j =>
      implb (if list_eq_dec Bool.bool_dec (bits_of_byte (n2b (N.of_nat i))) (bits_of_byte (n2b (N.of_nat j))) then true else false)
            (Nat.eqb i j)) (seq 0 256)) (seq 0 256) = true) by (vm_compute; reflexivity).
  intros H. rewrite forallb_forall in X.
  pose proof (b2n_bound a) as Ba. pose proof (b2n_bound b) as Bb.
  specialize (X (N.to_nat (b2n a)) ltac:(apply in_seq; lia)). rewrite forallb_forall in X.
  specialize (X (N.to_nat (b2n b)) ltac:(apply in_seq; lia)). rewrite !N2Nat.id in X.
  rewrite !n2b_b2n in X. destruct (list_eq_dec _ _ _) as [_|C]; [|contradiction]. cbn [implb] in X.
  apply Nat.eqb_eq in X. rewrite <- (n2b_b2n a), <- (n2b_b2n b). f_equal. lia.
Qed.

Lemma bits_inj : forall a b, length a = length b -> bits a = bits b -> a = b.
Proof.
  induction a as [|x a IH]; intros [|y b] L H; try discriminate; [reflexivity|].
  unfold bits in H. cbn [flat_map] in H.
  assert (E : bits_of_byte x = bits_of_byte y).
  { apply (f_equal (firstn 8)) in H. rewrite !firstn_app, !bits_of_byte_length, !Nat.sub_diag, !firstn_O, !app_nil_r in H.
    rewrite !firstn_all2 in H by (rewrite bits_of_byte_length; lia). exact H. }
  rewrite E in H. apply app_inv_head in H. f_equal; [apply bits_of_byte_inj; exact E|].
  apply IH; [cbn in L; lia | exact H].
Qed.

Lemma lcp_firstn a : forall b n, n <= lcp a b -> firstn n a = firstn n b.
Proof.
  induction a as [|x a IH]; intros [|y b] n H; cbn in H.
  - reflexivity.
  - assert (n = 0) by lia. subst. reflexivity.
  - assert (n = 0) by lia. subst. reflexivity.
  - destruct (Bool.eqb x y) eqn:E; [|assert (n = 0) by lia; subst; reflexivity].
    apply eqb_prop in E as ->. destruct n as [|n]; [reflexivity|]. cbn. f_equal. apply IH. lia.
Qed.

Lemma last_bucket_small t : table_inv t -> length (bucket_at t 255) <= 2.
Proof.
  intros I. set (s := id_key (t_self t)). set (p := firstn 255 (bits s)).
  assert (Ls : key32 s) by apply (inv_self t I).
  assert (N : NoDup (map (fun e => bits (id_key e)) (bucket_at t 255))).
  { pose proof (inv_nodup t I 255) as N. pose proof (inv_elem t I 255) as El.
    revert N El. generalize (bucket_at t 255). intros b. induction b as [|e b IH]; cbn; intros N El; [constructor|].
    inversion N; subst. constructor; [|apply IH; auto].
    intros C. apply in_map_iff in C as (x & Ex & Hx). apply H1.
    replace (id_key e) with (id_key x); [apply in_map; exact Hx|].
    apply bits_inj; [|exact Ex]. destruct (El x (or_intror Hx)) as (K1 & _). destruct (El e (or_introl eq_refl)) as (K2 & _).
    unfold key32 in *. congruence. }
  assert (In2 : incl (map (fun e => bits (id_key e)) (bucket_at t 255)) [p ++ [true]; p ++ [false]]).
  { intros x Hx. apply in_map_iff in Hx as (e & <- & He). destruct (inv_elem t I 255 e He) as (K & _ & Bk).
    fold s in Bk. unfold bucket_of, common_prefix in Bk.
    assert (P : 255 <= lcp (bits (id_key e)) (bits s)) by lia.
    apply lcp_firstn in P. fold p in P.
    assert (L : length (bits (id_key e)) = 256) by (rewrite bits_length; unfold key32 in K; rewrite K; reflexivity).
    rewrite <- (firstn_skipn 255 (bits (id_key e))), P.
    assert (L1 : length (skipn 255 (bits (id_key e))) = 1) by (rewrite skipn_length; lia).
    destruct (skipn 255 (bits (id_key e))) as [|c [|d r]]; try discriminate.
    destruct c; [left | right; left]; reflexivity. }
  pose proof (NoDup_incl_length N In2) as R. rewrite map_length in R. exact R.
Qed.

Lemma self_bucket t : table_inv t -> bucket_of (id_key (t_self t)) (id_key (t_self t)) = 255.
Proof.
  intros I. unfold bucket_of, common_prefix.
  assert (L : forall l, lcp l l = length l) by (induction l as [|x l IH]; cbn; [reflexivity|]; rewrite eqb_reflx, IH; reflexivity).
  rewrite L, bits_length. pose proof (inv_self t I) as K. unfold key32 in K. rewrite K. reflexivity.
Qed.

Lemma full_not_last t id : table_inv t -> length (bucket_at t (bucket_of (id_key (t_self t)) id)) = BucketSize ->
  bucket_of (id_key (t_self t)) id <> 255.
Proof. intros I L E. rewrite E in L. pose proof (last_bucket_small t I). unfold BucketSize in L. lia. Qed.

(** ** Entries after a step *)

Definition ents (t : table) : list ID := concat (t_entries t).

Lemma ents_set t i b z x : table_inv t -> i < NumBuckets ->
  (forall e, In e b -> bucket_of (id_key (t_self t)) (id_key e) = i) ->
  (In x (ents (set_bucket t i b z)) <-> (if bucket_of (id_key (t_self t)) (id_key x) =? i then In x b else In x (ents t))).
Proof.
  intros I Hi Hb. unfold ents, set_bucket. cbn [t_entries].
  pose proof (inv_len t I) as L. destruct (nth_in_split (t_entries t) i [] ltac:(lia)) as (l1 & l2 & E & L1).
  assert (El : forall e j, In e (nth j (t_entries t) []) -> bucket_of (id_key (t_self t)) (id_key e) = j).
  { intros e j He. apply (inv_elem t I j e He). }
  assert (E1 : set_nth i b (t_entries t) = l1 ++ b :: l2).
  { rewrite E, <- L1. rewrite L1. rewrite <- L1 at 1. apply set_nth_split. }
  rewrite E1, concat_app, in_app_iff. cbn [concat]. rewrite in_app_iff.
  assert (O : In x (concat l1) \/ In x (concat l2) -> bucket_of (id_key (t_self t)) (id_key x) <> i /\ In x (concat (t_entries t))).
  { intros O. split.
    - intros C. destruct O as [O|O]; apply in_concat in O as (b' & Hb' & Hx); apply (In_nth _ _ []) in Hb' as (j & Hj & <-).
      + pose proof (El x j) as X. rewrite E in X. rewrite app_nth1 in X by lia. specialize (X Hx). lia.
      + pose proof (El x (length l1 + S j)) as X. rewrite E in X. rewrite app_nth2_plus in X. cbn [nth] in X. specialize (X Hx). lia.
    - rewrite E, concat_app. apply in_or_app. cbn [concat]. destruct O as [O|O]; [left; exact O|]. right. apply in_or_app. right. exact O. }
  destruct (Nat.eqb_spec (bucket_of (id_key (t_self t)) (id_key x)) i) as [Ex|Ex].
  - split; [|tauto]. intros [H|[H|H]]; [|exact H|]; exfalso; apply (proj1 (O ltac:(tauto))); exact Ex.
  - split.
    + intros [H|[H|H]]; [apply O; tauto | | apply O; tauto]. exfalso. apply Ex. apply Hb. exact H.
    + rewrite E, concat_app, in_app_iff. cbn [concat]. rewrite in_app_iff. intros [H|[H|H]]; [tauto| |tauto].
      exfalso. apply Ex. apply (El x i). exact H.
Qed.

Definition keys (t : table) : list bytes := map id_key (ents t).

Lemma in_keys t k : In k (keys t) <-> exists e, In e (ents t) /\ id_key e = k.
Proof. unfold keys. rewrite in_map_iff. split; intros (e & A & B); eauto. Qed.

Lemma bucket_elem t i e : table_inv t -> In e (bucket_at t i) -> bucket_of (id_key (t_self t)) (id_key e) = i.
Proof. intros I H. apply (inv_elem t I i e H). Qed.

(** The recorded keys after each table operation. *)
Lemma Update_keys t id t' b e k : table_inv t -> key32 (id_key id) -> Update t id = (t', (b, e)) ->
  (In k (keys t') <-> In k (keys t) \/ (b = true /\ k = id_key id)) /\
  (b = true -> e = None /\ ~ In (id_key id) (keys t)) /\ (e <> None -> b = false /\ ~ In (id_key id) (keys t)) /\
  (b = false -> e = None -> id_key id <> ZeroPublicKey -> In (id_key id) (keys t)).
Proof.
  intros I Hk U. set (i := bucket_of (id_key (t_self t)) (id_key id)).
  assert (Hi : i < NumBuckets) by apply bucket_of_lt.
  assert (NK : ~ In (id_key id) (map id_key (bucket_at t i)) -> ~ In (id_key id) (keys t)).
  { intros N C. apply N. apply in_keys in C as (x & Hx & Ex). rewrite <- Ex. apply in_map. apply in_entries in Hx; [|exact I].
    rewrite Ex in Hx. exact Hx. }
  pose proof (Update_cases t id I Hk) as UC. cbv zeta in UC. fold i in UC. rewrite U in UC.
  destruct UC as [(E & UC)|[(E & l1 & x & l2 & Eb & Ek & UC)|[(E & NI & L & UC)|(E & NI & L & UC)]]];
    assert (b = _) as -> by (injection UC; intros; eassumption); assert (e = _) as -> by (injection UC; intros; eassumption);
    assert (t' = _) as -> by (injection UC; intros; eassumption); clear UC U.
  - split; [|split; [discriminate|split; [congruence|congruence]]]. split; [tauto|]. intros [H|[H _]]; [exact H | discriminate].
  - split; [|split; [discriminate|split; [congruence|]]].
    + assert (X : forall y, In y (ents (set_bucket t i (x :: l1 ++ l2) (t_size t))) <-> In y (ents t)).
      { intros y. rewrite ents_set; auto.
        - destruct (Nat.eqb_spec (bucket_of (id_key (t_self t)) (id_key y)) i) as [Ey|Ey]; [|reflexivity].
          unfold ents. rewrite in_entries by exact I. rewrite Ey, Eb. cbn. rewrite !in_app_iff. cbn. tauto.
        - intros y' Hy. apply (bucket_elem t); auto. rewrite Eb. cbn in Hy. rewrite in_app_iff in *. cbn. tauto. }
      rewrite !in_keys. split.
      * intros (y & Hy & Ey). left. exists y. split; [apply X, Hy | exact Ey].
      * intros [(y & Hy & Ey)|[C _]]; [|discriminate]. exists y. split; [apply X, Hy | exact Ey].
    + intros _ _ _. rewrite <- Ek. apply in_map. apply in_entries; auto. rewrite Ek. fold i. rewrite Eb. apply in_or_app. right. left. reflexivity.
  - split; [|split; [auto|split; [congruence|discriminate]]].
    assert (X : forall y, In y (ents (set_bucket t i (id :: bucket_at t i) (t_size t + 1))) <-> y = id \/ In y (ents t)).
    { intros y. rewrite ents_set; auto.
      - destruct (Nat.eqb_spec (bucket_of (id_key (t_self t)) (id_key y)) i) as [Ey|Ey].
        + unfold ents. rewrite in_entries by exact I. rewrite Ey. cbn. intuition.
        + split; [auto|]. intros [-> |H]; [|exact H]. exfalso. apply Ey. reflexivity.
      - intros y' [<- |Hy]; [reflexivity|]. apply (bucket_elem t); auto. }
    rewrite !in_keys. split.
    + intros (y & Hy & Ey). apply X in Hy as [-> |Hy]; [right; auto | left; eauto].
    + intros [(y & Hy & Ey)|[_ ->]]; [exists y; split; [apply X; auto | exact Ey] | exists id; split; [apply X; auto | reflexivity]].
  - split; [|split; [discriminate|split; [auto|discriminate]]]. split; [tauto|]. intros [H|[H _]]; [exact H | discriminate].
Qed.

Lemma remove_keys t i l1 e l2 k : table_inv t -> i < NumBuckets -> bucket_at t i = l1 ++ e :: l2 ->
  (In k (keys (set_bucket t i (l1 ++ l2) (t_size t - 1))) <-> In k (keys t) /\ k <> id_key e).
Proof.
  intros I Hi E.
  assert (X : forall y, In y (ents (set_bucket t i (l1 ++ l2) (t_size t - 1))) <-> In y (ents t) /\ id_key y <> id_key e).
  { intros y. pose proof (inv_nodup t I i) as N. rewrite E, map_app in N. cbn [map] in N. apply NoDup_remove_2 in N.
    rewrite ents_set; auto.
    - destruct (Nat.eqb_spec (bucket_of (id_key (t_self t)) (id_key y)) i) as [Ey|Ey].
      + unfold ents. rewrite in_entries by exact I. rewrite Ey, E. rewrite !in_app_iff. cbn [In]. split.
        * intros H. split; [tauto|]. intros C. apply N. rewrite <- C, <- map_app. apply in_map. apply in_or_app. exact H.
        * intros [[H|[H|H]] C]; [tauto| |tauto]. subst y. congruence.
      + split; [|tauto]. intros H. split; [exact H|]. intros C. apply Ey. rewrite C. apply (bucket_elem t); auto. rewrite E. apply in_or_app. right. left. reflexivity.
    - intros y' Hy. apply (bucket_elem t); auto. rewrite E. rewrite in_app_iff in *. cbn. tauto. }
  rewrite !in_keys. split.
  - intros (y & Hy & <-). apply X in Hy as [Hy C]. split; [eauto | exact C].
  - intros [(y & Hy & <-) C]. exists y. split; [apply X; auto | reflexivity].
Qed.

Lemma Delete_keys t k0 t' e b k : table_inv t -> key32 k0 -> Delete t k0 = (t', (e, b)) ->
  if b then id_key e = k0 /\ In e (ents t) /\ (In k (keys t') <-> In k (keys t) /\ k <> id_key e) else t' = t /\ ~ In k0 (keys t).
Proof.
  intros I Hk D. destruct (Delete_cases t k0 I Hk) as [(l1 & x & l2 & Eb & Ek & D')|(NI & D')]; rewrite D in D'.
  - assert (b = true) as -> by congruence. assert (e = x) as -> by congruence. assert (t' = _) as -> by (injection D'; intros; eassumption).
    split; [exact Ek|]. split.
    + apply in_entries; auto. rewrite Ek, Eb. apply in_or_app. right. left. reflexivity.
    + apply remove_keys; auto. apply bucket_of_lt.
  - assert (b = false) as -> by congruence. split; [congruence|]. intros C. apply NI. apply in_keys in C as (x & Hx & <-).
    apply in_map. apply in_entries in Hx; auto.
Qed.

Lemma DeleteByAddress_keys t a t' e b k : table_inv t -> DeleteByAddress t a = (t', (e, b)) ->
  if b then id_addr e = a /\ In e (ents t) /\ (In k (keys t') <-> In k (keys t) /\ k <> id_key e) else t' = t /\ (forall x, In x (ents t) -> id_addr x <> a).
Proof.
  intros I D. destruct (DeleteByAddress_cases t a I) as [(bs1 & l1 & x & l2 & bs2 & E & Ea & Hf & D')|(H & D')]; rewrite D in D'.
  - assert (b = true) as -> by congruence. assert (e = x) as -> by congruence. assert (t' = _) as -> by (injection D'; intros; eassumption).
    pose proof (bucket_at_mid t bs1 _ bs2 E) as Bj.
    assert (Hin : In x (bucket_at t (length bs1))) by (rewrite Bj; apply in_or_app; right; left; reflexivity).
    split; [exact Ea|]. split.
    + apply in_entries; auto. rewrite (bucket_elem t _ x I Hin). exact Hin.
    + apply remove_keys; auto. pose proof (inv_len t I) as L. rewrite E, app_length in L. cbn [length] in L. lia.
  - assert (b = false) as -> by congruence. split; [congruence | exact H].
Qed.

(** ** Invariants of the goroutines *)

Fixpoint pc_wf (pc : kad_pc) : Prop :=
  match pc with
  | KUpdate id | KLast id => key32 (id_key id)
  | KPing id last | KDialFailed id last | KDelete id last => key32 (id_key id) /\ key32 (id_key last)
  | KEmit _ next => pc_wf next
  | KDelAddr _ | KDone => True
  end.

Lemma Last_in t k x : table_inv t -> key32 k -> Last t k = Ok x -> In x (bucket_at t (bucket_of (id_key (t_self t)) k)).
Proof.
  intros I Hk H. unfold Last in H. rewrite inv_bucket_index in H by assumption.
  destruct (bucket_at t _) as [|y b] using rev_ind; [discriminate|]. rewrite rev_app_distr in H. cbn in H.
  assert (x = y) as -> by congruence. apply in_or_app. right. left. reflexivity.
Qed.

Lemma kad_step_wf o t pc t' pc' ev : table_inv t -> pc_wf pc -> kad_step o t pc = Ok (t', pc', ev) ->
  table_inv t' /\ t_self t' = t_self t /\ pc_wf pc'.
Proof.
  intros I W H. assert (X : table_inv t' /\ t_self t' = t_self t) by (apply (kad_step_inv o t pc t' pc' ev I); [destruct pc; cbn in *; auto | exact H]).
  destruct X as [I' S']. split; [exact I'|]. split; [exact S'|]. destruct pc as [id|id|id last|id last|id last|addr|ev0 next|]; cbn [kad_step] in H.
  - destruct (Update t id) as [t1 [b [e|]]]; assert (pc' = _) as -> by (injection H; intros; symmetry; eassumption); cbn; auto.
  - destruct (Last t (id_key id)) eqn:E; cbn in H; try discriminate. assert (pc' = KPing id a) as -> by congruence.
    cbn. split; [exact W|]. apply Last_in in E; auto. apply (inv_elem t I) in E. tauto.
  - destruct o; assert (pc' = _) as -> by (injection H; intros; symmetry; eassumption); cbn; auto.
  - destruct (DeleteByAddress t _) as [t1 [b []]]; assert (pc' = _) as -> by (injection H; intros; symmetry; eassumption); cbn; auto.
  - destruct (Delete t _) as [t1 [b []]]; assert (pc' = _) as -> by (injection H; intros; symmetry; eassumption); cbn in *; tauto.
  - destruct (DeleteByAddress t _) as [t1 [b []]]; assert (pc' = _) as -> by (injection H; intros; symmetry; eassumption); cbn; auto.
  - assert (pc' = next) as -> by congruence. exact W.
  - assert (pc' = KDone) as -> by congruence. exact Logic.I.
Qed.

(** Goroutines that will not remove the entry [self], which no other peer shares an address with. *)
Fixpoint pc_safe (self : ID) (pc : kad_pc) : Prop :=
  match pc with
  | KUpdate id => id_addr id = id_addr self -> id_key id = id_key self
  | KLast id => (id_addr id = id_addr self -> id_key id = id_key self) /\ bucket_of (id_key self) (id_key id) <> 255
  | KPing id last | KDialFailed id last | KDelete id last =>
      (id_addr id = id_addr self -> id_key id = id_key self) /\ id_key last <> id_key self /\ id_addr last <> id_addr self
  | KDelAddr a => a <> id_addr self
  | KEmit _ next => pc_safe self next
  | KDone => True
  end.

Definition self_safe (t : table) : Prop :=
  In (t_self t) (ents t) /\ forall e, In e (ents t) -> id_addr e = id_addr (t_self t) -> e = t_self t.

Lemma in_unique_key t x y : table_inv t -> In x (ents t) -> In y (ents t) -> id_key x = id_key y -> x = y.
Proof.
  intros I Hx Hy E. pose proof (entries_nodup t I) as N. fold (ents t) in N.
  induction (ents t) as [|z l IH]; [destruct Hx|]. cbn [map] in N. inversion N as [|? ? N1 N2]; subst.
  destruct Hx as [-> |Hx], Hy as [-> |Hy]; auto.
  - exfalso. apply N1. rewrite E. apply in_map. exact Hy.
  - exfalso. apply N1. rewrite <- E. apply in_map. exact Hx.
Qed.

(** Entries (not only keys) after each operation. *)
Lemma Update_ents t id t' b e x : table_inv t -> key32 (id_key id) -> Update t id = (t', (b, e)) ->
  In x (ents t') <-> In x (ents t) \/ (b = true /\ x = id).
Proof.
  intros I Hk U. pose proof (Update_inv t id I Hk) as [I' S']. rewrite U in I', S'. cbn [fst] in I', S'.
  set (i := bucket_of (id_key (t_self t)) (id_key id)).
  assert (Hi : i < NumBuckets) by apply bucket_of_lt.
  pose proof (Update_cases t id I Hk) as UC. cbv zeta in UC. fold i in UC. rewrite U in UC.
  destruct UC as [(E & UC)|[(E & l1 & y & l2 & Eb & Ek & UC)|[(E & NI & L & UC)|(E & NI & L & UC)]]];
    assert (b = _) as -> by (injection UC; intros; eassumption);
    assert (t' = _) as -> by (injection UC; intros; eassumption); clear UC U.
  - intuition; discriminate.
  - rewrite ents_set; auto.
    + destruct (Nat.eqb_spec (bucket_of (id_key (t_self t)) (id_key x)) i) as [Ey|Ey].
      * unfold ents. rewrite in_entries by exact I. rewrite Ey, Eb. cbn. rewrite !in_app_iff. cbn. intuition; discriminate.
      * intuition; discriminate.
    + intros z Hz. apply (bucket_elem t); auto. rewrite Eb. cbn in Hz. rewrite in_app_iff in *. cbn. tauto.
  - rewrite ents_set; auto.
    + destruct (Nat.eqb_spec (bucket_of (id_key (t_self t)) (id_key x)) i) as [Ey|Ey].
      * unfold ents. rewrite in_entries by exact I. rewrite Ey. cbn. intuition.
      * split; [auto|]. intros [H|[_ ->]]; [exact H|]. exfalso. apply Ey. reflexivity.
    + intros z [<- |Hz]; [reflexivity|]. apply (bucket_elem t); auto.
  - intuition; discriminate.
Qed.

Lemma remove_ents t i l1 e l2 x : table_inv t -> i < NumBuckets -> bucket_at t i = l1 ++ e :: l2 ->
  In x (ents (set_bucket t i (l1 ++ l2) (t_size t - 1))) <-> In x (ents t) /\ id_key x <> id_key e.
Proof.
  intros I Hi E. pose proof (inv_nodup t I i) as N. rewrite E, map_app in N. cbn [map] in N. apply NoDup_remove_2 in N.
  rewrite ents_set; auto.
  - destruct (Nat.eqb_spec (bucket_of (id_key (t_self t)) (id_key x)) i) as [Ey|Ey].
    + unfold ents. rewrite in_entries by exact I. rewrite Ey, E. rewrite !in_app_iff. cbn [In]. split.
      * intros H. split; [tauto|]. intros C. apply N. rewrite <- C, <- map_app. apply in_map. apply in_or_app. exact H.
      * intros [[H|[H|H]] C]; [tauto| |tauto]. subst x. congruence.
    + split; [|tauto]. intros H. split; [exact H|]. intros C. apply Ey. rewrite C. apply (bucket_elem t); auto. rewrite E. apply in_or_app. right. left. reflexivity.
  - intros y' Hy. apply (bucket_elem t); auto. rewrite E. rewrite in_app_iff in *. cbn. tauto.
Qed.

Lemma Delete_ents t k0 t' e b x : table_inv t -> key32 k0 -> Delete t k0 = (t', (e, b)) ->
  In x (ents t') <-> In x (ents t) /\ id_key x <> k0.
Proof.
  intros I Hk D. destruct (Delete_cases t k0 I Hk) as [(l1 & y & l2 & Eb & Ek & D')|(NI & D')]; rewrite D in D'.
  - assert (t' = _) as -> by (injection D'; intros; eassumption). rewrite (remove_ents t _ l1 y l2 x I) by (exact Eb || apply bucket_of_lt).
    rewrite Ek. reflexivity.
  - assert (t' = t) as -> by congruence. split; [|tauto]. intros H. split; [exact H|]. intros <-. apply NI. apply in_map.
    apply in_entries in H; auto.
Qed.

Lemma DeleteByAddress_ents t a t' e b x : table_inv t -> DeleteByAddress t a = (t', (e, b)) ->
  In x (ents t') -> In x (ents t).
Proof.
  intros I D. destruct (DeleteByAddress_cases t a I) as [(bs1 & l1 & y & l2 & bs2 & E & Ea & Hf & D')|(H & D')]; rewrite D in D'.
  - assert (t' = _) as -> by (injection D'; intros; eassumption).
    pose proof (bucket_at_mid t bs1 _ bs2 E) as Bj.
    rewrite (remove_ents t _ l1 y l2 x I); [tauto| |exact Bj]. pose proof (inv_len t I) as L. rewrite E, app_length in L. cbn [length] in L. lia.
  - assert (t' = t) as -> by congruence. tauto.
Qed.
Lemma DeleteByAddress_ents_keep t a t' e b x : table_inv t -> DeleteByAddress t a = (t', (e, b)) ->
  In x (ents t) -> id_addr x <> a -> In x (ents t').
Proof.
  intros I D. destruct (DeleteByAddress_cases t a I) as [(bs1 & l1 & y & l2 & bs2 & E & Ea & Hf & D')|(H & D')]; rewrite D in D'.
  - assert (t' = _) as -> by (injection D'; intros; eassumption).
    pose proof (bucket_at_mid t bs1 _ bs2 E) as Bj. intros Hx Hn.
    assert (Hl : length bs1 < NumBuckets) by (pose proof (inv_len t I) as L; rewrite E, app_length in L; cbn [length] in L; lia).
    assert (Hy : In y (ents t)).
    { assert (In y (bucket_at t (length bs1))) as Q by (rewrite Bj; apply in_or_app; right; left; reflexivity).
      apply in_entries; auto. rewrite (bucket_elem t _ y I Q). exact Q. }
    rewrite (remove_ents t _ l1 y l2 x I) by assumption. split; [exact Hx|]. intros Ek. apply Hn. rewrite (in_unique_key t x y I Hx Hy Ek). exact Ea.
  - assert (t' = t) as -> by congruence. tauto.
Qed.

Lemma kad_step_safe o t pc t' pc' ev : table_inv t -> pc_wf pc -> self_safe t -> pc_safe (t_self t) pc ->
  kad_step o t pc = Ok (t', pc', ev) -> self_safe t' /\ pc_safe (t_self t') pc'.
Proof.
  intros I W [Hs Hu] P H. destruct (kad_step_wf o t pc t' pc' ev I W H) as (I' & S' & _). unfold self_safe. rewrite S'.
  set (self := t_self t) in *. destruct pc as [id|id|id last|id last|id last|addr|ev0 next|]; cbn [kad_step] in H; cbn [pc_safe pc_wf] in P, W.
  - destruct (Update t id) as [t1 [b oe]] eqn:U. assert (t' = t1) as -> by (destruct oe; congruence).
    pose proof (fun x => Update_ents t id t1 b oe x I W U) as UE.
    pose proof (Update_keys t id t1 b oe (id_key self) I W U) as (_ & UK & UF & _).
    split; [split; [apply UE; auto|]|].
    + intros e He Ea. apply UE in He as [He|[-> ->]]; [auto|]. exfalso. destruct (UK eq_refl) as [_ NI]. apply NI. rewrite (P Ea).
      apply in_keys. exists self. auto.
    + destruct oe as [oe|].
      * assert (pc' = KLast id) as -> by congruence. cbn. split; [exact P|].
        pose proof (Update_cases t id I W) as UC. cbv zeta in UC. fold self in UC. rewrite U in UC.
        destruct UC as [(_ & UC)|[(_ & l1 & x & l2 & _ & _ & UC)|[(_ & _ & _ & UC)|(_ & _ & L & UC)]]]; try discriminate.
        apply full_not_last; assumption.
      * assert (pc' = _) as -> by (injection H; intros; symmetry; eassumption). destruct b; exact Logic.I.
  - destruct (Last t (id_key id)) as [x| |] eqn:E; cbn in H; try discriminate. assert (t' = t) as -> by congruence.
    assert (pc' = KPing id x) as -> by congruence. split; [auto|]. cbn. split; [apply P|].
    apply Last_in in E; auto. fold self in E. pose proof (bucket_elem t _ x I E) as Bx. fold self in Bx.
    assert (Nk : id_key x <> id_key self).
    { intros C. apply (proj2 P). rewrite <- Bx, C. apply (self_bucket t I). }
    split; [exact Nk|]. intros C. apply Nk. f_equal. apply Hu; [|exact C]. apply in_entries; auto. fold self. rewrite Bx. exact E.
  - assert (t' = t) as -> by (destruct o; congruence). split; [auto|]. destruct o; assert (pc' = _) as -> by (injection H; intros; symmetry; eassumption); cbn; auto.
  - destruct (DeleteByAddress t (id_addr last)) as [t1 [e b]] eqn:D. assert (t' = t1) as -> by (destruct b; congruence).
    split; [split|].
    + apply (DeleteByAddress_ents_keep t (id_addr last) t1 e b self I D Hs). intros C. apply (proj2 (proj2 P)). symmetry. exact C.
    + intros x Hx. apply Hu. eapply DeleteByAddress_ents; eauto.
    + destruct b; assert (pc' = _) as -> by (injection H; intros; symmetry; eassumption); cbn; tauto.
  - destruct W as [W1 W2]. destruct (Delete t (id_key last)) as [t1 [e b]] eqn:D. assert (t' = t1) as -> by (destruct b; congruence).
    pose proof (fun x => Delete_ents t _ t1 e b x I W2 D) as DE. split; [split|].
    + apply DE. split; [exact Hs|]. intros C. apply (proj1 (proj2 P)). symmetry. exact C.
    + intros x Hx. apply Hu. apply DE. exact Hx.
    + destruct b; assert (pc' = _) as -> by (injection H; intros; symmetry; eassumption); cbn; tauto.
  - destruct (DeleteByAddress t addr) as [t1 [e b]] eqn:D. assert (t' = t1) as -> by (destruct b; congruence).
    split; [split|].
    + apply (DeleteByAddress_ents_keep t addr t1 e b self I D Hs). intros C. apply P. symmetry. exact C.
    + intros x Hx. apply Hu. eapply DeleteByAddress_ents; eauto.
    + destruct b; assert (pc' = _) as -> by (injection H; intros; symmetry; eassumption); exact Logic.I.
  - assert (t' = t) as -> by congruence. assert (pc' = next) as -> by congruence. auto.
  - assert (t' = t) as -> by congruence. assert (pc' = KDone) as -> by congruence. cbn. auto.
Qed.

Lemma Forall_set_nth {A} (P : A -> Prop) l : forall i x, Forall P l -> P x -> Forall P (set_nth i x l).
Proof.
  induction l as [|y l IH]; intros i x H Hx; destruct i; cbn; auto; inversion H; subst; constructor; auto.
Qed.

Lemma kad_run_safe self acts : forall s s',
  table_inv (ks_table s) -> t_self (ks_table s) = self -> self_safe (ks_table s) ->
  Forall pc_wf (ks_threads s) -> Forall (pc_safe self) (ks_threads s) ->
  Forall (fun a => match a with
     | KAck id => key32 (id_key id) /\ (id_addr id = id_addr self -> id_key id = id_key self)
     | KPingFailed a => a <> id_addr self | KStep _ _ => True end) acts ->
  kad_run s acts = Ok s' -> In self (ents (ks_table s')) /\ table_inv (ks_table s').
Proof.
  induction acts as [|a acts IH]; intros s s' I Es Ss Fw Fs Fa H.
  - cbn in H. assert (s' = s) as -> by congruence. split; [|exact I]. rewrite <- Es. apply Ss.
  - inversion Fa as [|? ? Ha Fa']; subst. cbn [kad_run] in H. destruct (kad_act s a) as [s1| |] eqn:E; cbn [bind] in H; try discriminate.
    destruct a as [i o|id|ad]; cbn [kad_act] in E.
    + destruct (nth_error (ks_threads s) i) as [pc|] eqn:Ei; [|assert (s1 = s) as -> by congruence; eapply IH; eauto].
      apply nth_error_In in Ei. rewrite Forall_forall in Fw, Fs. pose proof (Fw _ Ei) as W. pose proof (Fs _ Ei) as P.
      destruct (kad_step o (ks_table s) pc) as [[[t' pc'] ev]| |] eqn:K; cbn [bind] in E; try discriminate.
      injection E as E. subst s1.
      destruct (kad_step_wf _ _ _ _ _ _ I W K) as (I' & S' & W'). destruct (kad_step_safe _ _ _ _ _ _ I W Ss P K) as (Ss' & P').
      rewrite S' in P'. eapply IH; [| | | | | |exact H]; cbn; auto.
      * apply Forall_set_nth; [apply Forall_forall; exact Fw | exact W'].
      * apply Forall_set_nth; [apply Forall_forall; exact Fs | exact P'].
    + injection E as E. subst s1. eapply IH; [| | | | | |exact H]; cbn; auto.
      * apply Forall_app. split; [exact Fw|]. constructor; [apply Ha | constructor].
      * apply Forall_app. split; [exact Fs|]. constructor; [exact (proj2 Ha) | constructor].
    + injection E as E. subst s1. eapply IH; [| | | | | |exact H]; cbn; auto.
      * apply Forall_app. split; [exact Fw|]. constructor; [exact Logic.I | constructor].
      * apply Forall_app. split; [exact Fs|]. constructor; [apply Ha | constructor].
Qed.

(** ** Events against the recorded keys, one goroutine at a time *)

(** The set of peers a listener believes recorded after the events. *)
Fixpoint replay (known : list bytes) (evs : list kad_event) : list bytes :=
  match evs with
  | [] => known
  | Admitted id :: r => replay (id_key id :: known) r
  | Activity _ :: r => replay known r
  | Evicted id :: r => replay (filter (fun k => negb (bytes_eqb k (id_key id))) known) r
  end.

Lemma replay_app evs : forall known evs', replay known (evs ++ evs') = replay (replay known evs) evs'.
Proof. induction evs as [|[id|id|id] evs IH]; intros known evs'; cbn; auto. Qed.

Fixpoint sync (t : table) (known : list bytes) (pc : kad_pc) : Prop :=
  match pc with
  | KEmit ev next => sync t (replay known [ev]) next
  | KLast id | KPing id _ =>
      (forall k, k <> id_key (t_self t) -> (In k known <-> In k (keys t))) /\ ~ In (id_key id) (keys t)
  | _ => forall k, k <> id_key (t_self t) -> (In k known <-> In k (keys t))
  end.

Lemma in_evict k id known : In k (replay known [Evicted id]) <-> In k known /\ k <> id_key id.
Proof. cbn. rewrite filter_In. destruct (bytes_eqb_spec k (id_key id)) as [E|E]; cbn; intuition; discriminate. Qed.

Lemma sync_step o t pc t' pc' ev known : table_inv t -> pc_wf pc -> sync t known pc ->
  kad_step o t pc = Ok (t', pc', ev) -> sync t' (replay known (emit [] ev)) pc'.
Proof.
  intros I W Y H. destruct (kad_step_wf o t pc t' pc' ev I W H) as (I' & S' & _).
  destruct pc as [id|id|id last|id last|id last|addr|ev0 next|]; cbn [kad_step] in H; cbn [pc_wf] in W; cbn [sync] in Y.
  - destruct (Update t id) as [t1 [b oe]] eqn:U. assert (t' = t1) as -> by (destruct oe; congruence).
    pose proof (fun k => Update_keys t id t1 b oe k I W U) as UK.
    destruct oe as [oe|].
    + assert (ev = None) as -> by congruence. assert (pc' = KLast id) as -> by congruence. cbn [emit replay sync].
      destruct (UK (id_key id)) as (_ & _ & UF & _). destruct (UF ltac:(discriminate)) as [-> NI]. split.
      * intros k Hk. rewrite S' in Hk. rewrite (Y k Hk). destruct (UK k) as (-> & _). intuition; discriminate.
      * destruct (UK (id_key id)) as (-> & _). intuition; discriminate.
    + assert (ev = None) as -> by congruence. assert (pc' = _) as -> by (injection H; intros; symmetry; eassumption).
      cbn [emit replay sync]. destruct b; cbn [replay sync]; intros k Hk; rewrite S' in Hk; destruct (UK k) as (-> & _).
      * cbn. rewrite (Y k Hk). intuition.
      * rewrite (Y k Hk). intuition; discriminate.
  - destruct (Last t (id_key id)) as [x| |] eqn:E; cbn in H; try discriminate. assert (t' = t) as -> by congruence.
    assert (pc' = KPing id x) as -> by congruence. assert (ev = None) as -> by congruence. exact Y.
  - assert (t' = t) as -> by (destruct o; congruence). assert (ev = None) as -> by (destruct o; congruence). destruct Y as [Y NI].
    destruct o; assert (pc' = _) as -> by (injection H; intros; symmetry; eassumption); cbn [emit sync]; auto.
    intros k Hk. cbn [replay]. pose proof (in_evict k id known) as V. cbn [replay] in V. rewrite V, (Y k Hk). split; [tauto|]. intros Q. split; [exact Q|]. intros ->. auto.
  - destruct (DeleteByAddress t (id_addr last)) as [t1 [e b]] eqn:D. assert (t' = t1) as -> by (destruct b; congruence).
    pose proof (fun k => DeleteByAddress_keys t _ t1 e b k I D) as DK.
    assert (ev = None) as -> by (destruct b; congruence).
    destruct b; assert (pc' = _) as -> by (injection H; intros; symmetry; eassumption); cbn [emit sync]; intros k Hk; rewrite S' in Hk.
    + rewrite in_evict. destruct (DK k) as (_ & _ & ->). cbn. rewrite (Y k Hk). reflexivity.
    + destruct (DK k) as (-> & _). apply Y. exact Hk.
  - destruct (Delete t (id_key last)) as [t1 [e b]] eqn:D. assert (t' = t1) as -> by (destruct b; congruence).
    pose proof (fun k => Delete_keys t _ t1 e b k I (proj2 W) D) as DK.
    assert (ev = None) as -> by (destruct b; congruence).
    destruct b; assert (pc' = _) as -> by (injection H; intros; symmetry; eassumption); cbn [emit sync]; intros k Hk; rewrite S' in Hk.
    + rewrite in_evict. destruct (DK k) as (_ & _ & ->). cbn. rewrite (Y k Hk). reflexivity.
    + destruct (DK k) as (-> & _). apply Y. exact Hk.
  - destruct (DeleteByAddress t addr) as [t1 [e b]] eqn:D. assert (t' = t1) as -> by (destruct b; congruence).
    pose proof (fun k => DeleteByAddress_keys t _ t1 e b k I D) as DK.
    assert (ev = None) as -> by (destruct b; congruence).
    destruct b; assert (pc' = _) as -> by (injection H; intros; symmetry; eassumption); cbn [emit sync]; intros k Hk; rewrite S' in Hk.
    + rewrite in_evict. destruct (DK k) as (_ & _ & ->). cbn. rewrite (Y k Hk). reflexivity.
    + destruct (DK k) as (-> & _). apply Y. exact Hk.
  - assert (t' = t) as -> by congruence. assert (pc' = next) as -> by congruence. assert (ev = Some ev0) as -> by congruence. exact Y.
  - assert (t' = t) as -> by congruence. assert (pc' = KDone) as -> by congruence. assert (ev = None) as -> by congruence. exact Y.
Qed.

Lemma emit_app log ev : emit log ev = log ++ emit [] ev.
Proof. destruct ev; cbn; [reflexivity | rewrite app_nil_r; reflexivity]. Qed.

Lemma sync_call ping n : forall t pc log t' log' known, table_inv t -> pc_wf pc -> sync t (replay known log) pc ->
  call_run ping n t pc log = Ok (t', KDone, log') ->
  table_inv t' /\ t_self t' = t_self t /\ forall k, k <> id_key (t_self t) -> (In k (replay known log') <-> In k (keys t')).
Proof.
  induction n as [|n IH]; intros t pc log t' log' known I W Y H; cbn [call_run] in H.
  - assert (t' = t) as -> by congruence. assert (log' = log) as -> by congruence. assert (pc = KDone) as -> by congruence. auto.
  - destruct (kad_step _ t pc) as [[[t1 pc1] ev]| |] eqn:E; cbn [bind] in H; try discriminate.
    destruct (kad_step_wf _ _ _ _ _ _ I W E) as (I1 & S1 & W1). rewrite <- S1. eapply IH; [exact I1|exact W1| |exact H].
    rewrite emit_app, replay_app. exact (sync_step _ t pc t1 pc1 ev _ I W Y E).
Qed.
