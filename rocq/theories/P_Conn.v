(** * Invariants of requests on one connection *)
From Verif Require Import Base M_Table P_Table M_Maps P_Iter M_Gossip P_Gossip P_GossipNet Props_Maps M_Conn.
Local Open Scope nat_scope.

Lemma krun_inv (P : kstate -> Prop) : (forall s a s', P s -> kstep s a = Some s' -> P s') -> forall l s s', P s -> krun s l = Some s' -> P s'.
Proof.
  intros St. induction l as [|a l IH]; cbn; intros s s' H R; [injection R as <-; exact H|].
  destruct (kstep s a) as [s1|] eqn:E; [|discriminate]. apply (IH s1 s'); [apply (St s a s1 H E)|exact R].
Qed.
Lemma krun_app l1 l2 : forall s, krun s (l1 ++ l2) = match krun s l1 with Some s' => krun s' l2 | None => None end.
Proof. induction l1 as [|a l1 IH]; intros s; cbn; [reflexivity|]. destruct (kstep s a); [apply IH|reflexivity]. Qed.

Lemma nth_error_set {A} (l : list A) : forall i x y j, nth_error l i = Some y -> nth_error (set_nth i x l) j = if j =? i then Some x else nth_error l j.
Proof.
  induction l as [|a l IH]; intros [|i] x y j H; cbn in H; try discriminate.
  - destruct j; reflexivity.
  - destruct j; [reflexivity|]. cbn [set_nth nth_error]. rewrite (IH i x y j H). reflexivity.
Qed.
Lemma nth_error_snoc {A} (l : list A) x j y : nth_error (l ++ [x]) j = Some y -> nth_error l j = Some y \/ (j = length l /\ y = x).
Proof.
  intros H. destruct (Nat.lt_ge_cases j (length l)) as [L|L].
  - rewrite nth_error_app1 in H by exact L. auto.
  - rewrite nth_error_app2 in H by exact L. destruct (j - length l) as [|k] eqn:E; cbn in H; [injection H as <-; right; split; [lia|reflexivity]|destruct k; discriminate].
Qed.
Lemma nth_error_keep {A} (l : list A) x j y : nth_error l j = Some y -> nth_error (l ++ [x]) j = Some y.
Proof. intros H. rewrite nth_error_app1; [exact H|]. apply nth_error_Some. congruence. Qed.

Definition tg (i : nat) (m : kmsg) : bool := match km_tag m with Some j => j =? i | None => false end.
Definition pcn (p : rqpc) : nat := match p with RqStart | RqSend => 1 | _ => 0 end.
Definition given (i : nat) (k : kreader) : nat := match k with KGive _ m => Nat.b2n (tg i m) | _ => 0 end.
Definition closing (ch : nat) (k : kreader) : nat := match k with KClose c => Nat.b2n (c =? ch) | _ => 0 end.
Definition tga (i : nat) (e : nat * nat) : bool := fst e =? i.

(** Where the single token of a call with channel [ch] and nonce [n] is. *)
Definition rinv (s : kstate) (i : nat) (r : rq) : Prop :=
  let flying := cntb (tg i) (k_out s) + cntb (tg i) (k_pend s) + cntb (tg i) (k_in s) in
  let p := pcn (rq_pc r) in
  match rq_slot r with
  | None => (rq_pc r = RqStart \/ rq_pc r = RqDone RNoNonce) /\ flying = 0 /\ given i (k_reader s) = 0 /\ cntb (tga i) (k_answers s) = 0
  | Some (ch, n) =>
      n <> 0%N /\ rq_pc r <> RqStart /\ rq_pc r <> RqDone REof /\ rq_pc r <> RqDone RNoNonce /\
      exists b c, nth_error (k_chans s) ch = Some (mkChan b c) /\
        p + flying + given i (k_reader s) + closing ch (k_reader s) + Nat.b2n c = 1 /\
        (1 <= p + flying -> rm_get n (rm_entries (k_map s)) = Some ch) /\
        (1 <= p + flying + given i (k_reader s) -> b = None) /\
        (forall m, b = Some m -> km_tag m = Some i /\ km_nonce m = n /\ In (i, km_data m) (k_answers s)) /\
        (rq_pc r = RqWait -> flying + given i (k_reader s) = 0 -> b <> None) /\
        cntb (tga i) (k_answers s) + p + cntb (tg i) (k_out s) + cntb (tg i) (k_pend s) = 1 /\
        (forall d, rq_pc r = RqDone (RData d) -> In (i, d) (k_answers s))
  end.

Definition owned (s : kstate) (i : nat) (m : kmsg) (ch : nat) : Prop :=
  exists r, nth_error (k_reqs s) i = Some r /\ rq_slot r = Some (ch, km_nonce m) /\ pcn (rq_pc r) = 0.
(** Messages in flight. *)
Definition minv (s : kstate) : Prop :=
  (forall m, In m (k_out s) \/ In m (k_pend s) \/ In m (k_in s) ->
     match km_tag m with None => km_nonce m = 0%N | Some i => exists ch, owned s i m ch end) /\
  (forall m i, In m (k_in s) -> km_tag m = Some i -> In (i, km_data m) (k_answers s)) /\
  match k_reader s with
  | KGive ch m => exists i, km_tag m = Some i /\ owned s i m ch /\ In (i, km_data m) (k_answers s)
  | KClose ch => exists i r n, nth_error (k_reqs s) i = Some r /\ rq_slot r = Some (ch, n)
  | KWork m => km_tag m = None
  | _ => True
  end.

Definition uniq (s : kstate) : Prop := forall i j r r' ch n n',
  nth_error (k_reqs s) i = Some r -> nth_error (k_reqs s) j = Some r' -> rq_slot r = Some (ch, n) -> rq_slot r' = Some (ch, n') -> i = j.

Definition mapinv (r : reqmap) : Prop := (rm_nonce r < 2 ^ 64)%N /\ rm_get 0 (rm_entries r) = None.
Definition kinv (s : kstate) : Prop :=
  (forall i r, nth_error (k_reqs s) i = Some r -> rinv s i r) /\ minv s /\ uniq s /\
  mapinv (k_map s) /\ length (k_chans s) = rm_made (k_map s) /\ k_panic s = false /\ (forall m, In m (k_work s) -> km_tag m = None) /\
  (forall m i, In m (k_out s ++ k_pend s ++ k_in s) -> km_tag m = Some i -> i < length (k_reqs s)) /\
  (forall e, In e (k_answers s) -> fst e < length (k_reqs s)) /\
  (forall ch m, k_reader s = KGive ch m -> forall i, km_tag m = Some i -> i < length (k_reqs s)).

Lemma kinv_start : kinv k_start.
Proof.
  split; [intros [|i] r H; discriminate|]. split; [split; [cbn; tauto|split; [cbn; tauto|exact I]]|].
  split; [intros [|i] j r r' ch n n' H; discriminate|]. repeat split; cbn; try tauto; try discriminate.
Qed.

Lemma tg_refl i m : km_tag m = Some i -> tg i m = true.
Proof. unfold tg. intros ->. apply Nat.eqb_refl. Qed.
Lemma tg_iff i m : tg i m = true -> km_tag m = Some i.
Proof. unfold tg. destruct (km_tag m) as [j|]; [|discriminate]. intros H. apply Nat.eqb_eq in H. congruence. Qed.
Lemma cntb_one {A} (p : A -> bool) x : cntb p [x] = Nat.b2n (p x).
Proof. unfold cntb. cbn. lia. Qed.
Lemma cntb_cons {A} (p : A -> bool) x l : cntb p (x :: l) = Nat.b2n (p x) + cntb p l.
Proof. reflexivity. Qed.

Lemma nextNonce_spec r r' o : (rm_nonce r < 2 ^ 64)%N -> nextNonce r = (r', o) ->
  (rm_nonce r' < 2 ^ 64)%N /\
  match o with
  | None => rm_entries r' = rm_entries r /\ rm_made r' = rm_made r
  | Some (ch, n) => ch = rm_made r /\ rm_made r' = S (rm_made r) /\ n <> 0%N /\ rm_get n (rm_entries r) = None /\ rm_entries r' = (n, ch) :: rm_entries r
  end.
Proof.
  intros B. unfold nextNonce.
  set (n0 := if N.eqb (rm_nonce r) MaxUint64 then 0%N else rm_nonce r).
  assert (B0 : (n0 + 1 < 2 ^ 64)%N).
  { unfold n0. destruct (N.eqb_spec (rm_nonce r) MaxUint64) as [|E]; [reflexivity|]. unfold MaxUint64 in E. change (2 ^ 64)%N with 18446744073709551616%N in *. lia. }
  assert (En : ((n0 + 1) mod 2 ^ 64 = n0 + 1)%N) by (apply N.mod_small, B0).
  rewrite En. clearbody n0. set (n := (n0 + 1)%N) in *. assert (n <> 0%N) by (unfold n; lia). clearbody n.
  destruct (rm_get n (rm_entries r)) eqn:G; intros H'; injection H' as <- <-; cbn; auto.
  repeat split; auto.
Qed.
Lemma findRequest_spec r n r' o : findRequest r n = (r', o) ->
  o = rm_get n (rm_entries r) /\ rm_nonce r' = rm_nonce r /\ rm_made r' = rm_made r /\
  forall k, rm_get k (rm_entries r') = match o with Some _ => if N.eqb k n then None else rm_get k (rm_entries r) | None => rm_get k (rm_entries r) end.
Proof.
  unfold findRequest. destruct (rm_get n (rm_entries r)) as [ch|] eqn:E; intros H; injection H as <- <-; cbn; repeat split; auto. intros k. apply rm_get_del.
Qed.

Ltac kproj := cbn [k_map k_reqs k_chans k_reader k_out k_pend k_in k_panic k_work k_answers] in *; unfold set_rq in *.

Lemma uniq_set s i r r' reqs' : uniq s -> nth_error (k_reqs s) i = Some r -> reqs' = set_nth i r' (k_reqs s) -> rq_slot r' = rq_slot r ->
  forall a b q q' ch n n', nth_error reqs' a = Some q -> nth_error reqs' b = Some q' -> rq_slot q = Some (ch, n) -> rq_slot q' = Some (ch, n') -> a = b.
Proof.
  intros U H -> E a b q q' ch n n' A B Qa Qb. rewrite (nth_error_set _ _ _ _ a H) in A. rewrite (nth_error_set _ _ _ _ b H) in B.
  destruct (Nat.eqb_spec a i) as [->|Na], (Nat.eqb_spec b i) as [->|Nb]; auto.
  - injection A as <-. rewrite E in Qa. exact (U i b r q' ch n n' H B Qa Qb).
  - injection B as <-. rewrite E in Qb. exact (U a i q r ch n n' A H Qa Qb).
  - exact (U a b q q' ch n n' A B Qa Qb).
Qed.
Lemma owned_set s s' i r r' m j ch : nth_error (k_reqs s) i = Some r -> k_reqs s' = set_nth i r' (k_reqs s) -> rq_slot r' = rq_slot r -> (pcn (rq_pc r) = 0 -> pcn (rq_pc r') = 0) ->
  owned s j m ch -> owned s' j m ch.
Proof.
  intros H E Es Ep (q & Hq & Sl & P). unfold owned. rewrite E. destruct (Nat.eq_dec j i) as [->|N].
  - exists r'. rewrite (nth_error_set _ _ _ _ i H), Nat.eqb_refl. assert (q = r) as -> by congruence. rewrite Es. auto.
  - exists q. rewrite (nth_error_set _ _ _ _ j H). apply Nat.eqb_neq in N. rewrite N. auto.
Qed.

Lemma call_step s d s' : kinv s -> kstep s (KCall d) = Some s' -> kinv s'.
Proof.
  intros (R & (M1 & M2 & M3) & U & N & L & P & W & B1 & B2 & B3) E. cbn in E. injection E as <-.
  assert (Ow : forall i m ch, owned s i m ch -> owned (mkK (k_map s) (k_reqs s ++ [mkRq d RqStart None]) (k_chans s) (k_reader s) (k_out s) (k_pend s) (k_in s) (k_panic s) (k_work s) (k_answers s)) i m ch).
  { intros i m ch (q & H & X). exists q. split; [kproj; apply nth_error_keep, H|exact X]. }
  unfold kinv, minv, uniq; kproj. repeat split; auto; try apply N.
  - intros i r H. apply nth_error_snoc in H as [H|[-> ->]]; [exact (R i r H)|].
    unfold rinv. cbn [rq_slot rq_pc pcn]; kproj. split; [auto|].
    assert (Z : forall l, (forall m, In m l -> In m (k_out s ++ k_pend s ++ k_in s)) -> cntb (tg (length (k_reqs s))) l = 0).
    { intros l Hl. apply cntb_zero. intros m Hm. destruct (tg _ m) eqn:T; [|reflexivity]. apply tg_iff in T. specialize (B1 m _ (Hl m Hm) T). lia. }
    rewrite !Z by (intros m Hm; rewrite !in_app_iff; auto). split; [reflexivity|]. split.
    + destruct (k_reader s) as [|ch m| | |] eqn:K; cbn; try reflexivity. destruct (tg _ m) eqn:T; [|reflexivity]. apply tg_iff in T. specialize (B3 ch m eq_refl _ T). lia.
    + apply cntb_zero. intros e He. specialize (B2 e He). unfold tga. apply Nat.eqb_neq. lia.
  - intros m H. specialize (M1 m H). destruct (km_tag m); [|exact M1]. destruct M1 as (ch & M1). exists ch. auto.
  - destruct (k_reader s) as [|ch m|ch|m|]; auto.
    + destruct M3 as (i & T & O & A). exists i. auto.
    + destruct M3 as (i & r & n & H & X). exists i, r, n. split; [apply nth_error_keep, H|exact X].
  - intros i j r r' ch n n' A B Sa Sb. apply nth_error_snoc in A as [A|[-> ->]]; [|discriminate]. apply nth_error_snoc in B as [B|[-> ->]]; [|discriminate].
    exact (U i j r r' ch n n' A B Sa Sb).
  - intros m i H T. rewrite app_length. specialize (B1 m i H T). lia.
  - intros e H. rewrite app_length. specialize (B2 e H). lia.
  - intros ch m K i T. rewrite app_length. specialize (B3 ch m K i T). lia.
Qed.

Lemma nonce_step s i s' : kinv s -> kstep s (KNonce i) = Some s' -> kinv s'.
Proof.
  intros (R & (M1 & M2 & M3) & U & N & L & P & W & B1 & B2 & B3) E. cbn in E.
  destruct (nth_error (k_reqs s) i) as [r|] eqn:H; [|discriminate]. destruct (rq_pc r) eqn:Pc; try discriminate.
  destruct (nextNonce (k_map s)) as [mp o] eqn:Nn. apply (nextNonce_spec _ _ _ (proj1 N)) in Nn as [N' Sp].
  assert (N2 : mapinv mp).
  { split; [exact N'|]. destruct N as [_ N]. destruct o as [[ch n]|]; [destruct Sp as (_ & _ & Nz & _ & En)|destruct Sp as (En & _)]; rewrite En; [|exact N].
    cbn [rm_get]. destruct (N.eqb_spec 0 n); [congruence|exact N]. }
  pose proof (R i r H) as Ri. unfold rinv in Ri. rewrite Pc in Ri. 
  destruct (rq_slot r) as [[ch0 n0]|] eqn:Sl; [destruct Ri as (_ & X & _); congruence|]. destruct Ri as (_ & Fl & Gv & An).
  assert (Len : forall x, length (set_nth i x (k_reqs s)) = length (k_reqs s)) by (intros; apply set_nth_length).
  assert (Nown : forall m ch j, owned s j m ch -> j <> i) by (intros m ch j (q & Hq & Sq & _) ->; congruence).
  destruct o as [[ch n]|].
  - destruct Sp as (-> & Mk & Nz & Gn & En). injection E as <-. set (ch := rm_made (k_map s)) in *.
    assert (Ow : forall j m c, owned s j m c -> owned (mkK mp (set_rq s i (mkRq (rq_data r) RqSend (Some (ch, n)))) (k_chans s ++ [mkChan None false]) (k_reader s)
       (k_out s) (k_pend s) (k_in s) (k_panic s) (k_work s) (k_answers s)) j m c).
    { intros j m c O. pose proof (Nown m c j O) as Nj. destruct O as (q & Hq & X). exists q. split; [|exact X]. kproj. rewrite (nth_error_set _ _ _ _ j H).
      apply Nat.eqb_neq in Nj. rewrite Nj. exact Hq. }
    unfold kinv, minv, uniq; kproj. rewrite Len. repeat split; auto; try apply N2.
    + intros j q Hq. rewrite (nth_error_set _ _ _ _ j H) in Hq. destruct (Nat.eqb_spec j i) as [->|Nj].
      * injection Hq as <-. unfold rinv. cbn [rq_slot rq_pc pcn]; kproj. repeat split; try discriminate; auto.
        exists None, false. split; [rewrite nth_error_app2, L, Nat.sub_diag by (rewrite L; reflexivity); reflexivity|]. 
        split; [|split; [|split; [|split; [|split; [|split]]]]]; try discriminate; auto.
        -- rewrite Fl, Gv. cbn. destruct (closing ch (k_reader s)) eqn:Cl; [reflexivity|]. destruct (k_reader s) as [| |c| |] eqn:Kr; try discriminate.
           cbn in Cl. destruct (Nat.eqb_spec c ch) as [->|]; [|discriminate]. destruct M3 as (k & rk & nk & Hk & Sk). pose proof (R k rk Hk) as Rk. unfold rinv in Rk. rewrite Sk in Rk.
           destruct Rk as (_ & _ & _ & _ & b & c & Hc & _). exfalso.
           assert (ch < length (k_chans s)) by (apply nth_error_Some; congruence). lia.
        -- intros _. rewrite En. cbn. rewrite N.eqb_refl. reflexivity.
        -- lia.
      * pose proof (R j q Hq) as Rj. unfold rinv in *; kproj. destruct (rq_slot q) as [[cj nj]|]; [|exact Rj].
        destruct Rj as (A1 & A2 & A3 & A4 & b & c & Hc & T1 & T2 & T3). repeat split; auto. exists b, c. split; [apply nth_error_keep, Hc|]. split; [exact T1|]. split; [|exact T3].
        intros T. specialize (T2 T). rewrite En. cbn. destruct (N.eqb_spec nj n) as [->|]; [congruence|exact T2].
    + intros m Hm. specialize (M1 m Hm). destruct (km_tag m); [|exact M1]. destruct M1 as (c & M1). exists c. auto.
    + destruct (k_reader s) as [|c m|c|m|]; auto.
      * destruct M3 as (j & T & O & A). exists j. auto.
      * destruct M3 as (j & q & nj & Hq & Sq). exists j, q, nj. split; [|exact Sq]. rewrite (nth_error_set _ _ _ _ j H). destruct (Nat.eqb_spec j i) as [->|]; [congruence|exact Hq].
    + intros a b q q' c na nb A B Qa Qb. rewrite (nth_error_set _ _ _ _ a H) in A. rewrite (nth_error_set _ _ _ _ b H) in B.
      assert (Old : forall k q nk, nth_error (k_reqs s) k = Some q -> rq_slot q = Some (ch, nk) -> False).
      { intros k q0 nk Hk Sk. pose proof (R k q0 Hk) as Rk. unfold rinv in Rk. rewrite Sk in Rk. destruct Rk as (_ & _ & _ & _ & b0 & c0 & Hc & _).
        assert (ch < length (k_chans s)) by (apply nth_error_Some; congruence). lia. }
      destruct (Nat.eqb_spec a i) as [->|Na], (Nat.eqb_spec b i) as [->|Nb]; auto.
      * injection A as <-. cbn in Qa. injection Qa as <- <-. exfalso. exact (Old _ _ _ B Qb).
      * injection B as <-. cbn in Qb. injection Qb as <- <-. exfalso. exact (Old _ _ _ A Qa).
      * exact (U a b q q' c na nb A B Qa Qb).
    + rewrite app_length, Mk, L. cbn. lia.
  - destruct Sp as (En & Mk). injection E as <-.
    assert (Ow : forall j m c, owned s j m c -> owned (mkK mp (set_rq s i (mkRq (rq_data r) (RqDone RNoNonce) None)) (k_chans s) (k_reader s)
       (k_out s) (k_pend s) (k_in s) (k_panic s) (k_work s) (k_answers s)) j m c).
    { intros j m c O. pose proof (Nown m c j O) as Nj. destruct O as (q & Hq & X). exists q. split; [|exact X]. kproj. rewrite (nth_error_set _ _ _ _ j H).
      apply Nat.eqb_neq in Nj. rewrite Nj. exact Hq. }
    unfold kinv, minv, uniq; kproj. rewrite Len. repeat split; auto; try congruence; try apply N2.
    + intros j q Hq. rewrite (nth_error_set _ _ _ _ j H) in Hq. destruct (Nat.eqb_spec j i) as [->|Nj].
      * injection Hq as <-. unfold rinv. cbn [rq_slot rq_pc pcn]; kproj. auto.
      * pose proof (R j q Hq) as Rj. unfold rinv in *; kproj. rewrite En. exact Rj.
    + intros m Hm. specialize (M1 m Hm). destruct (km_tag m); [|exact M1]. destruct M1 as (c & M1). exists c. auto.
    + destruct (k_reader s) as [|c m|c|m|]; auto.
      * destruct M3 as (j & T & O & A). exists j. auto.
      * destruct M3 as (j & q & nj & Hq & Sq). exists j, q, nj. split; [|exact Sq]. rewrite (nth_error_set _ _ _ _ j H). destruct (Nat.eqb_spec j i) as [->|]; [congruence|exact Hq].
    + intros a b q q' c na nb A B Qa Qb. apply (uniq_set s i r (mkRq (rq_data r) (RqDone RNoNonce) None) _ U H eq_refl) with (q := q) (q' := q') (ch := c) (n := na) (n' := nb); auto.
Qed.

Ltac kopen := intros (R & (M1 & M2 & M3) & U & N & L & P & W & B1 & B2 & B3) E; cbn [kstep] in E.
Lemma pcn_other s j q i r (H : nth_error (k_reqs s) i = Some r) : nth_error (k_reqs s) j = Some q -> j = i -> q = r.
Proof. intros A ->. congruence. Qed.

Lemma sendreq_step s i s' : kinv s -> kstep s (KSendReq i) = Some s' -> kinv s'.
Proof.
  kopen. destruct (nth_error (k_reqs s) i) as [[d [] [[ch n]|]]|] eqn:H; try discriminate. injection E as <-.
  pose proof (R i _ H) as Ri. unfold rinv in Ri; cbn [rq_slot rq_pc pcn] in Ri. destruct Ri as (A1 & _ & _ & _ & b & c & Hc & T1 & T2 & T3 & T4 & T5 & T6 & T7).
  assert (Len : forall x, length (set_nth i x (k_reqs s)) = length (k_reqs s)) by (intros; apply set_nth_length).
  set (s1 := mkK (k_map s) (set_rq s i (mkRq d RqWait (Some (ch, n)))) (k_chans s) (k_reader s) (k_out s ++ [mkMsg n d (Some i)]) (k_pend s) (k_in s) (k_panic s) (k_work s) (k_answers s)).
  assert (Ow : forall j m c0, owned s j m c0 -> owned s1 j m c0).
  { intros j m c0. apply (owned_set s s1 i _ (mkRq d RqWait (Some (ch, n))) m j c0 H); auto. }
  assert (Ho : owned s1 i (mkMsg n d (Some i)) ch).
  { exists (mkRq d RqWait (Some (ch, n))). unfold s1; kproj. rewrite (nth_error_set _ _ _ _ i H), Nat.eqb_refl. auto. }
  assert (Hi : i < length (k_reqs s)) by (apply nth_error_Some; congruence).
  unfold kinv, minv, uniq; unfold s1 at 1 3 4 5 6 7 8 9 10 11; kproj. split; [|split; [|split; [|split; [|split; [|split; [|split; [|split; [|split]]]]]]]]; auto.
  - intros j q Hq. rewrite (nth_error_set _ _ _ _ j H) in Hq. unfold rinv, s1; kproj. rewrite cntb_app, cntb_one. destruct (Nat.eqb_spec j i) as [->|Nj].
    + injection Hq as <-. cbn [rq_slot rq_pc pcn]. rewrite (tg_refl i (mkMsg n d (Some i)) eq_refl). cbn [Nat.b2n]. repeat split; try discriminate; auto.
      exists b, c. split; [exact Hc|]. split; [lia|]. split; [intros _; apply T2; lia|]. split; [intros _; apply T3; lia|]. split; [exact T4|].
      split; [intros _ X; exfalso; lia|]. split; [lia|]. discriminate.
    + pose proof (R j q Hq) as Rj. unfold rinv in Rj; kproj. assert (Tj : tg j (mkMsg n d (Some i)) = false) by (unfold tg; cbn; apply Nat.eqb_neq; auto).
      rewrite Tj. cbn [Nat.b2n]. rewrite !Nat.add_0_r. exact Rj.
  - split; [|split].
    + intros m Hm. unfold s1 in Hm; kproj. rewrite in_app_iff in Hm. cbn in Hm.
      assert (Hm' : m = mkMsg n d (Some i) \/ (In m (k_out s) \/ In m (k_pend s) \/ In m (k_in s))) by intuition. destruct Hm' as [->|Hm'].
      * cbn [km_tag]. eauto.
      * specialize (M1 m Hm'). destruct (km_tag m); [|exact M1]. destruct M1 as (c0 & M1). exists c0. auto.
    + exact M2.
    + unfold s1 at 1; kproj. destruct (k_reader s) as [|c0 m|c0|m|] eqn:Kr; auto.
      * destruct M3 as (j & T & O & A). exists j. auto.
      * destruct M3 as (j & q & nj & Hq & Sq). destruct (Nat.eq_dec j i) as [->|Nj].
        -- exists i, (mkRq d RqWait (Some (ch, n))), n. unfold s1; kproj. rewrite (nth_error_set _ _ _ _ i H), Nat.eqb_refl. split; [reflexivity|]. assert (q = mkRq d RqSend (Some (ch, n))) as -> by congruence. cbn in Sq |- *. congruence.
        -- exists j, q, nj. split; [|exact Sq]. unfold s1; kproj. rewrite (nth_error_set _ _ _ _ j H). apply Nat.eqb_neq in Nj. rewrite Nj. exact Hq.
  - intros a b0 q q' c0 na nb A B Qa Qb. unfold s1 in A, B; kproj.
    apply (uniq_set s i _ (mkRq d RqWait (Some (ch, n))) _ U H eq_refl eq_refl a b0 q q' c0 na nb A B Qa Qb).
  - intros m j Hm T. unfold s1 in *; kproj. rewrite Len. rewrite <- app_assoc, in_app_iff in Hm. cbn [app In] in Hm. destruct Hm as [Hm|[<-|Hm]].
    + apply (B1 m j); [rewrite in_app_iff; auto|exact T].
    + cbn in T. injection T as <-. exact Hi.
    + apply (B1 m j); [rewrite in_app_iff; auto|exact T].
  - unfold s1; kproj. rewrite Len. exact B2.
  - unfold s1; kproj. rewrite Len. exact B3.
Qed.

Lemma sendmsg_step s d s' : kinv s -> kstep s (KSendMsg d) = Some s' -> kinv s'.
Proof.
  kopen. injection E as <-. unfold kinv, minv, uniq; kproj. repeat split; auto; try apply N.
  - intros j q Hq. pose proof (R j q Hq) as Rj. unfold rinv in *; kproj. rewrite cntb_app, cntb_one. cbn [tg km_tag Nat.b2n]. rewrite !Nat.add_0_r. exact Rj.
  - intros m Hm. rewrite in_app_iff in Hm. cbn in Hm.
    assert (Hm' : m = mkMsg 0 d None \/ (In m (k_out s) \/ In m (k_pend s) \/ In m (k_in s))) by intuition. destruct Hm' as [->|Hm']; [reflexivity|]. exact (M1 m Hm').
  - intros m j Hm T. rewrite <- app_assoc, in_app_iff in Hm. cbn [app In] in Hm. destruct Hm as [Hm|[<-|Hm]]; [|discriminate|]; apply (B1 m j); auto; rewrite in_app_iff; auto.
Qed.
Lemma peersend_step s d s' : kinv s -> kstep s (KPeerSend d) = Some s' -> kinv s'.
Proof.
  kopen. injection E as <-. unfold kinv, minv, uniq; kproj. repeat split; auto; try apply N.
  - intros j q Hq. pose proof (R j q Hq) as Rj. unfold rinv in *; kproj. rewrite cntb_app, cntb_one. cbn [tg km_tag Nat.b2n]. rewrite !Nat.add_0_r. exact Rj.
  - intros m Hm. rewrite in_app_iff in Hm. cbn in Hm.
    assert (Hm' : m = mkMsg 0 d None \/ (In m (k_out s) \/ In m (k_pend s) \/ In m (k_in s))) by intuition. destruct Hm' as [->|Hm']; [reflexivity|]. exact (M1 m Hm').
  - intros m i Hm T. rewrite in_app_iff in Hm. destruct Hm as [Hm|[<-|[]]]; [|discriminate]. apply (M2 m i Hm T).
  - intros m j Hm T. rewrite !in_app_iff in Hm. cbn [In] in Hm. destruct Hm as [Hm|[Hm|[Hm|[<-|[]]]]]; try discriminate; apply (B1 m j); auto; rewrite !in_app_iff; auto.
Qed.
Lemma deliver_step s s' : kinv s -> kstep s KDeliver = Some s' -> kinv s'.
Proof.
  kopen. destruct (k_out s) as [|m0 out] eqn:Eo; [discriminate|]. injection E as <-.
  set (pend := if N.eqb (km_nonce m0) 0 then k_pend s else k_pend s ++ [m0]).
  assert (Tag0 : N.eqb (km_nonce m0) 0 = true -> km_tag m0 = None).
  { intros Z. apply N.eqb_eq in Z. specialize (M1 m0 (or_introl (or_introl eq_refl))). destruct (km_tag m0) as [i|]; [|reflexivity]. destruct M1 as (ch & q & Hq & Sq & _).
    pose proof (R i q Hq) as Ri. unfold rinv in Ri. rewrite Sq in Ri. destruct Ri as (Nz & _). congruence. }
  assert (Cn : forall j, cntb (tg j) out + cntb (tg j) pend = cntb (tg j) (m0 :: out) + cntb (tg j) (k_pend s)).
  { intros j. unfold pend. rewrite cntb_cons. destruct (N.eqb (km_nonce m0) 0) eqn:Z.
    - unfold tg at 3. rewrite (Tag0 eq_refl). reflexivity.
    - rewrite cntb_app, cntb_one. lia. }
  assert (In' : forall m, In m pend -> m = m0 \/ In m (k_pend s)).
  { intros m. unfold pend. destruct (N.eqb _ _); [auto|]. rewrite in_app_iff. cbn. intuition. }
  unfold kinv, minv, uniq; kproj. split; [|split; [split; [|split]|split; [|split; [|split; [|split; [|split; [|split; [|split]]]]]]]]; auto.
  - intros j q Hq. pose proof (R j q Hq) as Rj. unfold rinv in *; kproj. rewrite Eo in Rj. rewrite (Cn j). 
    destruct (rq_slot q) as [[ch n]|]; [|exact Rj]. destruct Rj as (A1 & A2 & A3 & A4 & b & c & Hc & T1 & T2 & T3 & T4 & T5 & T6 & T7). repeat split; auto. exists b, c.
    split; [exact Hc|]. split; [exact T1|]. split; [exact T2|]. split; [exact T3|]. split; [exact T4|]. split; [exact T5|]. split; [specialize (Cn j); lia|exact T7].
  - intros m Hm. assert (Hm' : In m (m0 :: out) \/ In m (k_pend s) \/ In m (k_in s)); [|exact (M1 m Hm')].
    destruct Hm as [Hm|[Hm|Hm]]; [left; right; exact Hm| |auto]. destruct (In' m Hm) as [->|Hm']; [left; left; reflexivity|auto].
  - intros m j Hm T. apply (B1 m j); [|exact T]. rewrite !in_app_iff in *. destruct Hm as [Hm|[Hm|Hm]]; [left; right; exact Hm| |auto]. destruct (In' m Hm) as [->|Hm']; [left; left; reflexivity|auto].
Qed.

Lemma cntb_rem {A} (p : A -> bool) (l : list A) : forall i x, nth_error l i = Some x -> cntb p (remove_nth i l) + Nat.b2n (p x) = cntb p l.
Proof.
  induction l as [|a l IH]; intros [|i] x H; cbn in H; try discriminate; cbn [remove_nth]; rewrite ?cntb_cons; [injection H as ->; lia|].
  rewrite <- (IH i x H). lia.
Qed.
Lemma tga_tg i m d : km_tag m = Some i -> forall j, Nat.b2n (tga j (i, d)) = Nat.b2n (tg j m).
Proof. intros T j. unfold tga, tg. rewrite T. reflexivity. Qed.

Lemma answer_step s j d s' : kinv s -> kstep s (KAnswer j d) = Some s' -> kinv s'.
Proof.
  kopen. destruct (nth_error (k_pend s) j) as [m0|] eqn:Hj; [|discriminate]. injection E as <-.
  pose proof (nth_error_In _ _ Hj) as Hin.
  set (m1 := mkMsg (km_nonce m0) d (km_tag m0)).
  set (ans := match km_tag m0 with Some i => k_answers s ++ [(i, d)] | None => k_answers s end).
  assert (Ct : forall i, tg i m1 = tg i m0) by reflexivity.
  assert (Cp : forall i, cntb (tg i) (remove_nth j (k_pend s)) + Nat.b2n (tg i m0) = cntb (tg i) (k_pend s)) by (intros i; apply cntb_rem, Hj).
  assert (Ca : forall i, cntb (tga i) ans = cntb (tga i) (k_answers s) + Nat.b2n (tg i m0)).
  { intros i. unfold ans. destruct (km_tag m0) as [k|] eqn:T; [rewrite cntb_app, cntb_one, (tga_tg k m0 d T); reflexivity|]. unfold tg. rewrite T. cbn. lia. }
  assert (Sub : forall e, In e (k_answers s) -> In e ans) by (intros e He; unfold ans; destruct (km_tag m0); [apply in_or_app; auto|exact He]).
  assert (In' : forall m, In m (k_in s ++ [m1]) -> m = m1 \/ In m (k_in s)) by (intros m; rewrite in_app_iff; cbn; intuition).
  unfold kinv, minv, uniq; kproj. split; [|split; [split; [|split]|split; [|split; [|split; [|split; [|split; [|split; [|split]]]]]]]]; auto.
  - intros i q Hq. pose proof (R i q Hq) as Ri. unfold rinv in *; kproj. rewrite cntb_app, cntb_one, Ct, Ca. specialize (Cp i).
    destruct (rq_slot q) as [[ch n]|].
    + destruct Ri as (A1 & A2 & A3 & A4 & b & c & Hc & T1 & T2 & T3 & T4 & T5 & T6 & T7). repeat split; auto. exists b, c.
      split; [exact Hc|]. split; [lia|]. split; [intros X; apply T2; lia|]. split; [intros X; apply T3; lia|].
      split; [intros m Hm; destruct (T4 m Hm) as (X & Y & Z); auto|]. split; [intros X Y; apply T5; [exact X|lia]|]. split; [lia|]. intros d' X. apply Sub, (T7 d' X).
    + destruct Ri as (A1 & A2 & A3 & A4). repeat split; auto; lia.
  - intros m Hm. assert (Hm' : m = m1 \/ In m (k_out s) \/ In m (k_pend s) \/ In m (k_in s)).
    { destruct Hm as [Hm|[Hm|Hm]]; auto. - apply in_remove in Hm. auto. - destruct (In' m Hm); auto. }
    destruct Hm' as [->|Hm']; [|exact (M1 m Hm')]. exact (M1 m0 (or_intror (or_introl Hin))).
  - intros m i Hm T. destruct (In' m Hm) as [->|Hm']; [|apply Sub, (M2 m i Hm' T)]. unfold ans. cbn in T. rewrite T. apply in_or_app. right. left. reflexivity.
  - destruct (k_reader s); auto. destruct M3 as (i & T & O & A). exists i. auto.
  - intros m i Hm T. rewrite !in_app_iff in Hm. cbn [In] in Hm. destruct Hm as [Hm|[Hm|[Hm|[<-|[]]]]].
    + apply (B1 m i); [rewrite !in_app_iff; auto|exact T].
    + apply in_remove in Hm. apply (B1 m i); [rewrite !in_app_iff; auto|exact T].
    + apply (B1 m i); [rewrite !in_app_iff; auto|exact T].
    + apply (B1 m0 i); [rewrite !in_app_iff; auto|exact T].
  - intros e He. unfold ans in He. destruct (km_tag m0) as [k|] eqn:T; [|apply B2, He]. apply in_app_or in He as [He|[<-|[]]]; [apply B2, He|].
    cbn. apply (B1 m0 k); [rewrite !in_app_iff; auto|exact T].
Qed.

Lemma recv_step s s' : kinv s -> kstep s KRecv = Some s' -> kinv s'.
Proof.
  kopen. destruct (k_reader s) eqn:Kr; try discriminate. destruct (k_in s) as [|m0 rest] eqn:Ei; [discriminate|].
  destruct (findRequest (k_map s) (km_nonce m0)) as [mp o] eqn:F. apply findRequest_spec in F as (Eo & Nn & Mk & Gt). injection E as <-.
  pose proof (M1 m0 (or_intror (or_intror (or_introl eq_refl)))) as M0.
  destruct (km_tag m0) as [i0|] eqn:T0.
  - (* a response: its entry is there *)
    destruct M0 as (ch & q0 & Hq0 & Sq0 & Pq0). pose proof (R i0 q0 Hq0) as R0. unfold rinv in R0. rewrite Sq0, Ei, Kr, cntb_cons, (tg_refl i0 m0 T0) in R0. cbn [Nat.b2n given closing] in R0.
    destruct R0 as (Nz & _ & _ & _ & b & c & Hc & T1 & T2 & _). specialize (T2 ltac:(lia)). rewrite T2 in Eo. subst o.
    unfold kinv, minv, uniq; kproj. split; [|split; [split; [|split]|split; [|split; [|split; [|split; [|split; [|split; [|split]]]]]]]]; auto; try congruence.
    + intros j q Hq. pose proof (R j q Hq) as Rj. unfold rinv in *; kproj. rewrite Ei, Kr, cntb_cons in Rj. cbn [given closing] in *.
      destruct (rq_slot q) as [[cj nj]|] eqn:Sq.
      * destruct Rj as (A1 & A2 & A3 & A4 & b' & c' & Hc' & U1 & U2 & U3 & U4 & U5 & U6 & U7). repeat split; auto. exists b', c'.
        split; [exact Hc'|]. split; [lia|]. split; [|split; [intros X; apply U3; lia|split; [exact U4|split; [intros X Y; apply U5; [exact X|lia]|split; [lia|exact U7]]]]].
        intros X. rewrite Gt. destruct (N.eqb_spec nj (km_nonce m0)) as [Ej|Ne]; [|apply U2; lia]. exfalso.
        specialize (U2 ltac:(lia)). rewrite Ej, T2 in U2. injection U2 as ->. assert (j = i0) as -> by (exact (U j i0 q q0 cj nj _ Hq Hq0 Sq Sq0)).
        rewrite (tg_refl i0 m0 T0) in U1. cbn [Nat.b2n] in U1. lia.
      * destruct Rj as (A1 & A2 & A3 & A4). repeat split; auto; lia.
    + intros m Hm. apply M1. rewrite ?Ei. destruct Hm as [Hm|[Hm|Hm]]; auto. right. right. right. exact Hm.
    + intros m i Hm T. apply (M2 m i); [right; exact Hm|exact T].
    + exists i0. split; [exact T0|]. split; [exists q0; auto|]. apply M2; [left; reflexivity|exact T0].
    + destruct N as [N Z]. split; [rewrite Nn; exact N|]. rewrite Gt. destruct (N.eqb_spec 0 (km_nonce m0)); [reflexivity|exact Z].
    + intros m i Hm T. apply (B1 m i); [|exact T]. rewrite ?Ei. rewrite !in_app_iff in *. destruct Hm as [Hm|[Hm|Hm]]; auto. right. right. right. exact Hm.
    + intros ch' m E i T. injection E as -> ->. apply (B1 m i); [|exact T]. rewrite !in_app_iff. right. right. left. reflexivity.
  - (* not a response *)
    rewrite M0 in *. destruct N as [N Z]. rewrite Z in Eo. subst o.
    unfold kinv, minv, uniq; kproj. split; [|split; [split; [|split]|split; [|split; [|split; [|split; [|split; [|split; [|split]]]]]]]]; auto; try congruence.
    + intros j q Hq. pose proof (R j q Hq) as Rj. unfold rinv in *; kproj. rewrite Ei, Kr, cntb_cons in Rj. cbn [given closing] in *.
      assert (tg j m0 = false) as Tj by (unfold tg; rewrite T0; reflexivity). rewrite Tj in Rj. cbn [Nat.b2n] in Rj. rewrite !Nat.add_0_l in Rj.
      destruct (rq_slot q) as [[cj nj]|]; [|exact Rj]. destruct Rj as (A1 & A2 & A3 & A4 & b' & c' & Hc' & U1 & U2 & U3). repeat split; auto. exists b', c'.
      split; [exact Hc'|]. split; [exact U1|]. split; [|exact U3]. intros X. rewrite Gt. apply U2, X.
    + intros m Hm. apply M1. destruct Hm as [Hm|[Hm|Hm]]; auto. right. right. right. exact Hm.
    + intros m i Hm T. apply (M2 m i); [right; exact Hm|exact T].
    + split; [rewrite Nn; exact N|]. rewrite Gt. exact Z.
    + intros m i Hm T. apply (B1 m i); [|exact T]. rewrite !in_app_iff in *. destruct Hm as [Hm|[Hm|Hm]]; auto. right. right. right. exact Hm.
Qed.

Lemma step_step s s' : kinv s -> kstep s KStep = Some s' -> kinv s'.
Proof.
  kopen. destruct (k_reader s) as [|ch m0|ch|m0|] eqn:Kr; try discriminate.
  - (* give *)
    destruct M3 as (i0 & T0 & (q0 & Hq0 & Sq0 & Pq0) & A0). pose proof (R i0 q0 Hq0) as R0. unfold rinv in R0. rewrite Sq0, Kr in R0. cbn [given closing] in R0. rewrite (tg_refl i0 m0 T0) in R0. cbn [Nat.b2n] in R0.
    destruct R0 as (Nz & _ & _ & _ & b & c & Hc & T1 & T2 & T3 & _). assert (b = None) as -> by (apply T3; lia). assert (c = false) as -> by (destruct c; [cbn in T1; lia|reflexivity]).
    rewrite Hc in E. injection E as <-.
    unfold kinv, minv, uniq; kproj. rewrite set_nth_length. split; [|split; [split; [|split]|split; [|split; [|split; [|split; [|split; [|split; [|split]]]]]]]]; auto; try congruence.
    + intros j q Hq. pose proof (R j q Hq) as Rj. unfold rinv in *; kproj. rewrite Kr in Rj. cbn [given closing] in *. destruct (rq_slot q) as [[cj nj]|] eqn:Sq.
      * destruct Rj as (A1 & A2 & A3 & A4 & b' & c' & Hc' & U1 & U2 & U3 & U4 & U5 & U6 & U7). repeat split; auto. rewrite (nth_error_set _ _ _ _ cj Hc).
        destruct (Nat.eqb_spec cj ch) as [->|Nc].
        -- assert (j = i0) as -> by (exact (U j i0 q q0 ch nj _ Hq Hq0 Sq Sq0)). assert (q = q0) as -> by congruence. rewrite Sq0 in Sq. injection Sq as <-.
           rewrite Hc in Hc'. injection Hc' as <- <-. rewrite (tg_refl i0 m0 T0) in *. cbn [Nat.b2n] in *.
           exists (Some m0), false. split; [reflexivity|]. rewrite Nat.eqb_refl. cbn [Nat.b2n]. split; [lia|]. split; [intros X; apply U2; lia|].
           split; [intros X; exfalso; lia|]. split; [intros m Hm; injection Hm as <-; auto|]. split; [discriminate|]. split; [lia|exact U7].
        -- exists b', c'. assert (tg j m0 = false) as Tj.
           { unfold tg. rewrite T0. apply Nat.eqb_neq. intros <-. apply Nc. congruence. }
           rewrite Tj in *. cbn [Nat.b2n] in *. assert ((ch =? cj) = false) as Ej by (apply Nat.eqb_neq; auto). rewrite Ej. cbn [Nat.b2n].
           split; [exact Hc'|]. split; [lia|]. split; [exact U2|]. split; [exact U3|]. split; [exact U4|]. split; [exact U5|]. auto.
      * destruct Rj as (A1 & A2 & A3 & A4). auto.
    + exists i0, q0, (km_nonce m0). auto.
  - (* close *)
    destruct M3 as (i0 & q0 & n0 & Hq0 & Sq0). pose proof (R i0 q0 Hq0) as R0. unfold rinv in R0. rewrite Sq0, Kr in R0. cbn [given closing] in R0. rewrite Nat.eqb_refl in R0. cbn [Nat.b2n] in R0.
    destruct R0 as (Nz & _ & _ & _ & b & c & Hc & T1 & T2 & T3 & _). assert (c = false) as -> by (destruct c; [cbn in T1; lia|reflexivity]).
    rewrite Hc in E. injection E as <-.
    unfold kinv, minv, uniq; kproj. rewrite set_nth_length, orb_false_r. split; [|split; [split; [|split]|split; [|split; [|split; [|split; [|split; [|split; [|split]]]]]]]]; auto; try congruence.
    intros j q Hq. pose proof (R j q Hq) as Rj. unfold rinv in *; kproj. rewrite Kr in Rj. cbn [given closing] in *. destruct (rq_slot q) as [[cj nj]|] eqn:Sq; [|exact Rj].
    destruct Rj as (A1 & A2 & A3 & A4 & b' & c' & Hc' & U1 & U2 & U3 & U4 & U5 & U6 & U7). repeat split; auto. rewrite (nth_error_set _ _ _ _ cj Hc).
    destruct (Nat.eqb_spec cj ch) as [->|Nc].
    + rewrite Hc in Hc'. injection Hc' as <- <-. rewrite Nat.eqb_refl in U1. cbn [Nat.b2n] in U1. exists b, true. split; [reflexivity|]. cbn [Nat.b2n]. split; [lia|]. auto 10.
    + assert ((ch =? cj) = false) as Ej by (apply Nat.eqb_neq; auto). rewrite Ej in U1. cbn [Nat.b2n] in U1. exists b', c'. split; [exact Hc'|]. split; [lia|]. auto 10.
  - (* work *)
    injection E as <-. unfold kinv, minv, uniq; kproj. split; [|split; [split; [|split]|split; [|split; [|split; [|split; [|split; [|split; [|split]]]]]]]]; auto; try congruence.
    + intros j q Hq. pose proof (R j q Hq) as Rj. unfold rinv in *; kproj. rewrite Kr in Rj. cbn [given closing] in *. exact Rj.
    + intros m Hm. apply in_app_or in Hm as [Hm|[<-|[]]]; [exact (W m Hm)|exact M3].
Qed.

Lemma receive_step s i s' : kinv s -> kstep s (KReceive i) = Some s' -> kinv s'.
Proof.
  kopen. destruct (nth_error (k_reqs s) i) as [[d [| | |] [[ch n]|]]|] eqn:H; try discriminate.
  pose proof (R i _ H) as Ri. unfold rinv in Ri; cbn [rq_slot rq_pc pcn] in Ri. destruct Ri as (A1 & _ & _ & _ & b & c & Hc & T1 & T2 & T3 & T4 & T5 & T6 & T7).
  assert (Len : forall x, length (set_nth i x (k_reqs s)) = length (k_reqs s)) by (intros; apply set_nth_length).
  rewrite Hc in E. destruct b as [m0|].
  2:{ exfalso. destruct c; [|discriminate]. cbn [Nat.b2n] in T1. apply T5; [reflexivity|lia|reflexivity]. }
  destruct (T4 m0 eq_refl) as (Tm & Nm & Am). assert (N.eqb (km_nonce m0) 0 = false) as Z by (apply N.eqb_neq; congruence). rewrite Z in E. injection E as <-.
  set (r1 := mkRq d (RqDone (RData (km_data m0))) (Some (ch, n))).
  set (s1 := mkK (k_map s) (set_rq s i r1) (set_nth ch (mkChan None c) (k_chans s)) (k_reader s) (k_out s) (k_pend s) (k_in s) (k_panic s) (k_work s) (k_answers s)).
  assert (Ow : forall j m c0, owned s j m c0 -> owned s1 j m c0).
  { intros j m c0. apply (owned_set s s1 i _ r1 m j c0 H); auto. }
  assert (F : pcn RqWait + (cntb (tg i) (k_out s) + cntb (tg i) (k_pend s) + cntb (tg i) (k_in s)) + given i (k_reader s) = 0).
  { destruct (pcn RqWait + (cntb (tg i) (k_out s) + cntb (tg i) (k_pend s) + cntb (tg i) (k_in s)) + given i (k_reader s)) eqn:X; [reflexivity|]. cbn [pcn] in X.
    discriminate T3. lia. }
  cbn [pcn] in F.
  unfold kinv, minv, uniq. split; [|split; [split; [|split]|split; [|split; [|split; [|split; [|split; [|split; [|split]]]]]]]]; unfold s1 in *; kproj; rewrite ?Len, ?set_nth_length; auto; try congruence.
  - intros j q Hq. rewrite (nth_error_set _ _ _ _ j H) in Hq. unfold rinv; kproj. destruct (Nat.eqb_spec j i) as [->|Nj].
    + injection Hq as <-. cbn [rq_slot rq_pc pcn r1]. repeat split; try discriminate; auto. rewrite (nth_error_set _ _ _ _ ch Hc), Nat.eqb_refl.
      exists None, c. split; [reflexivity|]. split; [exact T1|]. split; [exact T2|]. split; [reflexivity|]. split; [discriminate|]. split; [discriminate|]. split; [exact T6|].
      intros d' Hd. injection Hd as <-. exact Am.
    + pose proof (R j q Hq) as Rj. unfold rinv in Rj. destruct (rq_slot q) as [[cj nj]|] eqn:Sq; [|exact Rj]. rewrite (nth_error_set _ _ _ _ cj Hc).
      destruct (Nat.eqb_spec cj ch) as [->|Nc]; [|exact Rj]. exfalso. apply Nj. exact (U j i q _ ch nj n Hq H Sq eq_refl).
  - intros m Hm. specialize (M1 m Hm). destruct (km_tag m); [|exact M1]. destruct M1 as (c0 & M1). exists c0. apply Ow, M1.
  - destruct (k_reader s) as [|c0 m|c0|m|]; auto.
    + destruct M3 as (j & T & O & A). exists j. auto.
    + destruct M3 as (j & q & nj & Hq & Sq). destruct (Nat.eq_dec j i) as [->|Nj].
      * exists i, r1, n. rewrite (nth_error_set _ _ _ _ i H), Nat.eqb_refl. split; [reflexivity|]. assert (q = mkRq d RqWait (Some (ch, n))) as -> by congruence. cbn in Sq |- *. congruence.
      * exists j, q, nj. split; [|exact Sq]. rewrite (nth_error_set _ _ _ _ j H). apply Nat.eqb_neq in Nj. rewrite Nj. exact Hq.
  - apply (uniq_set s i _ r1 _ U H eq_refl eq_refl).
Qed.

Lemma cancel_step s i s' : kinv s -> kstep s (KCancel i) = Some s' -> kinv s'.
Proof.
  kopen. destruct (nth_error (k_reqs s) i) as [[d [| | |] [[ch n]|]]|] eqn:H; try discriminate. injection E as <-.
  pose proof (R i _ H) as Ri. unfold rinv in Ri; cbn [rq_slot rq_pc pcn] in Ri. destruct Ri as (A1 & _ & _ & _ & b & c & Hc & T1 & T2 & T3 & T4 & T5 & T6 & T7).
  assert (Len : forall x, length (set_nth i x (k_reqs s)) = length (k_reqs s)) by (intros; apply set_nth_length).
  set (r1 := mkRq d (RqDone RCancelled) (Some (ch, n))).
  set (s1 := mkK (k_map s) (set_rq s i r1) (k_chans s) (k_reader s) (k_out s) (k_pend s) (k_in s) (k_panic s) (k_work s) (k_answers s)).
  assert (Ow : forall j m c0, owned s j m c0 -> owned s1 j m c0).
  { intros j m c0. apply (owned_set s s1 i _ r1 m j c0 H); auto. }
  unfold kinv, minv, uniq. split; [|split; [split; [|split]|split; [|split; [|split; [|split; [|split; [|split; [|split]]]]]]]]; unfold s1 in *; kproj; rewrite ?Len; auto; try congruence.
  - intros j q Hq. rewrite (nth_error_set _ _ _ _ j H) in Hq. unfold rinv; kproj. destruct (Nat.eqb_spec j i) as [->|Nj]; [|exact (R j q Hq)].
    injection Hq as <-. cbn [rq_slot rq_pc pcn r1]. repeat split; try discriminate; auto.
    exists b, c. split; [exact Hc|]. split; [exact T1|]. split; [exact T2|]. split; [exact T3|]. split; [exact T4|]. split; [discriminate|]. split; [exact T6|]. discriminate.
  - intros m Hm. specialize (M1 m Hm). destruct (km_tag m); [|exact M1]. destruct M1 as (c0 & M1). exists c0. apply Ow, M1.
  - destruct (k_reader s) as [|c0 m|c0|m|]; auto.
    + destruct M3 as (j & T & O & A). exists j. auto.
    + destruct M3 as (j & q & nj & Hq & Sq). destruct (Nat.eq_dec j i) as [->|Nj].
      * exists i, r1, n. rewrite (nth_error_set _ _ _ _ i H), Nat.eqb_refl. split; [reflexivity|]. assert (q = mkRq d RqWait (Some (ch, n))) as -> by congruence. cbn in Sq |- *. congruence.
      * exists j, q, nj. split; [|exact Sq]. rewrite (nth_error_set _ _ _ _ j H). apply Nat.eqb_neq in Nj. rewrite Nj. exact Hq.
  - apply (uniq_set s i _ r1 _ U H eq_refl eq_refl).
Qed.

Lemma drop_step s s' : kinv s -> kstep s KDrop = Some s' -> kinv s'.
Proof.
  kopen. destruct (k_reader s) eqn:Kr; try discriminate. injection E as <-. unfold kinv, minv, uniq; kproj.
  split; [|split; [split; [|split]|split; [|split; [|split; [|split; [|split; [|split; [|split]]]]]]]]; auto; try congruence.
  intros j q Hq. pose proof (R j q Hq) as Rj. unfold rinv in *; kproj. rewrite Kr in Rj. exact Rj.
Qed.

Theorem kinv_step s a s' : kinv s -> kstep s a = Some s' -> kinv s'.
Proof.
  destruct a; [apply call_step|apply nonce_step|apply sendreq_step|apply sendmsg_step|apply deliver_step|apply answer_step|apply peersend_step|apply recv_step|apply step_step
    |apply receive_step|apply cancel_step|apply drop_step].
Qed.
