(** * C128: which connection is closed to make room. *)
From Coq Require Import Sorting.Sorted.
From Verif Require Import Base M_Maps Props_Maps M_Use.
Local Open Scope nat_scope.

(** ** Spec *)

(** The history ends with something that satisfies [p], followed by nothing that satisfies [q]. *)
Definition later_than {A} (p q : A -> bool) (os : list A) : Prop := exists os1 o os2, os = os1 ++ o :: os2 /\ p o = true /\ forall x, In x os2 -> q x = false.
Definition is_get (a : bytes) (o : uop) : bool := match o with UGet b => bytes_eqb a b | _ => false end.
(** Looked up, or something sent or received on it. *)
Definition is_use (a : bytes) (o : uop) : bool := match o with UGet b | UTraffic b => bytes_eqb a b | _ => false end.
Definition is_gone (a : bytes) (o : uop) : bool := match o with UGone b => bytes_eqb a b | _ => false end.

(** ** C128 *)

(** The connection closed to make room (of [v]) is the one that was used least recently: every other in the pool was used after it. *)
Definition C128_statement : Prop := forall max os m k a m' c v n b, 0 < max -> urun max os = Ok (m, k) ->
  cm_fetch max m a k = Ok (m', c, false, Some n) -> cm_get v (cm_entries m) = Some n -> cm_get v (cm_entries m') = None -> In b (cm_order m) -> b <> v ->
  later_than (is_use b) (is_use v) os.

(** *** Lemmas *)

Lemma lru_run_app max os1 : forall l k os2, lru_run max l k (os1 ++ os2) = lru_run max (fst (lru_run max l k os1)) (snd (lru_run max l k os1)) os2.
Proof. induction os1 as [|o os1 IH]; intros l k os2; cbn [app lru_run]; [reflexivity | apply IH]. Qed.

Definition ulru (max : nat) (os : list uop) : lru := fst (lru_run max [] 0 (flat_map pool_ops os)).
Definition umade (max : nat) (os : list uop) : nat := snd (lru_run max [] 0 (flat_map pool_ops os)).

Lemma urun_repr max os : 0 < max -> exists m, urun max os = Ok (m, umade max os) /\ cm_repr m (ulru max os) /\ length (ulru max os) <= max.
Proof.
  intros M. destruct (cm_run_repr max (flat_map pool_ops os) M newClientMap [] 0 cm_repr_0 ltac:(cbn; lia)) as (m & E & R & L). exists m. auto.
Qed.

Lemma ulru_snoc max os o : ulru max (os ++ [o]) =
  match o with UGet a => lru_step max (ulru max os) (umade max os) (CGet a) | UTraffic _ => ulru max os | UGone a => lru_drop a (ulru max os) end.
Proof.
  unfold ulru, umade. rewrite flat_map_app, lru_run_app. destruct o as [a|a|a]; cbn [flat_map pool_ops app]; reflexivity.
Qed.

Definition newer (os : list uop) (x y : bytes * nat) : Prop := later_than (is_get (fst x)) (is_get (fst y)) os.

Lemma newer_snoc os o x y : is_get (fst y) o = false -> newer os x y -> newer (os ++ [o]) x y.
Proof.
  intros G (os1 & p & os2 & -> & P & Q). exists os1, p, (os2 ++ [o]). split; [rewrite <- app_assoc; reflexivity|]. split; [exact P|].
  intros z Hz. apply in_app_or in Hz as [Hz|[<-|[]]]; auto.
Qed.

Lemma sorted_weaken {A} (R R' : A -> A -> Prop) l : (forall x y, In x l -> In y l -> R x y -> R' x y) -> StronglySorted R l -> StronglySorted R' l.
Proof.
  intros H S. induction S as [|x l S IH F]; constructor.
  - apply IH. intros a b Ha Hb. apply H; right; assumption.
  - rewrite Forall_forall in *. intros y Hy. apply H; [left; reflexivity | right; exact Hy | apply F, Hy].
Qed.
Lemma sorted_filter {A} (R : A -> A -> Prop) f l : StronglySorted R l -> StronglySorted R (filter f l).
Proof.
  induction 1 as [|x l S IH F]; cbn; [constructor|]. destruct (f x); [|exact IH]. constructor; [exact IH|].
  rewrite Forall_forall in *. intros y Hy. apply filter_In in Hy as [Hy _]. auto.
Qed.
Lemma sorted_app {A} (R : A -> A -> Prop) l1 l2 : StronglySorted R (l1 ++ l2) -> StronglySorted R l1 /\ forall x y, In x l1 -> In y l2 -> R x y.
Proof.
  induction l1 as [|a l1 IH]; cbn; intros H; [split; [constructor | intros x y []]|]. inversion H as [|? ? S F]; subst. destruct (IH S) as [I1 I2].
  rewrite Forall_forall in F. split; [constructor; [exact I1|]; rewrite Forall_forall; intros y Hy; apply F, in_or_app; auto|].
  intros x y [-> |Hx] Hy; [apply F, in_or_app; auto | auto].
Qed.
Lemma removelast_in {A} (l : list A) x : In x (removelast l) -> In x l.
Proof. destruct l as [|y l _] using rev_ind; [auto|]. rewrite removelast_last. intros H. apply in_or_app. auto. Qed.

Lemma lru_sorted max os : 0 < max -> StronglySorted (newer os) (ulru max os).
Proof.
  intros M. induction os as [|o os IH] using rev_ind; [constructor|]. rewrite ulru_snoc.
  assert (Front : forall a n l, incl l (ulru max os) -> StronglySorted (newer os) l -> ~ In a (map fst l) -> StronglySorted (newer (os ++ [UGet a])) ((a, n) :: l)).
  { intros a n l I S Na. constructor.
    - eapply sorted_weaken; [|exact S]. intros x y Hx Hy. apply newer_snoc. cbn. destruct (bytes_eqb_spec (fst y) a) as [E|]; [|reflexivity].
      exfalso. apply Na. rewrite <- E. apply in_map, Hy.
    - rewrite Forall_forall. intros y Hy. exists os, (UGet a), []. split; [reflexivity|]. split; [cbn; apply bytes_eqb_refl | intros z []]. }
  destruct o as [a|a|a].
  - cbn [lru_step]. destruct (lru_find a (ulru max os)) as [c|] eqn:F.
    + apply Front; [intros x Hx; unfold lru_drop in Hx; apply filter_In in Hx; tauto | apply sorted_filter, IH | rewrite map_drop; apply not_in_del].
    + assert (Na : ~ In a (map fst (ulru max os))) by (intros C; apply lru_find_in in C; congruence).
      destruct (length (ulru max os) =? max).
      * apply Front; [intros x; apply removelast_in| |].
        -- destruct (ulru max os) as [|v l _] using rev_ind; [constructor|]. rewrite removelast_last. exact (proj1 (sorted_app _ _ _ IH)).
        -- intros C. apply Na. apply in_map_iff in C as (x & <- & Hx). apply in_map, removelast_in, Hx.
      * apply Front; [intros x; auto | exact IH | exact Na].
  - eapply sorted_weaken; [|exact IH]. intros x y _ _. apply newer_snoc. reflexivity.
  - apply sorted_filter. eapply sorted_weaken; [|exact IH]. intros x y _ _. apply newer_snoc. reflexivity.
Qed.

(** *** Theorems *)

(** It is the one looked up least recently, whatever was sent and received: every other in the pool was looked up after it. *)
Theorem C128_victim : forall max os m k a m' c v n b, 0 < max -> urun max os = Ok (m, k) ->
  cm_fetch max m a k = Ok (m', c, false, Some n) -> cm_get v (cm_entries m) = Some n -> cm_get v (cm_entries m') = None -> In b (cm_order m) -> b <> v ->
  later_than (is_get b) (is_get v) os.
Proof.
  intros max os m k a m' c v n b M R E G U B D. destruct (urun_repr max os M) as (m0 & R0 & Rp & Le). rewrite R in R0. injection R0 as <- Hk.
  destruct (cm_fetch_repr max m (ulru max os) a k Rp) as (m1 & c1 & ex & ev & E1 & Rp' & _ & X); [intros Hl Hm; lia|]. rewrite E in E1. injection E1 as <- <- <- <-. cbn [lru_step] in Rp'.
  destruct X as (Fa & _ & X). destruct (length (ulru max os) =? max) eqn:Lm; [|discriminate]. destruct X as (w & Ew & En). injection En as ->.
  pose proof (lru_sorted max os M) as S. rewrite Ew in S. apply sorted_app in S as [_ S].
  assert (Vw : fst w = v).
  { rewrite Fa in Rp'. rewrite (cr_find m' _ Rp') in U. cbn [lru_find] in U. destruct (bytes_eqb v a); [discriminate|].
    assert (Iv : In v (map fst (ulru max os))) by (apply lru_find_in; rewrite <- (cr_find m _ Rp); congruence).
    rewrite Ew, map_app in Iv. apply in_app_or in Iv as [Iv|[Iv|[]]]; [|exact Iv]. apply lru_find_in in Iv. congruence. }
  rewrite (cr_order m _ Rp) in B. apply in_map_iff in B as ([b' nb] & Eb & B). cbn in Eb. subst b'. rewrite Ew in B. apply in_app_or in B as [B|[B|[]]].
  - specialize (S _ w B (or_introl eq_refl)). unfold newer in S. cbn [fst] in S. rewrite Vw in S. exact S.
  - rewrite B in Vw. cbn in Vw. congruence.
Qed.

(** A connection stays in the pool as long as fewer other addresses than the pool has places are looked up after its own, and it has not
    ended itself: whoever looks its address up gets the same client, and nobody's connection is closed for it. *)
Theorem C128_partial : forall max os1 a os2 m1 k1 m2 k2, 0 < max ->
  urun max (os1 ++ [UGet a]) = Ok (m1, k1) -> urun max (os1 ++ [UGet a] ++ os2) = Ok (m2, k2) ->
  (forall o, In o os2 -> is_gone a o = false) ->
  (forall others, NoDup others -> (forall b, In b others -> b <> a /\ In (UGet b) os2) -> length others < max) ->
  exists c, cm_get a (cm_entries m1) = Some c /\ cm_get a (cm_entries m2) = Some c /\ In a (cm_order m2).
Proof.
  intros max os1 a os2 m1 k1 m2 k2 M R1 R2 Ng Few.
  destruct (urun_repr max (os1 ++ [UGet a]) M) as (n1 & Q1 & P1 & _). rewrite R1 in Q1. injection Q1 as <- _.
  destruct (urun_repr max (os1 ++ [UGet a] ++ os2) M) as (n2 & Q2 & P2 & _). rewrite R2 in Q2. injection Q2 as <- _.
  assert (F : exists c r, ulru max (os1 ++ [UGet a]) = (a, c) :: r).
  { rewrite ulru_snoc. cbn [lru_step]. destruct (lru_find a (ulru max os1)); eauto. }
  destruct F as (c & r & F). exists c. rewrite (cr_find m1 _ P1), F. cbn [lru_find]. rewrite bytes_eqb_refl. split; [reflexivity|].
  assert (G : exists pre post, ulru max (os1 ++ [UGet a] ++ os2) = pre ++ (a, c) :: post /\ forall b, In b (map fst pre) -> In (UGet b) os2).
  { clear R2 m2 k2 P2. induction os2 as [|o os2 IH] using rev_ind.
    - rewrite app_nil_r, F. exists [], r. split; [reflexivity | intros b []].
    - destruct IH as (pre & post & E & I).
      { intros x Hx. apply Ng, in_or_app. auto. }
      { intros others D Ho. apply Few; [exact D|]. intros b Hb. destruct (Ho b Hb). split; [assumption | apply in_or_app; auto]. }
      destruct (urun_repr max (os1 ++ [UGet a] ++ os2) M) as (n & _ & P & Le). pose proof (cr_nodup n _ P) as Nd.
      rewrite !app_assoc, ulru_snoc, <- !app_assoc. set (l := ulru max (os1 ++ [UGet a] ++ os2)) in *. clearbody l.
      assert (Na : ~ In a (map fst pre)) by (rewrite E, map_app in Nd; cbn [map fst] in Nd; apply NoDup_remove_2 in Nd; intros C; apply Nd, in_or_app; auto).
      assert (Dropped : forall b, b <> a -> lru_drop b l = lru_drop b pre ++ (a, c) :: lru_drop b post).
      { intros b Db. rewrite E. unfold lru_drop. rewrite filter_app. cbn [filter fst]. destruct (bytes_eqb_spec b a); [congruence | reflexivity]. }
      assert (Sub : forall b x, In x (map fst (lru_drop b pre)) -> In x (map fst pre)).
      { intros b x Hx. apply in_map_iff in Hx as (y & <- & Hy). unfold lru_drop in Hy. apply filter_In in Hy as [Hy _]. apply in_map, Hy. }
      destruct o as [b|b|b].
      + cbn [lru_step]. destruct (bytes_eqb_spec b a) as [-> |Db].
        * assert (lru_find a l = Some c) as ->.
          { rewrite E. clear - Na. induction pre as [|[x q] pre IH]; cbn in *; [rewrite bytes_eqb_refl; reflexivity|]. destruct (bytes_eqb_spec a x) as [-> |]; [tauto | apply IH; tauto]. }
          exists [], (lru_drop a l). split; [reflexivity | intros b []].
        * destruct (lru_find b l) as [d|] eqn:Fb.
          -- exists ((b, d) :: lru_drop b pre), (lru_drop b post). rewrite (Dropped b Db). split; [reflexivity|]. cbn [map fst]. intros x [<-|Hx]; apply in_or_app; [right; left; reflexivity|].
             left. apply I, (Sub b), Hx.
          -- destruct (Nat.eqb_spec (length l) max) as [Lm|Lm].
             ++ destruct post as [|y post _] using rev_ind.
                ** exfalso. assert (X : length (b :: map fst pre) < max).
                   { apply Few.
                     - constructor; [|rewrite E, map_app in Nd; apply NoDup_remove_1 in Nd; rewrite app_nil_r in Nd; exact Nd].
                       intros C. assert (lru_find b l <> None); [|congruence]. apply lru_find_in. rewrite E, map_app. apply in_or_app. auto.
                     - intros x [<-|Hx]; [split; [exact Db | apply in_or_app; right; left; reflexivity]|]. split; [intros ->; auto | apply in_or_app; left; apply I, Hx]. }
                   cbn [length] in X. rewrite map_length in X. rewrite E, app_length in Lm. cbn in Lm. lia.
                ** exists ((b, umade max (os1 ++ [UGet a] ++ os2)) :: pre), post. split.
                   { rewrite E. replace (pre ++ (a, c) :: post ++ [y]) with ((pre ++ (a, c) :: post) ++ [y]) by (rewrite <- app_assoc; reflexivity). rewrite removelast_last. reflexivity. }
                   cbn [map fst]. intros x [<-|Hx]; apply in_or_app; [right; left; reflexivity | left; apply I, Hx].
             ++ exists ((b, umade max (os1 ++ [UGet a] ++ os2)) :: pre), post. split; [rewrite E; reflexivity|].
                cbn [map fst]. intros x [<-|Hx]; apply in_or_app; [right; left; reflexivity | left; apply I, Hx].
      + exists pre, post. split; [exact E|]. intros x Hx. apply in_or_app. auto.
      + assert (Db : b <> a) by (intros ->; specialize (Ng (UGone a) ltac:(apply in_or_app; right; left; reflexivity)); cbn in Ng; rewrite bytes_eqb_refl in Ng; discriminate).
        exists (lru_drop b pre), (lru_drop b post). rewrite (Dropped b Db). split; [reflexivity|]. intros x Hx. apply in_or_app. left. apply I, (Sub b), Hx. }
  destruct G as (pre & post & E & _). pose proof (cr_nodup m2 _ P2) as Nd. split.
  - rewrite (cr_find m2 _ P2). rewrite E in *. clear - Nd. induction pre as [|[x q] pre IH]; cbn in *; [rewrite bytes_eqb_refl; reflexivity|].
    inversion Nd as [|? ? N1 N2]; subst. destruct (bytes_eqb_spec a x) as [-> |]; [|apply IH, N2]. exfalso. apply N1. rewrite map_app. apply in_or_app. right. left. reflexivity.
  - rewrite (cr_order m2 _ P2), E, map_app. apply in_or_app. right. left. reflexivity.
Qed.

(** Three peers connect to a node with room for two; the first is in the middle of an exchange, the second has been silent. *)
Definition ex_busy : list uop := [UGet (addr_of 1); UGet (addr_of 2); UTraffic (addr_of 1); UTraffic (addr_of 1)].

Theorem C128_refuted : ~ C128_statement.
Proof.
  intros X. specialize (X 2 ex_busy (mkCM [addr_of 2; addr_of 1] [(addr_of 2, 1); (addr_of 1, 0)]) 2 (addr_of 3) (mkCM [addr_of 3; addr_of 2] [(addr_of 3, 2); (addr_of 2, 1)]) 2
    (addr_of 1) 0 (addr_of 2) ltac:(lia) eq_refl eq_refl eq_refl eq_refl ltac:(left; reflexivity) ltac:(discriminate)).
  destruct X as (os1 & o & os2 & E & P & Q). unfold ex_busy in E.
  destruct os1 as [|o1 os1]; [injection E as <- <-; discriminate|]. injection E as <- E.
  destruct os1 as [|o2 os1]; [injection E as <- <-; specialize (Q _ (or_introl eq_refl)); discriminate|]. injection E as <- E.
  destruct os1 as [|o3 os1]; [injection E as <- <-; discriminate|]. injection E as <- E.
  destruct os1 as [|o4 os1]; [injection E as <- <-; discriminate|]. injection E as <- E. destruct os1; discriminate.
Qed.

Example C128_nonvacuous :
  (exists m', cm_fetch 2 (mkCM [addr_of 2; addr_of 1] [(addr_of 2, 1); (addr_of 1, 0)]) (addr_of 3) 2 = Ok (m', 2, false, Some 0) /\
     urun 2 ex_busy = Ok (mkCM [addr_of 2; addr_of 1] [(addr_of 2, 1); (addr_of 1, 0)], 2) /\
     cm_get (addr_of 1) (cm_entries m') = None) /\
  (exists m k, urun 3 ([UGet (addr_of 5)] ++ [UGet (addr_of 1)] ++ [UGet (addr_of 2); UGet (addr_of 3); UGet (addr_of 2); UGone (addr_of 3); UGet (addr_of 3)]) = Ok (m, k) /\ cm_get (addr_of 1) (cm_entries m) = Some 1) /\
  (forall others, NoDup others -> (forall b, In b others -> b <> addr_of 1 /\ In (UGet b) [UGet (addr_of 2); UGet (addr_of 3); UGet (addr_of 2); UGone (addr_of 3); UGet (addr_of 3)]) -> length others < 3).
Proof.
  split; [|split].
  - eexists. split; [reflexivity|]. split; reflexivity.
  - eexists _, _. split; reflexivity.
  - intros others D H. assert (I : incl others [addr_of 2; addr_of 3]).
    { intros b Hb. destruct (H b Hb) as [_ X]. repeat destruct X as [X|X]; try (injection X as <-); try discriminate; try (cbn; tauto); destruct X. }
    pose proof (NoDup_incl_length D I). cbn in *. lia.
Qed.

Print Assumptions C128_refuted.
Print Assumptions C128_partial.
Print Assumptions C128_victim.
