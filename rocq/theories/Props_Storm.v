(** * Whether the exchange started by a request ends (C78) *)
From Verif Require Import Base Spec M_Maps M_Gossip P_Gossip P_Conn M_Storm.
Local Open Scope nat_scope.

(** ** Specification *)
Definition exchange (ha hd : nat) (l : list sact) (s : storm) : Prop := srun ha hd storm_start l = Some s.
Definition in_flight (s : storm) : nat := length (sm_toA s) + length (sm_toD s).
(** The dialling side waits for the response to its request [n]. *)
Definition awaited (s : storm) (n : N) : Prop := rm_get n (rm_entries (sm_map s)) <> None.
(** A request that no call waits for is on its way. *)
Definition stray (s : storm) (n : N) : Prop := ~ awaited s n /\ (In n (sm_toA s) \/ In n (sm_toD s)).

(** If no further request is made, the exchange comes to rest. *)
Definition C78_statement : Prop := forall ha hd l s, exchange ha hd l s ->
  exists bound, forall l' s', ~ In SRequest l' -> srun ha hd s l' = Some s' -> length l' <= bound.

Lemma srun_inv ha hd (P : storm -> Prop) (ok : sact -> Prop) : (forall s a s', P s -> ok a -> sstep ha hd s a = Some s' -> P s') ->
  forall l s s', (forall a, In a l -> ok a) -> P s -> srun ha hd s l = Some s' -> P s'.
Proof.
  intros St. induction l as [|a l IH]; cbn [srun]; intros s s' G H R; [injection R as <-; exact H|]. destruct (sstep ha hd s a) as [s1|] eqn:E; [|discriminate].
  apply (IH s1 s'); [intros b Hb; apply G; right; exact Hb|apply (St s a s1 H); [apply G; left; reflexivity|exact E]|exact R].
Qed.
Lemma srun_app ha hd l1 l2 : forall s, srun ha hd s (l1 ++ l2) = match srun ha hd s l1 with Some s' => srun ha hd s' l2 | None => None end.
Proof. induction l1 as [|a l1 IH]; intros s; cbn [srun app]; [reflexivity|]. destruct (sstep ha hd s a); [apply IH|reflexivity]. Qed.

(** Nonces on the way are not 0. *)
Definition sinv (s : storm) : Prop := (rm_nonce (sm_map s) < 2 ^ 64)%N /\ forall n, In n (sm_toA s) \/ In n (sm_toD s) -> n <> 0%N.
Lemma in_answers h n m : In m (answers h n) -> m = n /\ n <> 0%N.
Proof. unfold answers. destruct (N.eqb_spec n 0) as [->|Ne]; [intros []|]. intros H. apply repeat_spec in H. auto. Qed.
Lemma sinv_step ha hd s a s' : sinv s -> sstep ha hd s a = Some s' -> sinv s'.
Proof.
  intros (A & B) E. destruct a; cbn [sstep] in E.
  - destruct (nextNonce (sm_map s)) as [m o] eqn:Nx. destruct (nextNonce_spec _ _ _ A Nx) as (A' & X). destruct o as [[ch n]|]; injection E as <-; (split; [exact A'|]); cbn [sm_toA sm_toD]; [|exact B].
    intros k [H|H]; [|apply B; auto]. apply in_app_iff in H as [H|[<-|[]]]; [apply B; auto|]. apply X.
  - destruct (sm_toA s) as [|n r] eqn:Q; [discriminate|]. injection E as <-. split; [exact A|]. cbn [sm_toA sm_toD]. intros k [H|H]; [apply B; left; right; exact H|].
    apply in_app_iff in H as [H|H]; [apply B; auto|]. apply in_answers in H as [-> H]. exact H.
  - destruct (sm_toD s) as [|n r] eqn:Q; [discriminate|]. destruct (findRequest (sm_map s) n) as [m o] eqn:F. destruct (findRequest_spec _ _ _ _ F) as (_ & Nn & _). unfold sinv.
    destruct o; injection E as <-; cbn [sm_map sm_toA sm_toD]; rewrite Nn; (split; [exact A|]); intros k [H|H]; try (apply B; auto; right; right; exact H).
    apply in_app_iff in H as [H|H]; [apply B; auto|]. apply in_answers in H as [-> H]. exact H.
Qed.
Lemma reach_sinv ha hd l s : exchange ha hd l s -> sinv s.
Proof.
  intros R. apply (srun_inv ha hd sinv (fun _ => True)) with (l := l) (s := storm_start); [intros x a y I _ E; exact (sinv_step _ _ _ _ _ I E)|auto| |exact R].
  split; [reflexivity|]. intros n [[]|[]].
Qed.

(** ** A stray request never dies *)

Definition weight (s : storm) (n : N) : nat := 2 * count_occ N.eq_dec (sm_toA s) n + count_occ N.eq_dec (sm_toD s) n.
Lemma count_answers h n k : k <> 0%N -> count_occ N.eq_dec (answers h k) n = if N.eqb k n then h else 0.
Proof.
  intros Z. unfold answers. destruct (N.eqb_spec k 0) as [->|_]; [contradiction|]. induction h as [|h IH]; cbn [repeat count_occ]; [destruct (N.eqb k n); reflexivity|]. rewrite IH.
  destruct (N.eq_dec k n) as [->|Ne]; [rewrite N.eqb_refl; reflexivity|]. apply N.eqb_neq in Ne. rewrite Ne. reflexivity.
Qed.
Lemma weight_pos s n : 0 < weight s n <-> In n (sm_toA s) \/ In n (sm_toD s).
Proof. unfold weight. rewrite !(count_occ_In N.eq_dec). lia. Qed.
Lemma stray_step ha hd s a s' n : sinv s -> ~ awaited s n -> a <> SRequest -> sstep ha hd s a = Some s' -> 0 < ha -> 0 < hd ->
  ~ awaited s' n /\ ((In n (sm_toA s) \/ In n (sm_toD s)) -> In n (sm_toA s') \/ In n (sm_toD s')) /\ (2 <= ha -> weight s n <= weight s' n).
Proof.
  intros (_ & Z) Aw Na E Ha Hd. unfold awaited, weight in *. destruct a; [contradiction| |]; cbn [sstep] in E.
  - destruct (sm_toA s) as [|k r] eqn:Q; [discriminate|]. injection E as <-. cbn [sm_map sm_toA sm_toD]. split; [exact Aw|]. assert (Zk : k <> 0%N) by (apply Z; left; left; reflexivity).
    split.
    + intros [[->|H]|H]; auto; right; apply in_app_iff; auto. right. unfold answers. apply N.eqb_neq in Zk. rewrite Zk. destruct ha; [lia|]. left. reflexivity.
    + intros H2. rewrite count_occ_app, (count_answers ha n k Zk). cbn [count_occ]. destruct (N.eq_dec k n) as [->|Ne]; [rewrite N.eqb_refl; lia|]. apply N.eqb_neq in Ne. rewrite Ne. lia.
  - destruct (sm_toD s) as [|k r] eqn:Q; [discriminate|]. destruct (findRequest (sm_map s) k) as [m o] eqn:F. destruct (findRequest_spec _ _ _ _ F) as (Ho & _ & _ & G).
    assert (Zk : k <> 0%N) by (apply Z; right; left; reflexivity). assert (Aw' : rm_get n (rm_entries m) = None).
    { rewrite G. destruct (rm_get n (rm_entries (sm_map s))) as [c|] eqn:X; [exfalso; apply Aw; discriminate|]. destruct o; [destruct (N.eqb n k); reflexivity|reflexivity]. }
    assert (X : rm_get n (rm_entries (sm_map s)) = None) by (destruct (rm_get n (rm_entries (sm_map s))); [exfalso; apply Aw; discriminate|reflexivity]).
    destruct o as [ch|]; injection E as <-; cbn [sm_map sm_toA sm_toD]; (split; [rewrite Aw'; auto|]).
    + assert (Nk : k <> n) by congruence. split; [intros [H|[H|H]]; auto; contradiction|]. intros _. cbn [count_occ]. destruct (N.eq_dec k n); [contradiction|]. lia.
    + split.
      * intros [H|[->|H]]; auto; left; apply in_app_iff; auto. right. unfold answers. apply N.eqb_neq in Zk. rewrite Zk. destruct hd; [lia|]. left. reflexivity.
      * intros H2. rewrite count_occ_app, (count_answers hd n k Zk). cbn [count_occ]. destruct (N.eq_dec k n) as [->|Ne]; [rewrite N.eqb_refl; lia|]. apply N.eqb_neq in Ne. rewrite Ne. lia.
Qed.

(** With a handler on each side that answers requests, a stray request is on its way in every continuation: the exchange never ends, though no
    request is made.  With two answering handlers on the accepting side its copies never become fewer. *)
Theorem C78_forever ha hd l s n l' s' : exchange ha hd l s -> 0 < ha -> 0 < hd -> stray s n -> ~ In SRequest l' -> srun ha hd s l' = Some s' ->
  stray s' n /\ (2 <= ha -> weight s n <= weight s' n) /\ exists a, a <> SRequest /\ sstep ha hd s' a <> None.
Proof.
  intros R Ha Hd (Aw & Fl) Nr R'.
  assert (X : sinv s' /\ ~ awaited s' n /\ (In n (sm_toA s') \/ In n (sm_toD s')) /\ (2 <= ha -> weight s n <= weight s' n)).
  { apply (srun_inv ha hd (fun x => sinv x /\ ~ awaited x n /\ (In n (sm_toA x) \/ In n (sm_toD x)) /\ (2 <= ha -> weight s n <= weight x n)) (fun a => a <> SRequest)) with (l := l') (s := s); [| | |exact R'].
    - intros x a y (I & A & F & W) Na E. destruct (stray_step ha hd x a y n I A Na E Ha Hd) as (A' & F' & W'). split; [exact (sinv_step _ _ _ _ _ I E)|]. split; [exact A'|]. split; [exact (F' F)|]. intros H2. specialize (W H2). specialize (W' H2). lia.
    - intros a H E. subst. contradiction.
    - split; [exact (reach_sinv _ _ _ _ R)|]. auto. }
  destruct X as (I & A & F & W). split; [split; [exact A|exact F]|]. split; [exact W|]. destruct (sm_toA s') as [|k r] eqn:Q.
  - exists SArriveD. split; [discriminate|]. cbn [sstep]. destruct (sm_toD s') as [|k r]; [destruct F as [[]|[]]|]. destruct (findRequest (sm_map s') k) as [m [c|]]; discriminate.
  - exists SArriveA. split; [discriminate|]. cbn [sstep]. rewrite Q. discriminate.
Qed.
(** One request, two handlers that answer it, one handler on the other side that answers requests. *)
Example C78_forever_nonvacuous : exists s, exchange 2 1 [SRequest; SArriveA; SArriveD] s /\ stray s 1%N.
Proof. eexists. split; [vm_compute; reflexivity|]. split; [intros H; apply H; reflexivity|right; left; reflexivity]. Qed.
Theorem C78_refuted : ~ C78_statement.
Proof.
  intros H. destruct C78_forever_nonvacuous as (s & R & St). destruct (H 2 1 _ s R) as (b & B).
  assert (X : forall k, exists l' s', length l' = k /\ ~ In SRequest l' /\ srun 2 1 s l' = Some s').
  { induction k as [|k (l' & s' & L & N & R')]; [exists [], s; auto|]. destruct (C78_forever 2 1 _ s 1%N l' s' R ltac:(lia) ltac:(lia) St N R') as (_ & _ & a & Na & E).
    destruct (sstep 2 1 s' a) as [s2|] eqn:E2; [|contradiction]. exists (l' ++ [a]), s2. split; [rewrite app_length; cbn; lia|]. split; [intros X; apply in_app_iff in X as [X|[X|[]]]; auto|].
    rewrite srun_app, R'. cbn [srun]. rewrite E2. reflexivity. }
  destruct (X (S b)) as (l' & s' & L & N & R'). specialize (B l' s' N R'). lia.
Qed.

(** ** When it ends *)

(** What holds: if the dialling side has no answering handler, or the accepting side has at most one, the exchange ends: a request causes at most
    as many responses as there are handlers. *)
Definition tame (s : storm) : Prop := NoDup (sm_toA s ++ sm_toD s) /\ forall n, In n (sm_toA s ++ sm_toD s) -> awaited s n.
Lemma tame_step ha hd s a s' : ha <= 1 -> sinv s -> tame s -> sstep ha hd s a = Some s' -> tame s'.
Proof.
  intros Ha (A & Z) (T1 & T2) E. unfold tame, awaited in *. destruct a; cbn [sstep] in E.
  - destruct (nextNonce (sm_map s)) as [m o] eqn:Nx. destruct (nextNonce_spec _ _ _ A Nx) as (_ & X). destruct o as [[ch n]|]; injection E as <-; cbn [sm_map sm_toA sm_toD].
    + destruct X as (_ & _ & _ & G & ->). cbn [rm_get]. rewrite <- app_assoc. cbn [app]. split.
      * apply NoDup_Add with (a := n) (l := sm_toA s ++ sm_toD s); [apply Add_app|]. split; [exact T1|]. intros H. exact (T2 n H G).
      * intros k Hk. destruct (N.eqb_spec k n); [discriminate|]. apply T2. apply in_app_iff in Hk as [Hk|[->|Hk]]; [apply in_app_iff; auto|contradiction|apply in_app_iff; auto].
    + destruct X as [-> _]. auto.
  - destruct (sm_toA s) as [|k r] eqn:Q; [discriminate|]. injection E as <-. cbn [sm_map sm_toA sm_toD]. inversion T1 as [|? ? N1 N2]; subst. assert (Zk : k <> 0%N) by (apply Z; left; left; reflexivity).
    apply N.eqb_neq in Zk. unfold answers. rewrite Zk. destruct ha as [|[|]]; [| |lia]; cbn [repeat].
    + rewrite app_nil_r. split; [exact N2|]. intros n H. apply T2. right. exact H.
    + rewrite app_assoc. split.
      * apply NoDup_Add with (a := k) (l := r ++ sm_toD s); [rewrite <- (app_nil_r (r ++ sm_toD s)) at 1; apply Add_app|]. auto.
      * intros n H. apply T2. apply in_app_iff in H as [H|[<-|[]]]; [right; exact H|left; reflexivity].
  - destruct (sm_toD s) as [|k r] eqn:Q; [discriminate|]. destruct (findRequest (sm_map s) k) as [m o] eqn:F. destruct (findRequest_spec _ _ _ _ F) as (Ho & _ & _ & G).
    pose proof (NoDup_remove _ _ _ T1) as [N1 N2]. destruct o as [ch|]; injection E as <-; cbn [sm_map sm_toA sm_toD].
    + split; [exact N1|]. intros n H. rewrite G. destruct (N.eqb_spec n k) as [->|]; [contradiction|]. apply T2. apply in_app_iff in H as [H|H]; apply in_app_iff; [auto|right; right; exact H].
    + exfalso. apply (T2 k); [apply in_app_iff; right; left; reflexivity|]. auto.
Qed.

Theorem C78_partial ha hd l s l' s' : exchange ha hd l s -> hd = 0 \/ ha <= 1 -> ~ In SRequest l' -> srun ha hd s l' = Some s' ->
  length l' + (S ha * length (sm_toA s') + length (sm_toD s')) <= S ha * length (sm_toA s) + length (sm_toD s).
Proof.
  intros R Hh Nr R'.
  assert (Inv : sinv s /\ (hd = 0 \/ ha <= 1 /\ tame s)).
  { apply (srun_inv ha hd (fun x => sinv x /\ (hd = 0 \/ ha <= 1 /\ tame x)) (fun _ => True)) with (l := l) (s := storm_start); [|auto| |exact R].
    - intros x a y (I & T) _ E. split; [exact (sinv_step _ _ _ _ _ I E)|]. destruct T as [T|(T1 & T2)]; [auto|right]. split; [exact T1|exact (tame_step _ _ _ _ _ T1 I T2 E)].
    - split; [split; [reflexivity|intros n [[]|[]]]|]. destruct Hh as [Hh|Hh]; [auto|right]. split; [exact Hh|]. split; [constructor|intros n []]. }
  clear R Hh l. revert s Nr R' Inv. induction l' as [|a l' IH]; cbn [srun]; intros s Nr R' (I & T); [injection R' as <-; cbn; lia|]. destruct (sstep ha hd s a) as [s1|] eqn:E; [|discriminate].
  assert (Inv1 : sinv s1 /\ (hd = 0 \/ ha <= 1 /\ tame s1)).
  { split; [exact (sinv_step _ _ _ _ _ I E)|]. destruct T as [T|(T1 & T2)]; [auto|right]. split; [exact T1|exact (tame_step _ _ _ _ _ T1 I T2 E)]. }
  specialize (IH s1 (fun X => Nr (or_intror X)) R' Inv1). clear Inv1 R'.
  enough (S (S ha * length (sm_toA s1) + length (sm_toD s1)) <= S ha * length (sm_toA s) + length (sm_toD s)) by (cbn [length] in *; lia). clear IH.
  destruct a; [exfalso; apply Nr; left; reflexivity| |]; cbn [sstep] in E.
  - destruct (sm_toA s) as [|k r] eqn:Q; [discriminate|]. injection E as <-. cbn [sm_toA sm_toD length]. rewrite app_length. assert (length (answers ha k) <= ha) by (unfold answers; destruct (N.eqb k 0); [cbn; lia|rewrite repeat_length; lia]). lia.
  - destruct (sm_toD s) as [|k r] eqn:Q; [discriminate|]. destruct (findRequest (sm_map s) k) as [m o] eqn:F. destruct o as [ch|]; injection E as <-; cbn [sm_toA sm_toD length]; [lia|].
    destruct T as [->|(_ & _ & T)].
    + assert (answers 0 k = []) as -> by (unfold answers; destruct (N.eqb k 0); reflexivity). rewrite app_nil_r. lia.
    + exfalso. destruct (findRequest_spec _ _ _ _ F) as (Ho & _). apply (T k); [apply in_app_iff; right; rewrite Q; left; reflexivity|]. auto.
Qed.
Example C78_partial_nonvacuous : exists s s', exchange 1 3 [SRequest; SRequest; SArriveA] s /\ srun 1 3 s [SArriveD; SArriveA; SArriveD] = Some s' /\ in_flight s' = 0.
Proof. eexists. eexists. split; [vm_compute; reflexivity|]. split; vm_compute; reflexivity. Qed.

Print Assumptions C78_forever.
Print Assumptions C78_refuted.
Print Assumptions C78_partial.
