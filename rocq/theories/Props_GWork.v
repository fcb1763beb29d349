(** * Gossip and the node's workers: C97. *)
From Verif Require Import Base Spec M_ID M_Table P_Table P_Iter M_Gossip P_Gossip P_Conn M_Maps M_Client P_Client M_Dial P_Dial Props_Dial M_GWork.
Local Open Scope nat_scope.

(** ** C97 *)

(** "A node that gossips keeps handling messages": whatever has happened, the messages waiting for a worker can still be taken. *)
Definition C97_statement : Prop := forall self w silent es sched s, 0 < w -> gwrun self w silent (gw_start es) sched = Some s ->
  exists sched' s', gwrun self w silent s sched' = Some s' /\ gw_queue s' = [].

(** *** A send to a peer that does not answer the handshake does not return *)

(** Push's sends begin with dialIfNotExists, with a context that nothing cancels.  Such a call, waiting for a connection whose handshake waits for the peer, goes on
    waiting whatever else happens on the node (also if the connection is closed: what matters is that the read does not return). *)
Theorem C97_dial_waits : forall max att p idle isctx l s i n k q l' s', 0 < max -> pool_does SideOutbound max att p idle isctx l s ->
  at_pc s i (DSelect n k) -> cancelled s i = false -> nth_error (ds_clients s) k = Some q -> c_main (k_st q) = MHandshake ->
  ~ In (DaCancel i) l' -> (forall o, ~ In (DaClient k (AMain o)) l') -> drun SideOutbound max att p idle isctx s l' = Some s' ->
  at_pc s' i (DSelect n k) /\ ~ returned s' i.
Proof.
  intros max att p idle isctx l s i n k q l' s' M H A C Hk Hm NC NM R.
  cut (at_pc s' i (DSelect n k)).
  { intros (c & Hc & Pc). split; [exists c; auto|]. intros (c' & Hc' & X). assert (c' = c) as -> by congruence. rewrite Pc in X. exact X. }
  pose proof (reach_pinv _ _ _ _ _ _ _ _ M H) as I. clear H l.
  assert (C' : exists c, nth_error (ds_callers s) i = Some c /\ d_pc c = DSelect n k /\ d_cancelled c = false).
  { destruct A as (c & Hc & Pc). exists c. unfold cancelled in C. rewrite Hc in C. auto. }
  assert (K' : exists q, nth_error (ds_clients s) k = Some q /\ c_main (k_st q) = MHandshake) by eauto.
  clear A C Hk Hm q. revert s I C' K' R. induction l' as [|a l' IH]; intros s I C' K' R.
  - injection R as <-. destruct C' as (c & Hc & Pc & _). exists c. auto.
  - cbn [drun] in R. destruct (dstep SideOutbound max att p idle isctx s a) as [s1|] eqn:E; [|discriminate].
    assert (I1 : pinv max s1) by exact (pinv_step _ _ _ _ _ _ M _ _ _ I E).
    apply (IH (fun X => NC (or_intror X)) (fun o X => NM o (or_intror X)) s1 I1); [| |exact R].
    + destruct C' as (c1 & Hc & Pc1 & Cc). destruct K' as (q1 & Hk & Hm).
      destruct (pi_sig _ _ I q1 (nth_error_In _ _ Hk)) as [(_ & S1 & S2 & _ & S3 & _) _]. rewrite Hm in S1, S2, S3. specialize (S2 eq_refl). specialize (S3 eq_refl eq_refl). cbn in S1.
      pose proof E as E0.
      assert (Sel : forall j c0 x, nth_error (ds_callers s) j = Some c0 -> (j = i -> d_pc x = DSelect n k /\ d_cancelled x = false) ->
                exists c', nth_error (set_nth j x (ds_callers s)) i = Some c' /\ d_pc c' = DSelect n k /\ d_cancelled c' = false).
      { intros j c0 x Hj Hx. rewrite (nth_error_set _ _ _ _ i Hj). destruct (Nat.eqb_spec i j) as [->|]; eauto. }
      clear IH R I1. dcases E.
      * exists c1. split; [apply nth_error_keep, Hc | auto].
      * apply (Sel j c); auto. intros ->. exfalso. apply NC. left. reflexivity.
      * apply (Sel j c); auto. intros ->. congruence.
      * apply (Sel j c); auto. intros ->. congruence.
      * apply (Sel j c); auto. intros ->. congruence.
      * apply (Sel j c); auto. intros ->. exfalso. assert (c = c1) as -> by congruence. rewrite Pc1 in Pc. injection Pc as <- <-. assert (q = q1) as -> by congruence. destruct b; congruence.
      * apply (Sel j c); auto. intros ->. congruence.
      * apply (Sel j c); auto. intros ->. congruence.
      * apply (Sel j c); auto. intros ->. congruence.
      * apply (Sel j c); auto. intros ->. congruence.
      * destruct (client_shape _ _ _ _ _ _ _ _ _ _ _ _ E0 Hq Ha) as (Q1 & _). rewrite Q1. exists c1. auto.
    + destruct K' as (q1 & Hk & Hm). destruct (clients_step _ _ _ _ _ _ _ _ _ _ _ E Hk) as [X|(aa & st & -> & Ha & X)]; [eauto|].
      exists (mkK (k_addr q1) (k_ctx q1) st). split; [exact X|]. cbn [k_st]. rewrite <- Hm.
      assert (NA : forall o, aa <> AMain o) by (intros o ->; apply (NM o); left; reflexivity).
      clear - Ha NA. destruct aa as [o|o sp|m| | |e|]; [destruct (NA o eq_refl)|..]; cbn [cact] in Ha.
      * unfold writer_step in Ha. destruct (c_wr (k_st q1)) as [ | | | |[|m0 lw]| | | | ]; try discriminate;
          repeat match type of Ha with context [match ?x with _ => _ end] => match x with context [match _ with _ => _ end] => fail 1 | _ => destruct x eqn:? end; try discriminate Ha end;
          injection Ha as <-; reflexivity.
      * injection Ha as <-. reflexivity.
      * destruct (c_once (k_st q1) =? 0); injection Ha as <-; reflexivity.
      * destruct (c_once (k_st q1) =? 1); [injection Ha as <-; reflexivity | discriminate].
      * injection Ha as <-. reflexivity.
      * injection Ha as <-. reflexivity.
Qed.

(** *** Runs *)

Lemma gwrun_app self w sl l1 l2 : forall s, gwrun self w sl s (l1 ++ l2) = match gwrun self w sl s l1 with Some s' => gwrun self w sl s' l2 | None => None end.
Proof. induction l1 as [|a l1 IH]; intros s; cbn; [reflexivity|]. destruct (gwstep self w sl s a); [apply IH|reflexivity]. Qed.
Lemma gwrun_inv self w sl (P : gwstate -> Prop) : (forall s a s', P s -> gwstep self w sl s a = Some s' -> P s') -> forall l s s', P s -> gwrun self w sl s l = Some s' -> P s'.
Proof.
  intros St. induction l as [|a l IH]; cbn; intros s s' H R; [injection R as <-; exact H|].
  destruct (gwstep self w sl s a) as [s1|] eqn:E; [|discriminate]. apply (IH s1 s'); [apply (St s a s1 H E)|exact R].
Qed.

(** Messages received in a schedule. *)
Definition received (l : list gwact) : list item := flat_map (fun a => match a with WRecv m => [m] | _ => [] end) l.

(** *** Workers that wait for a silent peer, or have ended, take nothing *)

Definition lost (silent : ID -> bool) (s : gwstate) (j : nat) : Prop :=
  In j (gw_gone s) \/ exists i p d, nth_error (gw_threads s) i = Some (Some j, GSend p d) /\ silent p = true.
Lemma lost_step self w silent s a s' j : lost silent s j -> gwstep self w silent s a = Some s' -> lost silent s' j.
Proof.
  intros L E. destruct a as [i ok|m|k|d|es|x]; cbn [gwstep] in E.
  - destruct (nth_error (gw_threads s) i) as [[o p]|] eqn:N; [|discriminate].
    destruct (is_end p || match p with GSend to _ => silent to | _ => false end) eqn:B; [discriminate|].
    destruct (gstep self (gw_entries s) ok (gw_cache s) p) as [[[c p'] new] ev]. injection E as <-. destruct L as [G|(i0 & p0 & d0 & N0 & S0)].
    + left. cbn. destruct p; auto; destruct ok; auto; destruct o; auto. right. exact G.
    + right. exists i0, p0, d0. split; [|exact S0]. cbn [gw_threads].
      assert (i0 <> i). { intros ->. rewrite N in N0. injection N0 as -> ->. cbn in B. congruence. }
      rewrite nth_error_app1; [|rewrite set_nth_length; apply nth_error_Some; congruence].
      rewrite (nth_error_set _ i _ _ i0 N). destruct (Nat.eqb_spec i0 i); [contradiction | exact N0].
  - destruct (length (gw_queue s) <? w); [|discriminate]. injection E as <-. exact L.
  - destruct (gw_queue s) as [|m q]; [discriminate|]. destruct ((k <? w) && _ && _); [|discriminate]. injection E as <-. destruct L as [G|(i0 & p0 & d0 & N0 & S0)]; [left; exact G|].
    right. exists i0, p0, d0. split; [|exact S0]. cbn. destruct m; [apply nth_error_keep|]; exact N0.
  - injection E as <-. destruct L as [G|(i0 & p0 & d0 & N0 & S0)]; [left; exact G|]. right. exists i0, p0, d0. split; [apply nth_error_keep; exact N0 | exact S0].
  - injection E as <-. exact L.
  - injection E as <-. exact L.
Qed.
Lemma lost_takes silent s j : lost silent s j -> existsb (Nat.eqb j) (gw_gone s) = true \/ free s j = false.
Proof.
  intros [G|(i & p & d & N & _)]; [left; apply existsb_exists; exists j; split; [exact G | apply Nat.eqb_refl]|].
  right. unfold free. apply not_true_iff_false. intros F. rewrite forallb_forall in F. specialize (F _ (nth_error_In _ _ N)). unfold owned in F. cbn in F. rewrite Nat.eqb_refl in F. discriminate.
Qed.
Lemma deaf self w silent : forall l s s', (forall j, j < w -> lost silent s j) -> gwrun self w silent s l = Some s' -> gw_taken s' = gw_taken s.
Proof.
  induction l as [|a l IH]; cbn [gwrun]; intros s s' L R; [injection R as <-; reflexivity|].
  destruct (gwstep self w silent s a) as [s1|] eqn:E; [|discriminate]. rewrite (IH s1 s'); [|intros j J; apply (lost_step self w silent s a s1 j (L j J) E)|exact R].
  destruct a as [i ok|m|k|d|es|x]; cbn [gwstep] in E.
  - destruct (nth_error (gw_threads s) i) as [[o p]|]; [|discriminate]. destruct (is_end p || _); [discriminate|].
    destruct (gstep self (gw_entries s) ok (gw_cache s) p) as [[[c p'] new] ev]. injection E as <-. reflexivity.
  - destruct (length (gw_queue s) <? w); [|discriminate]. injection E as <-. reflexivity.
  - destruct (gw_queue s) as [|m q]; [discriminate|]. destruct (Nat.ltb_spec k w) as [K|K]; [|discriminate].
    destruct (lost_takes silent s k (L k K)) as [X|X]; rewrite X in E; cbn in E; [discriminate|]. rewrite andb_false_r in E. discriminate.
  - injection E as <-. reflexivity.
  - injection E as <-. reflexivity.
  - injection E as <-. reflexivity.
Qed.

(** *** Losing the workers one after the other *)

Section Load.
Variables (self : pubkey) (w : nat) (silent : ID -> bool) (es : list ID).

Lemma last_step c l o pc q g t ok c' pc' new ev :
  is_end pc = false -> (match pc with GSend to _ => silent to | _ => false end) = false -> gstep self es ok c pc = (c', pc', new, ev) ->
  gwstep self w silent (mkGW c es (l ++ [(o, pc)]) q g t) (WStep (length l) ok) =
    Some (mkGW c' es (l ++ [(o, pc')] ++ map (fun x => (o, x)) new) q (match pc, ok, o with GEvent _ _, false, Some j => j :: g | _, _, _ => g end) t).
Proof.
  intros H1 H2 H3. cbn [gwstep gw_threads gw_entries gw_cache gw_queue gw_gone gw_taken].
  rewrite nth_error_app2, Nat.sub_diag by lia. cbn [nth_error]. rewrite H1, H2. cbn [orb]. rewrite H3.
  assert (X : forall y, set_nth (length l) y (l ++ [(o, pc)]) = l ++ [y]) by (intros y; clear; induction l as [|a l IH]; [reflexivity|]; cbn; rewrite IH; reflexivity).
  rewrite X, <- app_assoc. reflexivity.
Qed.

(** Workers below [k] are lost, the others have done nothing; what the cache holds. *)
Record loaded (bad : pubkey -> Prop) (done : list bytes) (k : nat) (s : gwstate) : Prop := mkLd {
  lo_entries : gw_entries s = es;
  lo_queue : gw_queue s = [];
  lo_lost : forall j, j < k -> lost silent s j;
  lo_threads : forall o p, In (o, p) (gw_threads s) -> exists j, o = Some j /\ j < k;
  lo_gone : forall j, In j (gw_gone s) -> j < k;
  lo_cache : forall x, In x (gw_cache s) -> exists key d, x = hash key d /\ key32 key /\ ~ bad key /\ In d done
}.
Lemma loaded_start bad : loaded bad [] 0 (gw_start es).
Proof. constructor; cbn; auto; try (intros; lia); intros; contradiction. Qed.

Lemma taken_free s k : (forall o p, In (o, p) (gw_threads s) -> exists j, o = Some j /\ j < k) -> free s k = true.
Proof.
  intros H. unfold free. apply forallb_forall. intros [o p] I. destruct (H o p I) as (j & -> & J). unfold owned. cbn. rewrite (proj2 (Nat.eqb_neq j k)) by lia. reflexivity.
Qed.
Lemma not_gone s k : (forall j, In j (gw_gone s) -> j < k) -> existsb (Nat.eqb k) (gw_gone s) = false.
Proof. intros H. apply not_true_iff_false. intros X. apply existsb_exists in X as (j & I & E). apply Nat.eqb_eq in E. subst. specialize (H _ I). lia. Qed.
Lemma gwrun_cons s a l : gwrun self w silent s (a :: l) = match gwstep self w silent s a with Some s' => gwrun self w silent s' l | None => None end.
Proof. reflexivity. Qed.

Lemma not_cached bad done c key d : (forall x, In x c -> exists key d, x = hash key d /\ key32 key /\ ~ bad key /\ In d done) -> key32 key -> bad key \/ ~ In d done -> cache_has (hash key d) c = false.
Proof.
  intros C K H. apply not_true_iff_false. intros X. apply cache_has_in in X. destruct (C _ X) as (k' & d' & E & K' & B & I).
  destruct (hash_inj _ _ _ _ K K' E) as [-> ->]. tauto.
Qed.
Lemma cached (bad : pubkey -> Prop) done c key d : (forall x, In x c -> exists key d, x = hash key d /\ key32 key /\ ~ bad key /\ In d done) -> key32 key -> ~ bad key ->
  forall x, In x (cache_set (hash key d) c) -> exists key d0, x = hash key d0 /\ key32 key /\ ~ bad key /\ In d0 (d :: done).
Proof.
  intros C K B x I. apply cache_set_in in I as [->|I]; [exists key, d; cbn; auto|]. destruct (C x I) as (k' & d' & E & K' & B' & I'). exists k', d'. cbn. auto.
Qed.

(** A gossip message is taken by worker [k], which goes as far as the callback. *)
Lemma load_event bad done k s from d : loaded bad done k s -> k < w -> key32 self -> key32 (id_key from) -> ~ bad (id_key from) -> ~ bad self -> id_key from <> self -> ~ In d done ->
  exists c, gwrun self w silent s [WRecv (Gossip from d); WTake k; WStep (length (gw_threads s)) true; WStep (length (gw_threads s)) true; WStep (length (gw_threads s)) true] =
    Some (mkGW c es (gw_threads s ++ [(Some k, GEvent from d)]) [] (gw_gone s) (gw_taken s ++ [Gossip from d])) /\
    (forall x, In x c -> exists key d0, x = hash key d0 /\ key32 key /\ ~ bad key /\ In d0 (d :: done)).
Proof.
  intros [Le Lq Ll Lt Lg Lc] K Ks Kf Bf Bs NE ND. destruct s as [c es0 th q g t]. cbn [gw_entries gw_queue gw_threads gw_gone gw_cache gw_taken] in *. subst es0 q.
  pose proof (cached bad done c (id_key from) d Lc Kf Bf) as C1.
  assert (H1 : cache_has (hash self d) (cache_set (hash (id_key from) d) c) = false).
  { apply not_true_iff_false. intros X. apply cache_has_in in X. apply cache_set_in in X as [X|X].
    - destruct (hash_inj _ _ _ _ Ks Kf X) as [Y _]. congruence.
    - destruct (Lc _ X) as (k' & d' & E & K' & _ & I). destruct (hash_inj _ _ _ _ Ks K' E) as [_ ->]. contradiction. }
  eexists. split.
  - rewrite gwrun_cons. cbn [gwstep gw_queue length]. rewrite (proj2 (Nat.ltb_lt 0 w)) by lia. cbn [gw_cache gw_entries gw_threads gw_gone gw_taken Datatypes.app].
    rewrite gwrun_cons. cbn [gwstep gw_queue gw_gone].
    pose proof (not_gone (mkGW c es th [Gossip from d] g t) k Lg) as NG. cbn [gw_gone] in NG.
    rewrite (proj2 (Nat.ltb_lt k w) K), NG, (taken_free (mkGW c es th [Gossip from d] g t) k Lt).
    cbn [negb andb gw_cache gw_entries gw_threads gw_gone gw_taken].
    rewrite gwrun_cons, (last_step _ _ _ (GSetSender from d) _ _ _ true (cache_set (hash (id_key from) d) c) (GHasSelf from d) [] _ eq_refl eq_refl eq_refl). cbn [map Datatypes.app].
    rewrite gwrun_cons, (last_step _ _ _ (GHasSelf from d) _ _ _ true (cache_set (hash (id_key from) d) c) (GSetSelf from d) [] [] eq_refl eq_refl); [|cbn [gstep]; rewrite H1; reflexivity]. cbn [map Datatypes.app].
    rewrite gwrun_cons, (last_step _ _ _ (GSetSelf from d) _ _ _ true (cache_set (hash self d) (cache_set (hash (id_key from) d) c)) (GEvent from d) [] _ eq_refl eq_refl eq_refl). cbn [map Datatypes.app].
    reflexivity.
  - intros x I. destruct (cached bad (d :: done) _ self d C1 Ks Bs x I) as (key & d0 & A1 & A2 & A3 & A4). exists key, d0. cbn in *. tauto.
Qed.

Lemma load_reject bad done k s from d : loaded bad done k s -> k < w -> key32 self -> key32 (id_key from) -> ~ bad (id_key from) -> ~ bad self -> id_key from <> self -> ~ In d done ->
  exists l s', gwrun self w silent s l = Some s' /\ loaded bad (d :: done) (S k) s' /\ gw_taken s' = gw_taken s ++ [Gossip from d] /\ received l = [Gossip from d].
Proof.
  intros L K Ks Kf Bf Bs NE ND. destruct (load_event bad done k s from d L K Ks Kf Bf Bs NE ND) as (c & R & C).
  eexists (_ ++ [WStep (length (gw_threads s)) false]), _. split.
  { rewrite gwrun_app, R. rewrite gwrun_cons, (last_step _ _ _ (GEvent from d) _ _ _ false c GEnd [] [EvReceived from d] eq_refl eq_refl eq_refl). reflexivity. }
  split; [|split; reflexivity]. destruct L as [Le Lq Ll Lt Lg Lc]. constructor; cbn [gw_entries gw_queue gw_threads gw_gone gw_cache map]; rewrite ?app_nil_r; auto.
  - intros j J. destruct (Nat.eq_dec j k) as [->|]; [left; left; reflexivity|]. destruct (Ll j ltac:(lia)) as [G|(i & p & d0 & N & S0)]; [left; right; exact G|].
    right. exists i, p, d0. split; [apply nth_error_keep; exact N | exact S0].
  - intros o p I. apply in_app_or in I as [I|[I|[]]]; [destruct (Lt o p I) as (j & -> & J); eauto with arith | injection I as <- <-; eauto].
  - intros j [->|I]; [lia|]. specialize (Lg j I). lia.
Qed.

Lemma load_silent done k s from d e1 p e2 : es = e1 ++ p :: e2 -> silent p = true -> key32 (id_key p) -> id_key p <> self -> loaded (eq (id_key p)) done k s -> k < w -> key32 self ->
  key32 (id_key from) -> id_key from <> id_key p -> id_key from <> self -> ~ In d done ->
  exists l s', gwrun self w silent s l = Some s' /\ loaded (eq (id_key p)) (d :: done) (S k) s' /\ gw_taken s' = gw_taken s ++ [Gossip from d] /\ received l = [Gossip from d].
Proof.
  intros Ees Sp Kp NS L K Ks Kf NP NE ND. set (bad := eq (id_key p)) in *.
  assert (Bf : ~ bad (id_key from)) by (unfold bad; congruence). assert (Bs : ~ bad self) by exact NS.
  destruct (load_event bad done k s from d L K Ks Kf Bf Bs NE ND) as (c & R & C).
  set (n := length (gw_threads s)) in *. set (c2 := cache_set (hash self d) c).
  assert (C2 : forall x, In x c2 -> exists key d0, x = hash key d0 /\ key32 key /\ ~ bad key /\ In d0 (d :: done)).
  { intros x I. destruct (cached bad (d :: done) c self d C Ks Bs x I) as (key & d0 & A1 & A2 & A3 & A4). exists key, d0. cbn in *. tauto. }
  set (kids := map (fun x => (Some k, x)) (map (fun id => GCheck id d) es)).
  assert (Nk : nth_error (gw_threads s ++ [(Some k, GEnd)] ++ kids) (n + 1 + length e1) = Some (Some k, GCheck p d)).
  { rewrite nth_error_app2 by (unfold n; lia). replace (n + 1 + length e1 - length (gw_threads s)) with (S (length e1)) by (unfold n; lia). cbn [Datatypes.app nth_error].
    unfold kids. rewrite Ees, !map_app. rewrite nth_error_app2; rewrite !map_length; [|lia]. rewrite Nat.sub_diag. reflexivity. }
  eexists (_ ++ [WStep n true; WStep n true; WStep n true; WStep (n + 1 + length e1) true]), _. split.
  { rewrite gwrun_app, R. unfold n at 1 2 3.
    rewrite gwrun_cons, (last_step _ _ _ (GEvent from d) _ _ _ true c (GPush d) [] [EvReceived from d] eq_refl eq_refl eq_refl). cbn [map Datatypes.app].
    rewrite gwrun_cons, (last_step _ _ _ (GPush d) _ _ _ true c2 (GEntries d) [] [EvOwn d] eq_refl eq_refl eq_refl). cbn [map Datatypes.app].
    rewrite gwrun_cons, (last_step _ _ _ (GEntries d) _ _ _ true c2 GEnd (map (fun id => GCheck id d) es) [] eq_refl eq_refl eq_refl). fold kids.
    rewrite gwrun_cons. cbn [gwstep gw_threads gw_entries gw_cache gw_queue gw_gone gw_taken]. rewrite Nk. cbn [is_end orb gstep].
    rewrite (not_cached bad (d :: done) c2 (id_key p) d C2 Kp (or_introl eq_refl)). cbn [map]. rewrite app_nil_r. reflexivity. }
  split; [|split; reflexivity]. destruct L as [Le Lq Ll Lt Lg Lc].
  assert (NN : forall j, nth_error (set_nth (n + 1 + length e1) (Some k, GSend p d) (gw_threads s ++ [(Some k, GEnd)] ++ kids)) j =
                  if j =? n + 1 + length e1 then Some (Some k, GSend p d) else nth_error (gw_threads s ++ [(Some k, GEnd)] ++ kids) j) by (intros j; apply (nth_error_set _ _ _ _ j Nk)).
  constructor; cbn [gw_entries gw_queue gw_threads gw_gone gw_cache]; auto.
  - intros j J. destruct (Nat.eq_dec j k) as [->|].
    + right. exists (n + 1 + length e1), p, d. split; [rewrite NN, Nat.eqb_refl; reflexivity | exact Sp].
    + destruct (Ll j ltac:(lia)) as [G|(i & p0 & d0 & N0 & S0)]; [left; exact G|]. right. exists i, p0, d0. split; [|exact S0]. cbn [gw_threads]. rewrite NN.
      assert (i < n) by (apply nth_error_Some; congruence). rewrite (proj2 (Nat.eqb_neq i (n + 1 + length e1))) by lia. rewrite nth_error_app1; [exact N0 | exact H].
  - intros o pc I. apply in_set_nth in I as [I|I]; [injection I as -> ->; eauto|]. apply in_app_or in I as [I|I]; [destruct (Lt o pc I) as (j & -> & J); eauto with arith|].
    exists k. split; [|lia]. destruct I as [I|I]; [congruence|]. unfold kids in I. rewrite map_map in I. apply in_map_iff in I as (x & X & _). congruence.
  - intros j I. specialize (Lg j I). lia.
Qed.

(** Messages that the loads below handle: gossip with different contents, from peers other than the node itself and [bad]. *)
Definition proper (bad : pubkey -> Prop) (m : ID * bytes) : Prop := key32 (id_key (fst m)) /\ ~ bad (id_key (fst m)) /\ id_key (fst m) <> self.
Lemma load_all bad : (forall done k s from d, loaded bad done k s -> k < w -> proper bad (from, d) -> ~ In d done ->
    exists l s', gwrun self w silent s l = Some s' /\ loaded bad (d :: done) (S k) s' /\ gw_taken s' = gw_taken s ++ [Gossip from d] /\ received l = [Gossip from d]) ->
  forall ms done k s, loaded bad done k s -> k + length ms <= w -> Forall (proper bad) ms -> NoDup (map snd ms) -> (forall d, In d done -> ~ In d (map snd ms)) ->
  exists l s' done', gwrun self w silent s l = Some s' /\ loaded bad done' (k + length ms) s' /\ gw_taken s' = gw_taken s ++ map (fun m => Gossip (fst m) (snd m)) ms /\
    received l = map (fun m => Gossip (fst m) (snd m)) ms.
Proof.
  intros One. induction ms as [|[from d] ms IH]; cbn [length map fst snd]; intros done k s L K P ND Dis.
  - exists [], s, done. rewrite Nat.add_0_r, app_nil_r. auto.
  - inversion P as [|? ? P1 P2]; subst. inversion ND as [|? ? N1 N2]; subst.
    destruct (One done k s from d L ltac:(lia) P1) as (l1 & s1 & R1 & L1 & T1 & V1); [intros I; apply (Dis d I); left; reflexivity|].
    destruct (IH (d :: done) (S k) s1 L1 ltac:(lia) P2 N2) as (l2 & s2 & done' & R2 & L2 & T2 & V2).
    { intros x [<-|I]; [exact N1|]. intros J. apply (Dis x I). right. exact J. }
    exists (l1 ++ l2), s2, done'. rewrite gwrun_app, R1. split; [exact R2|]. replace (k + S (length ms)) with (S k + length ms) by lia. split; [exact L2|].
    rewrite T2, T1, <- app_assoc. split; [reflexivity|]. unfold received in *. rewrite flat_map_app, V1, V2. reflexivity.
Qed.
End Load.

(** A peer in the routing table to which sends do not return: as many different gossip messages as there are workers, and the node never takes a message again,
    of any kind, whatever else happens. *)
Theorem C97_deaf : forall self w silent es p ms, key32 self -> In p es -> silent p = true -> key32 (id_key p) -> id_key p <> self ->
  length ms = w -> NoDup (map snd ms) -> Forall (fun m => key32 (id_key (fst m)) /\ id_key (fst m) <> id_key p /\ id_key (fst m) <> self) ms ->
  exists sched s, gwrun self w silent (gw_start es) sched = Some s /\ received sched = map (fun m => Gossip (fst m) (snd m)) ms /\ gw_taken s = received sched /\
    forall sched' s', gwrun self w silent s sched' = Some s' -> gw_taken s' = gw_taken s.
Proof.
  intros self w silent es p ms Ks Ip Sp Kp NS Lm ND P. destruct (in_split _ _ Ip) as (e1 & e2 & Ees).
  assert (P' : Forall (proper self (eq (id_key p))) ms).
  { eapply Forall_impl; [|exact P]. intros m (A & B & C). unfold proper. repeat split; auto. }
  assert (One : forall done k s from d, loaded silent es (eq (id_key p)) done k s -> k < w -> proper self (eq (id_key p)) (from, d) -> ~ In d done ->
    exists l s', gwrun self w silent s l = Some s' /\ loaded silent es (eq (id_key p)) (d :: done) (S k) s' /\ gw_taken s' = gw_taken s ++ [Gossip from d] /\ received l = [Gossip from d]).
  { intros done k s from d L K (A & B & C) N. apply (load_silent self w silent es done k s from d e1 p e2); auto. }
  destruct (load_all self w silent es _ One ms [] 0 (gw_start es) ltac:(apply loaded_start; assumption) ltac:(lia) P' ND (fun d (X : In d []) => match X with end)) as (l & s & done' & R & L & T & V).
  exists l, s. split; [exact R|]. split; [exact V|]. split; [rewrite V, T; reflexivity|]. intros l' s' R'. apply (deaf self w silent l' s s'); [|exact R'].
  intros j J. apply (lo_lost _ _ _ _ _ _ L). cbn. lia.
Qed.

(** The same with messages that the application rejects: each costs a worker. *)
Theorem C97_rejecting : forall self w silent es ms, key32 self -> length ms = w -> NoDup (map snd ms) ->
  Forall (fun m => key32 (id_key (fst m)) /\ id_key (fst m) <> self) ms ->
  exists sched s, gwrun self w silent (gw_start es) sched = Some s /\ received sched = map (fun m => Gossip (fst m) (snd m)) ms /\ gw_taken s = received sched /\
    forall sched' s', gwrun self w silent s sched' = Some s' -> gw_taken s' = gw_taken s.
Proof.
  intros self w silent es ms Ks Lm ND P.
  assert (P' : Forall (proper self (fun _ => False)) ms).
  { eapply Forall_impl; [|exact P]. intros m (A & B). unfold proper. repeat split; auto. }
  assert (One : forall done k s from d, loaded silent es (fun _ => False) done k s -> k < w -> proper self (fun _ => False) (from, d) -> ~ In d done ->
    exists l s', gwrun self w silent s l = Some s' /\ loaded silent es (fun _ => False) (d :: done) (S k) s' /\ gw_taken s' = gw_taken s ++ [Gossip from d] /\ received l = [Gossip from d]).
  { intros done k s from d L K (A & B & C) N. apply load_reject; auto. }
  destruct (load_all self w silent es _ One ms [] 0 (gw_start es) ltac:(apply loaded_start; assumption) ltac:(lia) P' ND (fun d (X : In d []) => match X with end)) as (l & s & done' & R & L & T & V).
  exists l, s. split; [exact R|]. split; [exact V|]. split; [rewrite V, T; reflexivity|]. intros l' s' R'. apply (deaf self w silent l' s s'); [|exact R'].
  intros j J. apply (lo_lost _ _ _ _ _ _ L). cbn. lia.
Qed.

Definition ex_node (b : byte) : ID := mkID (repeat b 32) [] 0%N [].
Theorem C97_refuted : ~ C97_statement.
Proof.
  intros H. set (p := ex_node Byte.x02). set (self := repeat Byte.x01 32).
  destruct (C97_deaf self 1 (fun _ => true) [p] p [(ex_node Byte.x03, [Byte.x61])]) as (l & s & R & _ & _ & D); try reflexivity; try (now left); try discriminate.
  - repeat constructor. intros [].
  - constructor; [|constructor]. repeat split; discriminate.
  - assert (Take : forall m q s0 l' s', gw_queue s0 = m :: q -> gwrun self 1 (fun _ => true) s0 l' = Some s' -> gw_queue s' = [] -> gw_taken s' <> gw_taken s0).
    { clear. intros m q s0 l'. revert m q s0.
      assert (G : forall l s s', gwrun self 1 (fun _ => true) s l = Some s' -> exists t, gw_taken s' = gw_taken s ++ t /\ (t = [] -> exists u, gw_queue s' = gw_queue s ++ u)).
      { induction l as [|a l IH]; cbn [gwrun]; intros s s' R; [injection R as <-; exists []; split; [symmetry; apply app_nil_r|]; intros _; exists []; symmetry; apply app_nil_r|].
        destruct (gwstep self 1 (fun _ => true) s a) as [s1|] eqn:E; [|discriminate]. destruct (IH s1 s' R) as (t & T & Q).
        assert (X : (gw_taken s1 = gw_taken s /\ exists u, gw_queue s1 = gw_queue s ++ u) \/ exists m, gw_taken s1 = gw_taken s ++ [m]).
        { destruct a as [i ok|m|k|d|es|x]; cbn [gwstep] in E.
          - destruct (nth_error (gw_threads s) i) as [[o p]|]; [|discriminate]. destruct (is_end p || _); [discriminate|].
            destruct (gstep self (gw_entries s) ok (gw_cache s) p) as [[[c p'] new] ev]. injection E as <-. left. split; [reflexivity|]. exists []. symmetry. apply app_nil_r.
          - destruct (length (gw_queue s) <? 1); [|discriminate]. injection E as <-. left. split; [reflexivity|]. exists [m]. reflexivity.
          - destruct (gw_queue s) as [|m q]; [discriminate|]. destruct ((k <? 1) && _ && _); [|discriminate]. injection E as <-. right. exists m. reflexivity.
          - injection E as <-. left. split; [reflexivity|]. exists []. symmetry. apply app_nil_r.
          - injection E as <-. left. split; [reflexivity|]. exists []. symmetry. apply app_nil_r.
          - injection E as <-. left. split; [reflexivity|]. exists []. symmetry. apply app_nil_r. }
        destruct X as [(T1 & u & U)|(m & T1)].
        - exists t. rewrite T, T1. split; [reflexivity|]. intros Z. destruct (Q Z) as (v & V). exists (u ++ v). rewrite V, U, app_assoc. reflexivity.
        - exists (m :: t). rewrite T, T1, <- app_assoc. split; [reflexivity|]. discriminate. }
      intros m q s0 s' E R Z X. destruct (G l' s0 s' R) as (t & T & Q). rewrite X in T. assert (t = []) as -> by (apply (app_inv_head (gw_taken s0)); rewrite app_nil_r; symmetry; exact T).
      destruct (Q eq_refl) as (u & U). rewrite Z, E in U. discriminate. }
    destruct (gw_queue s) as [|m q] eqn:Eq.
    + assert (R1 : gwrun self 1 (fun _ => true) s [WRecv Other] = Some (mkGW (gw_cache s) (gw_entries s) (gw_threads s) [Other] (gw_gone s) (gw_taken s))).
      { cbn [gwrun gwstep]. rewrite Eq. reflexivity. }
      destruct (H self 1 (fun _ => true) [p] (l ++ [WRecv Other]) _ (Nat.lt_0_succ 0) ltac:(rewrite gwrun_app, R; exact R1)) as (l' & s' & R' & Z).
      refine (Take Other [] _ l' s' _ R' Z _); [reflexivity|]. cbn [gw_taken]. apply (D ([WRecv Other] ++ l') s'). rewrite gwrun_app, R1. exact R'.
    + destruct (H self 1 (fun _ => true) [p] l s (Nat.lt_0_succ 0) R) as (l' & s' & R' & Z). apply (Take m q s l' s' Eq R' Z). apply (D l' s' R').
Qed.

(** *** Without a silent peer *)

(** Steps of the node's own goroutines; [calm]: nothing fails. *)
Definition inner (a : gwact) : bool := match a with WStep _ _ | WTake _ => true | _ => false end.
Definition calm (a : gwact) : bool := match a with WStep _ ok => ok | WTake _ => true | _ => false end.
(** All messages have been handled completely. *)
Definition handled (s : gwstate) : Prop := gw_queue s = [] /\ forall t, In t (gw_threads s) -> snd t = GEnd.
(** The routing tables that a node has had. *)
Definition tables (es : list ID) (l : list gwact) : list (list ID) := es :: flat_map (fun a => match a with WTable t => [t] | _ => [] end) l.

(** Steps still to be made for a goroutine, and for a message, with [n] peers in the table. *)
Definition todo (n : nat) (p : gpc) : nat :=
  match p with
  | GSetSender _ _ => 6 + 3 * n | GHasSelf _ _ => 5 + 3 * n | GSetSelf _ _ => 4 + 3 * n | GEvent _ _ => 3 + 3 * n | GPush _ => 2 + 3 * n | GEntries _ => 1 + 3 * n
  | GCheck _ _ => 3 | GSend _ _ => 2 | GMark _ _ => 1 | GEnd => 0
  end.
Definition todo_item (n : nat) (m : item) : nat := match m with Gossip _ _ => 7 + 3 * n | Other => 1 end.
Definition left (s : gwstate) : nat :=
  let n := length (gw_entries s) in sumf (fun t => todo n (snd t)) (gw_threads s) + sumf (todo_item n) (gw_queue s).

Lemma todo_step self es ok c p c' p' new ev : is_end p = false -> gstep self es ok c p = (c', p', new, ev) ->
  todo (length es) p' + sumf (todo (length es)) new < todo (length es) p.
Proof.
  intros N E. destruct p; cbn [gstep] in E; try discriminate N.
  - injection E as <- <- <- <-. cbn. lia.
  - destruct (cache_has _ _); injection E as <- <- <- <-; cbn; lia.
  - injection E as <- <- <- <-. cbn. lia.
  - destruct ok; injection E as <- <- <- <-; cbn; lia.
  - injection E as <- <- <- <-. cbn. lia.
  - injection E as <- <- <- <-. cbn [todo]. assert (X : forall l n, sumf (todo n) (map (fun id => GCheck id d) l) = 3 * length l) by (induction l as [|x l IH]; intros n; [reflexivity|]; cbn [map sumf length todo]; rewrite IH; lia).
    rewrite X. lia.
  - destruct (cache_has _ _); injection E as <- <- <- <-; cbn; lia.
  - destruct ok; injection E as <- <- <- <-; cbn; lia.
  - injection E as <- <- <- <-. cbn. lia.
Qed.
Lemma left_step self w silent s a s' : inner a = true -> gwstep self w silent s a = Some s' -> left s' < left s.
Proof.
  intros I E. unfold left. destruct a as [i ok|m|k|d|es|x]; try discriminate I; cbn [gwstep] in E.
  - destruct (nth_error (gw_threads s) i) as [[o p]|] eqn:N; [|discriminate].
    destruct (is_end p) eqn:B; [discriminate|]. destruct (match p with GSend to _ => silent to | _ => false end); [discriminate|]. cbn [orb] in E.
    destruct (gstep self (gw_entries s) ok (gw_cache s) p) as [[[c p'] new] ev] eqn:G. injection E as <-. cbn [gw_entries gw_threads gw_queue].
    pose proof (todo_step _ _ _ _ _ _ _ _ _ B G) as T. rewrite sumf_app.
    pose proof (sumf_set (fun t => todo (length (gw_entries s)) (snd t)) _ i (o, p) (o, p') N) as X. cbn [snd] in X.
    assert (Y : forall l, sumf (fun t => todo (length (gw_entries s)) (snd t)) (map (fun q => (o, q)) l) = sumf (todo (length (gw_entries s))) l) by (induction l as [|y l IH]; [reflexivity|]; cbn [map sumf snd]; rewrite IH; reflexivity).
    rewrite Y. lia.
  - destruct (gw_queue s) as [|m q]; [discriminate|]. destruct ((k <? w) && _ && _); [|discriminate]. injection E as <-. cbn [gw_entries gw_threads gw_queue sumf].
    destruct m as [from d|]; cbn [todo_item]; [rewrite sumf_app; cbn [sumf snd todo]|]; lia.
Qed.

Definition loud (silent : ID -> bool) (s : gwstate) : Prop :=
  (forall p, In p (gw_entries s) -> silent p = false) /\ forall o q, In (o, q) (gw_threads s) -> match q with GCheck to _ | GSend to _ => silent to = false | _ => True end.
Lemma loud_step self w silent s a s' : loud silent s -> (forall es p, a = WTable es -> In p es -> silent p = false) -> gwstep self w silent s a = Some s' -> loud silent s'.
Proof.
  intros [A B] T E. destruct a as [i ok|m|k|d|es|x]; cbn [gwstep] in E.
  - destruct (nth_error (gw_threads s) i) as [[o p]|] eqn:N; [|discriminate]. destruct (is_end p || _); [discriminate|].
    destruct (gstep self (gw_entries s) ok (gw_cache s) p) as [[[c p'] new] ev] eqn:G. injection E as <-. split; [exact A|]. cbn [gw_threads]. intros o' q I.
    specialize (B o p (nth_error_In _ _ N)) as Bp.
    apply in_app_or in I as [I|I].
    + apply in_set_nth in I as [I|I]; [injection I as -> ->|exact (B o' q I)].
      destruct p; cbn [gstep] in G; repeat match type of G with context [if ?x then _ else _] => destruct x end; injection G as <- <- <- <-; cbn; auto.
    + apply in_map_iff in I as (x & X & I). injection X as <- <-.
      destruct p; cbn [gstep] in G; repeat match type of G with context [if ?x then _ else _] => destruct x end; injection G as <- <- <- <-; try (destruct I; fail).
      apply in_map_iff in I as (y & <- & I). exact (A y I).
  - destruct (length (gw_queue s) <? w); [|discriminate]. injection E as <-. split; auto.
  - destruct (gw_queue s) as [|m q]; [discriminate|]. destruct ((k <? w) && _ && _); [|discriminate]. injection E as <-. split; [exact A|]. cbn [gw_threads]. intros o p I.
    destruct m; [|exact (B o p I)]. apply in_app_or in I as [I|[I|[]]]; [exact (B o p I)|]. injection I as <- <-. exact I.
  - injection E as <-. split; [exact A|]. cbn [gw_threads]. intros o p I. apply in_app_or in I as [I|[I|[]]]; [exact (B o p I)|]. injection I as <- <-. exact I.
  - injection E as <-. split; [|exact B]. intros p I. apply (T es p eq_refl I).
  - injection E as <-. split; auto.
Qed.
Lemma loud_run self w silent : forall l s s', loud silent s -> (forall es p, In (WTable es) l -> In p es -> silent p = false) -> gwrun self w silent s l = Some s' -> loud silent s'.
Proof.
  induction l as [|a l IH]; cbn [gwrun]; intros s s' L T R; [injection R as <-; exact L|].
  destruct (gwstep self w silent s a) as [s1|] eqn:E; [|discriminate]. apply (IH s1 s'); [| |exact R].
  - apply (loud_step self w silent s a s1 L); [|exact E]. intros es p -> . apply (T es p). left. reflexivity.
  - intros es p I. apply (T es p). right. exact I.
Qed.

(** While something is unhandled and some worker has not ended, a step is possible that does not end a worker. *)
Lemma loud_steps self w silent s : loud silent s -> (exists j, j < w /\ ~ In j (gw_gone s)) -> handled s \/ exists a s', calm a = true /\ gwstep self w silent s a = Some s' /\ gw_gone s' = gw_gone s.
Proof.
  intros [A B] (j & J & G). destruct (existsb (fun t => negb (is_end (snd t))) (gw_threads s)) eqn:X.
  - right. apply existsb_exists in X as ([o p] & I & N). cbn [snd] in N. apply negb_true_iff in N. pose proof (B o p I) as Bp. apply In_nth_error in I as [i I].
    destruct (gstep self (gw_entries s) true (gw_cache s) p) as [[[c p'] new] ev] eqn:Gs.
    exists (WStep i true). eexists. split; [reflexivity|]. cbn [gwstep]. rewrite I, N. replace (match p with GSend to _ => silent to | _ => false end) with false by (destruct p; auto).
    cbn [orb]. rewrite Gs. split; [reflexivity|]. cbn. destruct p; reflexivity.
  - assert (All : forall t, In t (gw_threads s) -> snd t = GEnd).
    { intros t I. destruct (is_end (snd t)) eqn:E; [destruct (snd t); try discriminate E; reflexivity|]. assert (Y : existsb (fun t => negb (is_end (snd t))) (gw_threads s) = true); [|congruence].
      apply existsb_exists. exists t. rewrite E. auto. }
    destruct (gw_queue s) as [|m q] eqn:Q; [left; split; auto|]. right. exists (WTake j). eexists. split; [reflexivity|]. cbn [gwstep]. rewrite Q.
    rewrite (proj2 (Nat.ltb_lt j w) J). replace (existsb (Nat.eqb j) (gw_gone s)) with false.
    2:{ symmetry. apply not_true_iff_false. intros Y. apply existsb_exists in Y as (x & Ix & E). apply Nat.eqb_eq in E. subst. contradiction. }
    replace (free s j) with true. 2:{ symmetry. unfold free. apply forallb_forall. intros t I. rewrite (All t I). apply orb_true_r. }
    cbn [negb andb]. split; reflexivity.
Qed.

(** Without silent peers in the routing tables, everything is handled as long as a worker is left: the messages can all be handled, and whatever the node's goroutines do,
    a bounded number of steps later either they have been, or the application has rejected so many messages that no worker is left. *)
Theorem C97_partial : forall self w silent es sched s, (forall t p, In t (tables es sched) -> In p t -> silent p = false) ->
  gwrun self w silent (gw_start es) sched = Some s ->
  ((exists j, j < w /\ ~ In j (gw_gone s)) -> exists sched' s', forallb calm sched' = true /\ gwrun self w silent s sched' = Some s' /\ handled s') /\
  (forall sched' s', forallb inner sched' = true -> gwrun self w silent s sched' = Some s' ->
     length sched' <= left s /\ (handled s' \/ (exists a s'', inner a = true /\ gwstep self w silent s' a = Some s'') \/ forall j, j < w -> In j (gw_gone s'))).
Proof.
  intros self w silent es sched s T R.
  assert (L : loud silent s).
  { apply (loud_run self w silent sched (gw_start es) s); [|intros t p I; apply (T t p); right; apply in_flat_map; exists (WTable t); split; [exact I | left; reflexivity]|exact R].
    split; [|intros o q []]. intros p I. apply (T es p); [left; reflexivity | exact I]. }
  assert (CI : forall a, calm a = true -> inner a = true) by (intros [i [|]|m|k|d|e|x]; cbn; congruence).
  assert (NT : forall l t, forallb inner l = true -> ~ In (WTable t) l) by (intros l t F I; rewrite forallb_forall in F; specialize (F _ I); discriminate F).
  split.
  - clear R T. remember (left s) as n eqn:En. assert (Ln : left s <= n) by lia. clear En. revert s L Ln. induction n as [|n IH]; intros s L Ln G.
    + destruct (loud_steps self w silent s L G) as [H|(a & s1 & C & E & _)]; [exists [], s; auto|]. pose proof (left_step self w silent s a s1 (CI a C) E). lia.
    + destruct (loud_steps self w silent s L G) as [H|(a & s1 & C & E & Gs)]; [exists [], s; auto|]. pose proof (left_step self w silent s a s1 (CI a C) E) as D.
      destruct (IH s1) as (l & s2 & F & R2 & H2); [|lia|rewrite Gs; exact G|].
      * apply (loud_step self w silent s a s1 L); [|exact E]. intros t p ->. discriminate C.
      * exists (a :: l), s2. cbn. rewrite C, E. auto.
  - intros l s' F R'. split.
    + clear R L T. revert s F R'. induction l as [|a l IH]; cbn; intros s F R'; [lia|]. apply andb_true_iff in F as [F1 F2].
      destruct (gwstep self w silent s a) as [s1|] eqn:E; [|discriminate]. specialize (IH s1 F2 R'). pose proof (left_step self w silent s a s1 F1 E). lia.
    + assert (L' : loud silent s') by (apply (loud_run self w silent l s s' L); [intros t p I; destruct (NT l t F I) | exact R']).
      destruct (forallb (fun j => existsb (Nat.eqb j) (gw_gone s')) (seq 0 w)) eqn:X.
      * right. right. intros j J. rewrite forallb_forall in X. specialize (X j ltac:(apply in_seq; lia)). apply existsb_exists in X as (x & I & E). apply Nat.eqb_eq in E. subst. exact I.
      * assert (G : exists j, j < w /\ ~ In j (gw_gone s')).
        { clear - X. assert (Y : existsb (fun j => negb (existsb (Nat.eqb j) (gw_gone s'))) (seq 0 w) = true).
          { induction (seq 0 w) as [|j l IH]; [discriminate X|]. cbn in *. destruct (existsb (Nat.eqb j) (gw_gone s')); cbn in *; auto. }
          apply existsb_exists in Y as (j & I & E). apply in_seq in I. exists j. split; [lia|]. intros Z. apply negb_true_iff in E.
          assert (existsb (Nat.eqb j) (gw_gone s') = true); [|congruence]. apply existsb_exists. exists j. split; [exact Z | apply Nat.eqb_refl]. }
        destruct (loud_steps self w silent s' L' G) as [H|(a & s1 & C & E & _)]; [left; exact H|]. right. left. exists a, s1. auto.
Qed.

(** One worker, a peer in the table, a gossip message from another: with the peer silent the worker waits, and the next message stays in the channel; otherwise both are handled.
    And a call of dialIfNotExists waiting for a handshake, as in C97_dial_waits. *)
Example C97_nonvacuous :
  let self := repeat Byte.x01 32 in let p := ex_node Byte.x02 in let from := ex_node Byte.x03 in
  let l := [WRecv (Gossip from [Byte.x61]); WTake 0; WStep 0 true; WRecv Other; WStep 0 true; WStep 0 true; WStep 0 true; WStep 0 true; WStep 0 true; WStep 1 true] in
  (exists s, gwrun self 1 (fun _ => true) (gw_start [p]) l = Some s /\ gw_queue s = [Other] /\ gw_threads s = [(Some 0, GEnd); (Some 0, GSend p [Byte.x61])] /\
     gwstep self 1 (fun _ => true) s (WTake 0) = None /\ gwstep self 1 (fun _ => true) s (WStep 1 true) = None) /\
  (exists s, gwrun self 1 (fun _ => false) (gw_start [p]) (l ++ [WStep 1 true; WStep 1 true; WTake 0]) = Some s /\ handled s /\ gw_taken s = [Gossip from [Byte.x61]; Other]) /\
  (exists s q, pool_does SideOutbound 1 1 0 0 (fun _ => false) [DaCall [Byte.x61]; DaGet 0; DaClient 0 (AMain Fine)] s /\ at_pc s 0 (DSelect 0 0) /\ cancelled s 0 = false /\
     nth_error (ds_clients s) 0 = Some q /\ c_main (k_st q) = MHandshake).
Proof.
  cbv zeta. split; [|split].
  - eexists. split; [vm_compute; reflexivity|]. repeat split; vm_compute; reflexivity.
  - eexists. split; [vm_compute; reflexivity|]. split; [|vm_compute; reflexivity]. split; [reflexivity|]. intros t [<-|[<-|[]]]; reflexivity.
  - eexists _, _. split; [vm_compute; reflexivity|]. split; [eexists; split; reflexivity|]. repeat split.
Qed.

(** What the application pushes itself holds up no worker: one that has not ended and whose own calls of Handle have returned takes the next message,
    however many calls of Push are waiting for peers. *)
Theorem C97_pushes_apart : forall self w silent es sched s k m q, gwrun self w silent (gw_start es) sched = Some s ->
  gw_queue s = m :: q -> k < w -> ~ In k (gw_gone s) -> (forall p, In (Some k, p) (gw_threads s) -> p = GEnd) ->
  exists s', gwrun self w silent s [WTake k] = Some s' /\ gw_taken s' = gw_taken s ++ [m].
Proof.
  intros self w silent es sched s k m q _ Q K G T. cbn [gwrun gwstep]. rewrite Q.
  assert (F : free s k = true).
  { unfold free. apply forallb_forall. intros [[j|] p] I; [|reflexivity]. unfold owned. cbn [fst snd]. destruct (Nat.eqb_spec j k) as [-> |]; [|reflexivity]. rewrite (T p I). reflexivity. }
  assert (X : existsb (Nat.eqb k) (gw_gone s) = false).
  { apply not_true_iff_false. intros X. apply existsb_exists in X as (y & Y & E). apply Nat.eqb_eq in E. subst y. exact (G Y). }
  rewrite F, X, (proj2 (Nat.ltb_lt k w) K). eexists. split; reflexivity.
Qed.

Example C97_pushes_apart_nonvacuous : let self := repeat Byte.x01 32 in let p := ex_node Byte.x02 in
  exists s, gwrun self 1 (fun _ => true) (gw_start [p]) [WCall [Byte.x61]; WStep 0 true; WStep 0 true; WStep 1 true; WRecv Other] = Some s /\
    gw_queue s = [Other] /\ ~ In 0 (gw_gone s) /\ (forall p, In (Some 0, p) (gw_threads s) -> p = GEnd) /\ In (None, GSend p [Byte.x61]) (gw_threads s).
Proof.
  cbv zeta. eexists. split; [vm_compute; reflexivity|]. split; [reflexivity|]. split; [intros []|]. split; [|vm_compute; tauto].
  cbn. intros q H. repeat (destruct H as [H|H]; [discriminate|]). destruct H.
Qed.

Print Assumptions C97_dial_waits.
Print Assumptions C97_deaf.
Print Assumptions C97_rejecting.
Print Assumptions C97_refuted.
Print Assumptions C97_partial.
Print Assumptions C97_pushes_apart.
