(** * C130: an attempt to respond that fails does not use the response up. *)
From Coq Require Import Permutation.
From Verif Require Import Base M_Table P_Table M_Codec M_Respond.
Local Open Scope nat_scope.

(** ** Spec *)

(** A handler that has been given a message with nonce [n], on a node whose codec was [c], after [l]. *)
Definition handler_does (n : N) (c : codec) (l : list ract) (s : rstate) : Prop := rrun n (r_start c) l = Some s.
(** What a call sends, if it sends: its argument, or what EncodeMessage makes of it. *)
Definition payload (c : codec) (k : attempt) (d : bytes) : Prop := match k with ASend x => d = x | AMessage v => encode c (Some v) = Ok d end.
(** A call that has returned. *)
Definition returned (p : rpt) : bool := match p with RpSent _ | RpTwice | RpUnregistered => true | _ => false end.
(** The type of its argument is registered. *)
Definition sendable (c : codec) (k : attempt) : Prop := match k with ASend _ => True | AMessage v => exists d, encode c (Some v) = Ok d end.

(** *** Lemmas *)

Definition sent_of (t : attempt * rpt) : list bytes := match snd t with RpSent d => [d] | _ => [] end.
Definition won_by (t : attempt * rpt) : list bytes := match snd t with RpSent d | RpQueue d => [d] | _ => [] end.

Lemma nth_split {A} (l : list A) : forall i x y, nth_error l i = Some x -> exists l1 l2, l = l1 ++ x :: l2 /\ set_nth i y l = l1 ++ y :: l2.
Proof.
  induction l as [|a l IH]; intros [|i] x y H; cbn in *; try discriminate.
  - injection H as ->. exists [], l. split; reflexivity.
  - destruct (IH i x y H) as (l1 & l2 & -> & E). exists (a :: l1), l2. rewrite E. split; reflexivity.
Qed.
Lemma nth_set_cases {A} (l : list A) : forall i x y, nth_error l i = Some x -> forall j z, nth_error (set_nth i y l) j = Some z -> (j = i /\ z = y) \/ nth_error l j = Some z.
Proof.
  induction l as [|a l IH]; intros [|i] x y H [|j] z Hz; cbn in *; try discriminate; auto.
  - injection Hz as <-. auto.
  - destruct (IH i x y H j z Hz) as [[-> ->]|]; auto.
Qed.
Lemma nth_set {A} (l : list A) : forall i x y j, nth_error l i = Some y -> nth_error (set_nth i x l) j = if j =? i then Some x else nth_error l j.
Proof. induction l as [|a l IH]; intros [|i] x y [|j] H; cbn in *; try discriminate; auto. apply (IH i x y j H). Qed.
Lemma in_set {A} (l : list A) i x y z : nth_error l i = Some x -> In z (set_nth i y l) -> z = y \/ In z l.
Proof.
  intros H Hz. apply In_nth_error in Hz as [j Hj]. destruct (nth_set_cases l i x y H j z Hj) as [[_ ->]|Hj']; [auto | right; exact (nth_error_In _ _ Hj')].
Qed.

Lemma register_keeps c t d c' o v x : register c t d = Ok (c', o) -> encode c (Some v) = Ok x -> encode c' (Some v) = Ok x.
Proof.
  unfold register. destruct (ser_get t (c_ser c)) as [|] eqn:G; [discriminate|]. destruct (gotype_eq_dec (d_result d) t); [|discriminate]. intros E. injection E as <- <-.
  unfold encode. cbn [c_ser ser_get]. destruct (ser_get (match v_type v with TPtr e => e | t0 => t0 end) (c_ser c)) as [q|] eqn:Q; [|discriminate].
  intros E. injection E as <-. destruct (gotype_eq_dec (match v_type v with TPtr e => e | t0 => t0 end) t) as [F|_]; [congruence|]. reflexivity.
Qed.

Definition call_ok (c : codec) (b : bool) (t : attempt * rpt) : Prop :=
  match snd t with RpSend d | RpQueue d | RpSent d => payload c (fst t) d | RpTwice => b = true | _ => True end.
Record rinv (n : N) (s : rstate) : Prop := {
  ri_calls : forall t, In t (rs_calls s) -> call_ok (rs_codec s) (rs_sent s) t;
  ri_out : Permutation (rs_out s) (map (pair n) (flat_map sent_of (rs_calls s)));
  ri_flag : (0 < n)%N -> length (flat_map won_by (rs_calls s)) = if rs_sent s then 1 else 0;
  ri_plain : n = 0%N -> rs_sent s = false
}.

Lemma rinv_step n s a s' : rinv n s -> rstep n s a = Some s' -> rinv n s'.
Proof.
  intros [Ic Io If Ip] E.
  assert (Move : forall i k p q b, nth_error (rs_calls s) i = Some (k, p) -> call_ok (rs_codec s) b (k, q) -> (rs_sent s = true -> b = true) ->
    sent_of (k, p) = [] -> forall o ds, (o = map (pair n) ds /\ sent_of (k, q) = ds) ->
    ((0 < n)%N -> length (won_by (k, q)) + (if rs_sent s then 1 else 0) = length (won_by (k, p)) + (if b then 1 else 0)) -> (n = 0%N -> b = false) ->
    rinv n (mkRS (rs_codec s) b (rs_out s ++ o) (set_nth i (k, q) (rs_calls s)))).
  { intros i k p q b Hi Cq Mb S0 o ds [-> Sq] W Pb. split; cbn [rs_codec rs_sent rs_out rs_calls].
    - intros t Ht. destruct (in_set _ _ _ _ _ Hi Ht) as [-> |H]; [exact Cq|]. specialize (Ic t H). unfold call_ok in *. destruct (snd t); auto.
    - destruct (nth_split _ _ _ (k, q) Hi) as (l1 & l2 & El & Es). rewrite Es. rewrite El in Io. rewrite flat_map_app in Io |- *. cbn [flat_map] in Io |- *. rewrite S0 in Io. rewrite Sq. cbn [app] in Io.
      rewrite map_app in Io. rewrite map_app, map_app. eapply Permutation_trans; [apply Permutation_app_tail, Io|]. rewrite <- app_assoc. apply Permutation_app_head, Permutation_app_comm.
    - intros Hn. specialize (If Hn). specialize (W Hn). destruct (nth_split _ _ _ (k, q) Hi) as (l1 & l2 & El & Es). rewrite Es. rewrite El in If. rewrite flat_map_app in If |- *. cbn [flat_map] in If |- *.
      rewrite !app_length in If |- *. lia.
    - exact Pb. }
  destruct a as [k|i|t d]; cbn [rstep] in E.
  - injection E as <-. split; cbn [rs_codec rs_sent rs_out rs_calls]; auto.
    + intros t Ht. apply in_app_or in Ht as [Ht|[<-|[]]]; [auto | exact Logic.I].
    + rewrite flat_map_app. cbn. rewrite app_nil_r. exact Io.
    + intros Hn. rewrite flat_map_app. cbn. rewrite app_nil_r. auto.
  - destruct (nth_error (rs_calls s) i) as [[k [|d|d|d| |]]|] eqn:Hi; try discriminate.
    + destruct k as [d|v]; [|destruct (encode (rs_codec s) (Some v)) as [d| |] eqn:En]; injection E as <-;
        rewrite <- (app_nil_r (rs_out s)); eapply (Move i _ _ _ _ Hi) with (ds := []); try (split; reflexivity); cbn; auto; try lia.
    + destruct (N.ltb_spec 0 n) as [Hn|Hn].
      * destruct (rs_sent s) eqn:Sf; injection E as <-; rewrite <- (app_nil_r (rs_out s)); eapply (Move i _ _ _ _ Hi) with (ds := []); try (split; reflexivity); cbn; auto; try lia.
        exact (Ic _ (nth_error_In _ _ Hi)).
      * assert (n = 0%N) as N0 by lia. injection E as <-. rewrite <- (app_nil_r (rs_out s)); eapply (Move i _ _ _ _ Hi) with (ds := []); try (split; reflexivity); cbn; auto; try lia.
        exact (Ic _ (nth_error_In _ _ Hi)).
    + injection E as <-. eapply (Move i _ _ _ _ Hi) with (ds := [d]); try (split; reflexivity); cbn; auto. exact (Ic _ (nth_error_In _ _ Hi)).
  - destruct (register (rs_codec s) t d) as [[c' o]| |] eqn:Rg; try discriminate. injection E as <-. split; cbn [rs_codec rs_sent rs_out rs_calls]; auto.
    intros q Hq. specialize (Ic q Hq). unfold call_ok in *. destruct q as [k p]. cbn [fst snd] in *. destruct p; auto; destruct k; cbn [payload] in *; auto; eapply register_keeps; eauto.
Qed.

Lemma rinv_run n l : forall s s', rinv n s -> rrun n s l = Some s' -> rinv n s'.
Proof.
  induction l as [|a l IH]; cbn; intros s s' I E; [injection E as <-; exact I|]. destruct (rstep n s a) as [s1|] eqn:Es; [|discriminate].
  exact (IH s1 s' (rinv_step n s a s1 I Es) E).
Qed.
Lemma reach_rinv n c l s : handler_does n c l s -> rinv n s.
Proof. apply rinv_run. split; cbn; auto. intros t []. Qed.

Lemma sent_won l : length (flat_map sent_of l) <= length (flat_map won_by l).
Proof. induction l as [|[k p] l IH]; cbn; [lia|]. rewrite !app_length. destruct p; cbn; lia. Qed.
Lemma won_sent l : (forall t, In t l -> returned (snd t) = true) -> flat_map won_by l = flat_map sent_of l.
Proof.
  induction l as [|[k p] l IH]; cbn; intros H; [reflexivity|]. rewrite IH by auto. specialize (H (k, p) (or_introl eq_refl)). destruct p; cbn in *; congruence.
Qed.
Lemma won_at l j k d : nth_error l j = Some (k, RpSent d) -> In d (flat_map won_by l).
Proof. intros H. apply in_flat_map. exists (k, RpSent d). split; [exact (nth_error_In _ _ H) | left; reflexivity]. Qed.
Lemma won_two l i j k d k' d' : i < j -> nth_error l i = Some (k, RpSent d) -> nth_error l j = Some (k', RpSent d') -> 2 <= length (flat_map won_by l).
Proof.
  revert i j. induction l as [|t l IH]; intros [|i] [|j] L Hi Hj; cbn in *; try lia; try discriminate; rewrite app_length.
  - injection Hi as ->. cbn. pose proof (won_at l j k' d' Hj) as X. destruct (flat_map won_by l); [destruct X | cbn; lia].
  - specialize (IH i j ltac:(lia) Hi Hj). lia.
Qed.

(** *** Theorems *)

(** A request: of the calls whose argument could be encoded exactly one succeeds, once they have all returned, and what it was given is the one
    thing sent, with the request's nonce.  The others report that a response was sent already. *)
Theorem C130_one_succeeds : forall n c l s, (0 < n)%N -> handler_does n c l s ->
  (forall t, In t (rs_calls s) -> returned (snd t) = true) -> (exists t, In t (rs_calls s) /\ snd t <> RpUnregistered) ->
  exists j k d, nth_error (rs_calls s) j = Some (k, RpSent d) /\ payload (rs_codec s) k d /\ rs_out s = [(n, d)] /\
    (forall j' k' p', nth_error (rs_calls s) j' = Some (k', p') -> j' <> j -> p' = RpTwice \/ p' = RpUnregistered).
Proof.
  intros n c l s Hn H Ret [t [Ht Nt]]. pose proof (reach_rinv n c l s H) as [Ic Io If _]. specialize (If Hn).
  assert (F : rs_sent s = true).
  { specialize (Ic t Ht). specialize (Ret t Ht). destruct t as [k p]. unfold call_ok in Ic. cbn [fst snd] in *. destruct p; try discriminate; try congruence.
    apply In_nth_error in Ht as [j Hj]. pose proof (won_at _ _ _ _ Hj) as X. destruct (rs_sent s); [reflexivity|]. destruct (flat_map won_by (rs_calls s)); [destruct X | discriminate]. }
  rewrite F in If. pose proof (won_sent _ Ret) as WS.
  destruct (flat_map won_by (rs_calls s)) as [|d [|]] eqn:W; try discriminate. rewrite <- WS in Io. cbn in Io. apply Permutation_sym, Permutation_length_1_inv in Io.
  assert (X : In d (flat_map sent_of (rs_calls s))) by (rewrite <- WS; left; reflexivity). apply in_flat_map in X as ([k p] & Hk & Dk).
  unfold sent_of in Dk. cbn [snd] in Dk. destruct p as [| | |d'| |]; try destruct Dk as [<-|[]]; try destruct Dk.
  pose proof (Ic _ Hk) as Pk. cbn in Pk. apply In_nth_error in Hk as [j Hj]. exists j, k, d'. repeat split; auto.
  intros j' k' p' Hj' Nj. pose proof (Ret _ (nth_error_In _ _ Hj')) as R. cbn in R. destruct p' as [| | |q| |]; try discriminate; auto. exfalso.
  assert (2 <= length (flat_map won_by (rs_calls s))); [|rewrite W in *; cbn in *; lia].
  destruct (Nat.lt_ge_cases j j'); [exact (won_two _ j j' _ _ _ _ H0 Hj Hj') | exact (won_two _ j' j _ _ _ _ ltac:(lia) Hj' Hj)].
Qed.

(** At no time has more than one response been queued. *)
Theorem C130_at_most_one : forall n c l s, (0 < n)%N -> handler_does n c l s -> length (rs_out s) <= 1.
Proof.
  intros n c l s Hn H. pose proof (reach_rinv n c l s H) as [_ Io If _]. specialize (If Hn). apply Permutation_length in Io. rewrite map_length in Io.
  pose proof (sent_won (rs_calls s)). destruct (rs_sent s); lia.
Qed.

(** A call whose type is registered when it is made does not fail for want of registration. *)
Lemma register_sendable c t d c' o k : register c t d = Ok (c', o) -> sendable c k -> sendable c' k.
Proof. intros R S. destruct k as [|v]; cbn in *; [exact Logic.I|]. destruct S as [x Hx]. exists x. eapply register_keeps; eauto. Qed.

Lemma sendable_kept n l : forall s s' i k, rrun n s l = Some s' -> sendable (rs_codec s) k -> (exists p, nth_error (rs_calls s) i = Some (k, p) /\ p <> RpUnregistered) ->
  exists p, nth_error (rs_calls s') i = Some (k, p) /\ p <> RpUnregistered.
Proof.
  induction l as [|a l IH]; cbn; intros s s' i k E Sd Hp; [injection E as <-; exact Hp|]. destruct (rstep n s a) as [s1|] eqn:Es; [|discriminate].
  destruct Hp as (p & Hp & Np). assert (Set1 : forall j t q, nth_error (rs_calls s) j = Some t -> fst t = fst q -> (fst t = k -> snd q <> RpUnregistered) ->
    exists p, nth_error (set_nth j q (rs_calls s)) i = Some (k, p) /\ p <> RpUnregistered).
  { intros j t q Hj F Q. rewrite (nth_set _ _ _ _ i Hj). destruct (Nat.eqb_spec i j) as [-> |]; [|eauto]. rewrite Hp in Hj. injection Hj as <-. destruct q as [k' q]. cbn in *. subst k'. eauto. }
  apply (IH s1 s' i k E).
  - destruct a as [k0|j|t d]; cbn [rstep] in Es.
    + injection Es as <-. exact Sd.
    + destruct (nth_error (rs_calls s) j) as [[k0 [|d|d|d| |]]|]; try discriminate.
      * destruct k0; [|destruct (encode (rs_codec s) (Some v))]; injection Es as <-; exact Sd.
      * destruct (0 <? n)%N; [destruct (rs_sent s)|]; injection Es as <-; exact Sd.
      * injection Es as <-; exact Sd.
    + destruct (register (rs_codec s) t d) as [[c' o]| |] eqn:Rg; try discriminate. injection Es as <-. cbn [rs_codec]. eapply register_sendable; eauto.
  - destruct a as [k0|j|t d]; cbn [rstep] in Es.
    + injection Es as <-. cbn [rs_calls]. exists p. split; [rewrite nth_error_app1; [exact Hp | apply nth_error_Some; congruence] | exact Np].
    + destruct (nth_error (rs_calls s) j) as [[k0 [|d|d|d| |]]|] eqn:Hj; try discriminate.
      * destruct k0 as [x|v]; [|destruct (encode (rs_codec s) (Some v)) as [x| |] eqn:En]; injection Es as <-; cbn [rs_calls]; eapply Set1; try exact Hj; try reflexivity; cbn; try discriminate;
          intros <-; destruct Sd as [x Hx]; congruence.
      * destruct (0 <? n)%N; [destruct (rs_sent s)|]; injection Es as <-; cbn [rs_calls]; eapply Set1; try exact Hj; try reflexivity; cbn; discriminate.
      * injection Es as <-; cbn [rs_calls]; eapply Set1; try exact Hj; try reflexivity; cbn; discriminate.
    + destruct (register (rs_codec s) t d) as [[c' o]| |] eqn:Rg; try discriminate. injection Es as <-. eauto.
Qed.

(** After any number of failed attempts the next one with a registered type gets the response out, whatever happens meanwhile. *)
Theorem C130_failures_cost_nothing : forall n c l s k l' s', handler_does n c l s -> (forall t, In t (rs_calls s) -> snd t = RpUnregistered) -> sendable (rs_codec s) k ->
  rrun n s (RaCall k :: l') = Some s' -> (forall a, In a l' -> forall q, a <> RaCall q) -> (forall t, In t (rs_calls s') -> returned (snd t) = true) ->
  exists d, nth_error (rs_calls s') (length (rs_calls s)) = Some (k, RpSent d) /\ payload (rs_codec s') k d /\ rs_out s = [] /\ rs_out s' = [(n, d)].
Proof.
  intros n c l s k l' s' H Fail Sd E NoCall Ret. pose proof (reach_rinv n c l s H) as I. cbn [rrun rstep] in E.
  set (s1 := mkRS (rs_codec s) (rs_sent s) (rs_out s) (rs_calls s ++ [(k, RpBegin)])) in *.
  assert (I1 : rinv n s1) by (apply (rinv_step n s (RaCall k) s1 I); reflexivity). pose proof (rinv_run n l' s1 s' I1 E) as [Ic Io If Ip].
  destruct (sendable_kept n l' s1 s' (length (rs_calls s)) k E Sd) as (p & Hp & Np).
  { exists RpBegin. split; [cbn [s1 rs_calls]; rewrite nth_error_app2, Nat.sub_diag by lia; reflexivity | discriminate]. }
  (* the calls that failed stay as they are *)
  assert (Old : forall l s0 s2, rrun n s0 l = Some s2 -> (forall a, In a l -> forall q, a <> RaCall q) -> length (rs_calls s2) = length (rs_calls s0) /\
    (forall j t, nth_error (rs_calls s0) j = Some t -> snd t = RpUnregistered -> nth_error (rs_calls s2) j = Some t)).
  { clear. induction l as [|a l IH]; intros s0 s2 E NC; cbn in E; [injection E as <-; auto|]. destruct (rstep n s0 a) as [s3|] eqn:Es; [|discriminate].
    destruct (IH s3 s2 E (fun b Hb => NC b (or_intror Hb))) as [Ln Kp]. clear IH E.
    assert (Len : forall (l : list (attempt * rpt)) j t, length (set_nth j t l) = length l) by (induction l0; intros [|j] t; cbn; auto).
    assert (St : length (rs_calls s3) = length (rs_calls s0) /\ (forall j t, nth_error (rs_calls s0) j = Some t -> snd t = RpUnregistered -> nth_error (rs_calls s3) j = Some t)).
    { destruct a as [q|j|t d]; cbn [rstep] in Es; [destruct (NC _ (or_introl eq_refl) q eq_refl)| |].
      - assert (G : forall k p q, nth_error (rs_calls s0) j = Some (k, p) -> p <> RpUnregistered -> length (set_nth j (k, q) (rs_calls s0)) = length (rs_calls s0) /\
          (forall i t, nth_error (rs_calls s0) i = Some t -> snd t = RpUnregistered -> nth_error (set_nth j (k, q) (rs_calls s0)) i = Some t)).
        { intros k p q Hj Np. split; [apply Len|]. intros i t Hi Ht. rewrite (nth_set _ _ _ _ i Hj). destruct (Nat.eqb_spec i j) as [-> |]; [|exact Hi]. rewrite Hj in Hi. injection Hi as <-. cbn in Ht. congruence. }
        destruct (nth_error (rs_calls s0) j) as [[k0 [|d|d|d| |]]|] eqn:Hj; try discriminate.
        + destruct k0; [|destruct (encode (rs_codec s0) (Some v))]; injection Es as <-; cbn [rs_calls]; eapply G; eauto; discriminate.
        + destruct (0 <? n)%N; [destruct (rs_sent s0)|]; injection Es as <-; cbn [rs_calls]; eapply G; eauto; discriminate.
        + injection Es as <-; cbn [rs_calls]; eapply G; eauto; discriminate.
      - destruct (register (rs_codec s0) t d) as [[c' o]| |]; try discriminate. injection Es as <-. auto. }
    destruct St as [Ln' Kp']. split; [congruence | auto]. }
  destruct (Old l' s1 s' E NoCall) as [Ln Kp]. cbn [s1 rs_calls] in Ln. rewrite app_length in Ln. cbn in Ln.
  destruct (nth_split _ _ _ (k, p) Hp) as (l1 & l2 & El & Es). clear Es.
  assert (All : forall j t, nth_error (rs_calls s') j = Some t -> j <> length (rs_calls s) -> snd t = RpUnregistered).
  { intros j t Hj Nj. assert (j < length (rs_calls s')) by (apply nth_error_Some; congruence). destruct (nth_error (rs_calls s) j) as [u|] eqn:Hu; [|apply nth_error_None in Hu; lia].
    pose proof (Fail u (nth_error_In _ _ Hu)) as Fu. specialize (Kp j u). cbn [s1 rs_calls] in Kp. rewrite nth_error_app1 in Kp by lia. rewrite (Kp Hu Fu) in Hj. injection Hj as <-. exact Fu. }
  assert (Hl1 : rs_calls s' = firstn (length (rs_calls s)) (rs_calls s') ++ [(k, p)]).
  { rewrite <- (firstn_skipn (length (rs_calls s)) (rs_calls s')) at 1. f_equal. pose proof (firstn_skipn (length (rs_calls s)) (rs_calls s')) as FS.
    assert (LS : length (skipn (length (rs_calls s)) (rs_calls s')) = 1) by (rewrite skipn_length; lia). assert (LF : length (firstn (length (rs_calls s)) (rs_calls s')) = length (rs_calls s)) by (rewrite firstn_length; lia).
    rewrite <- FS in Hp. rewrite nth_error_app2 in Hp by lia. rewrite LF, Nat.sub_diag in Hp. destruct (skipn (length (rs_calls s)) (rs_calls s')) as [|z [|]]; try discriminate. cbn in Hp. injection Hp as ->. reflexivity. }
  assert (Zero : forall f, (forall t, snd t = RpUnregistered -> f t = ([] : list bytes)) -> flat_map f (firstn (length (rs_calls s)) (rs_calls s')) = []).
  { intros f Hf. assert (X : forall l0 : list (attempt * rpt), (forall t, In t l0 -> snd t = RpUnregistered) -> flat_map f l0 = []).
    { induction l0 as [|t l0 IH]; cbn; intros Hl; [reflexivity|]. rewrite (Hf t (Hl t (or_introl eq_refl))), IH; auto. }
    apply X. intros t Ht. apply In_nth_error in Ht as [j Hj]. assert (j < length (firstn (length (rs_calls s)) (rs_calls s'))) as Lj by (apply nth_error_Some; congruence). rewrite firstn_length in Lj.
    apply (All j t); [|lia]. rewrite Hl1, nth_error_app1 by (rewrite firstn_length; lia). exact Hj. }
  rewrite Hl1, flat_map_app, (Zero sent_of) in Io by (intros [? q] Hq; cbn in Hq; subst q; reflexivity). cbn [app flat_map] in Io. rewrite app_nil_r in Io.
  pose proof (Ret _ (nth_error_In _ _ Hp)) as Rp. pose proof (Ic _ (nth_error_In _ _ Hp)) as Cp. unfold call_ok in Cp. cbn [fst snd returned] in Rp, Cp. destruct p as [| | |d| |]; try discriminate; try congruence.
  - exists d. split; [exact Hp|]. split; [exact Cp|]. split.
    + pose proof (ri_out n s I) as Os. assert (Z : flat_map sent_of (rs_calls s) = []).
      { clear - Fail. induction (rs_calls s) as [|[? q] l0 IH]; cbn; [reflexivity|]. pose proof (Fail _ (or_introl eq_refl)) as F. cbn in F. subst q. cbn. apply IH. intros t Ht. apply Fail. right. exact Ht. }
      rewrite Z in Os. apply Permutation_sym, Permutation_nil in Os. exact Os.
    + cbn in Io. apply Permutation_sym, Permutation_length_1_inv in Io. exact Io.
  - exfalso. destruct (N.eq_dec n 0) as [N0|N0]; [rewrite (Ip N0) in Cp; discriminate|]. specialize (If ltac:(lia)). rewrite Cp, Hl1, flat_map_app, (Zero won_by) in If by (intros [? q] Hq; cbn in Hq; subst q; reflexivity). discriminate.
Qed.

(** A message that is not a request: every call whose argument could be encoded succeeds, and what they were given is what is sent. *)
Theorem C130_plain : forall c l s, handler_does 0%N c l s ->
  (forall t, In t (rs_calls s) -> snd t <> RpTwice) /\ Permutation (rs_out s) (map (pair 0%N) (flat_map (fun t => match snd t with RpSent d => [d] | _ => [] end) (rs_calls s))).
Proof.
  intros c l s H. pose proof (reach_rinv 0 c l s H) as [Ic Io _ Ip]. split; [|exact Io]. intros t Ht E. specialize (Ic t Ht). unfold call_ok in Ic. rewrite E in Ic. rewrite (Ip eq_refl) in Ic. discriminate.
Qed.

(** Every call returns, by at most three steps of its own, whatever the others are doing; and on a message that is not a request with success,
    if what it was given can be encoded. *)
Lemma queue_returns n s i k d : nth_error (rs_calls s) i = Some (k, RpQueue d) -> exists s', rrun n s [RaStep i] = Some s' /\ nth_error (rs_calls s') i = Some (k, RpSent d).
Proof. intros H. cbn [rrun rstep]. rewrite H. eexists. split; [reflexivity|]. cbn [rs_calls]. rewrite (nth_set _ _ _ _ i H), Nat.eqb_refl. reflexivity. Qed.
Lemma send_returns n s i k d : nth_error (rs_calls s) i = Some (k, RpSend d) ->
  exists j s' p, j <= 2 /\ rrun n s (repeat (RaStep i) j) = Some s' /\ nth_error (rs_calls s') i = Some (k, p) /\ (p = RpSent d \/ (p = RpTwice /\ n <> 0%N)).
Proof.
  intros H. assert (Q : forall b, exists s', rrun n (mkRS (rs_codec s) b (rs_out s) (set_nth i (k, RpQueue d) (rs_calls s))) [RaStep i] = Some s' /\ nth_error (rs_calls s') i = Some (k, RpSent d)).
  { intros b. apply queue_returns. cbn [rs_calls]. rewrite (nth_set _ _ _ _ i H), Nat.eqb_refl. reflexivity. }
  destruct (0 <? n)%N eqn:N; [destruct (rs_sent s) eqn:F|].
  - exists 1. cbn [repeat rrun rstep]. rewrite H, N, F. eexists _, RpTwice. split; [lia|]. split; [reflexivity|]. cbn [rs_calls]. rewrite (nth_set _ _ _ _ i H), Nat.eqb_refl.
    split; [reflexivity|]. right. apply N.ltb_lt in N. split; [reflexivity | lia].
  - destruct (Q true) as (s' & R & E). exists 2, s', (RpSent d). split; [lia|]. split; [|auto]. change (rrun n s (repeat (RaStep i) 2)) with (match rstep n s (RaStep i) with Some s1 => rrun n s1 [RaStep i] | None => None end).
    replace (rstep n s (RaStep i)) with (Some (mkRS (rs_codec s) true (rs_out s) (set_nth i (k, RpQueue d) (rs_calls s)))) by (cbn [rstep]; rewrite H, N, F; reflexivity). exact R.
  - destruct (Q (rs_sent s)) as (s' & R & E). exists 2, s', (RpSent d). split; [lia|]. split; [|auto]. change (rrun n s (repeat (RaStep i) 2)) with (match rstep n s (RaStep i) with Some s1 => rrun n s1 [RaStep i] | None => None end).
    replace (rstep n s (RaStep i)) with (Some (mkRS (rs_codec s) (rs_sent s) (rs_out s) (set_nth i (k, RpQueue d) (rs_calls s)))) by (cbn [rstep]; rewrite H, N; reflexivity). exact R.
Qed.

Theorem C130_returns : forall n c l s i k p, handler_does n c l s -> nth_error (rs_calls s) i = Some (k, p) ->
  exists j s' p', j <= 3 /\ rrun n s (repeat (RaStep i) j) = Some s' /\ nth_error (rs_calls s') i = Some (k, p') /\ returned p' = true /\
    (n = 0%N -> sendable (rs_codec s) k -> p <> RpUnregistered -> exists d, p' = RpSent d).
Proof.
  intros n c l s i k p H Hi. destruct p as [|d|d|d| |].
  - assert (Snd : forall d, rstep n s (RaStep i) = Some (mkRS (rs_codec s) (rs_sent s) (rs_out s) (set_nth i (k, RpSend d) (rs_calls s))) ->
      exists j s' p', j <= 3 /\ rrun n s (repeat (RaStep i) j) = Some s' /\ nth_error (rs_calls s') i = Some (k, p') /\ returned p' = true /\ (n = 0%N -> exists d, p' = RpSent d)).
    { intros d E. destruct (send_returns n (mkRS (rs_codec s) (rs_sent s) (rs_out s) (set_nth i (k, RpSend d) (rs_calls s))) i k d) as (j & s' & p & L & R & P & C).
      { cbn [rs_calls]. rewrite (nth_set _ _ _ _ i Hi), Nat.eqb_refl. reflexivity. }
      exists (S j), s', p. split; [lia|]. split; [cbn [repeat rrun]; rewrite E; exact R|]. split; [exact P|]. destruct C as [-> |[-> C]]; split; try reflexivity; eauto; congruence. }
    destruct k as [x|v].
    + destruct (Snd x) as (j & s' & p & A1 & A2 & A3 & A4 & A5); [cbn [rstep]; rewrite Hi; reflexivity|]. exists j, s', p. auto 6.
    + destruct (encode (rs_codec s) (Some v)) as [x|e|] eqn:En.
      * destruct (Snd x) as (j & s' & p & A1 & A2 & A3 & A4 & A5); [cbn [rstep]; rewrite Hi, En; reflexivity|]. exists j, s', p. auto 6.
      * exists 1. cbn [repeat rrun rstep]. rewrite Hi, En. eexists _, RpUnregistered. split; [lia|]. split; [reflexivity|]. cbn [rs_calls]. rewrite (nth_set _ _ _ _ i Hi), Nat.eqb_refl.
        split; [reflexivity|]. split; [reflexivity|]. intros _ [z Hz]. congruence.
      * exists 1. cbn [repeat rrun rstep]. rewrite Hi, En. eexists _, RpUnregistered. split; [lia|]. split; [reflexivity|]. cbn [rs_calls]. rewrite (nth_set _ _ _ _ i Hi), Nat.eqb_refl.
        split; [reflexivity|]. split; [reflexivity|]. intros _ [z Hz]. congruence.
  - destruct (send_returns n s i k d Hi) as (j & s' & p & L & R & P & C). exists j, s', p. split; [lia|]. split; [exact R|]. split; [exact P|]. destruct C as [-> |[-> C]]; split; try reflexivity; eauto; congruence.
  - destruct (queue_returns n s i k d Hi) as (s' & R & P). exists 1, s', (RpSent d). split; [lia|]. split; [exact R|]. split; [exact P|]. split; [reflexivity | eauto].
  - exists 0, s, (RpSent d). split; [lia|]. split; [reflexivity|]. split; [exact Hi|]. split; [reflexivity | eauto].
  - exists 0, s, RpTwice. split; [lia|]. split; [reflexivity|]. split; [exact Hi|]. split; [reflexivity|]. intros -> _ _. exfalso. exact (proj1 (C130_plain c l s H) _ (nth_error_In _ _ Hi) eq_refl).
  - exists 0, s, RpUnregistered. split; [lia|]. split; [reflexivity|]. split; [exact Hi|]. split; [reflexivity|]. congruence.
Qed.

Definition ex_dec : decoder := mkDec (TNamed 0) (fun b => Ok (mkVal (TNamed 0) b)).
Definition ex_codec : codec := match register newCodec (TNamed 0) ex_dec with Ok (c, _) => c | _ => newCodec end.

Example C130_nonvacuous :
  (* a type that is not registered, then one that is, then a second response *)
  (exists s, handler_does 7%N ex_codec [RaCall (AMessage (mkVal (TNamed 1) [Byte.x01])); RaStep 0] s /\ map snd (rs_calls s) = [RpUnregistered] /\ sendable (rs_codec s) (AMessage (mkVal (TNamed 0) [Byte.x02])) /\
     exists s', rrun 7%N s [RaCall (AMessage (mkVal (TNamed 0) [Byte.x02])); RaStep 1; RaRegister (TNamed 2) (mkDec (TNamed 2) (fun b => Ok (mkVal (TNamed 2) b))); RaStep 1; RaStep 1] = Some s' /\ rs_out s' = [(7%N, [Byte.x00; Byte.x00; Byte.x02])]) /\
  (exists s, handler_does 7%N ex_codec [RaCall (ASend [Byte.x01]); RaCall (ASend [Byte.x02]); RaStep 0; RaStep 1; RaStep 1; RaStep 0; RaStep 1] s /\ map snd (rs_calls s) = [RpTwice; RpSent [Byte.x02]]).
Proof.
  split.
  - eexists. split; [vm_compute; reflexivity|]. split; [reflexivity|]. split; [eexists; vm_compute; reflexivity|]. eexists. split; vm_compute; reflexivity.
  - eexists. split; [vm_compute; reflexivity|]. reflexivity.
Qed.

(** A call half way, on a message that is not a request, while another has returned (C130_returns). *)
Example C130_returns_nonvacuous :
  exists s, handler_does 0%N ex_codec [RaCall (ASend [Byte.x01]); RaCall (AMessage (mkVal (TNamed 0) [Byte.x02])); RaStep 0; RaStep 0; RaStep 0] s /\ map snd (rs_calls s) = [RpSent [Byte.x01]; RpBegin] /\
    exists s', rrun 0%N s [RaStep 1; RaStep 1; RaStep 1] = Some s' /\ rs_out s' = [(0%N, [Byte.x01]); (0%N, [Byte.x00; Byte.x00; Byte.x02])].
Proof. eexists. split; [vm_compute; reflexivity|]. split; [reflexivity|]. eexists. split; vm_compute; reflexivity. Qed.

Print Assumptions C130_one_succeeds.
Print Assumptions C130_at_most_one.
Print Assumptions C130_failures_cost_nothing.
Print Assumptions C130_plain.
Print Assumptions C130_returns.
