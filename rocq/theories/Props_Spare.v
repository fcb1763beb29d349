(** * C104: a call whose context ends, and the connection that it shares with other calls. *)
From Verif Require Import Base Spec M_Table P_Table P_Iter P_Gossip P_Conn M_Maps M_Client P_Client Props_Maps M_Dial P_Dial Props_Dial.
Local Open Scope nat_scope.

(** ** Spec *)

(** Nothing is wrong with connection [k]: dialling, handshake, reads and writes succeed, no handler fails on it, and nobody closes it but the
    node itself, on behalf of a call that gives it up or to make room in the pool. *)
Definition sound (k : nat) (s : dstate) (a : dact) : Prop :=
  match a with
  | DaClient k' x => k' = k ->
      match x with
      | ACloseFlag => (exists i n e, at_pc s i (DClose n k e)) \/ exists i, evicts s i k
      | AMain o | AWriter o _ => o = Fine
      | AReport _ => False
      | _ => True
      end
  | _ => True
  end.
Fixpoint sound_run (sd : cside) (max att p idle : nat) (isctx : nat -> bool) (k : nat) (s : dstate) (l : list dact) : Prop :=
  match l with
  | [] => True
  | a :: r => sound k s a /\ match dstep sd max att p idle isctx s a with Some s1 => sound_run sd max att p idle isctx k s1 r | None => True end
  end.
(** At no time was [k] chosen to make room. *)
Definition never_evicted (max att p idle : nat) (isctx : nat -> bool) (k : nat) (l : list dact) : Prop :=
  forall l1 l2 s1 i, l = l1 ++ l2 -> pool_does SideOutbound max att p idle isctx l1 s1 -> ~ evicts s1 i k.

(** Such a connection is not closed, whatever the calls do and whenever their contexts end. *)
Definition C104_statement : Prop := forall max att p idle isctx l s k q, 0 < max -> pool_does SideOutbound max att p idle isctx l s ->
  sound_run SideOutbound max att p idle isctx k d_start l -> never_evicted max att p idle isctx k l ->
  nth_error (ds_clients s) k = Some q -> c_once (k_st q) = 0.

(** ** Who closes it *)

Section Spare.
Variables (max att p idle : nat) (isctx : nat -> bool).
Hypothesis max_pos : 0 < max.
Notation step := (dstep SideOutbound max att p idle isctx).
Notation run := (drun SideOutbound max att p idle isctx).
Variable k : nat.

(** A call to its address whose context ended before the call had returned; an eviction. *)
Definition blame (s : dstate) : Prop :=
  (exists i c q, nth_error (ds_callers s) i = Some c /\ d_cancelled c = true /\ ~ returned s i /\ nth_error (ds_clients s) k = Some q /\ d_addr c = k_addr q) \/ exists i, evicts s i k.

Definition own_addr (s : dstate) (c : caller) : Prop :=
  match d_pc c with
  | DSelect _ j => exists q, nth_error (ds_clients s) j = Some q /\ k_addr q = d_addr c
  | DEvict _ j _ _ => j = length (ds_clients s)
  | DClose _ j _ | DWait _ j _ => j <> k
  | _ => True
  end.
Definition clean (s : dstate) : Prop :=
  pinv max s /\ (forall i c, nth_error (ds_callers s) i = Some c -> own_addr s c) /\
  (forall q, nth_error (ds_clients s) k = Some q -> c_once (k_st q) = 0 /\ c_err (k_st q) = None).

Lemma clean_client st a st' : cact idle st a = Some st' -> c_once st = 0 -> c_err st = None ->
  match a with ACloseFlag => False | AMain o | AWriter o _ => o = Fine | AReport _ => False | _ => True end -> c_once st' = 0 /\ c_err st' = None.
Proof.
  intros H O E A. destruct a; cbn [cact] in H; try (exfalso; exact A); try discriminate.
  - subst o. unfold main_step in H. destruct (c_main st); try discriminate H; try (injection H as <-; cbn; auto; fail);
      rewrite O in H; discriminate.
  - subst o. unfold writer_step in H. destruct (c_wr st) as [| | | |[|? ?]| | | |]; try discriminate H; try (injection H as <-; cbn; auto; fail).
    + destruct (idle =? 0); injection H as <-; cbn; auto.
    + destruct (c_wclosed st); [injection H as <-; cbn; auto|]. destruct (c_buf st); [discriminate | injection H as <-; cbn; auto].
    + destruct (late st); [discriminate | injection H as <-; cbn; auto].
  - cbn in H. injection H as <-. cbn. auto.
  - rewrite O in H. discriminate.
  - injection H as <-. cbn. auto.
Qed.

Lemma clean_step s a s1 : clean s -> sound k s a -> step s a = Some s1 -> blame s \/ clean s1.
Proof.
  intros (I & Ow & Cl) So H. pose proof (pinv_step _ _ _ _ _ _ max_pos _ _ _ I H) as I1. pose proof H as H0.
  assert (Mv : forall j c c' s2, nth_error (ds_callers s) j = Some c -> ds_callers s2 = set_nth j c' (ds_callers s) -> ds_clients s2 = ds_clients s -> own_addr s2 c' ->
    forall i d, nth_error (ds_callers s2) i = Some d -> own_addr s2 d).
  { intros j c c' s2 Hj E1 E2 O i d Hy. rewrite E1, (nth_error_set _ _ _ _ i Hj) in Hy. destruct (i =? j); [injection Hy as <-; exact O|].
    specialize (Ow i d Hy). unfold own_addr in *. rewrite E2. exact Ow. }
  dcases H.
  - right. split; [exact I1|]. split; [|exact Cl]. intros i c Hc. dproj. destruct (lt_dec i (length (ds_callers s))) as [L|G].
    + rewrite nth_error_app1 in Hc by exact L. exact (Ow i c Hc).
    + rewrite nth_error_app2 in Hc by lia. destruct (i - length (ds_callers s)) as [|[|]]; cbn in Hc; try discriminate. injection Hc as <-. exact Logic.I.
  - right. split; [exact I1|]. split; [|exact Cl]. eapply Mv; [exact Hi | reflexivity | reflexivity |]. exact (Ow j c Hi).
  - (* evict *) destruct (fetch_ok SideOutbound max idle isctx max_pos s (d_addr c) I) as (m & k1 & ex1 & ev & F & Y). rewrite Hf in F. injection F as <- <- <- <-.
    destruct Y as (-> & -> & _). right. split; [exact I1|]. split; [|exact Cl]. eapply Mv; [exact Hi | reflexivity | reflexivity |]. reflexivity.
  - destruct (fetch_ok SideOutbound max idle isctx max_pos s (d_addr c) I) as (m & k1 & ex1 & ev & F & Y). rewrite Hf in F. injection F as <- <- <- <-.
    destruct Y as [_ Y]. right. split; [exact I1|]. destruct ex.
    + split; [|exact Cl]. destruct Y as (q & Hq & Aq & _). eapply Mv; [exact Hi | reflexivity | reflexivity |]. exists q. auto.
    + destruct Y as [-> _]. split.
      * intros i d Hy. dproj. rewrite (nth_error_set _ _ _ _ i Hi) in Hy. destruct (i =? j); [injection Hy as <-; cbn; rewrite nth_error_app2, Nat.sub_diag by lia; cbn; eauto|].
        pose proof (Ow i d Hy) as O. unfold own_addr in *. dproj. destruct (d_pc d) eqn:Pd; auto.
        -- (* evicting without the lock *) assert (X : ds_lock s = Some i) by (apply (pi_lock _ _ I i d Hy); unfold evicting; rewrite Pd; reflexivity). congruence.
        -- destruct O as (q & Hq & Aq). exists q. split; [rewrite nth_error_app1 by (apply nth_error_Some; congruence); exact Hq | exact Aq].
      * intros q Hq. dproj. destruct (lt_dec k (length (ds_clients s))) as [L|G]; [rewrite nth_error_app1 in Hq by exact L; exact (Cl q Hq)|].
        rewrite nth_error_app2 in Hq by lia. destruct (k - length (ds_clients s)) as [|[|]]; cbn in Hq; try discriminate. injection Hq as <-. cbn. auto.
  - assert (Lk : ds_lock s = Some j) by (apply (pi_lock _ _ I j c Hi); unfold evicting; rewrite Pc; reflexivity).
    pose proof (Ow j c Hi) as Oc. unfold own_addr in Oc. rewrite Pc in Oc. subst k0. right. split; [exact I1|]. split.
    + intros i d Hy. dproj. rewrite (nth_error_set _ _ _ _ i Hi) in Hy. destruct (Nat.eqb_spec i j) as [-> |Nij]; [injection Hy as <-; cbn; rewrite nth_error_app2, Nat.sub_diag by lia; cbn; eauto|].
      pose proof (Ow i d Hy) as O. unfold own_addr in *. dproj. destruct (d_pc d) eqn:Pd; auto.
      -- assert (X : ds_lock s = Some i) by (apply (pi_lock _ _ I i d Hy); unfold evicting; rewrite Pd; reflexivity). congruence.
      -- destruct O as (q1 & Hq1 & Aq1). exists q1. split; [rewrite nth_error_app1 by (apply nth_error_Some; congruence); exact Hq1 | exact Aq1].
    + intros q1 Hq1. dproj. destruct (lt_dec k (length (ds_clients s))) as [L|G]; [rewrite nth_error_app1 in Hq1 by exact L; exact (Cl q1 Hq1)|].
      rewrite nth_error_app2 in Hq1 by lia. destruct (k - length (ds_clients s)) as [|[|]]; cbn in Hq1; try discriminate. injection Hq1 as <-. cbn. auto.
  - (* select *) destruct (Nat.eq_dec k0 k) as [-> |Nk].
    + destruct (Cl q Hq) as [_ Er]. destruct b.
      * left. left. exists j, c, q. split; [exact Hi|]. split; [exact Hb|]. split; [intros (c1 & Hc1 & R); assert (c1 = c) as -> by congruence; rewrite Pc in R; exact R|].
        split; [exact Hq|]. pose proof (Ow j c Hi) as Oc. unfold own_addr in Oc. rewrite Pc in Oc. destruct Oc as (q1 & Hq1 & Aq1). congruence.
      * right. rewrite Er. split; [rewrite Er in I1; exact I1|]. split; [|exact Cl]. eapply Mv; [exact Hi | reflexivity | reflexivity | exact Logic.I].
      * right. rewrite Er. split; [rewrite Er in I1; exact I1|]. split; [|exact Cl]. eapply Mv; [exact Hi | reflexivity | reflexivity | exact Logic.I].
      * right. rewrite Er. split; [rewrite Er in I1; exact I1|]. split; [|exact Cl]. eapply Mv; [exact Hi | reflexivity | reflexivity | exact Logic.I].
    + right. split; [exact I1|]. split; [|exact Cl]. eapply Mv; [exact Hi | reflexivity | reflexivity |]. destruct b; try exact Nk; destruct (c_err (k_st q)); try exact Nk; exact Logic.I.
  - right. split; [exact I1|]. split; [|exact Cl]. eapply Mv; [exact Hi | reflexivity | reflexivity |]. pose proof (Ow j c Hi) as Oc. unfold own_addr in *. rewrite Pc in Oc. exact Oc.
  - right. split; [exact I1|]. split; [|exact Cl]. eapply Mv; [exact Hi | reflexivity | reflexivity |].
    destruct (match e with ECtx => true | EClient x => isctx x end); [exact Logic.I|]. destruct (S nn <? att); exact Logic.I.
  - right. split; [exact I1|]. split; [|exact Cl]. eapply Mv; [exact Hi | reflexivity | reflexivity | exact Logic.I].
  - right. split; [exact I1|]. split; [|exact Cl]. eapply Mv; [exact Hi | reflexivity | reflexivity | exact Logic.I].
  - destruct (client_shape _ _ _ _ _ _ _ _ _ _ _ _ H0 Hq Ha) as (Q1 & Q2 & _).
    assert (Rest : (kk = k -> c_once st = 0 /\ c_err st = None) -> clean s1).
    { intros R. split; [exact I1|]. split.
      - intros i d Hy. rewrite Q1 in Hy. specialize (Ow i d Hy). unfold own_addr in *. rewrite Q2. destruct (d_pc d) as [|n1 k1 v1 m1|n1 k1| | | | |]; auto.
        + rewrite set_nth_length. exact Ow.
        + destruct Ow as (q1 & Hq1 & Aq1). rewrite (nth_error_set _ _ _ _ k1 Hq). destruct (Nat.eqb_spec k1 kk) as [-> |]; [|eauto]. assert (q1 = q) as -> by congruence. eexists. split; [reflexivity | exact Aq1].
      - intros q1 Hq1. rewrite Q2, (nth_error_set _ _ _ _ k Hq) in Hq1. destruct (Nat.eqb_spec k kk) as [E|]; [|exact (Cl q1 Hq1)]. injection Hq1 as <-. exact (R (eq_sym E)). }
    destruct (Nat.eq_dec kk k) as [-> |Nk]; [|right; apply Rest; intros C; contradiction]. cbn in So. specialize (So eq_refl). destruct (Cl q Hq) as [O E].
    destruct aa; try (right; apply Rest; intros _; apply (clean_client _ _ _ Ha O E); exact So).
    + destruct So as [(i & n & e & c & Hc & Pc)|Ev]; [|left; right; exact Ev]. specialize (Ow i c Hc). unfold own_addr in Ow. rewrite Pc in Ow. contradiction.
Qed.

Lemma clean_run l : forall s s', clean s -> sound_run SideOutbound max att p idle isctx k s l -> run s l = Some s' ->
  clean s' \/ exists l1 l2 s1, l = l1 ++ l2 /\ run s l1 = Some s1 /\ blame s1.
Proof.
  induction l as [|a l IH]; intros s s' C So H; cbn [drun] in H; [injection H as <-; left; exact C|]. destruct (step s a) as [s1|] eqn:E; [|discriminate].
  cbn [sound_run] in So. rewrite E in So. destruct So as [So1 So2]. destruct (clean_step s a s1 C So1 E) as [B|C1]; [right; exists [], (a :: l), s; auto|].
  destruct (IH s1 s' C1 So2 H) as [X|(l1 & l2 & s2 & -> & R & B)]; [left; exact X|]. right. exists (a :: l1), l2, s2. split; [reflexivity|]. split; [cbn [drun]; rewrite E; exact R | exact B].
Qed.
Lemma clean_start : clean d_start.
Proof. split; [apply pinv_start|]. split; [intros [|i] c; discriminate|]. intros q Hq. destruct k; discriminate. Qed.
End Spare.

(** If a connection that nothing is wrong with is closed, there was a call to its address whose context ended before the call had returned, or the
    pool was full and the connection was chosen to make room. *)
Theorem C104_partial : forall max att p idle isctx l s k q, 0 < max -> pool_does SideOutbound max att p idle isctx l s ->
  sound_run SideOutbound max att p idle isctx k d_start l -> nth_error (ds_clients s) k = Some q -> c_once (k_st q) <> 0 ->
  exists l1 l2 s1, l = l1 ++ l2 /\ pool_does SideOutbound max att p idle isctx l1 s1 /\
    ((exists i c q1, nth_error (ds_callers s1) i = Some c /\ d_cancelled c = true /\ ~ returned s1 i /\ nth_error (ds_clients s1) k = Some q1 /\ d_addr c = k_addr q1) \/
     exists i, evicts s1 i k).
Proof.
  intros max att p idle isctx l s k q M H So Hq O. destruct (clean_run max att p idle isctx M k l d_start s (clean_start max k) So H) as [(_ & _ & C)|X]; [|exact X].
  destruct (C q Hq). contradiction.
Qed.
Print Assumptions C104_partial.

Lemma run_cons sd max att p idle isctx s a s1 l : dstep sd max att p idle isctx s a = Some s1 -> drun sd max att p idle isctx s (a :: l) = drun sd max att p idle isctx s1 l.
Proof. intros E. cbn [drun]. rewrite E. reflexivity. Qed.
Lemma sound_cons sd max att p idle isctx k s a s1 l : dstep sd max att p idle isctx s a = Some s1 -> sound k s a -> sound_run sd max att p idle isctx k s1 l -> sound_run sd max att p idle isctx k s (a :: l).
Proof. intros E A B. cbn [sound_run]. rewrite E. auto. Qed.

(** Whatever connection is in use: one more call to its address, with a context that has ended, and the connection is closed. *)
Theorem C104_closes : forall max att p idle isctx l s k q, 0 < max -> 0 < att -> pool_does SideOutbound max att p idle isctx l s -> ds_lock s = None ->
  nth_error (ds_clients s) k = Some q -> active q -> c_once (k_st q) = 0 -> let i := length (ds_callers s) in
  let acts := [DaCall (k_addr q); DaCancel i; DaGet i; DaSelect i BCtx; DaClient k ACloseFlag; DaClient k ACloseConn] in
  exists s1 q1, drun SideOutbound max att p idle isctx s acts = Some s1 /\ sound_run SideOutbound max att p idle isctx k s acts /\
    nth_error (ds_clients s1) k = Some q1 /\ c_once (k_st q1) = 2 /\ c_cclosed (k_st q1) = (c_cclosed (k_st q) || c_conn (k_st q))%bool.
Proof.
  intros max att p idle isctx l s k q M At H Lk Hq Ac O i acts. set (dst := dstep SideOutbound max att p idle isctx).
  set (s1 := mkDS (ds_callers s ++ [mkD (k_addr q) (DLoop 0) false]) (ds_clients s) (ds_pool s) (ds_lock s) (ds_gets s) (ds_failed s) (ds_late s)).
  assert (H1 : pool_does SideOutbound max att p idle isctx (l ++ [DaCall (k_addr q)]) s1) by (unfold pool_does in *; rewrite drun_app, H; reflexivity).
  assert (N1 : nth_error (ds_callers s1) i = Some (mkD (k_addr q) (DLoop 0) false)) by (unfold s1, i; cbn; rewrite nth_error_app2, Nat.sub_diag by lia; reflexivity).
  set (s2 := mkDS (set_nth i (mkD (k_addr q) (DLoop 0) true) (ds_callers s1)) (ds_clients s) (ds_pool s) (ds_lock s) (ds_gets s) (ds_failed s) (ds_late s)).
  assert (E2 : dst s1 (DaCancel i) = Some s2) by (unfold dst; cbn [dstep]; rewrite N1; reflexivity).
  assert (H2 : pool_does SideOutbound max att p idle isctx ((l ++ [DaCall (k_addr q)]) ++ [DaCancel i]) s2) by (unfold pool_does in *; rewrite drun_app, H1; cbn [drun]; fold dst; rewrite E2; reflexivity).
  assert (N2 : nth_error (ds_callers s2) i = Some (mkD (k_addr q) (DLoop 0) true)) by (unfold s2; cbn [ds_callers]; rewrite (nth_error_set _ _ _ _ i N1), Nat.eqb_refl; reflexivity).
  destruct (C71_shared _ _ _ _ _ _ _ _ i _ 0 k q M H2 Lk N2 eq_refl At Hq eq_refl Ac) as (s3 & E3 & (c3 & N3 & P3) & C3). cbn [got] in P3.
  assert (D3 : d_cancelled c3 = true).
  { cbn [dstep] in E3. rewrite N2 in E3. cbn [d_pc d_addr d_cancelled] in E3. apply Nat.ltb_lt in At. rewrite At in E3. change (ds_lock s2) with (ds_lock s) in E3. rewrite Lk in E3.
    destruct (cm_fetch _ _ _ _) as [[[[m k1] ex] [v|]]|e|]; try discriminate E3; injection E3 as <-; dproj; rewrite (nth_error_set _ _ _ _ i N2), Nat.eqb_refl in N3; injection N3 as <-; reflexivity. }
  set (s4 := set_pc i c3 (DClose 0 k ECtx) s3).
  assert (E4 : dst s3 (DaSelect i BCtx) = Some s4) by (unfold dst; cbn [dstep]; rewrite N3, P3, C3; change (ds_clients s2) with (ds_clients s); rewrite Hq, D3; reflexivity).
  assert (N4 : at_pc s4 i (DClose 0 k ECtx)) by (eexists; unfold s4, set_pc; cbn [ds_callers]; rewrite (nth_error_set _ _ _ _ i N3), Nat.eqb_refl; split; reflexivity).
  assert (C4 : nth_error (ds_clients s4) k = Some q) by (unfold s4, set_pc; cbn [ds_clients]; rewrite C3; exact Hq).
  assert (E5 : exists s5, dst s4 (DaClient k ACloseFlag) = Some s5 /\ ds_clients s5 = set_nth k (mkK (k_addr q) (k_ctx q) (close_flag (k_st q))) (ds_clients s4)).
  { unfold dst. cbn [dstep cact]. rewrite C4, O. cbn [Nat.eqb]. destruct (c_main (k_st q)); eexists; split; reflexivity. }
  destruct E5 as (s5 & E5 & C5). assert (N5 : nth_error (ds_clients s5) k = Some (mkK (k_addr q) (k_ctx q) (close_flag (k_st q)))) by (rewrite C5, (nth_error_set _ _ _ _ k C4), Nat.eqb_refl; reflexivity).
  assert (E6 : exists s6, dst s5 (DaClient k ACloseConn) = Some s6 /\ ds_clients s6 = set_nth k (mkK (k_addr q) (k_ctx q) (close_conn (close_flag (k_st q)))) (ds_clients s5)).
  { unfold dst. cbn [dstep cact]. rewrite N5. cbn [k_st close_flag c_once Nat.eqb c_main]. destruct (c_main (k_st q)); eexists; split; reflexivity. }
  destruct E6 as (s6 & E6 & C6). exists s6. eexists. unfold dst in *.
  assert (E1 : dstep SideOutbound max att p idle isctx s (DaCall (k_addr q)) = Some s1) by reflexivity.
  split; [|split; [|split; [rewrite C6, (nth_error_set _ _ _ _ k N5), Nat.eqb_refl; reflexivity | split; reflexivity]]].
  - unfold acts. rewrite (run_cons _ _ _ _ _ _ _ _ _ _ E1), (run_cons _ _ _ _ _ _ _ _ _ _ E2), (run_cons _ _ _ _ _ _ _ _ _ _ E3), (run_cons _ _ _ _ _ _ _ _ _ _ E4), (run_cons _ _ _ _ _ _ _ _ _ _ E5), (run_cons _ _ _ _ _ _ _ _ _ _ E6). reflexivity.
  - unfold acts. repeat (eapply sound_cons; [eassumption | cbn; first [exact Logic.I | intros _; auto; left; eauto] |]). exact Logic.I.
Qed.
Print Assumptions C104_closes.

(** ** Call 0 has the connection; call 1 comes with a context that has ended. *)
Definition in_use : list dact := [DaCall (adr 1); DaGet 0; DaClient 0 (AMain Fine); DaClient 0 (AMain Fine); DaClient 0 (AMain Fine); DaClient 0 (AMain Fine); DaSelect 0 BReady].
Definition spoilt : list dact := in_use ++ [DaCall (adr 1); DaCancel 1; DaGet 1; DaSelect 1 BCtx; DaClient 0 ACloseFlag; DaClient 0 ACloseConn].
Example C104_nonvacuous : exists s q, pool_does SideOutbound 2 3 1 0 (fun _ => false) in_use s /\ nth_error (ds_clients s) 0 = Some q /\ active q /\ c_once (k_st q) = 0 /\
  ds_lock s = None /\ at_pc s 0 (DOk 0 false) /\ sound_run SideOutbound 2 3 1 0 (fun _ => false) 0 d_start spoilt /\
  exists s1 q1, pool_does SideOutbound 2 3 1 0 (fun _ => false) spoilt s1 /\ nth_error (ds_clients s1) 0 = Some q1 /\ c_once (k_st q1) = 2 /\ at_pc s1 0 (DOk 0 false).
Proof.
  eexists _, _. split; [vm_compute; reflexivity|]. split; [reflexivity|]. split; [repeat split; discriminate|]. split; [reflexivity|]. split; [reflexivity|].
  split; [eexists; split; reflexivity|]. split.
  - vm_compute. repeat (split; [auto|]). 2: exact Logic.I. intros _. left. exists 1, 0, ECtx. eexists. split; reflexivity.
  - eexists _, _. split; [vm_compute; reflexivity|]. split; [reflexivity|]. split; [reflexivity|]. eexists. split; reflexivity.
Qed.
Theorem C104_refuted : ~ C104_statement.
Proof.
  intros H. destruct C104_nonvacuous as (_ & _ & _ & _ & _ & _ & _ & _ & So & s1 & q1 & R1 & Q1 & O1 & _).
  assert (c_once (k_st q1) = 0); [|congruence]. apply (H 2 3 1 0 (fun _ => false) spoilt s1 0 q1 ltac:(lia) R1 So); [|exact Q1].
  clear. intros l1 l2 s i E R (n & k & m & c & Hc & Pc).
  assert (Z : forallb (fun n => match drun SideOutbound 2 3 1 0 (fun _ => false) d_start (firstn n spoilt) with
    | Some s => forallb (fun c => match d_pc c with DEvict _ _ _ _ => false | _ => true end) (ds_callers s) | None => false end) (seq 0 (S (length spoilt))) = true) by (vm_compute; reflexivity).
  rewrite forallb_forall in Z. specialize (Z (length l1)). rewrite E, firstn_app, Nat.sub_diag, firstn_all, app_nil_r, app_length in Z. unfold pool_does in R. rewrite R, forallb_forall in Z.
  assert (L : In (length l1) (seq 0 (S (length l1 + length l2)))) by (apply in_seq; lia). specialize (Z L c (nth_error_In _ _ Hc)). rewrite Pc in Z. discriminate.
Qed.
Print Assumptions C104_refuted.
