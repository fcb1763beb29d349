(** * C109: what the documented examples of messaging print *)
From Verif Require Import Base M_Table M_Examples P_Conn.
Local Open Scope nat_scope.

(** ** The claim *)

(** main has returned. *)
Definition returned (s : estate) : Prop := e_left s = [] /\ e_crash s = false.
(** Nothing can happen any more. *)
Definition over (af : bool) (s : estate) : Prop := forall a, estep af s a = None.
(** A run that goes as documented: it cannot stop before main has returned, nor panic, and then it has printed all messages, in order. *)
Definition as_documented (af : bool) (ls : list line) : Prop := forall sched s, erun af (e_start af ls) sched = Some s ->
  e_crash s = false /\ (over af s -> returned s) /\ (returned s -> e_out s = ls).

(** "Hi Bob!", "Hi Alice!": lines 81-82. *)
Definition hi_bob : line := [Byte.x48; Byte.x69; Byte.x20; Byte.x42; Byte.x6f; Byte.x62; Byte.x21].
Definition hi_alice : line := [Byte.x48; Byte.x69; Byte.x20; Byte.x41; Byte.x6c; Byte.x69; Byte.x63; Byte.x65; Byte.x21].
Definition C109_statement : Prop := as_documented false [hi_bob; hi_alice].

Definition prefix_of {A} (l r : list A) : Prop := exists t, r = l ++ t.

(** ** Where a run may be *)

Inductive stage := Idle | Fly | Prt | Dn | Ret.
Definition st_flight (st : stage) (l : line) : list line := match st with Fly => [l] | _ => [] end.
Definition st_hands (st : stage) (l : line) : list handpc := match st with Prt => [HPrint l] | Dn => [HDone] | Ret => [HReturned] | _ => [] end.
Definition st_out (st : stage) (l : line) : list line := match st with Dn | Ret => [l] | _ => [] end.
Definition st_ord (st : stage) : nat := match st with Idle => 0 | Fly => 0 | Prt => 1 | Dn => 2 | Ret => 3 end.
Definition pc_ord (af : bool) (pc : mainpc) : nat :=
  match pc with MSend => if af then 1 else 0 | MAdd => if af then 0 else 1 | MWait => 2 end.

Definition at_stage (pre : list line) (l : line) (post : list line) (pc : mainpc) (wg : nat) (st : stage) (cr : bool) : estate :=
  mkE (l :: post) pc wg (st_flight st l) (repeat HReturned (length pre) ++ st_hands st l) (pre ++ st_out st l) cr.
Definition legal (af : bool) (pc : mainpc) (wg : nat) (st : stage) (cr : bool) : Prop :=
  match pc, st with
  | MSend, Idle => wg = (if af then 1 else 0) /\ cr = false
  | MAdd, Idle => af = true /\ wg = 0 /\ cr = false
  | MAdd, (Fly | Prt | Dn) => af = false /\ wg = 0 /\ cr = false
  | MAdd, Ret => af = false /\ wg = 0 /\ cr = true
  | MWait, (Fly | Prt | Dn) => wg = 1 /\ cr = false
  | MWait, Ret => wg = 0 /\ cr = false
  | _, _ => False
  end.
Definition einv (af : bool) (ls : list line) (k : nat) (s : estate) : Prop :=
  (exists pre l post pc wg st cr, ls = pre ++ l :: post /\ s = at_stage pre l post pc wg st cr /\ legal af pc wg st cr /\ k = 6 * length pre + pc_ord af pc + st_ord st)
  \/ (s = mkE [] (if af then MAdd else MSend) 0 [] (repeat HReturned (length ls)) ls false /\ k = 6 * length ls).

Lemma nth_done {A} (x : A) n l i y : nth_error (repeat x n ++ l) i = Some y -> y = x \/ exists j, i = n + j /\ nth_error l j = Some y.
Proof.
  intros H. destruct (Nat.lt_ge_cases i n) as [L|L].
  - rewrite nth_error_app1 in H by (rewrite repeat_length; exact L). apply nth_error_In, repeat_spec in H. auto.
  - rewrite nth_error_app2, repeat_length in H by (rewrite repeat_length; exact L). right. exists (i - n). split; [lia|exact H].
Qed.
Lemma set_done {A} (x y z : A) n : set_nth (n + 0) y (repeat x n ++ [z]) = repeat x n ++ [y].
Proof. rewrite Nat.add_0_r. induction n as [|n IH]; cbn; [reflexivity|]. now rewrite IH. Qed.
Lemma repeat_snoc {A} (x : A) n : repeat x n ++ [x] = repeat x (S n).
Proof. induction n as [|n IH]; cbn; [reflexivity|]. cbn in IH. now rewrite IH. Qed.

Lemma einv_start af ls : einv af ls 0 (e_start af ls).
Proof.
  destruct ls as [|l post]; [right; split; reflexivity|]. left. exists [], l, post. exists (if af then MAdd else MSend), 0, Idle, false.
  split; [reflexivity|]. split; [reflexivity|]. destruct af; cbn; auto.
Qed.

Lemma einv_step af ls k s a s' : einv af ls k s -> estep af s a = Some s' -> einv af ls (S k) s'.
Proof.
  intros [(pre & l & post & pc & wg & st & cr & Els & -> & Lg & Ek)|[-> _]] H; [|discriminate].
  destruct cr; [destruct pc, st; cbn in Lg; try tauto; try (destruct Lg; congruence); discriminate|].
  cbn [estep e_crash e_left at_stage e_pc e_wg e_flight e_hands e_out] in H. destruct a as [| |i].
  - (* main *)
    destruct pc.
    + destruct st; cbn in Lg; try tauto. destruct Lg as [-> _]. injection H as <-. left. exists pre, l, post.
      exists (if af then MWait else MAdd), (if af then 1 else 0), Fly, false. split; [exact Els|]. split; [unfold at_stage; cbn; destruct af; reflexivity|]. split; [destruct af; cbn; auto|]. subst k. destruct af; cbn; lia.
    + injection H as <-. left. exists pre, l, post, (if af then MSend else MWait), (S wg), st, false.
      split; [exact Els|]. split; [reflexivity|]. destruct st; cbn in Lg; destruct Lg as (-> & -> & C); try discriminate; cbn; (split; [auto|]); subst k; cbn; lia.
    + destruct st; cbn in Lg; try tauto; destruct Lg as [-> _]; try discriminate. injection H as <-.
      destruct post as [|l2 post].
      * right. split; [|subst k ls; rewrite app_length; cbn; destruct af; lia]. subst ls. rewrite app_length. cbn [length st_flight st_hands st_out]. rewrite repeat_snoc. f_equal. f_equal. lia.
      * left. exists (pre ++ [l]), l2, post, (if af then MAdd else MSend), 0, Idle, false. split; [rewrite <- app_assoc; exact Els|].
        split. { unfold at_stage. cbn [st_flight st_hands st_out]. rewrite app_length, !app_nil_r, repeat_snoc. do 2 f_equal. cbn. lia. }
        split; [destruct af; cbn; auto|]. subst k. rewrite app_length. destruct af; cbn; lia.
  - (* deliver *)
    destruct st; cbn in H; try discriminate. injection H as <-. left. exists pre, l, post, pc, wg, Prt, false. split; [exact Els|].
    split; [unfold at_stage; cbn; rewrite !app_nil_r; reflexivity|]. split; [destruct pc; cbn in Lg |- *; tauto|]. subst k. cbn. lia.
  - (* handler *)
    destruct (nth_error _ i) as [h|] eqn:Hi; [|discriminate]. destruct (nth_done _ _ _ _ _ Hi) as [->|(j & -> & Hj)]; [discriminate|].
    destruct st; cbn in Hj; try (destruct j; discriminate).
    + destruct j as [|j]; [|destruct j; discriminate]. injection Hj as <-. injection H as <-. left. exists pre, l, post, pc, wg, Dn, false. split; [exact Els|].
      split; [unfold at_stage; cbn [st_flight st_hands st_out]; rewrite set_done, app_nil_r; reflexivity|]. split; [destruct pc; cbn in Lg |- *; tauto|]. subst k. cbn. lia.
    + destruct j as [|j]; [|destruct j; discriminate]. injection Hj as <-. injection H as <-. left. exists pre, l, post, pc, (pred wg), Ret, (wg =? 0). split; [exact Els|].
      split; [unfold at_stage; cbn [st_flight st_hands st_out]; rewrite set_done; reflexivity|].
      split; [destruct pc; cbn in Lg |- *; try tauto; [destruct Lg as (-> & -> & _); auto | destruct Lg as (-> & _); auto]|]. subst k. cbn. lia.
    + destruct j as [|j]; [injection Hj as <-; discriminate|destruct j; discriminate].
Qed.
Lemma einv_run af ls sched : forall k s s', einv af ls k s -> erun af s sched = Some s' -> einv af ls (k + length sched) s'.
Proof.
  induction sched as [|a r IH]; intros k s s' I H; cbn in H; [injection H as <-; cbn; rewrite Nat.add_0_r; exact I|].
  destruct (estep af s a) as [s1|] eqn:E; [|discriminate]. cbn. rewrite Nat.add_succ_r, <- Nat.add_succ_l. eapply IH; [|exact H]. eapply einv_step; eassumption.
Qed.

(** Whatever is not crashed and has lines left can go on. *)
Lemma einv_goes_on af ls k s : einv af ls k s -> e_crash s = false -> e_left s <> [] -> exists a s', estep af s a = Some s'.
Proof.
  intros [(pre & l & post & pc & wg & st & cr & Els & -> & Lg & Ek)|[-> _]] C N; [|destruct N; reflexivity]. cbn in C. subst cr.
  destruct pc, st; cbn in Lg; try tauto.
  - exists EMain. eexists. reflexivity.
  - exists EMain. eexists. reflexivity.
  - exists EMain. eexists. reflexivity.
  - exists EMain. eexists. reflexivity.
  - exists EMain. eexists. reflexivity.
  - destruct Lg as (_ & _ & D). discriminate.
  - exists EDeliver. eexists. reflexivity.
  - exists (EHand (length pre + 0)). unfold estep, at_stage. cbn [e_crash e_left e_hands st_hands].
    rewrite nth_error_app2 by (rewrite repeat_length; lia). rewrite repeat_length. replace (length pre + 0 - length pre) with 0 by lia. cbn [nth_error]. eexists. reflexivity.
  - exists (EHand (length pre + 0)). unfold estep, at_stage. cbn [e_crash e_left e_hands st_hands].
    rewrite nth_error_app2 by (rewrite repeat_length; lia). rewrite repeat_length. replace (length pre + 0 - length pre) with 0 by lia. cbn [nth_error]. eexists. reflexivity.
  - exists EMain. destruct Lg as [-> _]. eexists. reflexivity.
Qed.

(** ** What holds of the examples as they are *)

(** Whatever the messages: what has been printed is the first of them, in order; all of them once main has returned; unless it panics, the program goes on until
    main returns, after six steps per message; and it panics only where main has sent a message whose handler has come to Done, and not yet run Add. *)
Theorem C109_partial : forall ls sched s, erun false (e_start false ls) sched = Some s ->
  prefix_of (e_out s) ls /\ (returned s -> e_out s = ls /\ length sched = 6 * length ls) /\ length sched <= 6 * length ls /\
  (e_crash s = false -> over false s -> returned s) /\ (e_crash s = true -> e_pc s = MAdd).
Proof.
  intros ls sched s H. pose proof (einv_run false ls sched 0 _ _ (einv_start false ls) H) as I. cbn [plus] in I.
  assert (G : e_crash s = false -> over false s -> returned s).
  { intros C O. split; [|exact C]. destruct (e_left s) eqn:E; [reflexivity|]. destruct (einv_goes_on _ _ _ _ I C) as (a & s' & St); [congruence|]. rewrite O in St. discriminate. }
  destruct I as [(pre & l & post & pc & wg & st & cr & Els & -> & Lg & Ek)|[-> Ek]].
  - repeat split.
    + unfold at_stage. cbn [e_out]. subst ls. destruct st; cbn [st_out]; rewrite ?app_nil_r; try (eexists; reflexivity); exists post; rewrite <- app_assoc; reflexivity.
    + destruct H0 as [H0 _]. discriminate.
    + destruct H0 as [H0 _]. discriminate.
    + subst ls. rewrite app_length, Ek. cbn [length]. assert (pc_ord false pc <= 2) by (destruct pc; cbn; lia). assert (st_ord st <= 3) by (destruct st; cbn; lia). lia.
    + exact (proj1 (G H0 H1)).
    + exact (proj2 (G H0 H1)).
    + cbn. intros ->. destruct pc, st; cbn in Lg; try tauto; destruct Lg; try congruence; try (destruct H1; congruence); reflexivity.
  - repeat split; cbn; try lia; try discriminate. exists []. rewrite app_nil_r. reflexivity.
Qed.
Print Assumptions C109_partial.

(** Add before Send would do. *)
Theorem C109_add_first : forall ls, as_documented true ls.
Proof.
  intros ls sched s H. pose proof (einv_run true ls sched 0 _ _ (einv_start true ls) H) as I. cbn [plus] in I.
  assert (C : e_crash s = false).
  { destruct I as [(pre & l & post & pc & wg & st & cr & Els & -> & Lg & Ek)|[-> Ek]]; [|reflexivity]. cbn. destruct pc, st; cbn in Lg; try tauto; destruct Lg as (X & Y); try destruct Y; congruence. }
  split; [exact C|]. split.
  - intros O. split; [|exact C]. destruct (e_left s) eqn:E; [reflexivity|]. destruct (einv_goes_on _ _ _ _ I C) as (a & s' & St); [congruence|]. rewrite O in St. discriminate.
  - intros [L _]. destruct I as [(pre & l & post & pc & wg & st & cr & Els & -> & Lg & Ek)|[-> Ek]]; [discriminate|reflexivity].
Qed.
Print Assumptions C109_add_first.

(** ** What does not *)

(** Any of the messages may be the one at which the program panics: it has printed that message, and none after it. *)
Definition exchange (n : nat) : list eact := [EMain; EMain; EDeliver; EHand n; EHand n; EMain].
Definition rush (n : nat) : list eact := [EMain; EDeliver; EHand n; EHand n].
Lemma erun_app af l1 : forall s l2, erun af s (l1 ++ l2) = match erun af s l1 with Some s' => erun af s' l2 | None => None end.
Proof. induction l1 as [|a l1 IH]; intros s l2; cbn; [reflexivity|]. destruct (estep af s a); [apply IH|reflexivity]. Qed.
Lemma nth_here {A} (x : A) n l y : nth_error (repeat x n ++ y :: l) n = Some y.
Proof. rewrite nth_error_app2 by (rewrite repeat_length; lia). rewrite repeat_length, Nat.sub_diag. reflexivity. Qed.
Lemma set_here {A} (x y z : A) n : set_nth n y (repeat x n ++ [z]) = repeat x n ++ [y].
Proof. rewrite <- (Nat.add_0_r n) at 1. apply set_done. Qed.
Lemma one_exchange n l post out : erun false (mkE (l :: post) MSend 0 [] (repeat HReturned n) out false) (exchange n) =
  Some (mkE post MSend 0 [] (repeat HReturned (S n)) (out ++ [l]) false).
Proof.
  unfold exchange. cbn [erun]. unfold estep at 1. cbn [e_crash e_left e_pc e_wg e_flight e_hands e_out app]. unfold estep at 1. cbn [e_crash e_left e_pc e_wg e_flight e_hands e_out app].
  unfold estep at 1. cbn [e_crash e_left e_pc e_wg e_flight e_hands e_out app]. unfold estep at 1. cbn [e_crash e_left e_pc e_wg e_flight e_hands e_out app]. rewrite nth_here, set_here.
  unfold estep at 1. cbn [e_crash e_left e_pc e_wg e_flight e_hands e_out app]. rewrite nth_here, set_here. cbn [pred Nat.eqb].
  unfold estep at 1. cbn [e_crash e_left e_pc e_wg e_flight e_hands e_out app Nat.eqb]. rewrite repeat_snoc. reflexivity.
Qed.
Theorem C109_panics : forall pre l post, exists sched s, erun false (e_start false (pre ++ l :: post)) sched = Some s /\ e_crash s = true /\ e_out s = pre ++ [l].
Proof.
  intros pre l post.
  assert (G : forall pre out n, exists sched s, erun false (mkE (pre ++ l :: post) MSend 0 [] (repeat HReturned n) out false) sched = Some s /\ e_crash s = true /\ e_out s = out ++ pre ++ [l]).
  { clear pre. intros pre. induction pre as [|x pre IH]; intros out n.
    - exists (rush n). unfold rush. cbn [app erun]. unfold estep at 1. cbn [e_crash e_left e_pc e_wg e_flight e_hands e_out app]. unfold estep at 1. cbn [e_crash e_left e_pc e_wg e_flight e_hands e_out app].
      unfold estep at 1. cbn [e_crash e_left e_pc e_wg e_flight e_hands e_out app]. rewrite nth_here, set_here. unfold estep at 1. cbn [e_crash e_left e_pc e_wg e_flight e_hands e_out app]. rewrite nth_here.
      eexists. split; [reflexivity|]. split; reflexivity.
    - destruct (IH (out ++ [x]) (S n)) as (sched & s & R & C & O). exists (exchange n ++ sched), s. rewrite erun_app. cbn [app]. rewrite one_exchange.
      split; [exact R|]. split; [exact C|]. rewrite O, <- app_assoc. reflexivity. }
  exact (G pre [] 0).
Qed.
Print Assumptions C109_panics.

Theorem C109_refuted : ~ C109_statement.
Proof.
  intros H. destruct (C109_panics [] hi_bob [hi_alice]) as (sched & s & R & C & _). destruct (H sched s R) as [N _]. congruence.
Qed.
Print Assumptions C109_refuted.

(** ** The example of requests *)

(** What Example_rPC prints for a request and its answer: both, in this order. *)
Definition both (qs : list (line * line)) : list line := flat_map (fun q => [fst q; snd q]) qs.

Inductive qstage := QIdle | QFly | QPrt | QSnd | QRet | QGot.
Definition q_stage (pre : list (line * line)) (q a : line) (post : list (line * line)) (st : qstage) : qstate :=
  mkQ ((q, a) :: post) (match st with QIdle => QAsk | QGot => QPrint a | _ => QWait end) (match st with QFly => [q] | _ => [] end) (match st with QRet => [a] | _ => [] end)
    (repeat SReturned (length pre) ++ match st with QIdle | QFly => [] | QPrt => [SPrint q] | QSnd => [SSend] | _ => [SReturned] end)
    (both pre ++ match st with QIdle | QFly | QPrt => [] | _ => [q] end).
Definition q_ord (st : qstage) : nat := match st with QIdle => 0 | QFly => 1 | QPrt => 2 | QSnd => 3 | QRet => 4 | QGot => 5 end.
Definition qinv (qs : list (line * line)) (k : nat) (s : qstate) : Prop :=
  (exists pre q a post st, qs = pre ++ (q, a) :: post /\ s = q_stage pre q a post st /\ k = 6 * length pre + q_ord st)
  \/ (s = mkQ [] QAsk [] [] (repeat SReturned (length qs)) (both qs) /\ k = 6 * length qs).
Lemma both_snoc pre q a : both (pre ++ [(q, a)]) = both pre ++ [q; a].
Proof. unfold both. rewrite flat_map_app. reflexivity. Qed.
Lemma qinv_step qs k s a s' : qinv qs k s -> qstep s a = Some s' -> qinv qs (S k) s'.
Proof.
  intros [(pre & q & an & post & st & Eq & -> & Ek)|[-> _]] H; [|discriminate].
  cbn [qstep q_stage q_left q_pc q_req q_ans q_serv q_out] in H.
  assert (Next : forall st', s' = q_stage pre q an post st' -> q_ord st' = S (q_ord st) -> qinv qs (S k) s').
  { intros st' -> E. left. exists pre, q, an, post, st'. repeat split; auto. lia. }
  destruct a as [| |i].
  - destruct st; try discriminate.
    + injection H as <-. apply (Next QFly); reflexivity.
    + injection H as <-. apply (Next QGot); reflexivity.
    + injection H as <-. destruct post as [|[q2 a2] post].
      * right. subst qs k. rewrite app_length. cbn [length q_ord]. split; [|lia]. rewrite both_snoc, repeat_snoc. rewrite <- app_assoc. repeat f_equal. lia.
      * left. exists (pre ++ [(q, an)]), q2, a2, post, QIdle. split; [rewrite <- app_assoc; exact Eq|]. split; [|rewrite app_length; cbn [length q_ord] in *; lia].
        unfold q_stage. rewrite app_length, both_snoc, !app_nil_r, repeat_snoc. rewrite <- app_assoc. repeat f_equal. cbn. lia.
  - destruct st; try discriminate. injection H as <-. apply (Next QPrt); [|reflexivity]. unfold q_stage. rewrite app_nil_r. reflexivity.
  - destruct (nth_error _ i) as [h|] eqn:Hi; [|discriminate]. destruct (nth_done _ _ _ _ _ Hi) as [->|(j & -> & Hj)]; [discriminate|].
    destruct st; try (destruct j; discriminate).
    + destruct j as [|j]; [|destruct j; discriminate]. injection Hj as <-. injection H as <-. apply (Next QSnd); [|reflexivity]. unfold q_stage. rewrite set_done, app_nil_r. reflexivity.
    + destruct j as [|j]; [|destruct j; discriminate]. injection Hj as <-. injection H as <-. apply (Next QRet); [|reflexivity]. unfold q_stage. rewrite set_done. reflexivity.
    + destruct j as [|j]; [injection Hj as <-; discriminate|destruct j; discriminate].
    + destruct j as [|j]; [injection Hj as <-; discriminate|destruct j; discriminate].
Qed.
Lemma qinv_run qs sched : forall k s s', qinv qs k s -> qrun s sched = Some s' -> qinv qs (k + length sched) s'.
Proof.
  induction sched as [|a r IH]; intros k s s' I H; cbn in H; [injection H as <-; cbn; rewrite Nat.add_0_r; exact I|].
  destruct (qstep s a) as [s1|] eqn:E; [|discriminate]. cbn. rewrite Nat.add_succ_r, <- Nat.add_succ_l. eapply IH; [|exact H]. eapply qinv_step; eassumption.
Qed.
Lemma qinv_start qs : qinv qs 0 (q_start qs).
Proof. destruct qs as [|[q a] post]; [right; split; reflexivity|]. left. exists [], q, a, post, QIdle. repeat split. Qed.
(** Example_rPC prints what it should: every request, followed by its answer; it goes on until it has. *)
Theorem C109_rpc : forall qs sched s, qrun (q_start qs) sched = Some s ->
  prefix_of (q_out s) (both qs) /\ length sched <= 6 * length qs /\ (q_left s = [] -> q_out s = both qs) /\
  ((forall a, qstep s a = None) -> q_left s = []).
Proof.
  intros qs sched s H. pose proof (qinv_run qs sched 0 _ _ (qinv_start qs) H) as I. cbn [plus] in I.
  destruct I as [(pre & q & an & post & st & Eq & -> & Ek)|[-> Ek]].
  - split; [|split; [|split]].
    + unfold q_stage. cbn [q_out]. subst qs. unfold both. rewrite flat_map_app. cbn [flat_map fst snd app]. unfold prefix_of.
      destruct st; rewrite ?app_nil_r; eexists; rewrite <- ?app_assoc; reflexivity.
    + subst qs. rewrite app_length, Ek. cbn [length]. assert (q_ord st <= 5) by (destruct st; cbn; lia). lia.
    + discriminate.
    + intros O. exfalso. destruct st.
      * specialize (O QMain). discriminate.
      * specialize (O QDeliver). discriminate.
      * specialize (O (QServ (length pre))). unfold qstep, q_stage in O. cbn [q_left q_serv] in O. rewrite nth_here in O. discriminate.
      * specialize (O (QServ (length pre))). unfold qstep, q_stage in O. cbn [q_left q_serv] in O. rewrite nth_here in O. discriminate.
      * specialize (O QMain). discriminate.
      * specialize (O QMain). discriminate.
  - repeat split; auto; cbn; [exists []; rewrite app_nil_r; reflexivity|lia].
Qed.
Print Assumptions C109_rpc.

(** The examples themselves: a run as documented, and one that panics after the first line. *)
Example C109_nonvacuous :
  (exists s, erun false (e_start false [hi_bob; hi_alice]) (exchange 0 ++ exchange 1) = Some s /\ returned s /\ e_out s = [hi_bob; hi_alice]) /\
  (exists s, erun false (e_start false [hi_bob; hi_alice]) (rush 0) = Some s /\ e_crash s = true /\ e_out s = [hi_bob]) /\
  (exists s, erun true (e_start true [hi_bob]) [EMain; EMain; EDeliver; EHand 0; EHand 0; EMain] = Some s /\ returned s /\ e_out s = [hi_bob]) /\
  (exists s, qrun (q_start [(hi_bob, hi_alice)]) [QMain; QDeliver; QServ 0; QServ 0; QMain; QMain] = Some s /\ q_left s = [] /\ q_out s = [hi_bob; hi_alice]).
Proof.
  split; [|split; [|split]]; (eexists; split; [vm_compute; reflexivity|]; repeat split).
Qed.
