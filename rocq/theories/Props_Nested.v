(** * Requests that handlers make: C96. *)
From Verif Require Import Base M_Table P_Table P_Iter P_Gossip P_Conn P_Work M_Nested.
Local Open Scope nat_scope.

(** ** C96 *)

(** All requests have been answered. *)
Definition all_answered (s : qstate) : Prop := forall t, In t (qs_tasks s) -> tk_pc t = TDone.
(** No more requests from outside. *)
Definition inner (a : qact) : bool := match a with NArrive _ _ => false | _ => true end.

(** "Handlers may make requests": whatever has happened, the requests that have been sent can still be answered. *)
Definition C96_statement : Prop := forall workers sched s, (forall d, 0 < workers d) -> qrun workers q_start sched = Some s ->
  exists sched' s', qrun workers s sched' = Some s' /\ all_answered s'.

(** *** Runs *)

Lemma qrun_app w l1 l2 : forall s, qrun w s (l1 ++ l2) = match qrun w s l1 with Some s' => qrun w s' l2 | None => None end.
Proof. induction l1 as [|a l1 IH]; intros s; cbn; [reflexivity|]. destruct (qstep w s a); [apply IH|reflexivity]. Qed.
Lemma qrun_inv w (P : qstate -> Prop) : (forall s a s', P s -> qstep w s a = Some s' -> P s') -> forall l s s', P s -> qrun w s l = Some s' -> P s'.
Proof.
  intros St. induction l as [|a l IH]; cbn; intros s s' H R; [injection R as <-; exact H|].
  destruct (qstep w s a) as [s1|] eqn:E; [|discriminate]. apply (IH s1 s'); [apply (St s a s1 H E)|exact R].
Qed.

(** What a step does to a task, and to the queue. *)
Definition moved (w : nat -> nat) (s : qstate) (a : qact) (s' : qstate) : Prop :=
  match a with
  | NArrive k r => qs_tasks s' = qs_tasks s ++ [mkTask (Outside k) r (subs r) TWire] /\ qs_queue s' = qs_queue s
  | NRead i => exists t, nth_error (qs_tasks s) i = Some t /\ tk_pc t = TWire /\ qs_tasks s' = set_nth i (with_pc t (tk_todo t) TRead) (qs_tasks s) /\ qs_queue s' = qs_queue s
  | NPut i => exists t, nth_error (qs_tasks s) i = Some t /\ tk_pc t = TRead /\ qs_tasks s' = set_nth i (with_pc t (tk_todo t) TQueued) (qs_tasks s) /\ qs_queue s' = qs_queue s ++ [i]
  | NTake i => exists t, nth_error (qs_tasks s) i = Some t /\ tk_pc t = TQueued /\ busy s (node_of t) < w (node_of t) /\
                 qs_tasks s' = set_nth i (with_pc t (tk_todo t) TBusy) (qs_tasks s) /\ qs_queue s' = remove Nat.eq_dec i (qs_queue s)
  | NAsk i => exists t r rest, nth_error (qs_tasks s) i = Some t /\ tk_pc t = TBusy /\ tk_todo t = r :: rest /\
                qs_tasks s' = set_nth i (with_pc t rest (TWait (length (qs_tasks s)))) (qs_tasks s) ++ [mkTask (Inside (node_of t)) r (subs r) TWire] /\ qs_queue s' = qs_queue s
  | NResume i => exists t c u, nth_error (qs_tasks s) i = Some t /\ tk_pc t = TWait c /\ nth_error (qs_tasks s) c = Some u /\ tk_pc u = TDone /\
                   qs_tasks s' = set_nth i (with_pc t (tk_todo t) TBusy) (qs_tasks s) /\ qs_queue s' = qs_queue s
  | NAnswer i => exists t, nth_error (qs_tasks s) i = Some t /\ tk_pc t = TBusy /\ tk_todo t = [] /\
                   qs_tasks s' = set_nth i (with_pc t [] TDone) (qs_tasks s) /\ qs_queue s' = qs_queue s
  end.
Lemma qstep_moved w s a s' : qstep w s a = Some s' -> moved w s a s'.
Proof.
  destruct a as [k r|i|i|i|i|i|i]; cbn [qstep moved]; intros E.
  - injection E as <-. split; reflexivity.
  - destruct (nth_error _ i) as [t|] eqn:N; [|discriminate]. destruct (tk_pc t) eqn:P; try discriminate.
    destruct (ahead _ _ _); [discriminate|]. injection E as <-. exists t. repeat split; auto.
  - destruct (nth_error _ i) as [t|] eqn:N; [|discriminate]. destruct (tk_pc t) eqn:P; try discriminate.
    destruct (_ <? _); [|discriminate]. injection E as <-. exists t. repeat split; auto.
  - destruct (nth_error _ i) as [t|] eqn:N; [|discriminate]. destruct (tk_pc t) eqn:P; try discriminate.
    destruct (queue_of _ _) as [|j q] eqn:Q; [discriminate|]. destruct (_ && _) eqn:B; [|discriminate]. apply andb_true_iff in B as [B1 B2]. apply Nat.ltb_lt in B2.
    injection E as <-. exists t. repeat split; auto.
  - destruct (nth_error _ i) as [t|] eqn:N; [|discriminate]. destruct (tk_pc t) eqn:P; try discriminate.
    destruct (tk_todo t) as [|r rest] eqn:D; [discriminate|]. injection E as <-. exists t, r, rest. repeat split; auto.
  - destruct (nth_error _ i) as [t|] eqn:N; [|discriminate]. destruct (tk_pc t) eqn:P; try discriminate.
    destruct (nth_error _ c) as [u|] eqn:C; [|discriminate]. destruct (tk_pc u) eqn:U; try discriminate. injection E as <-. exists t, c, u. repeat split; auto.
  - destruct (nth_error _ i) as [t|] eqn:N; [|discriminate]. destruct (tk_pc t) eqn:P; try discriminate.
    destruct (tk_todo t) as [|r rest] eqn:D; [|discriminate]. injection E as <-. exists t. repeat split; auto.
Qed.

(** *** Every step is a step towards the answers *)

Fixpoint full (r : req) : nat := match r with Req _ l => 4 + (fix go (l : list req) : nat := match l with [] => 0 | x :: l' => 2 + full x + go l' end) l end.
Definition rest_of (l : list req) : nat := sumf (fun x => 2 + full x) l.
Lemma full_eq r : full r = 4 + rest_of (subs r).
Proof. destruct r as [d l]. cbn [subs]. change (full (Req d l)) with (4 + (fix go (l : list req) : nat := match l with [] => 0 | x :: l' => 2 + full x + go l' end) l). f_equal.
  induction l as [|x l IH]; [reflexivity|]. unfold rest_of in *. cbn [sumf]. rewrite IH. reflexivity. Qed.
(** Steps that a request takes from here on, with those of the requests it will lead to. *)
Definition left_of (t : task) : nat :=
  match tk_pc t with
  | TWire => 4 + rest_of (tk_todo t) | TRead => 3 + rest_of (tk_todo t) | TQueued => 2 + rest_of (tk_todo t)
  | TBusy => 1 + rest_of (tk_todo t) | TWait _ => 2 + rest_of (tk_todo t) | TDone => 0
  end.
Definition left (s : qstate) : nat := sumf left_of (qs_tasks s).

Lemma left_set l i t p todo n m : nth_error l i = Some t -> left_of t = n -> left_of (with_pc t todo p) = m -> sumf left_of (set_nth i (with_pc t todo p) l) + n = sumf left_of l + m.
Proof. intros N <- <-. apply sumf_set. exact N. Qed.

Lemma left_step w s a s' : inner a = true -> qstep w s a = Some s' -> left s = S (left s').
Proof.
  intros I E. apply qstep_moved in E. unfold left.
  assert (L : forall t p, tk_pc t = p -> left_of t = match p with
    | TWire => 4 + rest_of (tk_todo t) | TRead => 3 + rest_of (tk_todo t) | TQueued => 2 + rest_of (tk_todo t)
    | TBusy => 1 + rest_of (tk_todo t) | TWait _ => 2 + rest_of (tk_todo t) | TDone => 0 end) by (intros t p <-; reflexivity).
  destruct a as [k r|i|i|i|i|i|i]; [discriminate|..]; cbn [moved] in E.
  - destruct E as (t & N & P & -> & _). pose proof (left_set _ i t TRead (tk_todo t) _ _ N (L t _ P) eq_refl) as X. cbn beta iota in X. unfold left_of at 3 in X. cbn [tk_pc with_pc tk_todo] in X. lia.
  - destruct E as (t & N & P & -> & _). pose proof (left_set _ i t TQueued (tk_todo t) _ _ N (L t _ P) eq_refl) as X. unfold left_of at 3 in X. cbn [tk_pc with_pc tk_todo] in X. lia.
  - destruct E as (t & N & P & _ & -> & _). pose proof (left_set _ i t TBusy (tk_todo t) _ _ N (L t _ P) eq_refl) as X. unfold left_of at 3 in X. cbn [tk_pc with_pc tk_todo] in X. lia.
  - destruct E as (t & r & rest & N & P & D & -> & _). rewrite sumf_app. cbn [sumf].
    pose proof (left_set _ i t (TWait (length (qs_tasks s))) rest _ _ N (L t _ P) eq_refl) as X. unfold left_of at 3 in X. cbn [tk_pc with_pc tk_todo] in X. rewrite D in X.
    rewrite (L (mkTask (Inside (node_of t)) r (subs r) TWire) TWire eq_refl). cbn [tk_todo]. change (rest_of (r :: rest)) with (2 + full r + rest_of rest) in X. rewrite full_eq in X. lia.
  - destruct E as (t & c & u & N & P & _ & _ & -> & _). pose proof (left_set _ i t TBusy (tk_todo t) _ _ N (L t _ P) eq_refl) as X. unfold left_of at 3 in X. cbn [tk_pc with_pc tk_todo] in X. lia.
  - destruct E as (t & N & P & D & -> & _). pose proof (left_set _ i t TDone [] _ _ N (L t _ P) eq_refl) as X. unfold left_of at 3 in X. cbn [tk_pc with_pc tk_todo] in X. rewrite D in X. cbn [rest_of sumf] in X. lia.
Qed.

Lemma left_run w l : forall s s', forallb inner l = true -> qrun w s l = Some s' -> left s = length l + left s'.
Proof.
  induction l as [|a l IH]; cbn; intros s s' I E; [injection E as <-; reflexivity|].
  apply andb_true_iff in I as [I1 I2]. destruct (qstep w s a) as [s1|] eqn:Q; [|discriminate].
  rewrite (left_step w s a s1 I1 Q), (IH s1 s' I2 E). reflexivity.
Qed.

Lemma left_zero s : left s = 0 -> all_answered s.
Proof.
  unfold left, all_answered. intros H t I. induction (qs_tasks s) as [|x l IH]; [destruct I|]. cbn [sumf] in H. destruct I as [->|I]; [|apply IH; [lia|exact I]].
  unfold left_of in H. destruct (tk_pc t); auto; lia.
Qed.

(** *** Invariant *)

Record qinv (s : qstate) : Prop := mkQI {
  qi_queue : forall i, In i (qs_queue s) <-> exists t, nth_error (qs_tasks s) i = Some t /\ tk_pc t = TQueued;
  qi_todo : forall t, In t (qs_tasks s) -> incl (tk_todo t) (subs (tk_req t));
  qi_wait : forall i t c, nth_error (qs_tasks s) i = Some t -> tk_pc t = TWait c -> i < c /\ exists u, nth_error (qs_tasks s) c = Some u /\ In (tk_req u) (subs (tk_req t))
}.

Lemma in_set {A} (l : list A) i x y z : nth_error l i = Some y -> In z (set_nth i x l) -> z = x \/ In z l.
Proof.
  intros N I. apply In_nth_error in I as [j I]. rewrite (nth_error_set l i x y j N) in I.
  destruct (j =? i); [left; congruence | right; eapply nth_error_In; exact I].
Qed.

Lemma wait_set s i t p todo : qinv s -> nth_error (qs_tasks s) i = Some t -> (forall c, p <> TWait c) ->
  forall j u c, nth_error (set_nth i (with_pc t todo p) (qs_tasks s)) j = Some u -> tk_pc u = TWait c ->
  j < c /\ exists v, nth_error (set_nth i (with_pc t todo p) (qs_tasks s)) c = Some v /\ In (tk_req v) (subs (tk_req u)).
Proof.
  intros V N P j u c J W. rewrite (nth_error_set _ i _ t j N) in J. destruct (Nat.eqb_spec j i) as [->|Ne].
  - injection J as <-. cbn in W. exfalso. exact (P c W).
  - destruct (qi_wait s V j u c J W) as (L & v & Nv & Iv). split; [exact L|].
    rewrite (nth_error_set _ i _ t c N). destruct (Nat.eqb_spec c i) as [->|]; [|eauto].
    exists (with_pc t todo p). split; [reflexivity|]. cbn. congruence.
Qed.

Lemma queue_set s i t p todo : qinv s -> nth_error (qs_tasks s) i = Some t -> tk_pc t <> TQueued -> p <> TQueued ->
  forall j, In j (qs_queue s) <-> exists u, nth_error (set_nth i (with_pc t todo p) (qs_tasks s)) j = Some u /\ tk_pc u = TQueued.
Proof.
  intros V N P1 P2 j. rewrite (qi_queue s V j), (nth_error_set _ i _ t j N). destruct (Nat.eqb_spec j i) as [->|]; [|reflexivity].
  split; intros (u & U & Q).
  - exfalso. assert (u = t) by congruence. subst. contradiction.
  - exfalso. injection U as <-. cbn in Q. contradiction.
Qed.

Lemma todo_set s i t p todo : qinv s -> nth_error (qs_tasks s) i = Some t -> incl todo (tk_todo t) ->
  forall u, In u (set_nth i (with_pc t todo p) (qs_tasks s)) -> incl (tk_todo u) (subs (tk_req u)).
Proof.
  intros V N H u I. destruct (in_set _ i _ t u N I) as [-> |I']; [|apply (qi_todo s V u I')].
  cbn. intros x Hx. apply (qi_todo s V t (nth_error_In _ _ N)). apply H, Hx.
Qed.

Lemma nth_app_l {A} (l1 l2 : list A) i x : nth_error l1 i = Some x -> nth_error (l1 ++ l2) i = Some x.
Proof. intros H. rewrite nth_error_app1; [exact H | apply nth_error_Some; congruence]. Qed.

Lemma qinv_step w s a s' : qinv s -> qstep w s a = Some s' -> qinv s'.
Proof.
  intros V E. apply qstep_moved in E. destruct a as [k r|i|i|i|i|i|i]; cbn [moved] in E.
  - destruct E as [ET EQ]. constructor; rewrite ET, ?EQ.
    + intros i. rewrite (qi_queue s V i). split; intros (t & N & P).
      * exists t. split; [apply nth_app_l; exact N | exact P].
      * destruct (nth_error_snoc _ _ _ _ N) as [N'|[_ ->]]; [eauto|discriminate P].
    + intros t I. apply in_app_or in I as [I|[<-|[]]]; [apply (qi_todo s V t I)|]. cbn. apply incl_refl.
    + intros i t c N P. destruct (nth_error_snoc _ _ _ _ N) as [N'|[_ ->]]; [|discriminate P].
      destruct (qi_wait s V i t c N' P) as (L & u & Nu & Iu). split; [exact L|]. exists u. split; [apply nth_app_l; exact Nu | exact Iu].
  - destruct E as (t & N & P & ET & EQ). constructor; rewrite ET, ?EQ.
    + apply queue_set; [exact V|exact N|congruence|discriminate].
    + apply todo_set; [exact V|exact N|apply incl_refl].
    + apply wait_set; [exact V|exact N|discriminate].
  - destruct E as (t & N & P & ET & EQ). constructor; rewrite ET, ?EQ.
    + intros j. rewrite in_app_iff, (qi_queue s V j), (nth_error_set _ i _ t j N). destruct (Nat.eqb_spec j i) as [->|Ne].
      * split; [intros _; eexists; split; reflexivity | intros _; right; left; reflexivity].
      * split; [intros [H|[H|[]]]; [exact H|congruence] | auto].
    + apply todo_set; [exact V|exact N|apply incl_refl].
    + apply wait_set; [exact V|exact N|discriminate].
  - destruct E as (t & N & P & _ & ET & EQ). constructor; rewrite ET, ?EQ.
    + intros j. split.
      * intros H. apply in_remove in H as [H Ne]. apply (qi_queue s V j) in H. rewrite (nth_error_set _ i _ t j N). destruct (Nat.eqb_spec j i); [contradiction|exact H].
      * rewrite (nth_error_set _ i _ t j N). destruct (Nat.eqb_spec j i) as [->|Ne]; intros (u & U & Q); [injection U as <-; discriminate Q|].
        apply in_in_remove; [exact Ne|]. apply (qi_queue s V j). eauto.
    + apply todo_set; [exact V|exact N|apply incl_refl].
    + apply wait_set; [exact V|exact N|discriminate].
  - destruct E as (t & r & rest & N & P & D & ET & EQ). constructor; rewrite ET, ?EQ.
    + intros j. rewrite (queue_set s i t (TWait (length (qs_tasks s))) rest V N ltac:(congruence) ltac:(discriminate) j). split; intros (u & U & Q).
      * exists u. split; [apply nth_app_l; exact U | exact Q].
      * destruct (nth_error_snoc _ _ _ _ U) as [U'|[_ ->]]; [eauto|discriminate Q].
    + intros u I. apply in_app_or in I as [I|[<-|[]]]; [|cbn; apply incl_refl].
      revert u I. apply todo_set; [exact V|exact N|]. rewrite D. apply incl_tl, incl_refl.
    + intros j u c J W. destruct (nth_error_snoc _ _ _ _ J) as [J'|[_ ->]]; [|discriminate W].
      rewrite (nth_error_set _ i _ t j N) in J'. destruct (Nat.eqb_spec j i) as [->|Ne].
      * injection J' as <-. cbn in W. injection W as <-. split; [apply nth_error_Some; congruence|].
        eexists. split; [rewrite nth_error_app2, set_nth_length, Nat.sub_diag by (rewrite set_nth_length; lia); reflexivity|].
        cbn. apply (qi_todo s V t (nth_error_In _ _ N)). rewrite D. left. reflexivity.
      * destruct (qi_wait s V j u c J' W) as (L & v & Nv & Iv). split; [exact L|].
        assert (Nv' : exists v', nth_error (set_nth i (with_pc t rest (TWait (length (qs_tasks s)))) (qs_tasks s)) c = Some v' /\ tk_req v' = tk_req v).
        { rewrite (nth_error_set _ i _ t c N). destruct (Nat.eqb_spec c i) as [->|]; [|eauto]. eexists. split; [reflexivity|]. cbn. congruence. }
        destruct Nv' as (v' & Nv' & Rv). exists v'. split; [apply nth_app_l; exact Nv'|]. rewrite Rv. exact Iv.
  - destruct E as (t & c & u & N & P & _ & _ & ET & EQ). constructor; rewrite ET, ?EQ.
    + apply queue_set; [exact V|exact N|congruence|discriminate].
    + apply todo_set; [exact V|exact N|apply incl_refl].
    + apply wait_set; [exact V|exact N|discriminate].
  - destruct E as (t & N & P & D & ET & EQ). constructor; rewrite ET, ?EQ.
    + apply queue_set; [exact V|exact N|congruence|discriminate].
    + apply todo_set; [exact V|exact N|]. intros x [].
    + apply wait_set; [exact V|exact N|discriminate].
Qed.

Lemma qinv_start : qinv q_start.
Proof. constructor; cbn; [intros i; split; [intros []|intros (t & N & _); destruct i; discriminate] | intros t [] | intros i t c N; destruct i; discriminate]. Qed.

(** *** When a step is possible *)

Definition can_step (w : nat -> nat) (s : qstate) : Prop := exists a s', inner a = true /\ qstep w s a = Some s'.
Definition front_or_queue (p : tpc) : bool := match p with TWire | TRead | TQueued => true | _ => false end.

Lemma nth_error_firstn {A} (l : list A) : forall i j, j < i -> nth_error (firstn i l) j = nth_error l j.
Proof. induction l as [|x l IH]; intros [|i] [|j] H; try lia; try reflexivity. cbn. apply IH. lia. Qed.

Lemma front_steps w s : qinv s -> forall i t, nth_error (qs_tasks s) i = Some t -> front_or_queue (tk_pc t) = true -> busy s (node_of t) < w (node_of t) -> can_step w s.
Proof.
  intros V i. induction i as [i IH] using lt_wf_ind. intros t N F B.
  destruct (queue_of s (node_of t)) as [|j q] eqn:Q.
  - destruct (tk_pc t) eqn:P; try discriminate F.
    + destruct (ahead (tk_src t) (node_of t) (firstn i (qs_tasks s))) eqn:A.
      * apply existsb_exists in A as (u & I & C). apply andb_true_iff in C as [C C3]. apply andb_true_iff in C as [_ C2]. apply Nat.eqb_eq in C2.
        apply In_nth_error in I as [j J]. assert (Lj : j < i).
        { assert (X : j < length (firstn i (qs_tasks s))) by (apply nth_error_Some; congruence). rewrite firstn_length in X. lia. }
        rewrite nth_error_firstn in J by exact Lj. apply (IH j Lj u J); [destruct (tk_pc u); auto; discriminate | rewrite C2; exact B].
      * exists (NRead i). eexists. split; [reflexivity|]. cbn [qstep]. rewrite N, P, A. reflexivity.
    + exists (NPut i). eexists. split; [reflexivity|]. cbn [qstep]. rewrite N, P, Q. cbn [length]. destruct (Nat.ltb_spec 0 (w (node_of t))); [reflexivity|lia].
    + exfalso. assert (I : In i (queue_of s (node_of t))).
      { apply filter_In. split; [apply (qi_queue s V); eauto|]. unfold at_node. rewrite N. apply Nat.eqb_refl. }
      rewrite Q in I. exact I.
  - assert (I : In j (queue_of s (node_of t))) by (rewrite Q; left; reflexivity). apply filter_In in I as [I A].
    apply (qi_queue s V) in I as (u & U & PU). unfold at_node in A. rewrite U in A. apply Nat.eqb_eq in A.
    exists (NTake j). eexists. split; [reflexivity|]. cbn [qstep]. rewrite U, PU, A, Q, Nat.eqb_refl. cbn [andb].
    destruct (Nat.ltb_spec (busy s (node_of t)) (w (node_of t))); [reflexivity|lia].
Qed.

Lemma busy_steps w s i t : nth_error (qs_tasks s) i = Some t -> tk_pc t = TBusy -> can_step w s.
Proof.
  intros N P. destruct (tk_todo t) as [|r rest] eqn:D.
  - exists (NAnswer i). eexists. split; [reflexivity|]. cbn [qstep]. rewrite N, P, D. reflexivity.
  - exists (NAsk i). eexists. split; [reflexivity|]. cbn [qstep]. rewrite N, P, D. reflexivity.
Qed.

Lemma resume_steps w s i t c u : nth_error (qs_tasks s) i = Some t -> tk_pc t = TWait c -> nth_error (qs_tasks s) c = Some u -> tk_pc u = TDone -> can_step w s.
Proof. intros N P C U. exists (NResume i). eexists. split; [reflexivity|]. cbn [qstep]. rewrite N, P, C, U. reflexivity. Qed.

Lemma pc_done_dec p : {p = TDone} + {p <> TDone}.
Proof. destruct p; auto; right; discriminate. Qed.

Lemma not_all s : ~ all_answered s -> exists i t, nth_error (qs_tasks s) i = Some t /\ tk_pc t <> TDone.
Proof.
  unfold all_answered. intros H. destruct (existsb (fun t => match tk_pc t with TDone => false | _ => true end) (qs_tasks s)) eqn:E.
  - apply existsb_exists in E as (t & I & D). apply In_nth_error in I as [i I]. exists i, t. split; [exact I|]. intros X. rewrite X in D. discriminate.
  - exfalso. apply H. intros t I. destruct (pc_done_dec (tk_pc t)) as [D|D]; [exact D|]. exfalso.
    assert (X : existsb (fun t => match tk_pc t with TDone => false | _ => true end) (qs_tasks s) = true).
    { apply existsb_exists. exists t. split; [exact I|]. destruct (tk_pc t); congruence. }
    congruence.
Qed.

(** A reachable state from which a step is possible for as long as a request is unanswered: whoever takes steps, for as long as there are any, ends with all requests
    answered, after a number of steps that is known beforehand. *)
Lemma leads w (P : qstate -> Prop) : (forall s, P s -> ~ all_answered s -> can_step w s) -> (forall s a s', P s -> inner a = true -> qstep w s a = Some s' -> P s') ->
  forall s, P s -> exists sched s', forallb inner sched = true /\ qrun w s sched = Some s' /\ all_answered s'.
Proof.
  intros C St s. remember (left s) as n eqn:E. revert s E. induction n as [|n IH]; intros s E H.
  - exists [], s. split; [reflexivity|]. split; [reflexivity|]. apply left_zero. congruence.
  - destruct (existsb (fun t => match tk_pc t with TDone => false | _ => true end) (qs_tasks s)) eqn:X.
    + assert (NA : ~ all_answered s).
      { intros A. apply existsb_exists in X as (t & I & D). rewrite (A t I) in D. discriminate. }
      destruct (C s H NA) as (a & s1 & I & Q). pose proof (left_step w s a s1 I Q) as L.
      destruct (IH s1 ltac:(lia) (St s a s1 H I Q)) as (l & s' & Il & R & A). exists (a :: l), s'. cbn. rewrite I, Q. auto.
    + exists [], s. split; [reflexivity|]. split; [reflexivity|]. intros t I. destruct (pc_done_dec (tk_pc t)) as [D|D]; [exact D|].
      assert (Y : existsb (fun t => match tk_pc t with TDone => false | _ => true end) (qs_tasks s) = true).
      { apply existsb_exists. exists t. split; [exact I|]. destruct (tk_pc t); congruence. }
      congruence.
Qed.

Lemma inner_run w (P : qstate -> Prop) : (forall s a s', P s -> inner a = true -> qstep w s a = Some s' -> P s') -> forall l s s', P s -> forallb inner l = true -> qrun w s l = Some s' -> P s'.
Proof.
  intros St. induction l as [|a l IH]; cbn; intros s s' H I Q; [injection Q as <-; exact H|].
  apply andb_true_iff in I as [I1 I2]. destruct (qstep w s a) as [s1|] eqn:E; [|discriminate]. apply (IH s1 s' (St s a s1 H I1 E) I2 Q).
Qed.

(** *** Requests that go downhill *)

(** Every request that a handler makes is of a node of lower rank than its own. *)
Inductive downhill (rank : nat -> nat) : req -> Prop :=
| down d l : (forall r, In r l -> rank (dst r) < rank d /\ downhill rank r) -> downhill rank (Req d l).
Definition arrivals (l : list qact) : list req := flat_map (fun a => match a with NArrive _ r => [r] | _ => [] end) l.

Lemma downhill_sub rank r x : downhill rank r -> In x (subs r) -> rank (dst x) < rank (dst r) /\ downhill rank x.
Proof. intros H I. inversion H as [d l D]; subst. cbn in *. apply D, I. Qed.

Definition downs (rank : nat -> nat) (s : qstate) : Prop := forall t, In t (qs_tasks s) -> downhill rank (tk_req t).

Lemma downs_set rank s i t p todo : downs rank s -> nth_error (qs_tasks s) i = Some t -> forall u, In u (set_nth i (with_pc t todo p) (qs_tasks s)) -> downhill rank (tk_req u).
Proof. intros D N u I. destruct (in_set _ i _ t u N I) as [-> |I']; [cbn; apply D; eapply nth_error_In; exact N | apply D, I']. Qed.

Lemma downs_step rank w s a s' : qinv s -> downs rank s -> (forall k r, a = NArrive k r -> downhill rank r) -> qstep w s a = Some s' -> downs rank s'.
Proof.
  intros V D A E. apply qstep_moved in E. unfold downs. destruct a as [k r|i|i|i|i|i|i]; cbn [moved] in E.
  - destruct E as [-> _]. intros t I. apply in_app_or in I as [I|[<-|[]]]; [apply D, I | apply (A k r eq_refl)].
  - destruct E as (t & N & P & -> & _). eapply downs_set; eassumption.
  - destruct E as (t & N & P & -> & _). eapply downs_set; eassumption.
  - destruct E as (t & N & P & _ & -> & _). eapply downs_set; eassumption.
  - destruct E as (t & r & rest & N & P & T & -> & _). intros u I. apply in_app_or in I as [I|[<-|[]]]; [eapply downs_set; eassumption|].
    cbn. apply (downhill_sub rank (tk_req t) r); [apply D; eapply nth_error_In; exact N|].
    apply (qi_todo s V t (nth_error_In _ _ N)). rewrite T. left. reflexivity.
  - destruct E as (t & c & u & N & P & _ & _ & -> & _). eapply downs_set; eassumption.
  - destruct E as (t & N & P & T & -> & _). eapply downs_set; eassumption.
Qed.

Lemma reach_downs rank w l : forall s s', qinv s -> downs rank s -> Forall (downhill rank) (arrivals l) -> qrun w s l = Some s' -> qinv s' /\ downs rank s'.
Proof.
  induction l as [|a l IH]; cbn; intros s s' V D A E; [injection E as <-; auto|].
  destruct (qstep w s a) as [s1|] eqn:Q; [|discriminate]. apply Forall_app in A as [A1 A2].
  apply (IH s1 s'); [apply (qinv_step w s a s1 V Q) | | exact A2 | exact E].
  apply (downs_step rank w s a s1 V D); [|exact Q]. intros k r ->. inversion A1. assumption.
Qed.

Lemma downhill_steps rank w s : (forall d, 0 < w d) -> qinv s -> downs rank s -> forall n i t, rank (node_of t) < n -> nth_error (qs_tasks s) i = Some t -> tk_pc t <> TDone -> can_step w s.
Proof.
  intros W V D n. induction n as [|n IH]; intros i t L N P; [lia|]. set (d := node_of t) in *.
  destruct (existsb (fun u => (node_of u =? d) && on_worker (tk_pc u)) (qs_tasks s)) eqn:X.
  - apply existsb_exists in X as (u & I & C). apply andb_true_iff in C as [C1 C2]. apply Nat.eqb_eq in C1. apply In_nth_error in I as [j J].
    destruct (tk_pc u) eqn:U; try discriminate C2; [apply (busy_steps w s j u J U)|].
    destruct (qi_wait s V j u c J U) as (_ & v & Nv & Iv).
    destruct (downhill_sub rank (tk_req u) (tk_req v) (D u (nth_error_In _ _ J)) Iv) as [Lv _]. fold (node_of v) in Lv. fold (node_of u) in Lv. rewrite C1 in Lv.
    destruct (pc_done_dec (tk_pc v)) as [Dv|Dv]; [apply (resume_steps w s j u c v J U Nv Dv)|].
    apply (IH c v); [lia|exact Nv|exact Dv].
  - assert (B : busy s d = 0).
    { unfold busy. rewrite cntb_filter. apply cntb_zero. intros u I.
      destruct ((node_of u =? d) && on_worker (tk_pc u)) eqn:C; [|reflexivity].
      assert (Y : existsb (fun u => (node_of u =? d) && on_worker (tk_pc u)) (qs_tasks s) = true) by (apply existsb_exists; eauto). congruence. }
    assert (OW : on_worker (tk_pc t) = false).
    { destruct (on_worker (tk_pc t)) eqn:O; [|reflexivity].
      assert (Y : existsb (fun u => (node_of u =? d) && on_worker (tk_pc u)) (qs_tasks s) = true).
      { apply existsb_exists. exists t. split; [eapply nth_error_In; exact N|]. unfold d. rewrite Nat.eqb_refl, O. reflexivity. }
      congruence. }
    apply (front_steps w s V i t N); [destruct (tk_pc t); auto; discriminate | fold d; rewrite B; apply W].
Qed.

(** If the nodes can be ordered so that handlers ask only nodes further down, every request is answered: a step is possible while one is not, and each step brings
    the end nearer. *)
Theorem C96_partial : forall rank workers sched s, (forall d, 0 < workers d) -> Forall (downhill rank) (arrivals sched) -> qrun workers q_start sched = Some s ->
  (exists sched' s', forallb inner sched' = true /\ qrun workers s sched' = Some s' /\ all_answered s') /\
  (forall sched' s', forallb inner sched' = true -> qrun workers s sched' = Some s' ->
     length sched' <= left s /\ (all_answered s' \/ exists a s'', inner a = true /\ qstep workers s' a = Some s'')).
Proof.
  intros rank w sched s W A R.
  assert (H : qinv s /\ downs rank s) by (apply (reach_downs rank w sched q_start s); [apply qinv_start | intros t [] | exact A | exact R]).
  assert (C : forall s, qinv s /\ downs rank s -> ~ all_answered s -> can_step w s).
  { intros s1 [V D] NA. destruct (not_all s1 NA) as (i & t & N & P). apply (downhill_steps rank w s1 W V D (S (rank (node_of t))) i t); auto. }
  assert (St : forall s a s', qinv s /\ downs rank s -> inner a = true -> qstep w s a = Some s' -> qinv s' /\ downs rank s').
  { intros s1 a s2 [V D] I Q. split; [apply (qinv_step w s1 a s2 V Q)|]. apply (downs_step rank w s1 a s2 V D); [|exact Q]. intros k r ->. discriminate I. }
  split.
  - apply (leads w (fun s => qinv s /\ downs rank s) C St s H).
  - intros l s' I Q. pose proof (left_run w l s s' I Q) as L. split; [lia|].
    assert (H' : qinv s' /\ downs rank s').
    { apply (inner_run w (fun s => qinv s /\ downs rank s) St l s s' H I Q). }
    destruct (existsb (fun t => match tk_pc t with TDone => false | _ => true end) (qs_tasks s')) eqn:X.
    + right. apply (C s' H'). intros A'. apply existsb_exists in X as (t & It & D). rewrite (A' t It) in D. discriminate.
    + left. intros t It. destruct (pc_done_dec (tk_pc t)) as [D|D]; [exact D|].
      assert (Y : existsb (fun t => match tk_pc t with TDone => false | _ => true end) (qs_tasks s') = true).
      { apply existsb_exists. exists t. split; [exact It|]. destruct (tk_pc t); congruence. }
      congruence.
Qed.

(** *** A handler answers after its requests have been answered *)

(** Number of requests that a request leads to, with itself. *)
Fixpoint size (r : req) : nat := match r with Req _ l => 1 + (fix go (l : list req) : nat := match l with [] => 0 | x :: l' => size x + go l' end) l end.
Lemma size_eq r : size r = 1 + sumf size (subs r).
Proof.
  destruct r as [d l]. cbn [subs]. change (size (Req d l)) with (1 + (fix go (l : list req) : nat := match l with [] => 0 | x :: l' => size x + go l' end) l). f_equal.
  induction l as [|x l IH]; [reflexivity|]. cbn [sumf]. rewrite <- IH. reflexivity.
Qed.

Definition owed (t : task) : nat := 1 + sumf size (tk_todo t).
Lemma owed_run w l : forall s s', qrun w s l = Some s' -> sumf owed (qs_tasks s') = sumf owed (qs_tasks s) + sumf size (arrivals l).
Proof.
  induction l as [|a l IH]; cbn [qrun]; intros s s' R; [injection R as <-; cbn; lia|].
  destruct (qstep w s a) as [s1|] eqn:E; [|discriminate]. rewrite (IH s1 s' R). apply qstep_moved in E.
  assert (K : forall i t p todo, nth_error (qs_tasks s) i = Some t -> sumf owed (set_nth i (with_pc t todo p) (qs_tasks s)) + sumf size (tk_todo t) = sumf owed (qs_tasks s) + sumf size todo).
  { intros i t p todo N. pose proof (sumf_set owed _ i t (with_pc t todo p) N) as X. unfold owed at 2 4 in X. cbn [with_pc tk_todo] in X. lia. }
  destruct a as [k r|i|i|i|i|i|i]; cbn [moved] in E; unfold arrivals; cbn [flat_map]; fold (arrivals l).
  - destruct E as [-> _]. rewrite sumf_app. cbn [sumf Datatypes.app]. unfold owed at 2. cbn [tk_todo]. rewrite (size_eq r). lia.
  - destruct E as (t & N & _ & -> & _). specialize (K i t TRead (tk_todo t) N). cbn [Datatypes.app]. lia.
  - destruct E as (t & N & _ & -> & _). specialize (K i t TQueued (tk_todo t) N). cbn [Datatypes.app]. lia.
  - destruct E as (t & N & _ & _ & -> & _). specialize (K i t TBusy (tk_todo t) N). cbn [Datatypes.app]. lia.
  - destruct E as (t & r & rest & N & _ & D & -> & _). specialize (K i t (TWait (length (qs_tasks s))) rest N). rewrite D in K. rewrite sumf_app. cbn [sumf Datatypes.app] in *.
    unfold owed at 2. cbn [tk_todo]. rewrite (size_eq r) in K. lia.
  - destruct E as (t & c & u & N & _ & _ & _ & -> & _). specialize (K i t TBusy (tk_todo t) N). cbn [Datatypes.app]. lia.
  - destruct E as (t & N & _ & D & -> & _). specialize (K i t TDone [] N). rewrite D in K. cbn [Datatypes.app]. lia.
Qed.

(** Request number [c] is request [r], made by a handler of node [d], and (if [fin]) answered. *)
Definition child (l : list task) (d : nat) (r : req) (fin : bool) (c : nat) : Prop :=
  exists u, nth_error l c = Some u /\ tk_req u = r /\ tk_src u = Inside d /\ (fin = true -> tk_pc u = TDone).
Definition kids (l : list task) (t : task) : Prop :=
  match tk_pc t with
  | TWait c => exists before r, subs (tk_req t) = before ++ r :: tk_todo t /\ child l (node_of t) r false c /\ Forall (fun r => exists c, child l (node_of t) r true c) before
  | TBusy => exists before, subs (tk_req t) = before ++ tk_todo t /\ Forall (fun r => exists c, child l (node_of t) r true c) before
  | TDone => tk_todo t = [] /\ Forall (fun r => exists c, child l (node_of t) r true c) (subs (tk_req t))
  | _ => tk_todo t = subs (tk_req t)
  end.
Definition all_kids (l : list task) : Prop := forall t, In t l -> kids l t.

Lemma child_set l i t todo p d r fin c : nth_error l i = Some t -> tk_pc t <> TDone -> child l d r fin c -> child (set_nth i (with_pc t todo p) l) d r fin c.
Proof.
  intros N P (u & C & R & S1 & F). destruct (Nat.eq_dec i c) as [<-|NE].
  - rewrite N in C. injection C as <-. exists (with_pc t todo p). rewrite (nth_error_set _ i _ t i N), Nat.eqb_refl. repeat split; auto. intros X. contradiction (P (F X)).
  - exists u. rewrite (nth_error_set _ i _ t c N), (proj2 (Nat.eqb_neq c i) (not_eq_sym NE)). auto.
Qed.
Lemma child_app l l2 d r fin c : child l d r fin c -> child (l ++ l2) d r fin c.
Proof. intros (u & C & H). exists u. split; [apply nth_app_l; exact C | exact H]. Qed.
Lemma kids_mono l l' t : (forall d r fin c, child l d r fin c -> child l' d r fin c) -> kids l t -> kids l' t.
Proof.
  intros H. assert (F : forall d rs, Forall (fun r => exists c, child l d r true c) rs -> Forall (fun r => exists c, child l' d r true c) rs).
  { intros d rs. apply Forall_impl. intros r [c C]. exists c. auto. }
  unfold kids. destruct (tk_pc t); auto.
  - intros (b & E & K). exists b. auto.
  - intros (b & r & E & C & K). exists b, r. auto.
  - intros [E K]. auto.
Qed.
Lemma kids_set l i t todo p : all_kids l -> nth_error l i = Some t -> tk_pc t <> TDone -> kids (set_nth i (with_pc t todo p) l) (with_pc t todo p) -> all_kids (set_nth i (with_pc t todo p) l).
Proof.
  intros A N P K u I. destruct (in_set _ _ _ _ _ N I) as [->|I']; [exact K|].
  apply (kids_mono l); [|apply A; exact I']. intros d r fin c. apply child_set; assumption.
Qed.
Lemma kids_step w s a s' : all_kids (qs_tasks s) -> qstep w s a = Some s' -> all_kids (qs_tasks s').
Proof.
  intros A E. apply qstep_moved in E.
  assert (KN : forall i t, nth_error (qs_tasks s) i = Some t -> kids (qs_tasks s) t) by (intros i t N; apply A; eapply nth_error_In; exact N).
  destruct a as [k r|i|i|i|i|i|i]; cbn [moved] in E.
  - destruct E as [-> _]. intros t I. apply in_app_or in I as [I|[<-|[]]]; [|reflexivity]. apply (kids_mono (qs_tasks s)); [intros; apply child_app; assumption | apply A; exact I].
  - destruct E as (t & N & P & -> & _). specialize (KN i t N). unfold kids in KN. rewrite P in KN. apply kids_set; auto; congruence.
  - destruct E as (t & N & P & -> & _). specialize (KN i t N). unfold kids in KN. rewrite P in KN. apply kids_set; auto; congruence.
  - destruct E as (t & N & P & _ & -> & _). specialize (KN i t N). unfold kids in KN. rewrite P in KN. apply kids_set; auto; [congruence|]. exists []. split; [symmetry; exact KN | constructor].
  - destruct E as (t & r & rest & N & P & D & -> & _). specialize (KN i t N). unfold kids in KN. rewrite P, D in KN. destruct KN as (b & Eb & Fb).
    set (l' := set_nth i (with_pc t rest (TWait (length (qs_tasks s)))) (qs_tasks s)). set (new := mkTask (Inside (node_of t)) r (subs r) TWire).
    assert (M : forall d r fin c, child (qs_tasks s) d r fin c -> child (l' ++ [new]) d r fin c) by (intros; apply child_app, child_set; [exact N | congruence | assumption]).
    intros u I. apply in_app_or in I as [I|[<-|[]]]; [|reflexivity]. destruct (in_set _ _ _ _ _ N I) as [->|I'].
    + exists b, r. split; [exact Eb|]. split.
      * exists new. split; [|repeat split; auto; discriminate]. unfold l'. rewrite nth_error_app2; rewrite set_nth_length; [|lia]. rewrite Nat.sub_diag. reflexivity.
      * eapply Forall_impl; [|exact Fb]. intros x [c C]. exists c. apply M. exact C.
    + apply (kids_mono (qs_tasks s)); [exact M | apply A; exact I'].
  - destruct E as (t & c & u & N & P & Nu & Pu & -> & _). specialize (KN i t N). unfold kids in KN. rewrite P in KN. destruct KN as (b & r & Eb & (u' & C1 & C2 & C3 & _) & Fb).
    rewrite Nu in C1. injection C1 as <-. apply kids_set; auto; [congruence|].
    exists (b ++ [r]). cbn [with_pc tk_todo tk_req]. split; [rewrite <- app_assoc; exact Eb|].
    assert (M : forall d r fin c, child (qs_tasks s) d r fin c -> child (set_nth i (with_pc t (tk_todo t) TBusy) (qs_tasks s)) d r fin c) by (intros; apply child_set; [exact N | congruence | assumption]).
    apply Forall_app. split; [eapply Forall_impl; [|exact Fb]; intros x [k K]; exists k; apply M; exact K|]. constructor; [|constructor]. exists c. apply M. exists u. auto.
  - destruct E as (t & N & P & D & -> & _). specialize (KN i t N). unfold kids in KN. rewrite P, D in KN. destruct KN as (b & Eb & Fb). rewrite app_nil_r in Eb.
    apply kids_set; auto; [congruence|]. split; [reflexivity|]. cbn [with_pc tk_req]. rewrite Eb. eapply Forall_impl; [|exact Fb].
    intros x [c C]. exists c. apply child_set; [exact N | congruence | exact C].
Qed.

(** A request that has been answered: everything its handler asked was asked, by its node, and answered before.  When all are answered, there have been as many requests
    as the trees of requests that came from outside have. *)
Theorem C96_answered : forall workers sched s, qrun workers q_start sched = Some s ->
  (forall t r, In t (qs_tasks s) -> tk_pc t = TDone -> In r (subs (tk_req t)) ->
     exists u, In u (qs_tasks s) /\ tk_req u = r /\ tk_src u = Inside (node_of t) /\ tk_pc u = TDone) /\
  (all_answered s -> length (qs_tasks s) = sumf size (arrivals sched)).
Proof.
  intros w sched s R. assert (K : all_kids (qs_tasks s)).
  { apply (qrun_inv w (fun s => all_kids (qs_tasks s)) (fun s a s' => kids_step w s a s') sched q_start s); [intros t [] | exact R]. }
  split.
  - intros t r I D Ir. specialize (K t I). unfold kids in K. rewrite D in K. destruct K as [_ F]. rewrite Forall_forall in F.
    destruct (F r Ir) as (c & u & C & Q & S1 & P). exists u. repeat split; auto. eapply nth_error_In; exact C.
  - intros A. pose proof (owed_run w sched q_start s R) as X. cbn [q_start qs_tasks sumf Nat.add] in X. rewrite <- X. clear X R.
    assert (Z : forall t, In t (qs_tasks s) -> owed t = 1).
    { intros t I. specialize (K t I). unfold kids in K. rewrite (A t I) in K. destruct K as [E _]. unfold owed. rewrite E. reflexivity. }
    clear A K. induction (qs_tasks s) as [|t l IH]; [reflexivity|]. cbn [sumf length]. rewrite (Z t (or_introl eq_refl)), IH; [reflexivity|]. intros u I. apply Z. right. exact I.
Qed.

(** *** Few enough requests *)

(** Number of unanswered requests of node [d]. *)
Definition open_at (s : qstate) (d : nat) : nat := length (filter (fun t => (node_of t =? d) && match tk_pc t with TDone => false | _ => true end) (qs_tasks s)).

Lemma cntb_lt {A} (p q : A -> bool) l x : (forall x, p x = true -> q x = true) -> In x l -> p x = false -> q x = true -> cntb p l < cntb q l.
Proof.
  intros H. induction l as [|a l IH]; [intros []|]. rewrite !cntb_cons. intros [->|I] P Q.
  - rewrite P, Q. pose proof (cntb_le p q l H). cbn. lia.
  - specialize (IH I P Q). specialize (H a). destruct (p a), (q a); cbn; lia.
Qed.

(** Requests are stuck only if some node has more of them than it has workers. *)
Theorem C96_few_partial : forall workers sched s, qrun workers q_start sched = Some s -> ~ all_answered s ->
  (exists a s', inner a = true /\ qstep workers s a = Some s') \/ exists d, workers d < open_at s d.
Proof.
  intros w sched s R NA. assert (V : qinv s) by (apply (qrun_inv w qinv (fun s a s' => qinv_step w s a s') sched q_start s qinv_start R)).
  destruct (not_all s NA) as (i & t & N & P). clear NA R.
  assert (G : forall n i t, length (qs_tasks s) - i <= n -> nth_error (qs_tasks s) i = Some t -> tk_pc t <> TDone -> can_step w s \/ exists d, w d < open_at s d).
  { clear i t N P. induction n as [|n IH]; intros i t L N P.
    - assert (i < length (qs_tasks s)) by (apply nth_error_Some; congruence). lia.
    - assert (Li : i < length (qs_tasks s)) by (apply nth_error_Some; congruence). destruct (tk_pc t) eqn:E; try congruence.
      1-3: destruct (Nat.ltb_spec (busy s (node_of t)) (w (node_of t))) as [B|B];
             [left; apply (front_steps w s V i t N); [rewrite E; reflexivity | exact B]|];
             right; exists (node_of t); unfold open_at; unfold busy in B; rewrite cntb_filter in *;
             eapply Nat.le_lt_trans; [exact B|]; apply (cntb_lt _ _ _ t);
             [ intros x Hx; apply andb_true_iff in Hx as [H1 H2]; rewrite H1; destruct (tk_pc x); auto; discriminate
             | eapply nth_error_In; exact N | rewrite E, andb_false_r; reflexivity | rewrite E, Nat.eqb_refl; reflexivity ].
      + left. apply (busy_steps w s i t N E).
      + destruct (qi_wait s V i t c N E) as (Lc & u & Nu & _).
        destruct (pc_done_dec (tk_pc u)) as [D|D]; [left; apply (resume_steps w s i t c u N E Nu D)|].
        apply (IH c u); [lia | exact Nu | exact D]. }
  apply (G _ i t (le_n _) N P).
Qed.

(** *** The deadlock *)

(** Every worker of nodes 0 and 1 waits for an answer of one of the two, and none of those requests has a worker. *)
Definition pair_node (d : nat) : Prop := d = 0 \/ d = 1.
Record dead (w : nat -> nat) (s : qstate) : Prop := mkDead {
  dd_busy : forall d, pair_node d -> w d <= busy s d;
  dd_task : forall i t, nth_error (qs_tasks s) i = Some t -> pair_node (node_of t) ->
    front_or_queue (tk_pc t) = true \/ exists c u, tk_pc t = TWait c /\ nth_error (qs_tasks s) c = Some u /\ pair_node (node_of u) /\ front_or_queue (tk_pc u) = true
}.

Lemma busy_set s i t p todo q d : nth_error (qs_tasks s) i = Some t -> on_worker p = on_worker (tk_pc t) ->
  busy (mkQ (set_nth i (with_pc t todo p) (qs_tasks s)) q) d = busy s d.
Proof.
  intros N O. unfold busy. cbn [qs_tasks]. rewrite !cntb_filter.
  pose proof (cntb_setn (fun t => (node_of t =? d) && on_worker (tk_pc t)) _ i t (with_pc t todo p) N) as X. cbn beta in X.
  change (node_of (with_pc t todo p)) with (node_of t) in X. change (tk_pc (with_pc t todo p)) with p in X. rewrite O in X. lia.
Qed.

Lemma dead_front w s s' i t p : dead w s -> nth_error (qs_tasks s) i = Some t -> front_or_queue (tk_pc t) = true -> front_or_queue p = true ->
  qs_tasks s' = set_nth i (with_pc t (tk_todo t) p) (qs_tasks s) -> dead w s'.
Proof.
  intros [B T] N F1 F2 E. constructor.
  - intros d H. destruct s' as [ts q]. cbn in E. subst ts. rewrite busy_set; [apply B, H | exact N |]. destruct p, (tk_pc t); try discriminate; reflexivity.
  - intros j u J H. rewrite E in J |- *. rewrite (nth_error_set _ i _ t j N) in J.
    destruct (Nat.eqb_spec j i) as [->|Ne]; [injection J as <-; left; exact F2|].
    destruct (T j u J H) as [F|(c & v & W & C & Pv & Fv)]; [left; exact F|right].
    exists c. rewrite (nth_error_set _ i _ t c N). destruct (Nat.eqb_spec c i) as [->|]; [|exists v; auto].
    exists (with_pc t (tk_todo t) p). assert (v = t) by congruence. subst v. auto.
Qed.

Lemma dead_other w s s' i t p todo more : dead w s -> nth_error (qs_tasks s) i = Some t -> ~ pair_node (node_of t) ->
  qs_tasks s' = set_nth i (with_pc t todo p) (qs_tasks s) ++ more -> (forall u, In u more -> tk_pc u = TWire) -> dead w s'.
Proof.
  intros [B T] N O E M. constructor.
  - intros d H. specialize (B d H). unfold busy in *. rewrite E, !cntb_filter in *. rewrite cntb_app.
    pose proof (cntb_setn (fun t => (node_of t =? d) && on_worker (tk_pc t)) _ i t (with_pc t todo p) N) as X. cbn beta in X.
    change (node_of (with_pc t todo p)) with (node_of t) in X.
    assert (Z : (node_of t =? d) = false) by (apply Nat.eqb_neq; intros Y; rewrite Y in O; contradiction). rewrite Z in X. cbn in X. lia.
  - intros j u J H. rewrite E in J |- *. destruct (Nat.ltb_spec j (length (qs_tasks s))) as [L|L].
    + rewrite nth_error_app1 in J by (rewrite set_nth_length; exact L). rewrite (nth_error_set _ i _ t j N) in J.
      destruct (Nat.eqb_spec j i) as [->|Ne]; [injection J as <-; contradiction|].
      destruct (T j u J H) as [F|(c & v & W & C & Pv & Fv)]; [left; exact F|right].
      exists c, v. split; [exact W|]. split; [|auto]. apply nth_app_l. rewrite (nth_error_set _ i _ t c N).
      destruct (Nat.eqb_spec c i) as [->|]; [|exact C]. exfalso. assert (v = t) by congruence. subst v. contradiction.
    + left. rewrite nth_error_app2 in J by (rewrite set_nth_length; exact L). rewrite (M u (nth_error_In _ _ J)). reflexivity.
Qed.

Lemma dead_step w s a s' : dead w s -> qstep w s a = Some s' -> dead w s'.
Proof.
  intros Dd E. pose proof (qstep_moved w s a s' E) as Mv. pose proof Dd as [B T].
  assert (PN : forall d, {pair_node d} + {~ pair_node d}).
  { intros d. unfold pair_node. destruct (Nat.eq_dec d 0), (Nat.eq_dec d 1); auto. right. tauto. }
  destruct a as [k r|i|i|i|i|i|i]; cbn [moved] in Mv.
  - destruct Mv as [ET _]. constructor.
    + intros d H. specialize (B d H). unfold busy in *. rewrite ET, !cntb_filter in *. rewrite cntb_app. lia.
    + intros j u J H. rewrite ET in J |- *. destruct (nth_error_snoc _ _ _ _ J) as [J'|[_ ->]]; [|left; reflexivity].
      destruct (T j u J' H) as [F|(c & v & W & C & R)]; [left; exact F|right]. exists c, v. split; [exact W|]. split; [apply nth_app_l; exact C | exact R].
  - destruct Mv as (t & N & P & ET & _). apply (dead_front w s s' i t TRead Dd N); [rewrite P; reflexivity | reflexivity | exact ET].
  - destruct Mv as (t & N & P & ET & _). apply (dead_front w s s' i t TQueued Dd N); [rewrite P; reflexivity | reflexivity | exact ET].
  - destruct Mv as (t & N & P & L & ET & _). destruct (PN (node_of t)) as [H|H]; [specialize (B _ H); lia|].
    apply (dead_other w s s' i t TBusy (tk_todo t) [] Dd N H); [rewrite app_nil_r; exact ET | intros u []].
  - destruct Mv as (t & r & rest & N & P & D & ET & _). destruct (PN (node_of t)) as [H|H].
    + destruct (T i t N H) as [F|(c & v & W & _)]; [rewrite P in F; discriminate | congruence].
    + apply (dead_other w s s' i t _ rest _ Dd N H ET). intros u [<-|[]]. reflexivity.
  - destruct Mv as (t & c & u & N & P & C & U & ET & _). destruct (PN (node_of t)) as [H|H].
    + destruct (T i t N H) as [F|(c' & v & W & Cv & _ & F)]; [rewrite P in F; discriminate|]. exfalso.
      assert (c' = c) by congruence. subst c'. assert (v = u) by congruence. subst v. rewrite U in F. discriminate.
    + apply (dead_other w s s' i t TBusy (tk_todo t) [] Dd N H); [rewrite app_nil_r; exact ET | intros x []].
  - destruct Mv as (t & N & P & D & ET & _). destruct (PN (node_of t)) as [H|H].
    + destruct (T i t N H) as [F|(c & v & W & _)]; [rewrite P in F; discriminate | congruence].
    + apply (dead_other w s s' i t TDone [] [] Dd N H); [rewrite app_nil_r; exact ET | intros u []].
Qed.

(** Node [d]'s handler asks node [e], and answers. *)
Definition relay (d e : nat) : req := Req d [Req e []].

(** A state in which every request either waits for one that is on its way, or is itself on its way from a node. *)
Record loading (s : qstate) : Prop := mkLd {
  ld_queue : qs_queue s = [];
  ld_task : forall i t, nth_error (qs_tasks s) i = Some t ->
    (tk_pc t = TWire /\ exists d, tk_src t = Inside d) \/
    exists c u, tk_pc t = TWait c /\ nth_error (qs_tasks s) c = Some u /\ pair_node (node_of u) /\ tk_pc u = TWire
}.

Lemma set_snoc {A} (l : list A) x y : set_nth (length l) y (l ++ [x]) = l ++ [y].
Proof. apply (set_nth_split l x y []). Qed.

Lemma load w s d e : loading s -> pair_node e -> busy s d < w d ->
  let n := length (qs_tasks s) in
  exists s', qrun w s [NArrive 0 (relay d e); NRead n; NPut n; NTake n; NAsk n] = Some s' /\ loading s' /\
    busy s' d = S (busy s d) /\ (forall x, x <> d -> busy s' x = busy s x).
Proof.
  intros [Q T] He B n. destruct s as [l q]. cbn in Q. subst q. cbn [qs_tasks] in *. set (r := relay d e).
  assert (Nn : forall x, nth_error (l ++ [x]) n = Some x) by (intros; unfold n; rewrite nth_error_app2, Nat.sub_diag by lia; reflexivity).
  assert (Sn : forall x y, set_nth n y (l ++ [x]) = l ++ [y]) by (intros; apply set_snoc).
  assert (Ah : ahead (Outside 0) d (firstn n (l ++ [mkTask (Outside 0) r (subs r) TWire])) = false).
  { unfold n. rewrite firstn_app, Nat.sub_diag, firstn_all. cbn [firstn]. rewrite app_nil_r. unfold ahead.
    destruct (existsb _ l) eqn:X; [|reflexivity]. apply existsb_exists in X as (t & I & C). apply In_nth_error in I as [j J].
    destruct (T j t J) as [(_ & x & S1)|(c & u & W & _)].
    - rewrite S1 in C. discriminate.
    - rewrite W in C. rewrite andb_false_r in C. discriminate. }
  assert (Bu : forall p, on_worker p = false -> forall q, busy (mkQ (l ++ [mkTask (Outside 0) r (subs r) p]) q) d = busy (mkQ l []) d).
  { intros p Hp q. unfold busy. cbn [qs_tasks]. rewrite !cntb_filter, cntb_app, cntb_cons. cbn. rewrite Hp, andb_false_r. cbn. unfold cntb. cbn. lia. }
  cbn [qrun]. cbn [qstep qs_tasks qs_queue]. rewrite Nn. cbn [tk_pc tk_src tk_todo]. repeat match goal with |- context [node_of (mkTask ?x r ?a ?b)] => change (node_of (mkTask x r a b)) with d end. rewrite Ah.
  rewrite Sn. unfold with_pc. cbn [tk_src tk_req qrun]. cbn [qstep qs_tasks qs_queue]. rewrite Nn. cbn [tk_pc tk_src tk_todo]. repeat match goal with |- context [node_of (mkTask ?x r ?a ?b)] => change (node_of (mkTask x r a b)) with d end.
  unfold queue_of at 1. cbn [qs_queue filter length]. destruct (Nat.ltb_spec 0 (w d)); [|lia].
  rewrite Sn. unfold with_pc. cbn [tk_src tk_req qrun]. cbn [qstep qs_tasks qs_queue]. rewrite Nn. cbn [tk_pc tk_src tk_todo]. repeat match goal with |- context [node_of (mkTask ?x r ?a ?b)] => change (node_of (mkTask x r a b)) with d end.
  unfold queue_of. cbn [qs_queue app filter qs_tasks]. unfold at_node. rewrite Nn. repeat match goal with |- context [node_of (mkTask ?x r ?a ?b)] => change (node_of (mkTask x r a b)) with d end. rewrite Nat.eqb_refl. cbn iota. rewrite Nat.eqb_refl. cbn [andb].
  rewrite Bu by reflexivity. destruct (Nat.ltb_spec (busy (mkQ l []) d) (w d)); [|lia].
  rewrite Sn. unfold with_pc. cbn [tk_src tk_req qrun]. cbn [qstep qs_tasks qs_queue]. rewrite Nn. cbn [tk_pc tk_src tk_todo]. repeat match goal with |- context [node_of (mkTask ?x r ?a ?b)] => change (node_of (mkTask x r a b)) with d end.
  change (subs r) with [Req e []]. cbn iota. rewrite Sn. unfold with_pc. cbn [tk_src tk_req subs].
  eexists. split; [reflexivity|]. cbn [remove]. destruct (Nat.eq_dec n n) as [_|F]; [|congruence].
  assert (Ln : length (l ++ [mkTask (Outside 0) r [Req e []] TBusy]) = S n) by (rewrite app_length; cbn; unfold n; lia). rewrite Ln.
  split.
  - constructor; [reflexivity|]. cbn [qs_tasks]. intros i t J. rewrite <- app_assoc in J |- *. cbn [app] in J |- *.
    assert (Nc : nth_error (l ++ [mkTask (Outside 0) r [] (TWait (S n)); mkTask (Inside d) (Req e []) [] TWire]) (S n) = Some (mkTask (Inside d) (Req e []) [] TWire)).
    { rewrite nth_error_app2 by (unfold n; lia). replace (S n - length l) with 1 by (unfold n; lia). reflexivity. }
    destruct (Nat.ltb_spec i n) as [L|L].
    + rewrite nth_error_app1 in J by exact L. destruct (T i t J) as [X|(c & u & W & C & X)]; [left; exact X|right].
      exists c, u. split; [exact W|]. split; [apply nth_app_l; exact C | exact X].
    + rewrite nth_error_app2 in J by exact L. destruct (i - length l) as [|[|k]] eqn:K; cbn in J.
      * injection J as <-. right. exists (S n), (mkTask (Inside d) (Req e []) [] TWire). auto.
      * injection J as <-. left. split; [reflexivity|]. exists d. reflexivity.
      * destruct k; discriminate.
  - unfold busy. cbn [qs_tasks]. setoid_rewrite cntb_filter. split.
    + rewrite !cntb_app. unfold cntb at 2 3. cbn [sumf tk_pc on_worker]. repeat match goal with |- context [node_of (mkTask ?x r ?a ?b)] => change (node_of (mkTask x r a b)) with d end. rewrite Nat.eqb_refl, andb_false_r. cbn. lia.
    + intros x Hx. rewrite !cntb_app. unfold cntb at 2 3. cbn [sumf tk_pc on_worker]. repeat match goal with |- context [node_of (mkTask ?x r ?a ?b)] => change (node_of (mkTask x r a b)) with d end. rewrite andb_false_r.
      destruct (Nat.eqb_spec d x); [congruence|]. cbn. lia.
Qed.

Lemma load_all w d e k : pair_node e -> forall s, loading s -> busy s d + k <= w d ->
  exists sched s', qrun w s sched = Some s' /\ loading s' /\ busy s' d = busy s d + k /\ (forall x, x <> d -> busy s' x = busy s x) /\
    Forall (fun r => r = relay d e) (arrivals sched) /\ length (arrivals sched) = k.
Proof.
  intros He. induction k as [|k IH]; intros s L B.
  - exists [], s. split; [reflexivity|]. split; [exact L|]. split; [lia|]. split; [reflexivity|]. split; [constructor|reflexivity].
  - destruct (load w s d e L He ltac:(lia)) as (s1 & R1 & L1 & B1 & O1).
    destruct (IH s1 L1 ltac:(lia)) as (l & s2 & R2 & L2 & B2 & O2 & A2 & K2).
    exists ([NArrive 0 (relay d e); NRead (length (qs_tasks s)); NPut (length (qs_tasks s)); NTake (length (qs_tasks s)); NAsk (length (qs_tasks s))] ++ l), s2.
    split; [rewrite qrun_app, R1; exact R2|]. split; [exact L2|]. split; [lia|]. split; [intros x Hx; rewrite O2, O1 by exact Hx; reflexivity|].
    split; [constructor; [reflexivity | exact A2] | exact (f_equal S K2)].
Qed.

(** Two nodes whose handlers ask the other: as many requests of each as it has workers, and neither ever answers a request again, whatever requests it is sent. *)
Theorem C96_deadlock : forall workers, (forall d, 0 < workers d) ->
  exists sched s, qrun workers q_start sched = Some s /\
    Forall (fun r => r = relay 0 1 \/ r = relay 1 0) (arrivals sched) /\ length (arrivals sched) = workers 0 + workers 1 /\
    (forall sched' s', qrun workers s sched' = Some s' ->
       (exists t, In t (qs_tasks s') /\ node_of t = 0 /\ tk_pc t <> TDone) /\
       (forall t, In t (qs_tasks s') -> (node_of t = 0 \/ node_of t = 1) -> tk_pc t <> TDone)).
Proof.
  intros w W.
  assert (L0 : loading q_start) by (constructor; [reflexivity|]; intros [|i] t J; discriminate J).
  destruct (load_all w 0 1 (w 0) ltac:(right; reflexivity) q_start L0 ltac:(cbn; lia)) as (l1 & s1 & R1 & L1 & B1 & O1 & A1 & K1).
  destruct (load_all w 1 0 (w 1) ltac:(left; reflexivity) s1 L1 ltac:(rewrite O1 by discriminate; cbn; lia)) as (l2 & s2 & R2 & L2 & B2 & O2 & A2 & K2).
  assert (AA : forall a b, arrivals (a ++ b) = arrivals a ++ arrivals b) by (intros; unfold arrivals; apply flat_map_app).
  exists (l1 ++ l2), s2. split; [rewrite qrun_app, R1; exact R2|]. rewrite AA. split; [|split; [rewrite app_length; lia|]].
  - apply Forall_app. split; [eapply Forall_impl; [|exact A1] | eapply Forall_impl; [|exact A2]]; cbn; auto.
  - assert (D : dead w s2).
    { constructor.
      - intros d [-> | ->]; [rewrite O2 by discriminate|]; rewrite ?B1, ?B2; lia.
      - intros i t N _. destruct (ld_task s2 L2 i t N) as [[P _]|(c & u & P & C & Pu & U)]; [left; rewrite P; reflexivity|].
        right. exists c, u. rewrite U. auto. }
    intros l s' R. pose proof (qrun_inv w (dead w) (fun s a s' => dead_step w s a s') l s2 s' D R) as [B T]. split.
    + specialize (B 0 (or_introl eq_refl)). unfold busy in B. rewrite cntb_filter in B. specialize (W 0).
      destruct (cntb_ex _ _ (Nat.lt_le_trans _ _ _ W B)) as (t & I & C). apply andb_true_iff in C as [C1 C2]. apply Nat.eqb_eq in C1.
      exists t. split; [exact I|]. split; [exact C1|]. intros X. rewrite X in C2. discriminate.
    + intros t I H. apply In_nth_error in I as [i I]. destruct (T i t I H) as [F|(c & u & P & _)]; intros X; [rewrite X in F; discriminate | congruence].
Qed.

Theorem C96_refuted : ~ C96_statement.
Proof.
  intros H. destruct (C96_deadlock (fun _ => 1) (fun _ => Nat.lt_0_succ 0)) as (l & s & R & _ & _ & D).
  destruct (H (fun _ => 1) l s (fun _ => Nat.lt_0_succ 0) R) as (l' & s' & R' & A).
  destruct (D l' s' R') as [(t & I & Ht & U) _]. exact (U (A t I)).
Qed.

(** Beside the deadlock: a request of node 1, whose handler asks node 0 twice, answered by one worker each; and a state in which nothing can happen, with two unanswered
    requests at each node. *)
Example C96_nonvacuous :
  let one := fun _ : nat => 1 in
  let r := Req 1 [Req 0 []; Req 0 []] in
  downhill (fun d => d) r /\ full r = 16 /\
  (exists s, qrun one q_start [NArrive 5 r; NRead 0; NPut 0; NTake 0; NAsk 0; NRead 1; NPut 1; NTake 1; NAnswer 1; NResume 0] = Some s /\ left s = 7 /\ ~ all_answered s) /\
  (exists s, qrun one q_start [NArrive 5 r; NRead 0; NPut 0; NTake 0; NAsk 0; NRead 1; NPut 1; NTake 1; NAnswer 1; NResume 0; NAsk 0; NRead 2; NPut 2; NTake 2; NAnswer 2; NResume 0; NAnswer 0] = Some s /\
     all_answered s /\ length (qs_tasks s) = 3 /\ size r = 3) /\
  (exists s, qrun one q_start [NArrive 0 (relay 0 1); NRead 0; NPut 0; NTake 0; NArrive 0 (relay 1 0); NRead 1; NPut 1; NTake 1; NAsk 0; NAsk 1; NRead 2; NPut 2; NRead 3; NPut 3] = Some s /\
     open_at s 0 = 2 /\ open_at s 1 = 2 /\ queue_of s 0 = [3] /\ queue_of s 1 = [2]).
Proof.
  cbv zeta. split; [|split; [reflexivity|split; [|split]]].
  - constructor. intros r [<-|[<-|[]]]; (split; [cbn; lia|]); constructor; intros x [].
  - eexists. split; [vm_compute; reflexivity|]. split; [vm_compute; reflexivity|]. intros A. specialize (A _ (or_introl eq_refl)). discriminate A.
  - eexists. split; [vm_compute; reflexivity|]. split; [|split; reflexivity]. intros t [<-|[<-|[<-|[]]]]; reflexivity.
  - eexists. split; [vm_compute; reflexivity|]. repeat split; vm_compute; reflexivity.
Qed.

Print Assumptions C96_partial.
Print Assumptions C96_answered.
Print Assumptions C96_few_partial.
Print Assumptions C96_deadlock.
Print Assumptions C96_refuted.
