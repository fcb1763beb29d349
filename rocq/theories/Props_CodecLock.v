(** * C126: whether Marshal methods and decoders may use the node's codec. *)
From Verif Require Import Base M_CodecLock.
Local Open Scope nat_scope.

(** ** Spec *)

(** Every goroutine has made all its calls. *)
Definition all_returned (s : lstate) : Prop := forall g, In g (l_gors s) -> g_todo g = [].
(** Nobody can go on. *)
Definition halted (s : lstate) : Prop := forall i, lstep s i = None.

(** ** C126 *)

(** Whatever calls the goroutines make, and whatever calls the messages' methods make in them: when nobody can go on, all have returned. *)
Definition C126_statement : Prop := forall gs sched s, lrun (lstart gs) sched = Some s -> halted s -> all_returned s.

(** *** Lemmas *)

(** From [d] times held, the steps end with the lock given back, and never give back what is not held. *)
Fixpoint bal (d : nat) (l : list instr) : Prop :=
  match l with
  | [] => d = 0
  | IRLock :: r => bal (S d) r
  | IRUnlock :: r => 0 < d /\ bal (d - 1) r
  | _ :: r => bal d r
  end.

Section call_ind.
  Variable P : call -> Prop.
  Hypothesis He : forall l, Forall P l -> P (Encode l).
  Hypothesis Hd : forall l, Forall P l -> P (Decode l).
  Hypothesis Hr : P Register.
  Fixpoint call_rect' (c : call) : P c :=
    match c with
    | Encode l => He l ((fix go l := match l return Forall P l with [] => Forall_nil _ | x :: r => Forall_cons _ (call_rect' x) (go r) end) l)
    | Decode l => Hd l ((fix go l := match l return Forall P l with [] => Forall_nil _ | x :: r => Forall_cons _ (call_rect' x) (go r) end) l)
    | Register => Hr
    end.
End call_ind.

Lemma bal_steps c : forall d r, bal d r -> bal d (steps c ++ r).
Proof.
  induction c as [l H|l H|] using call_rect'; intros d r B; [| | exact B]; cbn [steps app bal]; rewrite <- app_assoc;
    (assert (G : forall d r, bal d r -> bal d (flat_map steps l ++ r));
     [clear - H; induction H as [|x l Hx Hl IH]; intros d r B; [exact B|]; cbn [flat_map]; rewrite <- app_assoc; apply Hx, IH, B|]);
    apply G; cbn [app bal]; split; try lia; replace (S d - 1) with d by lia; exact B.
Qed.

Lemma bal_calls cs : bal 0 (flat_map steps cs).
Proof.
  induction cs as [|c cs IH]; [reflexivity|]. cbn [flat_map]. apply bal_steps, IH.
Qed.

Lemma put_length n g l : length (put n g l) = length l.
Proof. revert n. induction l as [|x l IH]; intros [|n]; cbn; auto. Qed.
Lemma put_same n g l x : nth_error l n = Some x -> nth_error (put n g l) n = Some g.
Proof. revert n. induction l as [|y l IH]; intros [|n] H; try discriminate; cbn in *; auto. Qed.
Lemma put_other n m g l : n <> m -> nth_error (put n g l) m = nth_error l m.
Proof. revert n m. induction l as [|y l IH]; intros [|n] [|m] H; cbn; auto; congruence. Qed.

Definition sum (f : gor -> nat) (l : list gor) : nat := fold_right (fun g k => f g + k) 0 l.
Lemma sum_put f n g l x : nth_error l n = Some x -> sum f (put n g l) + f x = sum f l + f g.
Proof.
  revert n. induction l as [|y l IH]; intros [|n] H; try discriminate; cbn in *.
  - injection H as ->. lia.
  - specialize (IH _ H). fold (sum f l) in *. fold (sum f (put n g l)). lia.
Qed.
Lemma sum_in f l : 0 < sum f l -> exists i g, nth_error l i = Some g /\ 0 < f g.
Proof.
  induction l as [|y l IH]; cbn; [lia|]. intros H. destruct (f y) eqn:E.
  - destruct IH as (i & g & N & G); [exact H|]. exists (S i), g. auto.
  - exists 0, y. cbn. split; [reflexivity | lia].
Qed.

(** Where a goroutine stands in Lock. *)
Definition locking (l : list instr) : bool := match l with IEnter :: _ | IUnlock :: _ => true | _ => false end.
(** IEnter and IUnlock come only right after IAnnounce and IEnter. *)
Fixpoint ordered (l : list instr) : Prop :=
  match l with
  | [] => True
  | IAnnounce :: r => (exists r', r = IEnter :: r') /\ ordered r
  | IEnter :: r => (exists r', r = IUnlock :: r') /\ ordered r
  | _ :: r => locking r = false /\ ordered r
  end.

Lemma ordered_app c : forall r, ordered r -> locking r = false -> ordered (steps c ++ r) /\ locking (steps c ++ r) = false.
Proof.
  induction c as [l H|l H|] using call_rect'; intros r O N.
  3: { cbn. repeat split; eauto. }
  all: cbn [steps app]; rewrite <- app_assoc;
    (assert (G : forall r, ordered r -> locking r = false -> ordered (flat_map steps l ++ r) /\ locking (flat_map steps l ++ r) = false);
     [clear - H; induction H as [|x l Hx Hl IH]; intros r O N; [auto|]; cbn [flat_map]; rewrite <- app_assoc; destruct (IH r O N) as [A B]; apply Hx; assumption|]);
    destruct (G (IRUnlock :: r)) as [A B]; [split; assumption | reflexivity|]; cbn [ordered locking app]; auto.
Qed.

Lemma ordered_calls cs : ordered (flat_map steps cs) /\ locking (flat_map steps cs) = false.
Proof.
  induction cs as [|c cs [A B]]; [split; [exact I | reflexivity]|]. cbn [flat_map]. apply ordered_app; assumption.
Qed.

Record linv (s : lstate) : Prop := {
  li_readers : l_readers s = sum g_held (l_gors s);
  li_bal : forall g, In g (l_gors s) -> bal (g_held g) (g_todo g) /\ ordered (g_todo g);
  li_writer : forall i g, nth_error (l_gors s) i = Some g -> locking (g_todo g) = true -> l_writer s = Some i;
  li_writer' : forall i, l_writer s = Some i -> exists g, nth_error (l_gors s) i = Some g /\ locking (g_todo g) = true
}.

Lemma linv_start gs : linv (lstart gs).
Proof.
  constructor; cbn.
  - induction gs as [|x gs IH]; cbn; auto.
  - intros g H. apply in_map_iff in H as (cs & <- & _). cbn. split; [apply bal_calls | apply ordered_calls].
  - intros i g H L. apply nth_error_In, in_map_iff in H as (cs & <- & _). cbn in L. rewrite (proj2 (ordered_calls cs)) in L. discriminate.
  - discriminate.
Qed.

Lemma put_in n g l h : In h (put n g l) -> h = g \/ In h l.
Proof.
  revert n. induction l as [|y l IH]; intros [|n] H; cbn in *; auto.
  - destruct H as [<-|H]; auto.
  - destruct H as [<-|H]; auto. destruct (IH _ H); auto.
Qed.

Lemma linv_step s i s' : linv s -> lstep s i = Some s' -> linv s'.
Proof.
  intros [R B W W'] H. unfold lstep in H. destruct (nth_error (l_gors s) i) as [g|] eqn:N; [|discriminate].
  destruct (B g (nth_error_In _ _ N)) as [Bg Og].
  assert (X : forall k j h, nth_error (put i k (l_gors s)) j = Some h -> (j = i /\ h = k) \/ (j <> i /\ nth_error (l_gors s) j = Some h)).
  { intros k j h E. destruct (Nat.eq_dec i j) as [<- | D]; [rewrite (put_same i k _ g N) in E; left; split; [reflexivity | congruence]|].
    rewrite put_other in E by exact D. auto. }
  assert (Q : forall k, sum g_held (put i k (l_gors s)) + g_held g = sum g_held (l_gors s) + g_held k) by (intros k; apply (sum_put _ _ _ _ _ N)).
  destruct g as [d [|[| | | |] r]]; cbn [g_todo g_held] in *; [discriminate | | | | | ].
  - destruct (l_writer s) eqn:Ew; [discriminate|]. injection H as <-. destruct Og as [Lr Or]. constructor; cbn [l_readers l_gors l_writer].
    + specialize (Q (mkG (S d) r)). cbn in Q. lia.
    + intros h Hh. apply put_in in Hh as [-> |Hh]; auto.
    + intros j h E L. destruct (X _ _ _ E) as [[_ ->]|[_ E']]; [cbn in L; congruence | pose proof (W _ _ E' L); congruence].
    + discriminate.
  - injection H as <-. destruct Og as [Lr Or], Bg as [Bd Br]. constructor; cbn [l_readers l_gors l_writer].
    + specialize (Q (mkG (d - 1) r)). cbn in Q. lia.
    + intros h Hh. apply put_in in Hh as [-> |Hh]; auto.
    + intros j h E L. destruct (X _ _ _ E) as [[_ ->]|[_ E']]; [cbn in L; congruence | exact (W _ _ E' L)].
    + intros j E. destruct (W' j E) as (h & E1 & E2). exists h. split; [|exact E2]. rewrite put_other; [exact E1|]. intros ->. rewrite N in E1. injection E1 as <-. discriminate.
  - destruct (l_writer s) eqn:Ew; [discriminate|]. injection H as <-. destruct Og as [[r' ->] Or]. constructor; cbn [l_readers l_gors l_writer].
    + specialize (Q (mkG d (IEnter :: r'))). cbn in Q. lia.
    + intros h Hh. apply put_in in Hh as [-> |Hh]; auto.
    + intros j h E L. destruct (X _ _ _ E) as [[-> _]|[_ E']]; [reflexivity | pose proof (W _ _ E' L); congruence].
    + intros j E. injection E as <-. eexists. split; [apply (put_same i _ _ _ N) | reflexivity].
  - destruct (l_readers s =? 0) eqn:E0; [|discriminate]. injection H as <-. apply Nat.eqb_eq in E0. destruct Og as [[r' ->] Or]. constructor; cbn [l_readers l_gors l_writer].
    + specialize (Q (mkG d (IUnlock :: r'))). cbn in Q. lia.
    + intros h Hh. apply put_in in Hh as [-> |Hh]; auto.
    + intros j h E L. destruct (X _ _ _ E) as [[-> _]|[_ E']]; [exact (W _ _ N eq_refl) | exact (W _ _ E' L)].
    + intros j E. assert (j = i) as -> by (pose proof (W _ _ N eq_refl); congruence). eexists. split; [apply (put_same i _ _ _ N) | reflexivity].
  - injection H as <-. destruct Og as [Lr Or]. pose proof (W _ _ N eq_refl) as Wi. constructor; cbn [l_readers l_gors l_writer].
    + specialize (Q (mkG d r)). cbn in Q. lia.
    + intros h Hh. apply put_in in Hh as [-> |Hh]; auto.
    + intros j h E L. destruct (X _ _ _ E) as [[_ ->]|[D E']]; [cbn in L; congruence | pose proof (W _ _ E' L); congruence].
    + discriminate.
Qed.

Lemma linv_run sched : forall s s', linv s -> lrun s sched = Some s' -> linv s'.
Proof.
  induction sched as [|i sched IH]; intros s s' I H; cbn in H; [injection H as <-; exact I|].
  destruct (lstep s i) as [s1|] eqn:E; [|discriminate]. eapply IH; [eapply linv_step; eassumption | exact H].
Qed.

(** *** Theorems *)

(** The only way to be stuck: a call of RegisterMessage is waiting, and a Marshal method or decoder, in a call that has the lock, has
    made a call that is waiting as well. *)
Theorem C126_stuck : forall gs sched s, lrun (lstart gs) sched = Some s -> halted s -> ~ all_returned s ->
  exists w j g, l_writer s = Some w /\ nth_error (l_gors s) j = Some g /\ 0 < g_held g /\
    exists r, g_todo g = IRLock :: r \/ g_todo g = IAnnounce :: r \/ g_todo g = IEnter :: r.
Proof.
  intros gs sched s H Ha Na. pose proof (linv_run _ _ _ (linv_start gs) H) as [R B W W'].
  destruct (Nat.eq_dec (l_readers s) 0) as [Z|Z].
  - exfalso. apply Na. intros g Hg. apply In_nth_error in Hg as [i N]. destruct (l_writer s) as [w|] eqn:Ew.
    + destruct (W' w eq_refl) as (h & Nh & Lh). specialize (Ha w). unfold lstep in Ha. rewrite Nh in Ha.
      destruct (g_todo h) as [|[| | | |] r]; try discriminate. rewrite Z in Ha. discriminate.
    + specialize (Ha i). unfold lstep in Ha. rewrite N in Ha. destruct (g_todo g) as [|[| | | |] r] eqn:T; [reflexivity | | | | |].
      * rewrite Ew in Ha. discriminate.
      * discriminate.
      * rewrite Ew in Ha. discriminate.
      * rewrite Z in Ha. discriminate.
      * discriminate.
  - destruct (sum_in g_held (l_gors s)) as (j & g & N & Hg); [lia|]. destruct (B g (nth_error_In _ _ N)) as [Bg Og].
    pose proof (Ha j) as Hj. unfold lstep in Hj. rewrite N in Hj. destruct (g_todo g) as [|[| | | |] r] eqn:T.
    + cbn in Bg. lia.
    + destruct (l_writer s) as [w|]; [|discriminate]. exists w, j, g. eauto 8.
    + discriminate.
    + destruct (l_writer s) as [w|]; [|discriminate]. exists w, j, g. eauto 8.
    + assert (Wj : l_writer s = Some j) by (apply (W _ _ N); rewrite T; reflexivity). exists j, j, g. eauto 8.
    + discriminate.
Qed.

(** Calls in which nothing of the application calls the codec. *)
Definition plain (c : call) : Prop := match c with Encode l | Decode l => l = [] | Register => True end.
(** Calls in which nothing registers a type. *)
Fixpoint reads_only (c : call) : bool := match c with Encode l | Decode l => forallb reads_only l | Register => false end.

(** With plain calls, one who has the lock for reading gives it back next. *)
Fixpoint shallow (d : nat) (l : list instr) : Prop :=
  match l with
  | [] => True
  | IRLock :: r => d = 0 /\ shallow 1 r
  | IRUnlock :: r => shallow 0 r
  | _ :: r => d = 0 /\ shallow 0 r
  end.

Lemma shallow_calls cs : Forall plain cs -> shallow 0 (flat_map steps cs).
Proof.
  induction 1 as [|c cs Hc H IH]; [exact I|]. destruct c as [l|l|]; cbn in Hc; try subst l; cbn; repeat split; auto.
Qed.

Lemma run_shallow sched : forall s s', (forall g, In g (l_gors s) -> shallow (g_held g) (g_todo g)) -> (forall g, In g (l_gors s) -> g_held g <= 1) ->
  lrun s sched = Some s' -> (forall g, In g (l_gors s') -> shallow (g_held g) (g_todo g)).
Proof.
  induction sched as [|i sched IH]; intros s s' I J H; cbn in H; [injection H as <-; exact I|].
  destruct (lstep s i) as [s1|] eqn:E; [|discriminate]. unfold lstep in E. destruct (nth_error (l_gors s) i) as [g|] eqn:N; [|discriminate].
  pose proof (I g (nth_error_In _ _ N)) as Ig. pose proof (J g (nth_error_In _ _ N)) as Jg.
  assert (K : exists d r, l_gors s1 = put i (mkG d r) (l_gors s) /\ shallow d r /\ d <= 1).
  { destruct g as [d [|[| | | |] r]]; cbn [g_todo g_held] in *; try discriminate.
    - destruct (l_writer s); [discriminate|]. injection E as <-. destruct Ig as [-> Ig]. exists 1, r. auto.
    - injection E as <-. exists (d - 1), r. split; [reflexivity|]. cbn in Ig. assert (d - 1 = 0) as -> by lia. auto.
    - destruct (l_writer s); [discriminate|]. injection E as <-. destruct Ig as [-> Ig]. exists 0, r. auto.
    - destruct (l_readers s =? 0); [|discriminate]. injection E as <-. destruct Ig as [-> Ig]. exists 0, r. auto.
    - injection E as <-. destruct Ig as [-> Ig]. exists 0, r. auto. }
  destruct K as (d & r & K1 & K2 & K3). eapply (IH s1 s'); [| |exact H]; rewrite K1; intros h Hh; apply put_in in Hh as [-> |Hh]; auto.
Qed.

Lemma run_reads sched : forall s s', (forall g, In g (l_gors s) -> ~ In IAnnounce (g_todo g)) -> l_writer s = None ->
  (forall g, In g (l_gors s) -> ~ In IEnter (g_todo g)) -> lrun s sched = Some s' -> l_writer s' = None.
Proof.
  induction sched as [|i sched IH]; intros s s' I W J H; cbn in H; [injection H as <-; exact W|].
  destruct (lstep s i) as [s1|] eqn:E; [|discriminate]. unfold lstep in E. destruct (nth_error (l_gors s) i) as [g|] eqn:N; [|discriminate].
  pose proof (I g (nth_error_In _ _ N)) as Ig. pose proof (J g (nth_error_In _ _ N)) as Jg. rewrite W in E.
  assert (K : exists d r x, l_gors s1 = put i (mkG d r) (l_gors s) /\ g_todo g = x :: r /\ l_writer s1 = None).
  { destruct g as [d [|[| | | |] r]]; cbn [g_todo g_held] in *; try discriminate.
    - injection E as <-. eexists _, _, _. cbn. auto.
    - injection E as <-. eexists _, _, _. cbn. auto.
    - exfalso. apply Ig. left. reflexivity.
    - exfalso. apply Jg. left. reflexivity.
    - injection E as <-. eexists _, _, _. cbn. auto. }
  destruct K as (d & r & x & K1 & K2 & K3). eapply (IH s1 s'); [| exact K3 | | exact H]; rewrite K1; intros h Hh; apply put_in in Hh as [-> |Hh]; auto; cbn; intros X.
  - apply Ig. rewrite K2. right. exact X.
  - apply Jg. rewrite K2. right. exact X.
Qed.

Lemma reads_steps c : reads_only c = true -> ~ In IAnnounce (steps c) /\ ~ In IEnter (steps c).
Proof.
  induction c as [l H|l H|] using call_rect'; [| | discriminate].
  all: intros R; cbn [reads_only] in R; rewrite forallb_forall in R; rewrite Forall_forall in H; cbn [steps];
    (assert (G : forall x, (x = IAnnounce \/ x = IEnter) -> ~ In x (flat_map steps l));
     [intros x Hx J; apply in_flat_map in J as (c & Jc & Jx); destruct (H c Jc (R c Jc)) as [A B]; destruct Hx as [-> | ->]; auto|]);
    split; intros [X|X]; try discriminate; apply in_app_or in X as [X|[X|[]]]; try discriminate; apply (G _ (or_introl eq_refl)) in X || apply (G _ (or_intror eq_refl)) in X; exact X.
Qed.

(** All calls return, whatever the schedule, if Marshal methods and decoders make no calls of the codec, or if no types are registered
    meanwhile. *)
Theorem C126_partial : forall gs sched s, lrun (lstart gs) sched = Some s -> halted s ->
  (forall cs, In cs gs -> Forall plain cs) \/ (forall cs, In cs gs -> forallb reads_only cs = true) -> all_returned s.
Proof.
  intros gs sched s H Ha D.
  assert (X : forall g, {g_todo g = []} + {g_todo g <> []}) by (intros g; destruct (g_todo g); [left | right]; congruence).
  destruct (Forall_Exists_dec (fun g => g_todo g = []) X (l_gors s)) as [F|F]; [rewrite Forall_forall in F; exact F|]. exfalso.
  destruct (C126_stuck gs sched s H Ha) as (w & j & g & Wr & N & Hg & r & T).
  { intros A. apply Exists_exists in F as (g & Hg & Ng). apply Ng, A, Hg. }
  destruct D as [D|D].
  - assert (S0 : shallow (g_held g) (g_todo g)).
    { refine (run_shallow sched (lstart gs) s _ _ H g (nth_error_In _ _ N)); intros h Hh; apply in_map_iff in Hh as (cs & <- & Hc); cbn; [|lia].
      apply shallow_calls, D, Hc. }
    destruct T as [T|[T|T]]; rewrite T in S0; destruct S0 as [S0 _]; lia.
  - assert (l_writer s = None); [|congruence].
    assert (G : forall cs x, In cs gs -> (x = IAnnounce \/ x = IEnter) -> ~ In x (flat_map steps cs)).
    { intros cs x Hc Hx J. apply in_flat_map in J as (c & Jc & Jx). specialize (D cs Hc). rewrite forallb_forall in D.
      destruct (reads_steps c (D c Jc)) as [A B]. destruct Hx as [-> | ->]; auto. }
    refine (run_reads sched (lstart gs) s _ eq_refl _ H); intros h Hh; apply in_map_iff in Hh as (cs & <- & Hc); cbn; apply G; auto.
Qed.

(** Schedules are no longer than the calls: so from every state, going on as long as anybody can is bound to halt. *)
Theorem C126_ends : forall gs sched s, lrun (lstart gs) sched = Some s ->
  length sched + fold_right (fun g k => length (g_todo g) + k) 0 (l_gors s) = fold_right (fun cs k => length (flat_map steps cs) + k) 0 gs.
Proof.
  intros gs sched s H.
  assert (G : forall s0, lrun s0 sched = Some s -> length sched + sum (fun g => length (g_todo g)) (l_gors s) = sum (fun g => length (g_todo g)) (l_gors s0)).
  { clear H. induction sched as [|i sched IH]; intros s0 H; cbn in H; [injection H as <-; reflexivity|].
    destruct (lstep s0 i) as [s1|] eqn:E; [|discriminate]. specialize (IH _ H). cbn [length].
    assert (sum (fun g => length (g_todo g)) (l_gors s1) + 1 = sum (fun g => length (g_todo g)) (l_gors s0)); [|lia]. clear IH H.
    unfold lstep in E. destruct (nth_error (l_gors s0) i) as [g|] eqn:N; [|discriminate].
    assert (K : exists d r x, l_gors s1 = put i (mkG d r) (l_gors s0) /\ g_todo g = x :: r).
    { destruct (g_todo g) as [|[| | | |] r] eqn:T; try discriminate.
      - destruct (l_writer s0); [discriminate|]. injection E as <-. eexists _, _, _. cbn. eauto.
      - injection E as <-. eexists _, _, _. cbn. eauto.
      - destruct (l_writer s0); [discriminate|]. injection E as <-. eexists _, _, _. cbn. eauto.
      - destruct (l_readers s0 =? 0); [|discriminate]. injection E as <-. eexists _, _, _. cbn. eauto.
      - injection E as <-. eexists _, _, _. cbn. eauto. }
    destruct K as (d & r & x & K1 & K2). rewrite K1. pose proof (sum_put (fun g => length (g_todo g)) i (mkG d r) _ _ N) as Q. cbn in Q. rewrite K2 in Q. cbn in Q. lia. }
  specialize (G _ H). unfold sum in G. rewrite G. cbn. clear. induction gs as [|x gs IH]; cbn; auto.
Qed.

(** Once it has come to this the codec is lost: calls that other goroutines make later do not get the lock either. *)
Theorem C126_frozen : forall gs sched s later i s', lrun (lstart gs) sched = Some s -> halted s -> ~ all_returned s ->
  lstep (mkL (l_readers s) (l_writer s) (l_gors s ++ map (fun cs => mkG 0 (flat_map steps cs)) later)) i <> Some s'.
Proof.
  intros gs sched s later i s' H Ha Na E. destruct (C126_stuck gs sched s H Ha Na) as (w & _ & _ & Wr & _).
  unfold lstep in E. cbn [l_gors l_writer l_readers] in E. specialize (Ha i). unfold lstep in Ha.
  destruct (Nat.lt_ge_cases i (length (l_gors s))) as [Hi|Hi].
  - rewrite nth_error_app1 in E by exact Hi. destruct (nth_error (l_gors s) i) as [g|]; [|discriminate].
    destruct (g_todo g) as [|[| | | |] r]; try discriminate; rewrite Wr in *; try discriminate.
    destruct (l_readers s =? 0); discriminate.
  - rewrite nth_error_app2 in E by exact Hi. destruct (nth_error _ (i - length (l_gors s))) as [g|] eqn:N; [|discriminate].
    apply nth_error_In, in_map_iff in N as (cs & <- & _). cbn [g_todo] in E. pose proof (ordered_calls cs) as [_ L].
    destruct cs as [|c cs]; cbn [flat_map] in *; [discriminate|]. destruct c; cbn in *; rewrite Wr in E; discriminate.
Qed.

(** A type is registered by a Marshal method or decoder that runs in the call, however deep. *)
Definition registers_inside (c : call) : bool := match c with Encode l | Decode l => negb (forallb reads_only l) | Register => false end.

(** Lock is called with the lock held for reading by the same goroutine. *)
Fixpoint bad (d : nat) (l : list instr) : Prop :=
  match l with
  | [] => False
  | IRLock :: r => bad (S d) r
  | IRUnlock :: r => bad (d - 1) r
  | IEnter :: r => 0 < d \/ bad d r
  | _ :: r => bad d r
  end.

Lemma bad_skip c : forall d r, bad d r -> bad d (steps c ++ r).
Proof.
  induction c as [l H|l H|] using call_rect'; intros d r B; [| | cbn; auto]; cbn [steps app bad]; rewrite <- app_assoc;
    (assert (G : forall d r, bad d r -> bad d (flat_map steps l ++ r));
     [clear - H; induction H as [|x l Hx Hl IH]; intros d r B; [exact B|]; cbn [flat_map]; rewrite <- app_assoc; apply Hx, IH, B|]);
    apply G; cbn [app bad]; replace (S d - 1) with d by lia; exact B.
Qed.

Lemma bad_here c : reads_only c = false -> forall d r, 0 < d -> bad d (steps c ++ r).
Proof.
  induction c as [l H|l H|] using call_rect'; intros R d r D; [| | cbn; auto]; cbn [steps app bad]; rewrite <- app_assoc; cbn [reads_only] in R;
    generalize ([IRUnlock] ++ r); clear r;
    (induction H as [|x l Hx Hl IH]; [discriminate|]); intros r; cbn [flat_map]; rewrite <- app_assoc; cbn [forallb] in R;
    (destruct (reads_only x); [apply bad_skip, IH, R | apply Hx; [reflexivity | lia]]).
Qed.

Lemma bad_calls cs : existsb registers_inside cs = true -> bad 0 (flat_map steps cs).
Proof.
  induction cs as [|c cs IH]; [discriminate|]. cbn [existsb flat_map]. destruct (registers_inside c) eqn:E; [|intros H; apply bad_skip, IH, H].
  intros _. clear IH. generalize (flat_map steps cs). intros r.
  destruct c as [l|l|]; [| | discriminate]; cbn [registers_inside] in E; apply Bool.negb_true_iff in E; cbn [steps app bad]; rewrite <- app_assoc; generalize ([IRUnlock] ++ r); clear r;
    (induction l as [|x l IH]; [discriminate|]); intros r; cbn [flat_map]; rewrite <- app_assoc; cbn [forallb] in E;
    (destruct (reads_only x) eqn:Ex; [apply bad_skip, IH, E | apply bad_here; [exact Ex | lia]]).
Qed.

Lemma sum_le f l i g : nth_error l i = Some g -> f g <= sum f l.
Proof.
  revert i. induction l as [|y l IH]; intros [|i] H; try discriminate; cbn in *; [injection H as ->; lia|]. specialize (IH _ H). fold (sum f l). lia.
Qed.

Lemma bad_run sched : forall s s' j g, linv s -> nth_error (l_gors s) j = Some g -> bad (g_held g) (g_todo g) -> lrun s sched = Some s' ->
  exists g', nth_error (l_gors s') j = Some g' /\ bad (g_held g') (g_todo g').
Proof.
  induction sched as [|i sched IH]; intros s s' j g I N B H; cbn in H; [injection H as <-; eauto|].
  destruct (lstep s i) as [s1|] eqn:E; [|discriminate]. pose proof (linv_step _ _ _ I E) as I1.
  assert (K : exists g1, nth_error (l_gors s1) j = Some g1 /\ bad (g_held g1) (g_todo g1)).
  { pose proof (sum_le g_held _ _ _ N) as Le. rewrite <- (li_readers s I) in Le.
    unfold lstep in E. destruct (nth_error (l_gors s) i) as [h|] eqn:Ni; [|discriminate].
    destruct (Nat.eq_dec i j) as [-> | D].
    - rewrite N in Ni. injection Ni as <-. destruct g as [d [|[| | | |] r]]; cbn [g_todo g_held bad] in *; try contradiction.
      + destruct (l_writer s); [discriminate|]. injection E as <-. eexists. split; [apply (put_same j _ _ _ N) | exact B].
      + injection E as <-. eexists. split; [apply (put_same j _ _ _ N) | exact B].
      + destruct (l_writer s); [discriminate|]. injection E as <-. eexists. split; [apply (put_same j _ _ _ N) | exact B].
      + destruct (l_readers s =? 0) eqn:Z; [|discriminate]. apply Nat.eqb_eq in Z. injection E as <-. eexists. split; [apply (put_same j _ _ _ N)|]. destruct B as [B|B]; [lia | exact B].
      + injection E as <-. eexists. split; [apply (put_same j _ _ _ N) | exact B].
    - exists g. split; [|exact B].
      destruct (g_todo h) as [|[| | | |] r]; try discriminate.
      + destruct (l_writer s); [discriminate|]. injection E as <-. cbn. rewrite put_other; assumption.
      + injection E as <-. cbn. rewrite put_other; assumption.
      + destruct (l_writer s); [discriminate|]. injection E as <-. cbn. rewrite put_other; assumption.
      + destruct (l_readers s =? 0); [|discriminate]. injection E as <-. cbn. rewrite put_other; assumption.
      + injection E as <-. cbn. rewrite put_other; assumption. }
  destruct K as (g1 & N1 & B1). exact (IH s1 s' j g1 I1 N1 B1 H).
Qed.

(** A call in which a Marshal method or a decoder registers a type never returns, whatever the others do. *)
Theorem C126_registers : forall gs sched s j cs, lrun (lstart gs) sched = Some s -> nth_error gs j = Some cs -> existsb registers_inside cs = true ->
  exists g, nth_error (l_gors s) j = Some g /\ g_todo g <> [].
Proof.
  intros gs sched s j cs H N E.
  destruct (bad_run sched (lstart gs) s j (mkG 0 (flat_map steps cs)) (linv_start gs)) as (g & Ng & B).
  - cbn. rewrite nth_error_map, N. reflexivity.
  - apply bad_calls, E.
  - exact H.
  - exists g. split; [exact Ng|]. intros T. rewrite T in B. exact B.
Qed.

Lemma inside_step s k s1 : linv s -> (forall i g r, nth_error (l_gors s) i = Some g -> g_todo g = IUnlock :: r -> l_readers s = 0) -> lstep s k = Some s1 ->
  forall i g r, nth_error (l_gors s1) i = Some g -> g_todo g = IUnlock :: r -> l_readers s1 = 0.
Proof.
  intros I J E i g r N T. unfold lstep in E. destruct (nth_error (l_gors s) k) as [h|] eqn:Nk; [|discriminate].
  pose proof (proj2 (li_bal s I h (nth_error_In _ _ Nk))) as O.
  assert (X : forall x, nth_error (put k x (l_gors s)) i = Some g -> g = x \/ nth_error (l_gors s) i = Some g).
  { intros x Y. destruct (Nat.eq_dec k i) as [<- | D]; [rewrite (put_same k x _ h Nk) in Y; left; congruence|]. rewrite put_other in Y by exact D. auto. }
  destruct (g_todo h) as [|[| | | |] q] eqn:Th; try discriminate; cbn [ordered] in O.
  - destruct (l_writer s) eqn:Ew; [discriminate|]. injection E as <-. cbn in N. destruct (X _ N) as [-> | N'].
    + cbn in T. subst q. destruct O as [O _]. discriminate.
    + rewrite (li_writer s I _ _ N') in Ew; [discriminate|]. rewrite T. reflexivity.
  - injection E as <-. cbn in N |- *. destruct (X _ N) as [-> | N'].
    + cbn in T. subst q. destruct O as [O _]. discriminate.
    + rewrite (J _ _ _ N' T). reflexivity.
  - destruct (l_writer s) eqn:Ew; [discriminate|]. injection E as <-. cbn in N. destruct O as [[q' ->] _]. destruct (X _ N) as [-> | N'].
    + discriminate.
    + rewrite (li_writer s I _ _ N') in Ew; [discriminate|]. rewrite T. reflexivity.
  - destruct (l_readers s =? 0); [|discriminate]. injection E as <-. reflexivity.
  - injection E as <-. cbn in N |- *. exact (J _ _ _ Nk Th).
Qed.

(** What the lock is for: when a call of RegisterMessage is inside, no call has the lock for reading, and no other call of RegisterMessage
    is inside. *)
Theorem C126_exclusive : forall gs sched s i g r, lrun (lstart gs) sched = Some s -> nth_error (l_gors s) i = Some g -> g_todo g = IUnlock :: r ->
  (forall h, In h (l_gors s) -> g_held h = 0) /\ (forall j h q, nth_error (l_gors s) j = Some h -> g_todo h = IUnlock :: q -> j = i).
Proof.
  intros gs sched s i g r H N T. pose proof (linv_run _ _ _ (linv_start gs) H) as I. split.
  - assert (Z : l_readers s = 0).
    { revert i g r N T. revert H. generalize (linv_start gs).
      assert (J : forall i g r, nth_error (l_gors (lstart gs)) i = Some g -> g_todo g = IUnlock :: r -> l_readers (lstart gs) = 0) by reflexivity.
      revert J. generalize (lstart gs). clear I. induction sched as [|k sched IH]; intros s0 J I0 H; cbn in H; [injection H as <-; exact J|].
      destruct (lstep s0 k) as [s1|] eqn:E; [|discriminate]. exact (IH s1 (inside_step _ _ _ I0 J E) (linv_step _ _ _ I0 E) H). }
    intros h Hh. apply In_nth_error in Hh as [j Nj]. pose proof (sum_le g_held _ _ _ Nj). rewrite <- (li_readers s I) in H0. lia.
  - intros j h q Nj Tj. pose proof (li_writer s I _ _ N) as A. pose proof (li_writer s I _ _ Nj) as B. rewrite T in A. rewrite Tj in B. specialize (A eq_refl). specialize (B eq_refl). congruence.
Qed.

(** *** A message made of messages, encoded while another type is registered *)

Definition ex_calls : list (list call) := [[Encode [Encode []; Encode []]]; [Register]].

Theorem C126_refuted : ~ C126_statement.
Proof.
  intros X. destruct (lrun (lstart ex_calls) [0; 1]) as [s|] eqn:E; [|discriminate]. specialize (X _ _ _ E). vm_compute in E. injection E as <-.
  assert (H : all_returned (mkL 1 (Some 1) [mkG 1 [IRLock; IRUnlock; IRLock; IRUnlock; IRUnlock]; mkG 0 [IEnter; IUnlock]])).
  { apply X. intros [|[|i]]; try reflexivity. unfold lstep. cbn. destruct i; reflexivity. }
  specialize (H _ (or_introl eq_refl)). discriminate.
Qed.

(** The same calls also return, on another schedule; plain calls with a registration, and nested ones without. *)
Example C126_nonvacuous :
  (exists s, lrun (lstart ex_calls) [0; 1] = Some s /\ ~ all_returned s /\ forall i, i < 5 -> lstep s i = None) /\
  (exists s, lrun (lstart ex_calls) [0; 0; 0; 0; 0; 0; 1; 1; 1] = Some s /\ all_returned s /\ l_writer s = None) /\
  Forall plain [Encode []; Register; Decode []] /\ forallb reads_only [Encode [Decode []; Encode [Encode []]]] = true /\
  (exists s, lrun (lstart [[Encode []]; [Register]]) [0; 1; 0; 1] = Some s /\ exists g, nth_error (l_gors s) 1 = Some g /\ g_todo g = [IUnlock]) /\
  existsb registers_inside [Encode []; Decode [Encode [Register]]] = true /\
  (exists s, lrun (lstart [[Encode []; Register]; [Decode []]]) [0; 1; 0; 1; 0; 0; 0] = Some s /\ all_returned s).
Proof.
  split; [|split; [|split; [|split; [|split; [|split]]]]].
  - eexists. split; [vm_compute; reflexivity|]. split; [intros H; specialize (H _ (or_introl eq_refl)); discriminate|].
    intros [|[|[|[|[|i]]]]] Hi; try reflexivity.
  - eexists. split; [vm_compute; reflexivity|]. split; [|reflexivity]. intros g [<-|[<-|[]]]; reflexivity.
  - repeat constructor.
  - reflexivity.
  - eexists. split; [vm_compute; reflexivity|]. eexists. split; reflexivity.
  - reflexivity.
  - eexists. split; [vm_compute; reflexivity|]. intros g [<-|[<-|[]]]; reflexivity.
Qed.

Print Assumptions C126_refuted.
Print Assumptions C126_partial.
Print Assumptions C126_stuck.
Print Assumptions C126_ends.
Print Assumptions C126_frozen.
Print Assumptions C126_registers.
Print Assumptions C126_exclusive.
