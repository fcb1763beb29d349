(** * C101: what peers can make a node keep in memory. *)
From Verif Require Import Base M_Table M_Mem P_Table.
From Coq Require Import Lia.
Local Open Scope nat_scope.

(** ** Spec *)

Fixpoint total (l : list nat) : nat := match l with [] => 0 | n :: r => n + total r end.
Definition size_of (h : option nat) : nat := match h with Some n => n | None => 0 end.
(** Bytes of messages received and not done with: read, queued, being handled. *)
Definition received (s : mnode) : nat :=
  total (map (fun k => size_of (mc_held k)) (mn_conns s)) + total (map snd (mn_work s)) +
  total (map (fun x => match x with MBusy _ n _ => n | MIdle => 0 end) (mn_workers s)).
(** Bytes of messages that wait to be sent on a connection, or on any. *)
Definition waiting (k : mconn) : nat := total (mc_out k) + total (mc_batch k).
Definition unsent (s : mnode) : nat := total (map waiting (mn_conns s)).

(** The handlers answer a message with at most [m] messages of at most [m] bytes each, and the application sends nothing by itself. *)
Definition answers_at_most (m : nat) (a : mact) : Prop :=
  match a with MTake _ l => length l <= m /\ Forall (fun n => n <= m) l | MSend _ _ => False | _ => True end.

(** With at most [conns] connections, of which none is closed and replaced in the meantime, a bound that depends on the configuration only. *)
Definition C101_statement : Prop := forall w limit room m conns, exists bound, forall sched s,
  mrun w limit room (new_mnode w) sched = Some s -> Forall (answers_at_most m) sched -> length (mn_conns s) <= conns ->
  received s + unsent s <= bound.

(** ** Sums *)

Lemma sum_set {A} (f : A -> nat) l : forall i x y, nth_error l i = Some x -> total (map f (set_nth i y l)) + f x = total (map f l) + f y.
Proof.
  induction l as [|z l IH]; intros [|i] x y H; cbn in *; try discriminate.
  - injection H as ->. lia.
  - specialize (IH i x y H). lia.
Qed.
Lemma sum_app {A} (f : A -> nat) l1 l2 : total (map f (l1 ++ l2)) = total (map f l1) + total (map f l2).
Proof. induction l1; cbn; lia. Qed.
Lemma sum_le {A} (f : A -> nat) m l : Forall (fun x => f x <= m) l -> total (map f l) <= length l * m.
Proof. induction 1; cbn; lia. Qed.
Lemma nth_in {A} (l : list A) i x P : Forall P l -> nth_error l i = Some x -> P x.
Proof. intros F E. rewrite Forall_forall in F. exact (F _ (nth_error_In _ _ E)). Qed.
Lemma forall_set {A} (P : A -> Prop) l : forall i x, Forall P l -> P x -> Forall P (set_nth i x l).
Proof. induction l as [|y l IH]; intros [|i] x F Q; cbn; auto; inversion F; subst; constructor; auto. Qed.

Ltac mcases H :=
  repeat match type of H with
  | context [match nth_error ?l ?i with _ => _ end] => let E := fresh "E" in destruct (nth_error l i) eqn:E; try discriminate H
  | context [match ?x with mkMC _ _ _ _ _ => _ end] => let u := fresh "u" in let h := fresh "h" in let o := fresh "o" in let b := fresh "b" in let k := fresh "k" in destruct x as [u h o b k]
  | context [match ?x with Some _ => _ | None => _ end] => is_var x; destruct x; try discriminate H
  | context [match ?x with MIdle => _ | MBusy _ _ _ => _ end] => is_var x; destruct x; try discriminate H
  | context [match ?x with [] => _ | _ :: _ => _ end] => let E := fresh "L" in destruct x eqn:E; try discriminate H
  | context [match ?x with (_, _) => _ end] => is_var x; destruct x
  | context [if ?b then _ else _] => is_var b; destruct b; try discriminate H
  | context [if ?b then _ else _] => let E := fresh "B" in destruct b eqn:E; try discriminate H
  end; try (injection H as <-).

(** ** Receiving is bounded *)

Definition small (w limit : nat) (s : mnode) : Prop :=
  Forall (fun k => size_of (mc_held k) <= limit) (mn_conns s) /\ Forall (fun x => snd x <= limit) (mn_work s) /\
  Forall (fun x => match x with MBusy _ n _ => n | MIdle => 0 end <= limit) (mn_workers s) /\
  length (mn_work s) <= w /\ length (mn_workers s) = w.

Lemma small_step w limit room s a s1 : mstep w limit room s a = Some s1 -> small w limit s -> small w limit s1.
Proof.
  intros H (F1 & F2 & F3 & L1 & L2). unfold small. destruct a; cbn in H; mcases H; cbn [mn_conns mn_work mn_workers set_conn] in *;
    try (match goal with E : nth_error (mn_conns _) _ = Some _ |- _ => pose proof (nth_in _ _ _ _ F1 E) as X1 end);
    try (match goal with E : nth_error (mn_workers _) _ = Some _ |- _ => pose proof (nth_in _ _ _ _ F3 E) as X3 end);
    cbn [size_of mc_held] in *; rewrite ?set_nth_length, ?app_length; cbn [length].
  - split; [apply Forall_app; split; [exact F1 | repeat constructor; cbn; lia]|]. auto.
  - split; [apply forall_set; [exact F1 | cbn; lia]|]. auto.
  - apply Nat.ltb_ge in B. split; [apply forall_set; [exact F1 | cbn; lia]|]. auto.
  - split; [apply forall_set; [exact F1 | cbn; lia]|]. auto.
  - apply Nat.ltb_lt in B. split; [apply forall_set; [exact F1 | cbn; lia]|]. split; [apply Forall_app; split; [exact F2 | repeat constructor; cbn; lia]|].
    split; [exact F3|]. split; [lia | exact L2].
  - inversion F2 as [|x y G1 G2]; subst. cbn in G1, L1. split; [exact F1|]. split; [exact G2|]. split; [apply forall_set; [exact F3 | exact G1]|]. split; [lia | reflexivity].
  - split; [apply forall_set; [exact F1 | assumption]|]. split; [exact F2|]. split; [apply forall_set; [exact F3 | assumption]|]. auto.
  - split; [exact F1|]. split; [exact F2|]. split; [apply forall_set; [exact F3 | lia]|]. auto.
  - split; [apply forall_set; [exact F1 | assumption]|]. auto.
  - split; [apply forall_set; [exact F1 | assumption]|]. auto.
  - split; [apply forall_set; [exact F1 | assumption]|]. auto.
  - split; [apply forall_set; [exact F1 | assumption]|]. auto.
  - split; [apply forall_set; [exact F1 | assumption]|]. auto.
Qed.
Lemma mrun_inv w limit room (P : mnode -> Prop) (Q : mact -> Prop) : (forall s a s1, mstep w limit room s a = Some s1 -> Q a -> P s -> P s1) ->
  forall l s s1, mrun w limit room s l = Some s1 -> Forall Q l -> P s -> P s1.
Proof.
  intros St. induction l as [|a l IH]; intros s s1 H F Ps; cbn in H; [injection H as <-; exact Ps|]. inversion F; subst.
  destruct (mstep w limit room s a) as [s0|] eqn:E; [|discriminate]. eauto.
Qed.
Lemma small_bound w limit s : small w limit s -> received s <= (length (mn_conns s) + 2 * w) * limit.
Proof.
  intros (F1 & F2 & F3 & L1 & L2). unfold received. pose proof (sum_le _ _ _ F1). pose proof (sum_le _ _ _ F2). pose proof (sum_le _ _ _ F3). nia.
Qed.

(** Whatever peers, handlers and the application do, the bytes received and not done with are at most one message per connection and two
    per worker. *)
Theorem C101_received : forall w limit room sched s, mrun w limit room (new_mnode w) sched = Some s ->
  received s <= (length (mn_conns s) + 2 * w) * limit.
Proof.
  intros w limit room sched s R. apply small_bound. apply (mrun_inv w limit room (small w limit) (fun _ => True)) with (l := sched) (s := new_mnode w); auto.
  - intros s0 a s1 H _. exact (small_step _ _ _ _ _ _ H).
  - apply Forall_forall. auto.
  - unfold small, new_mnode. cbn. split; [constructor|]. split; [constructor|]. split; [|split; [lia | apply repeat_length]].
    apply Forall_forall. intros x I. apply repeat_spec in I as ->. lia.
Qed.
Print Assumptions C101_received.

(** ** Sending is not *)

Lemma mrun_app w limit room l1 : forall s l2, mrun w limit room s (l1 ++ l2) = match mrun w limit room s l1 with Some s1 => mrun w limit room s1 l2 | None => None end.
Proof. induction l1 as [|a l1 IH]; intros s l2; cbn; [reflexivity|]. destruct (mstep w limit room s a); auto. Qed.

Section Flood.
  Variables w limit room : nat.
  Definition flooded (o b : list nat) (k : nat) : mnode := mkMN [mkMC true None o b k] [] (repeat MIdle (S w)).
  Definition once : list mact := [MRecv 0 1; MPut 0; MTake 0 [1]; MAnswer 0; MFinish 0].
  Lemma once_run o b k : mrun (S w) (S limit) room (flooded o b k) once = Some (flooded (o ++ [1]) b k).
  Proof. reflexivity. Qed.
  Fixpoint times (n : nat) (l : list mact) : list mact := match n with 0 => [] | S m => l ++ times m l end.
  Lemma flood n : forall o b k, mrun (S w) (S limit) room (flooded o b k) (times n once) = Some (flooded (o ++ repeat 1 n) b k).
  Proof.
    induction n as [|n IH]; intros o b k; [cbn; rewrite app_nil_r; reflexivity|]. cbn [times]. rewrite mrun_app, once_run, IH. cbn [repeat].
    rewrite <- app_assoc. reflexivity.
  Qed.
  Lemma fill_one k : k < room -> mrun (S w) (S limit) room (flooded [] [] k) (once ++ [MBatch 0; MWrite 0]) = Some (flooded [] [] (k + 1)).
  Proof. intros L. rewrite mrun_app, once_run. cbn -[Nat.ltb]. apply Nat.ltb_lt in L as ->. reflexivity. Qed.
  Lemma fill n : forall k, k + n <= room -> mrun (S w) (S limit) room (flooded [] [] k) (times n (once ++ [MBatch 0; MWrite 0])) = Some (flooded [] [] (k + n)).
  Proof.
    induction n as [|n IH]; intros k L; [cbn; rewrite Nat.add_0_r; reflexivity|]. cbn [times]. rewrite mrun_app, fill_one by lia. rewrite IH by lia.
    do 2 f_equal. lia.
  Qed.
  Lemma times_all (Q : mact -> Prop) n l : Forall Q l -> Forall Q (times n l).
  Proof. intros F. induction n; cbn; [constructor | apply Forall_app; auto]. Qed.
  Lemma total_repeat n : total (repeat 1 n) = n.
  Proof. induction n; cbn; auto. Qed.
End Flood.

(** One peer that sends one-byte messages, each answered by one byte, and reads nothing: it makes the node keep as much as it likes, while
    the connection is up and the node's writer is waiting for the peer. *)
Theorem C101_unbounded : forall w limit room n, 0 < w -> 0 < limit -> exists sched s,
  mrun w limit room (new_mnode w) sched = Some s /\ Forall (answers_at_most 1) sched /\ (forall c m, ~ In (MPeerReads c m) sched) /\
  length (mn_conns s) = 1 /\ Forall (fun k => mc_up k = true) (mn_conns s) /\ n <= unsent s /\
  mstep w limit room s (MBatch 0) = None /\ mstep w limit room s (MWrite 0) = None.
Proof.
  intros w limit room n W L. destruct w as [|w]; [lia|]. destruct limit as [|limit]; [lia|].
  exists (MConnect :: times room (once ++ [MBatch 0; MWrite 0]) ++ (once ++ [MBatch 0]) ++ times n once), (flooded w (repeat 1 n) [1] room).
  assert (R : mrun (S w) (S limit) room (new_mnode (S w)) (MConnect :: times room (once ++ [MBatch 0; MWrite 0]) ++ (once ++ [MBatch 0]) ++ times n once) =
              Some (flooded w (repeat 1 n) [1] room)).
  { cbn [mrun mstep new_mnode mn_conns app mn_work mn_workers]. change (mkMN [mkMC true None [] [] 0] [] (repeat MIdle (S w))) with (flooded w [] [] 0).
    rewrite mrun_app, fill by lia. rewrite mrun_app, mrun_app, once_run. cbn [app]. cbn [mrun mstep flooded mn_conns nth_error set_conn set_nth mn_work mn_workers].
    exact (flood w limit room n [] [1] (0 + room)). }
  split; [exact R|].
  assert (A : Forall (answers_at_most 1) (once ++ [MBatch 0; MWrite 0]) /\ Forall (answers_at_most 1) (once ++ [MBatch 0]) /\ Forall (answers_at_most 1) once).
  { split; [|split]; repeat constructor; cbn; lia. }
  assert (B : Forall (fun a => forall c m, a <> MPeerReads c m) (once ++ [MBatch 0; MWrite 0]) /\ Forall (fun a => forall c m, a <> MPeerReads c m) (once ++ [MBatch 0])
              /\ Forall (fun a => forall c m, a <> MPeerReads c m) once).
  { split; [|split]; repeat constructor; discriminate. }
  split; [|split; [|split; [|split; [|split; [|split]]]]].
  - destruct A as (A1 & A2 & A3). constructor; [exact Logic.I|]. apply Forall_app. split; [apply times_all; exact A1|]. apply Forall_app. split; [exact A2 | apply times_all; exact A3].
  - destruct B as (A1 & A2 & A3). intros c m I.
    assert (F : Forall (fun a => forall c m, a <> MPeerReads c m) (MConnect :: times room (once ++ [MBatch 0; MWrite 0]) ++ (once ++ [MBatch 0]) ++ times n once)).
    { constructor; [discriminate|]. apply Forall_app. split; [apply times_all; exact A1|]. apply Forall_app. split; [exact A2 | apply times_all; exact A3]. }
    rewrite Forall_forall in F. exact (F _ I c m eq_refl).
  - reflexivity.
  - repeat constructor.
  - unfold unsent, flooded, waiting. cbn. rewrite total_repeat. lia.
  - cbn. destruct (repeat 1 n); reflexivity.
  - cbn -[Nat.ltb]. rewrite Nat.ltb_irrefl. reflexivity.
Qed.
Print Assumptions C101_unbounded.

Theorem C101_refuted : ~ C101_statement.
Proof.
  intros H. destruct (H 1 1 0 1 1) as [bound B]. destruct (C101_unbounded 1 1 0 (S bound)) as (sched & s & R & A & _ & L & _ & U & _); [lia..|].
  specialize (B sched s R A). lia.
Qed.
Print Assumptions C101_refuted.

(** ** A peer that waits for its answers *)

(** Nothing of what the peer on [c] has caused is left. *)
Definition settled (s : mnode) (c : nat) : Prop :=
  (forall n, ~ In (c, n) (mn_work s)) /\ (forall n l, ~ In (MBusy c n l) (mn_workers s)) /\
  forall k, nth_error (mn_conns s) c = Some k -> mc_held k = None /\ waiting k = 0.
Fixpoint patient (w limit room : nat) (s : mnode) (l : list mact) : Prop :=
  match l with
  | [] => True
  | a :: r => match a with MRecv c _ => settled s c | _ => True end /\
              match mstep w limit room s a with Some s1 => patient w limit room s1 r | None => True end
  end.

Definition busy_for (c : nat) (x : mworker) : nat := match x with MBusy d _ l => if d =? c then total l else 0 | MIdle => 0 end.
Definition queued_for (b c : nat) (x : nat * nat) : nat := if fst x =? c then b else 0.
Definition pot (b : nat) (s : mnode) (c : nat) (k : mconn) : nat :=
  match mc_held k with Some _ => b | None => 0 end + total (map (queued_for b c) (mn_work s)) + total (map (busy_for c) (mn_workers s)) + waiting k.
Definition pots (m : nat) (s : mnode) : Prop := forall c k, nth_error (mn_conns s) c = Some k -> pot (m * m) s c k <= m * m.
Definition in_range (s : mnode) : Prop :=
  Forall (fun x => fst x < length (mn_conns s)) (mn_work s) /\ Forall (fun x => match x with MBusy c _ _ => c < length (mn_conns s) | MIdle => True end) (mn_workers s).

Lemma total_small m l : length l <= m -> Forall (fun n => n <= m) l -> total l <= m * m.
Proof. intros L F. assert (total l <= length l * m) by (clear L; induction F; cbn; lia). nia. Qed.
Lemma nth_set {A} (l : list A) : forall i j y x, nth_error l i = Some x -> nth_error (set_nth i y l) j = if j =? i then Some y else nth_error l j.
Proof.
  induction l as [|z l IH]; intros [|i] [|j] y x H; cbn in *; try discriminate; auto. exact (IH i j y x H).
Qed.
Lemma total_0 {A} (f : A -> nat) l : (forall x, In x l -> f x = 0) -> total (map f l) = 0.
Proof. induction l as [|x l IH]; intros H; cbn; [reflexivity|]. rewrite (H x (or_introl eq_refl)), IH; [reflexivity|]. intros y I. apply H. right. exact I. Qed.

Lemma range_step w limit room s a s1 : mstep w limit room s a = Some s1 -> in_range s -> in_range s1.
Proof.
  intros H (R1 & R2). unfold in_range. destruct a; cbn in H; mcases H; cbn [mn_conns mn_work mn_workers set_conn] in *; rewrite ?set_nth_length, ?app_length;
    try (split; assumption).
  - split; (eapply Forall_impl; [|eassumption]); intros x Hx; [|destruct x; [exact Logic.I|]]; cbn in *; lia.
  - split; [apply Forall_app; split; [exact R1|] | exact R2]. constructor; [|constructor]. cbn. apply nth_error_Some. congruence.
  - inversion R1 as [|x y G1 G2]; subst. split; [exact G2|]. apply forall_set; [exact R2 | exact G1].
  - split; [exact R1|]. apply forall_set; [exact R2|]. apply nth_error_Some. congruence.
  - split; [exact R1|]. apply forall_set; [exact R2 | exact Logic.I].
Qed.

Lemma pots_step w limit room m s a s1 : mstep w limit room s a = Some s1 -> answers_at_most m a -> match a with MRecv c _ => settled s c | _ => True end ->
  in_range s -> pots m s -> pots m s1.
Proof.
  intros H A Pt (R1 & R2) P c k Hk.
  assert (Busy0 : forall d, length (mn_conns s) <= d -> total (map (queued_for (m * m) d) (mn_work s)) = 0 /\ total (map (busy_for d) (mn_workers s)) = 0).
  { intros d Ld. split; apply total_0; intros x I; rewrite Forall_forall in R1, R2.
    - specialize (R1 _ I). unfold queued_for. destruct (Nat.eqb_spec (fst x) d); lia.
    - specialize (R2 _ I). unfold busy_for. destruct x as [|e n l]; [reflexivity|]. destruct (Nat.eqb_spec e d); lia. }
  destruct a; cbn in H; mcases H; unfold pot in *; cbn [mn_conns mn_work mn_workers set_conn] in *.
  all: try (match goal with P : pots _ _, Hk : nth_error (set_nth _ _ _) ?c = Some _, E : nth_error (mn_conns _) ?d = Some ?x |- _ =>
              rewrite (nth_set _ _ _ _ _ E) in Hk; pose proof (P _ _ E) as PE; unfold pot in PE; cbn [mc_held] in PE;
              destruct (Nat.eqb_spec c d) as [Ec|Nc]; [subst d; injection Hk as <-; cbn [mc_held] | pose proof (P _ _ Hk) as PK; unfold pot in PK] end).
  all: unfold waiting in *; cbn [mc_out mc_batch total] in *.
  all: repeat rewrite sum_app; cbn [map total].
  all: try lia.
  all: try (match goal with |- context [total (?o ++ [?n])] => rewrite <- (map_id (o ++ [n])), sum_app, !map_id; cbn [map total] end).
  all: try lia.
  - destruct (Nat.lt_ge_cases c (length (mn_conns s))) as [Lc|Lc].
    + rewrite nth_error_app1 in Hk by exact Lc. exact (P _ _ Hk).
    + rewrite nth_error_app2 in Hk by exact Lc. destruct (c - length (mn_conns s)) as [|[|?]]; cbn in Hk; try discriminate. injection Hk as <-. cbn.
      destruct (Busy0 c Lc) as [-> ->]. lia.
  - destruct Pt as (S1 & S2 & S3). destruct (S3 _ E) as [_ W0]. unfold waiting in W0. cbn in W0.
    rewrite (total_0 (queued_for (m * m) c)), (total_0 (busy_for c)); [lia | |].
    + intros [|d n' l] I; cbn; [reflexivity|]. destruct (Nat.eqb_spec d c) as [->|_]; [destruct (S2 _ _ I) | reflexivity].
    + intros [d n'] I. unfold queued_for. cbn. destruct (Nat.eqb_spec d c) as [->|_]; [destruct (S1 _ I) | reflexivity].
  - unfold queued_for at 2. cbn [fst]. rewrite Nat.eqb_refl. lia.
  - unfold queued_for at 2. cbn [fst]. destruct (Nat.eqb_spec c0 c); [congruence | lia].
  - pose proof (sum_set (busy_for c) _ _ _ (MBusy n n0 answers) E) as X. cbn [busy_for] in X. pose proof (P _ _ Hk) as PK. unfold pot, waiting in PK. rewrite L in PK. cbn [map total] in PK.
    unfold queued_for at 1 in PK. cbn [fst] in PK. destruct A as [A1 A2]. pose proof (total_small m answers A1 A2). destruct (n =? c); lia.
  - pose proof (sum_set (busy_for c) _ _ _ (MBusy c n l) E) as X. cbn [busy_for total] in X. rewrite Nat.eqb_refl in X. lia.
  - pose proof (sum_set (busy_for c) _ _ _ (MBusy c0 n l) E) as X. cbn [busy_for total] in X. destruct (Nat.eqb_spec c0 c); [congruence | lia].
  - pose proof (sum_set (busy_for c) _ _ _ MIdle E) as X. cbn [busy_for total] in X. pose proof (P _ _ Hk) as PK. unfold pot, waiting in PK. destruct (c0 =? c); lia.
  - destruct A.
Qed.

Lemma patient_run w limit room m l : forall s s1, mrun w limit room s l = Some s1 -> patient w limit room s l -> Forall (answers_at_most m) l ->
  in_range s -> pots m s -> pots m s1.
Proof.
  induction l as [|a l IH]; intros s s1 H Pt F R P; cbn in H, Pt; [injection H as <-; exact P|]. inversion F; subst.
  destruct (mstep w limit room s a) as [s0|] eqn:E; [|discriminate]. destruct Pt as [P1 P2].
  apply (IH s0 s1 H P2); auto; [exact (range_step _ _ _ _ _ _ E R) | eapply pots_step; eauto].
Qed.

(** If no peer sends a message before everything its last one has caused is over and its answers are written, then a node whose handlers
    answer a message with at most [m] messages of at most [m] bytes keeps, besides what it has received, at most [m * m] bytes per
    connection; in particular nothing if the handlers do not answer. *)
Theorem C101_partial : forall w limit room m sched s, mrun w limit room (new_mnode w) sched = Some s -> Forall (answers_at_most m) sched ->
  patient w limit room (new_mnode w) sched \/ m = 0 ->
  received s + unsent s <= (length (mn_conns s) + 2 * w) * limit + length (mn_conns s) * (m * m).
Proof.
  intros w limit room m sched s R A Pt. pose proof (C101_received _ _ _ _ _ R) as B.
  enough (P : forall c k, nth_error (mn_conns s) c = Some k -> waiting k <= m * m).
  { assert (Forall (fun k => waiting k <= m * m) (mn_conns s)) as F.
    { apply Forall_forall. intros k I. apply In_nth_error in I as [c I]. exact (P c k I). }
    pose proof (sum_le _ _ _ F) as X. fold (unsent s) in X. lia. }
  destruct Pt as [Pt| ->].
  - assert (Q : pots m s).
    { apply (patient_run _ _ _ _ _ _ _ R Pt A); unfold in_range, pots, new_mnode; cbn.
      - split; [constructor|]. apply Forall_forall. intros x I. apply repeat_spec in I as ->. exact Logic.I.
      - intros [|c] k; discriminate. }
    intros c k E. specialize (Q c k E). unfold pot in Q. lia.
  - assert (Q : Forall (fun k => waiting k = 0) (mn_conns s) /\ Forall (fun x => match x with MBusy _ _ l => l = [] | MIdle => True end) (mn_workers s)).
    { refine (mrun_inv w limit room (fun s => Forall (fun k => waiting k = 0) (mn_conns s) /\ Forall (fun x => match x with MBusy _ _ l => l = [] | MIdle => True end) (mn_workers s)) _ _ _ _ _ R A _).
      - clear. intros s a s1 H A [F1 F2].
        destruct a; cbn in H; mcases H; cbn [mn_conns mn_work mn_workers set_conn] in *;
          try (match goal with E : nth_error (mn_conns _) _ = Some _ |- _ => pose proof (nth_in _ _ _ _ F1 E) as X1 end);
          try (match goal with E : nth_error (mn_workers _) _ = Some _ |- _ => pose proof (nth_in _ _ _ _ F2 E) as X3 end);
          unfold waiting in *; cbn [mc_out mc_batch total] in *;
          try (split; [apply forall_set; [exact F1 | cbn; lia] | exact F2]).
        + split; [apply Forall_app; split; [exact F1 | repeat constructor] | exact F2].
        + destruct A as [A _]. destruct answers; [|cbn in A; lia]. split; [exact F1 | apply forall_set; [exact F2 | reflexivity]].
        + discriminate X3.
        + split; [exact F1 | apply forall_set; [exact F2 | exact Logic.I]].
        + destruct A.
      - cbn. split; [constructor|]. apply Forall_forall. intros x I. apply repeat_spec in I as ->. exact Logic.I. }
    intros c k E. rewrite (nth_in _ _ _ _ (proj1 Q) E). lia.
Qed.
Print Assumptions C101_partial.

(** Two peers, two workers: one waits for its two answers, then sends again. *)
Definition ex_patient : list mact :=
  [MConnect; MConnect; MRecv 0 5; MPut 0; MRecv 1 4; MTake 1 [2; 1]; MPut 1; MAnswer 1; MTake 0 [2]; MAnswer 1; MBatch 0; MFinish 1; MWrite 0; MWrite 0; MRecv 0 3; MAnswer 0].
Example C101_nonvacuous : exists s, mrun 2 5 10 (new_mnode 2) ex_patient = Some s /\ Forall (answers_at_most 2) ex_patient /\ patient 2 5 10 (new_mnode 2) ex_patient /\
  received s = 7 /\ unsent s = 2.
Proof.
  eexists. split; [vm_compute; reflexivity|]. split; [repeat constructor|]. split; [|split; reflexivity].
  cbn. unfold settled. cbn.
  repeat match goal with |- True => exact Logic.I | |- _ /\ _ => split | |- forall _, _ => intro | H : _ \/ _ |- _ => destruct H | H : False |- _ => destruct H
    | H : _ = _ |- _ => first [discriminate H | injection H; clear H; intros; subst] | |- ~ _ => intro | |- _ = _ => reflexivity end.
Qed.
