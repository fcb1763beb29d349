(** * C102: several Finds on one Iterator. *)
From Verif Require Import Base Spec M_ID M_Table M_Iter M_Share P_Table P_Iter Props_Kad Props_Iter Props_Discover.
Local Open Scope nat_scope.

(** ** Spec *)

Definition on_a_table (a : sact) : Prop := match a with SFind t _ => exists self ops, table_of self ops t | _ => True end.
(** What a call has asked, heard and found is what a Find on an Iterator of its own does. *)
Definition as_new (n k : Z) (q : scall) : Prop := exists sched v, find_run (sc_table q) (sc_target q) n k sched v /\
  i_found v = sc_found q /\ i_done v = sc_done q /\ i_asked v = sc_asked q /\ i_answered v = sc_answered q.

(** Find may be called on an Iterator at any time. *)
Definition C102_statement : Prop := forall n k acts, (0 < n)%Z -> (0 <= k)%Z -> Forall on_a_table acts ->
  srun n k new_share acts <> Crashed /\
  forall s q, srun n k new_share acts = Next s -> In q (sh_calls s) -> as_new n k q.

(** Each Find is called when the ones before have returned. *)
Fixpoint one_by_one (n k : Z) (s : share) (l : list sact) : Prop :=
  match l with
  | [] => True
  | a :: r => match a with SFind _ _ => Forall (fun q => sc_done q = true) (sh_calls s) | _ => True end /\
              match sstep n k s a with Next s1 => one_by_one n k s1 r | _ => True end
  end.

(** ** One after another *)

Definition idle (l : lookup) : Prop := l_pc l = LDone /\ Forall (eq WExit) (l_workers l).
Definition ended (q : scall) : Prop := sc_done q = true /\ sc_over q = true /\ sc_chan q <> None /\ Forall idle (sc_lookups q).

Lemma with_buckets_idle ls : forall bs, Forall idle ls -> Forall idle (with_buckets ls bs).
Proof. induction ls as [|l ls IH]; intros [|b bs] F; cbn; auto. inversion F as [|x y [X1 X2] Y]; subst. constructor; [split; auto | auto]. Qed.
Definition of_lookup (a : iaction) : Prop := match a with ACollect | AFindEnd | ACloseResults => False | _ => True end.
Lemma stuck k v a : Forall idle (i_lookups v) -> of_lookup a -> istep k v a = None.
Proof.
  intros F A.
  assert (N : forall i l, nth_error (i_lookups v) i = Some l -> l_pc l = LDone /\ forall j w, nth_error (l_workers l) j = Some w -> w = WExit).
  { intros i l E. rewrite Forall_forall in F. destruct (F _ (nth_error_In _ _ E)) as [P W]. split; [exact P|]. intros j w Ew. rewrite Forall_forall in W.
    symmetry. exact (W _ (nth_error_In _ _ Ew)). }
  destruct a; try destruct A; cbn; (destruct (nth_error (i_lookups v) i) as [l|] eqn:E; [|reflexivity]; destruct (N _ _ E) as [P W]).
  all: try (destruct l as [pc b q o p ws]; cbn in P; subst; reflexivity).
  all: destruct (nth_error (l_workers l) j) eqn:Ew; [|reflexivity]; rewrite (W _ _ Ew); reflexivity.
Qed.
Lemma sok_idle k v : sok k v -> i_closed v = true -> Forall idle (i_lookups v).
Proof.
  intros (L & C & _) E. specialize (C E). apply Forall_forall. intros l I. rewrite forallb_forall in C. pose proof (C l I) as P. unfold is_ldone in P.
  apply In_nth_error in I as [i I]. pose proof (L i l I) as Lk. assert (Pc : l_pc l = LDone) by (destruct (l_pc l); try discriminate; reflexivity).
  split; [exact Pc|]. apply Forall_forall. intros w W. apply In_nth_error in W as [j W]. pose proof (lok_done _ _ Lk Pc) as X. pose proof (lok_workers _ _ Lk) as Y.
  destruct (is_exit w) eqn:Ex; [destruct w; try discriminate; reflexivity|]. pose proof (exits_lt _ _ _ W Ex). lia.
Qed.
Lemma find_run_sok t target n k sched v : find_run t target n k sched v -> sok (Z.to_nat k) v.
Proof. intros (peers & s0 & _ & EI & ER). exact (run_sok _ _ _ _ ER (init_sok _ _ _ _ _ _ EI)). Qed.
Lemma irun_end k l : forall s v a v1, irun k s l = Some v -> istep k v a = Some v1 -> irun k s (l ++ [a]) = Some v1.
Proof.
  induction l as [|b l IH]; intros s v a v1 H E; cbn in *; [injection H as ->; rewrite E; reflexivity|].
  destruct (istep k s b); [eauto | discriminate].
Qed.
Lemma find_run_snoc t target n k sched v a v1 : find_run t target n k sched v -> istep (Z.to_nat k) v a = Some v1 -> find_run t target n k (sched ++ [a]) v1.
Proof. intros (peers & s0 & EP & EI & ER) E. exists peers, s0. split; [exact EP|]. split; [exact EI|]. exact (irun_end _ _ _ _ _ _ ER E). Qed.

(** An ended call does nothing more, whatever has become of the fields. *)
Lemma ended_blocked n k s c q a : nth_error (sh_calls s) c = Some q -> ended q ->
  sstep n k s (SRange c) = Blocked /\ match sstep n k s (SMove c a) with Blocked => True | _ => False end.
Proof.
  intros E (D & O & Ch & F). split.
  - cbn. rewrite E. destruct q as [t tg ch ls f o d x y]. cbn in Ch. destruct ch; [reflexivity | congruence].
  - cbn [sstep]. rewrite E. set (oi := match a with ACollect | AFindEnd => sc_chan q | _ => Some (sh_cur s) end). destruct oi as [i|]; [|exact Logic.I].
    destruct (nth_error (sh_chans s) i) as [ch|]; [|exact Logic.I].
    assert (St : forall r b, of_lookup a -> istep (Z.to_nat k) (view s q (r, b)) a = None).
    { intros r b Ha. apply stuck; [apply with_buckets_idle, F | exact Ha]. }
    destruct ch as [r b]. destruct a; try (rewrite St by exact Logic.I; exact Logic.I).
    + cbn [snd]. destruct b; rewrite St by exact Logic.I; exact Logic.I.
    + cbn. rewrite D. destruct r; exact Logic.I.
    + cbn. rewrite O, andb_false_r. exact Logic.I.
    + cbn. rewrite D, andb_false_r. destruct r; exact Logic.I.
Qed.

Definition current (n k : Z) (s : share) : Prop :=
  Forall ended (sh_calls s) \/
  exists before q ch sched, sh_calls s = before ++ [q] /\ Forall ended before /\ sc_done q = false /\
    nth_error (sh_chans s) (sh_cur s) = Some ch /\ snd ch = sc_over q /\ (sc_chan q = None \/ sc_chan q = Some (sh_cur s)) /\
    length (sh_buckets s) = length (sc_lookups q) /\ find_run (sc_table q) (sc_target q) n k sched (view s q ch).
Definition inv (n k : Z) (s : share) : Prop := Forall (as_new n k) (sh_calls s) /\ current n k s.

Lemma with_buckets_own ls : with_buckets ls (map l_bucket ls) = ls.
Proof. induction ls as [|[pc b q o p ws] ls IH]; cbn; [reflexivity|]. rewrite IH. reflexivity. Qed.
Lemma with_buckets_length ls : forall bs, length (with_buckets ls bs) = length ls.
Proof. induction ls as [|l ls IH]; intros [|b bs]; cbn; auto. Qed.
Lemma nth_last {A} (l : list A) x : nth_error (l ++ [x]) (length l) = Some x.
Proof. rewrite nth_error_app2 by lia. rewrite Nat.sub_diag. reflexivity. Qed.
Lemma set_last {A} (l : list A) x y : set_nth (length l) y (l ++ [x]) = l ++ [y].
Proof. induction l; cbn; [reflexivity|]. rewrite IHl. reflexivity. Qed.
Lemma nth_set_same {A} (l : list A) : forall i x y, nth_error l i = Some x -> nth_error (set_nth i y l) i = Some y.
Proof. induction l as [|z l IH]; intros [|i] x y H; cbn in *; try discriminate; auto. eauto. Qed.

(** What a step of a goroutine of the only call still running leaves. *)
Lemma stored n k s before q ch sched v over : sh_calls s = before ++ [q] -> Forall ended before -> Forall (as_new n k) (sh_calls s) ->
  nth_error (sh_chans s) (sh_cur s) = Some ch -> (sc_chan q = None \/ sc_chan q = Some (sh_cur s)) ->
  find_run (sc_table q) (sc_target q) n k sched v -> i_closed v = over -> (i_done v = true -> sc_chan q <> None) ->
  inv n k (store s (length before) q (sh_cur s) over v).
Proof.
  intros EC Eb As Ech Cq R Ov Dn. unfold inv, store. cbn [sh_calls sh_chans sh_cur sh_visited sh_buckets]. rewrite EC, set_last.
  rewrite EC in As. apply Forall_app in As as [As _]. split.
  - apply Forall_app. split; [exact As|]. constructor; [|constructor]. exists sched, v. cbn. auto.
  - destruct (i_done v) eqn:D.
    + left. cbn [sh_calls]. apply Forall_app. split; [exact Eb|]. constructor; [|constructor]. unfold ended. cbn. split; [reflexivity|].
      pose proof (find_run_sok _ _ _ _ _ _ R) as Sk. destruct Sk as (Sk1 & Sk2 & Sk3). destruct (Sk3 D) as [Cl _].
      split; [congruence|]. split; [auto|]. apply (sok_idle (Z.to_nat k)); [split; auto | exact Cl].
    + right. eexists before, _, (i_results v, i_closed v), sched. cbn [sh_calls sh_chans sh_cur sh_visited sh_buckets]. split; [reflexivity|]. cbn [sc_done sc_over sc_chan sc_lookups sc_table sc_target].
      split; [exact Eb|]. split; [reflexivity|]. split; [exact (nth_set_same _ _ _ _ Ech)|]. split; [exact Ov|]. split; [exact Cq|].
      split; [rewrite map_length; reflexivity|]. unfold view. cbn [sh_visited sh_buckets sc_lookups sc_found sc_done sc_asked sc_answered fst snd].
      rewrite with_buckets_own. destruct v; cbn in *; subst. exact R.
Qed.

(** The table's peers can be read, and init succeeds with positive options. *)
Lemma init_ok t target n k : (0 < n)%Z -> (0 <= k)%Z -> (exists self ops, table_of self ops t) ->
  exists peers v, Peers t = Ok peers /\ iter_init (id_key (t_self t)) target peers n k = Ok v.
Proof.
  intros Hn Hk (self & ops & T). destruct (C15_structure _ _ _ T) as (es & _ & _ & _ & _ & _ & _ & _ & _ & _ & peers & EP). exists peers.
  destruct (iter_init (id_key (t_self t)) target peers n k) as [v|e|] eqn:E; [eauto | destruct (iter_init_no_err _ _ _ _ _ _ E)|].
  apply C24_options in E. lia.
Qed.

Lemma inv_step n k s a : (0 < n)%Z -> (0 <= k)%Z -> on_a_table a -> match a with SFind _ _ => Forall (fun q => sc_done q = true) (sh_calls s) | _ => True end ->
  inv n k s -> match sstep n k s a with Crashed => False | Blocked => True | Next s1 => inv n k s1 end.
Proof.
  intros Hn Hk T O [As Cu]. destruct a as [t target|c|c a].
  - cbn [sstep]. destruct (init_ok t target n k Hn Hk T) as (peers & v & EP & EI). rewrite EP. cbn [bind]. rewrite EI.
    assert (En : Forall ended (sh_calls s)).
    { destruct Cu as [En|(before & q & ch & sched & EC & _ & D & _)]; [exact En|]. rewrite EC in O. apply Forall_app in O as [_ O]. inversion O; congruence. }
    destruct (iter_init_inv _ _ _ _ _ _ EI) as (_ & _ & _ & Er & Ec & Ef & Ed & Ea & Ew).
    assert (R : find_run t target n k [] v) by (exists peers, v; auto).
    split; cbn [sh_calls sh_chans sh_cur sh_visited sh_buckets].
    + apply Forall_app. split; [exact As|]. constructor; [|constructor]. exists [], v. cbn. auto.
    + right. eexists (sh_calls s), _, ([], false), []. cbn [sh_calls sh_chans sh_cur sh_visited sh_buckets]. split; [reflexivity|].
      cbn [sc_done sc_over sc_chan sc_lookups sc_table sc_target]. split; [exact En|]. split; [reflexivity|]. split; [apply nth_last|]. split; [reflexivity|].
      split; [left; reflexivity|]. split; [apply map_length|]. unfold view. cbn. rewrite with_buckets_own. destruct v; cbn in *; subst. exact R.
  - destruct (nth_error (sh_calls s) c) as [q|] eqn:E; [|cbn; rewrite E; exact Logic.I].
    assert (B : ended q -> sstep n k s (SRange c) = Blocked) by (intros En; apply (ended_blocked n k s c q ACollect E En)).
    destruct Cu as [En|(before & p & ch & sched & EC & Eb & D & Ech & Sch & Cq & Lb & R)].
    + rewrite B; [exact Logic.I|]. rewrite Forall_forall in En. exact (En _ (nth_error_In _ _ E)).
    + destruct (Nat.lt_ge_cases c (length before)) as [Lc|Lc].
      { rewrite B; [exact Logic.I|]. rewrite Forall_forall in Eb. apply Eb. rewrite EC, nth_error_app1 in E by exact Lc. exact (nth_error_In _ _ E). }
      assert (c = length before) as ->. { assert (c < length (sh_calls s)) by (apply nth_error_Some; congruence). rewrite EC, app_length in H. cbn in H. lia. }
      rewrite EC, nth_last in E. injection E as ->. cbn [sstep]. rewrite EC, nth_last.
      destruct q as [t tg chq ls f o d x y]. destruct chq; [exact Logic.I|]. split; cbn [sh_calls sh_chans sh_cur sh_visited sh_buckets]; rewrite set_last.
      * rewrite EC in As. apply Forall_app in As as [A1 A2]. apply Forall_app. split; [exact A1|]. inversion A2 as [|z w (sc & v & Hv) _]; subst. constructor; [|constructor].
        exists sc, v. exact Hv.
      * right. eexists before, _, ch, sched. cbn [sh_calls sh_chans sh_cur sh_visited sh_buckets]. split; [reflexivity|]. cbn in *. split; [exact Eb|]. split; [exact D|].
        split; [exact Ech|]. split; [exact Sch|]. split; [auto|]. split; [exact Lb|]. exact R.
  - destruct (nth_error (sh_calls s) c) as [q|] eqn:E; [|cbn [sstep]; rewrite E; exact Logic.I].
    assert (B : ended q -> match sstep n k s (SMove c a) with Blocked => True | _ => False end) by (intros En; apply (ended_blocked n k s c q a E En)).
    destruct Cu as [En|(before & p & ch & sched & EC & Eb & D & Ech & Sch & Cq & Lb & R)].
    + specialize (B ltac:(rewrite Forall_forall in En; exact (En _ (nth_error_In _ _ E)))). destruct (sstep n k s (SMove c a)); tauto.
    + destruct (Nat.lt_ge_cases c (length before)) as [Lc|Lc].
      { specialize (B ltac:(rewrite Forall_forall in Eb; apply Eb; rewrite EC, nth_error_app1 in E by exact Lc; exact (nth_error_In _ _ E))).
        destruct (sstep n k s (SMove c a)); tauto. }
      assert (c = length before) as ->. { assert (c < length (sh_calls s)) by (apply nth_error_Some; congruence). rewrite EC, app_length in H. cbn in H. lia. }
      clear B. rewrite EC, nth_last in E. injection E as ->. cbn [sstep]. rewrite EC, nth_last.
      pose proof (find_run_sok _ _ _ _ _ _ R) as Sk.
      assert (Go : forall v, istep (Z.to_nat k) (view s q ch) a = Some v -> (i_done v = true -> sc_chan q <> None) -> i_closed v = sc_over q ->
                inv n k (store s (length before) q (sh_cur s) (sc_over q) v)).
      { intros v Ev Dn Cl. apply (stored n k s before q ch (sched ++ [a])); auto. exact (find_run_snoc _ _ _ _ _ _ _ _ R Ev). }
      assert (Keep : forall v, istep (Z.to_nat k) (view s q ch) a = Some v -> of_lookup a \/ a = ACollect -> i_done v = false /\ i_closed v = sc_over q).
      { intros v Ev Ha. assert (X : i_done v = i_done (view s q ch) /\ i_closed v = i_closed (view s q ch)).
        { revert Ev. generalize (view s q ch). intros u Ev. step_cases Ev; prep; auto; destruct Ha as [Ha|Ha]; try discriminate Ha; destruct Ha. }
        cbn in X. rewrite D, Sch in X. exact X. }
      destruct a; cbn iota.
      all: try (rewrite Ech; destruct (istep (Z.to_nat k) (view s q ch) _) as [v|] eqn:Ev; [|exact Logic.I];
                destruct (Keep v eq_refl (or_introl Logic.I)) as [K1 K2]; apply Go; [reflexivity | congruence | exact K2]).
      * rewrite Ech. destruct (snd ch) eqn:Sc.
        -- rewrite stuck; [exact Logic.I | | exact Logic.I]. change (Forall idle (i_lookups (view s q ch))). apply (sok_idle (Z.to_nat k) _ Sk). exact Sc.
        -- destruct (istep (Z.to_nat k) (view s q ch) _) as [v|] eqn:Ev; [|exact Logic.I].
           destruct (Keep v eq_refl (or_introl Logic.I)) as [K1 K2]; apply Go; [reflexivity | congruence | exact K2].
      * destruct Cq as [-> |Cq]; [exact Logic.I|]. rewrite Cq, Ech. destruct (istep (Z.to_nat k) (view s q ch) _) as [v|] eqn:Ev; [|exact Logic.I].
        destruct (Keep v eq_refl (or_intror eq_refl)) as [K1 K2]; apply Go; [reflexivity | congruence | exact K2].
      * rewrite Ech. replace (fst ch, sc_over q) with ch by (rewrite <- Sch; destruct ch; reflexivity).
        destruct (istep (Z.to_nat k) (view s q ch) _) as [v|] eqn:Ev; [|exact Logic.I].
        assert (Cl : snd ch = false /\ i_closed v = true /\ i_done v = false).
        { cbn in Ev. destruct (forallb is_ldone _ && negb (snd ch)) eqn:Bq; [|discriminate]. apply andb_true_iff in Bq as [_ Bq]. apply negb_true_iff in Bq.
          injection Ev as <-. cbn. auto. }
        destruct Cl as (Cl1 & Cl2 & Cl3). rewrite Cl1. apply (stored n k s before q ch (sched ++ [ACloseResults])); auto.
        -- exact (find_run_snoc _ _ _ _ _ _ _ _ R Ev).
        -- congruence.
      * destruct Cq as [-> |Cq]; [exact Logic.I|]. rewrite Cq, Ech. destruct (istep (Z.to_nat k) (view s q ch) _) as [v|] eqn:Ev; [|exact Logic.I].
        apply Go; [reflexivity | intros _; congruence |]. cbn in Ev. destruct (fst ch); [|discriminate]. destruct (snd ch && negb (sc_done q)) eqn:Bq; [|discriminate].
        apply andb_true_iff in Bq as [Bq _]. injection Ev as <-. cbn. congruence.
Qed.

Lemma inv_run n k l : (0 < n)%Z -> (0 <= k)%Z -> forall s, Forall on_a_table l -> one_by_one n k s l -> inv n k s ->
  match srun n k s l with Crashed => False | Blocked => True | Next s1 => inv n k s1 end.
Proof.
  intros Hn Hk. induction l as [|a l IH]; intros s T O I; cbn [srun one_by_one] in *; [exact I|]. inversion T; subst. destruct O as [O1 O2].
  pose proof (inv_step n k s a Hn Hk H1 O1 I) as X. destruct (sstep n k s a) as [| |s1]; [exact Logic.I | exact X | exact (IH s1 H2 O2 X)].
Qed.
Lemma inv_progress n k s : inv n k s -> forall q, In q (sh_calls s) -> sc_done q = false -> exists a s1, sstep n k s a = Next s1 /\ forall t tg, a <> SFind t tg.
Proof.
  intros [_ Cu] q I D. destruct Cu as [En|(before & p & ch & sched & EC & Eb & Dp & Ech & Sch & Cq & Lb & R)].
  { rewrite Forall_forall in En. destruct (En _ I) as (D' & _). congruence. }
  clear q I D. assert (E : nth_error (sh_calls s) (length before) = Some p) by (rewrite EC; apply nth_last).
  destruct Cq as [Cq|Cq].
  - exists (SRange (length before)). cbn. rewrite E. destruct p as [t tg chq ls f o d x y]. cbn in Cq. subst. eexists. split; [reflexivity | discriminate].
  - pose proof (find_run_sok _ _ _ _ _ _ R) as Sk. destruct (progress _ _ Sk Dp) as (a & v & Ev & _). exists (SMove (length before) a).
    cbn [sstep]. rewrite E, Cq. replace (match a with ACollect | AFindEnd => Some (sh_cur s) | _ => Some (sh_cur s) end) with (Some (sh_cur s)) by (destruct a; reflexivity).
    rewrite Ech. destruct a; cbn iota; try (rewrite Ev; eexists; split; [reflexivity | discriminate]).
    + destruct (snd ch) eqn:Sc; [|rewrite Ev; eexists; split; [reflexivity | discriminate]].
      rewrite stuck in Ev; [discriminate | apply (sok_idle _ _ Sk Sc) | exact Logic.I].
    + replace (fst ch, sc_over p) with ch by (rewrite <- Sch; destruct ch; reflexivity). rewrite Ev.
      assert (snd ch = false) as ->. { cbn in Ev. destruct (forallb is_ldone _ && negb (snd ch)) eqn:Bq; [|discriminate]. apply andb_true_iff in Bq as [_ Bq]. apply negb_true_iff in Bq. exact Bq. }
      eexists. split; [reflexivity | discriminate].
Qed.

(** Finds one after another on one Iterator do what they would do on new ones; none crashes, none gets stuck. *)
Theorem C102_partial : forall n k acts, (0 < n)%Z -> (0 <= k)%Z -> Forall on_a_table acts -> one_by_one n k new_share acts ->
  srun n k new_share acts <> Crashed /\
  forall s q, srun n k new_share acts = Next s -> In q (sh_calls s) -> as_new n k q /\
    (sc_done q = false -> exists a s1, sstep n k s a = Next s1 /\ forall t tg, a <> SFind t tg).
Proof.
  intros n k acts Hn Hk T O. pose proof (inv_run n k acts Hn Hk new_share T O) as X.
  assert (I : inv n k new_share) by (split; [constructor | left; constructor]). specialize (X I).
  destruct (srun n k new_share acts) as [| |s]; [split; [discriminate | discriminate] | destruct X|]. split; [discriminate|].
  intros s1 q [= <-] Iq. split; [destruct X as [As _]; rewrite Forall_forall in As; exact (As _ Iq) | intros D; exact (inv_progress n k s X q Iq D)].
Qed.
Print Assumptions C102_partial.

(** ** At the same time *)

Definition overlap (c0 a b : nat) (s : share) : Prop := sh_cur s = c0 /\ exists qa qb ch, nth_error (sh_calls s) a = Some qa /\ nth_error (sh_calls s) b = Some qb /\
  nth_error (sh_chans s) c0 = Some ch /\ (sc_over qa = true \/ sc_over qb = true -> snd ch = true) /\ ~ (sc_over qa = true /\ sc_over qb = true).

Lemma nth_set_eq {A} (l : list A) : forall i j x y, nth_error l i = Some x -> nth_error (set_nth i y l) j = if j =? i then Some y else nth_error l j.
Proof. induction l as [|z l IH]; intros [|i] [|j] x y H; cbn in *; try discriminate; auto. exact (IH i j x y H). Qed.

Lemma overlap_step n k c0 a b s x s1 : a <> b -> sstep n k s x = Next s1 -> (forall t tg, x <> SFind t tg) -> overlap c0 a b s -> overlap c0 a b s1.
Proof.
  intros Nab H Nx (Cur & qa & qb & ch & Ea & Eb & Ec & Cl & Nb). destruct x as [t tg|c|c m]; [destruct (Nx t tg eq_refl)| |].
  - cbn in H. destruct (nth_error (sh_calls s) c) as [q|] eqn:E; [|discriminate]. destruct q as [t tg chq ls f o d x y]. destruct chq; [discriminate|]. injection H as <-.
    split; [exact Cur|]. cbn [sh_calls sh_chans]. rewrite !(nth_set_eq _ _ _ _ _ E).
    destruct (Nat.eqb_spec a c) as [Xa|Xa]; destruct (Nat.eqb_spec b c) as [Xb|Xb]; try congruence.
    + subst c. rewrite Ea in E. injection E as ->. eexists _, qb, ch. cbn in *. auto.
    + subst c. rewrite Eb in E. injection E as ->. eexists qa, _, ch. cbn in *. auto.
    + exists qa, qb, ch. auto.
  - cbn [sstep] in H. destruct (nth_error (sh_calls s) c) as [q|] eqn:E; [|discriminate].
    set (oi := match m with ACollect | AFindEnd => sc_chan q | _ => Some (sh_cur s) end) in H. destruct oi as [i|] eqn:Oi; [|discriminate].
    destruct (nth_error (sh_chans s) i) as [ci|] eqn:Ei; [|discriminate].
    assert (X : exists v over, s1 = store s c q i over v /\ (snd ci = true -> i_closed v = true) /\
                  (over = sc_over q \/ (sc_over q = false /\ over = true /\ snd ci = false /\ i = sh_cur s /\ i_closed v = true))).
    { assert (Keep : forall r v, istep (Z.to_nat k) (view s q (r, snd ci)) m = Some v -> snd ci = true -> i_closed v = true).
      { intros r v Ev Tr. assert (Y : i_closed (view s q (r, snd ci)) = true) by exact Tr. revert Ev Y. generalize (view s q (r, snd ci)). intros u Ev Y.
        step_cases Ev; prep; auto. }
      assert (Same : forall v, istep (Z.to_nat k) (view s q ci) m = Some v -> snd ci = true -> i_closed v = true) by (intros v Ev; apply (Keep (fst ci)); destruct ci; exact Ev).
      destruct m; cbn iota in H;
        try (match type of H with match istep ?x ?y ?z with _ => _ end = _ => destruct (istep x y z) as [v|] eqn:Ev end; [|discriminate]; injection H as <-; exists v, (sc_over q); split; [reflexivity | split; [first [exact (Same v Ev) | exact (Same v eq_refl)] | left; reflexivity]]).
      - destruct (snd ci) eqn:Sc; [match type of H with match istep ?x ?y ?z with _ => _ end = _ => destruct (istep x y z) end; discriminate|].
        match type of H with match istep ?x ?y ?z with _ => _ end = _ => destruct (istep x y z) as [v|] eqn:Ev end; [|discriminate]; injection H as <-; exists v, (sc_over q). split; [reflexivity|]. split; [discriminate | auto].
      - destruct (istep (Z.to_nat k) (view s q (fst ci, sc_over q)) ACloseResults) as [v|] eqn:Ev; [|discriminate]. destruct (snd ci) eqn:Sc; [discriminate|]. injection H as <-.
        exists v, true. cbn in Ev. destruct (forallb is_ldone _ && negb (sc_over q)) eqn:Bq; [|discriminate]. apply andb_true_iff in Bq as [_ Bq]. apply negb_true_iff in Bq.
        injection Ev as <-. split; [reflexivity|]. split; [discriminate|]. right. split; [exact Bq|]. split; [reflexivity|]. split; [reflexivity|]. split; [|reflexivity]. unfold oi in Oi. congruence. }
    clear H. destruct X as (v & over & -> & Kc & Ov). split; [exact Cur|]. unfold store. cbn [sh_calls sh_chans]. rewrite !(nth_set_eq _ _ _ _ _ E), (nth_set_eq _ _ _ _ _ Ei).
    set (q' := mkCall _ _ _ _ _ over _ _ _).
    assert (Ch : exists ch', (if c0 =? i then Some (i_results v, i_closed v) else nth_error (sh_chans s) c0) = Some ch' /\ (snd ch = true -> snd ch' = true) /\
                   (over = sc_over q \/ (snd ch = false /\ snd ch' = true /\ over = true /\ sc_over q = false))).
    { destruct (Nat.eqb_spec c0 i) as [Xi|Xi].
      - subst i. rewrite Ec in Ei. injection Ei as <-. eexists. split; [reflexivity|]. cbn. split; [exact Kc|]. destruct Ov as [Ov|(O1 & O2 & O3 & _ & O4)]; auto.
      - exists ch. split; [exact Ec|]. split; [auto|]. destruct Ov as [Ov|(O1 & O2 & O3 & O4 & O5)]; [auto | congruence]. }
    destruct Ch as (ch' & -> & Kc' & Ov').
    destruct (Nat.eqb_spec a c) as [Xa|Xa]; destruct (Nat.eqb_spec b c) as [Xb|Xb]; try congruence.
    + subst c. assert (q = qa) as -> by congruence. exists q', qb, ch'. split; [reflexivity|]. split; [exact Eb|]. split; [reflexivity|]. cbn [sc_over q'].
      destruct Ov' as [-> |(O1 & O2 & O3 & O4)]; [auto|]. split; [intros _; exact O2|]. intros [_ C]. rewrite Cl in O1 by auto. discriminate.
    + subst c. assert (q = qb) as -> by congruence. exists qa, q', ch'. split; [exact Ea|]. split; [reflexivity|]. split; [reflexivity|]. cbn [sc_over q'].
      destruct Ov' as [-> |(O1 & O2 & O3 & O4)]; [auto|]. split; [intros _; exact O2|]. intros [C _]. rewrite Cl in O1 by auto. discriminate.
    + exists qa, qb, ch'. auto 8.
Qed.
Lemma overlap_run n k c0 a b l : a <> b -> forall s s1, srun n k s l = Next s1 -> (forall t tg, ~ In (SFind t tg) l) -> overlap c0 a b s -> overlap c0 a b s1.
Proof.
  intros Nab. induction l as [|x l IH]; intros s s1 H N O; cbn [srun] in H; [injection H as <-; exact O|]. destruct (sstep n k s x) as [| |s0] eqn:E; try discriminate.
  apply (IH s0 s1 H); [intros t tg I; exact (N t tg (or_intror I))|]. apply (overlap_step n k c0 a b s x s0 Nab E); [|exact O]. intros t tg ->. exact (N t tg (or_introl eq_refl)).
Qed.

Lemma all_done ls : forall bs, forallb is_ldone (with_buckets ls bs) = forallb is_ldone ls.
Proof. induction ls as [|l ls IH]; intros [|b bs]; cbn; auto. rewrite IH. reflexivity. Qed.
Lemma crash_close n k s c q ch : nth_error (sh_calls s) c = Some q -> nth_error (sh_chans s) (sh_cur s) = Some ch -> snd ch = true -> sc_over q = false ->
  forallb is_ldone (sc_lookups q) = true -> sstep n k s (SMove c ACloseResults) = Crashed.
Proof. intros E1 E2 C O D. cbn [sstep]. rewrite E1, E2. cbn. rewrite all_done, D, O. cbn. rewrite C. reflexivity. Qed.

(** A Find begun while the search of another one goes on: the two searches never both end, and when one has ended, the end of the other is
    a crash of the process. *)
Theorem C102_overlap : forall n k s a qa t target acts s2, nth_error (sh_calls s) a = Some qa -> sc_over qa = false -> (forall t tg, ~ In (SFind t tg) acts) ->
  srun n k s (SFind t target :: acts) = Next s2 -> let b := length (sh_calls s) in
  exists qa2 qb2, nth_error (sh_calls s2) a = Some qa2 /\ nth_error (sh_calls s2) b = Some qb2 /\ ~ (sc_over qa2 = true /\ sc_over qb2 = true) /\
    (sc_over qa2 = true -> forallb is_ldone (sc_lookups qb2) = true -> sstep n k s2 (SMove b ACloseResults) = Crashed) /\
    (sc_over qb2 = true -> forallb is_ldone (sc_lookups qa2) = true -> sstep n k s2 (SMove a ACloseResults) = Crashed).
Proof.
  intros n k s a qa t target acts s2 Ea Oa N H b. cbn [srun] in H. destruct (sstep n k s (SFind t target)) as [| |s1] eqn:E; try discriminate.
  assert (La : a < length (sh_calls s)) by (apply nth_error_Some; congruence).
  assert (O : overlap (length (sh_chans s)) a b s1).
  { cbn in E. destruct (let! peers := Peers t in iter_init (id_key (t_self t)) target peers n k) as [v|e|]; try discriminate. injection E as <-.
    split; [reflexivity|]. cbn [sh_calls sh_chans]. eexists qa, _, _. split; [rewrite nth_error_app1 by exact La; exact Ea|]. split; [apply nth_last|]. split; [apply nth_last|].
    cbn. split; [intros [C|C]; congruence | intros [_ C]; discriminate]. }
  destruct (overlap_run n k _ a b acts ltac:(unfold b; lia) s1 s2 H N O) as (Cur & qa2 & qb2 & ch & Ea2 & Eb2 & Ec & Cl & Nb).
  exists qa2, qb2. split; [exact Ea2|]. split; [exact Eb2|]. split; [exact Nb|]. rewrite <- Cur in Ec. split.
  - intros Oa2 D. apply (crash_close n k s2 b qb2 ch Eb2 Ec); auto. destruct (sc_over qb2) eqn:X; [destruct Nb; auto | reflexivity].
  - intros Ob2 D. apply (crash_close n k s2 a qa2 ch Ea2 Ec); auto. destruct (sc_over qa2) eqn:X; [destruct Nb; auto | reflexivity].
Qed.
Print Assumptions C102_overlap.

(** Two Finds at once, on a table with nobody else in it. *)
Definition alone : table := mk_table (ex_id 1 1) [].
Definition two_at_once : list sact :=
  [SFind alone it_target; SFind alone it_target; SRange 0; SRange 1; SMove 0 (AFill 0); SMove 1 (AFill 0); SMove 0 (AExit 0 0); SMove 1 (AExit 0 0);
   SMove 0 (AJoin 0); SMove 1 (AJoin 0); SMove 0 ACloseResults; SMove 1 ACloseResults].
Lemma two_crash : srun 1 1 new_share two_at_once = Crashed.
Proof. vm_compute. reflexivity. Qed.
Lemma alone_of : table_of (ex_id 1 1) [] alone.
Proof. apply mk_table_of; [reflexivity | constructor]. Qed.
Theorem C102_refuted : ~ C102_statement.
Proof.
  intros H. destruct (H 1%Z 1%Z two_at_once) as [C _]; [lia | lia | | exact (C two_crash)].
  unfold two_at_once. repeat constructor; exists (ex_id 1 1), []; exact alone_of.
Qed.
Print Assumptions C102_refuted.

(** Two Finds one after the other, among peers that answer; the second begins with what the first left behind. *)
Definition two_in_turn : list sact :=
  SFind it_table it_target :: SRange 0 :: map (SMove 0) (it_sched 2 3) ++ SFind it_table it_target :: SRange 1 :: map (SMove 1) (it_sched 2 3).
Fixpoint one_by_one_b (n k : Z) (s : share) (l : list sact) : bool :=
  match l with
  | [] => true
  | a :: r => match a with SFind _ _ => forallb sc_done (sh_calls s) | _ => true end &&
              match sstep n k s a with Next s1 => one_by_one_b n k s1 r | _ => true end
  end.
Lemma one_by_one_ok n k l : forall s, one_by_one_b n k s l = true -> one_by_one n k s l.
Proof.
  induction l as [|a l IH]; intros s H; cbn [one_by_one one_by_one_b] in *; [exact Logic.I|]. apply andb_true_iff in H as [H1 H2]. split; [|destruct (sstep n k s a); auto].
  destruct a; auto. apply Forall_forall. rewrite forallb_forall in H1. exact H1.
Qed.
Example C102_nonvacuous : Forall on_a_table two_in_turn /\ one_by_one 2 3 new_share two_in_turn /\
  match srun 2 3 new_share two_in_turn with
  | Next s => map sc_done (sh_calls s) = [true; true] /\ map (fun q => length (sc_found q)) (sh_calls s) = [5; 5]
  | _ => False
  end.
Proof.
  split; [|split].
  - unfold two_in_turn. constructor; [eexists _, _; exact it_table_of|]. constructor; [exact Logic.I|]. apply Forall_app.
    assert (M : forall c l, Forall on_a_table (map (SMove c) l)) by (intros c l; apply Forall_forall; intros x I; apply in_map_iff in I as (y & <- & _); exact Logic.I).
    split; [apply M|]. constructor; [eexists _, _; exact it_table_of|]. constructor; [exact Logic.I | apply M].
  - apply one_by_one_ok. vm_compute. reflexivity.
  - vm_compute. auto.
Qed.
