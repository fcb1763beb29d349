(** * C113: what becomes of the lines typed into the chat program, and how an interrupt ends it. *)
From Verif Require Import Base M_Quit.
Local Open Scope nat_scope.

Definition reached (sched : list uact) (s : ustate) : Prop := urun u_start sched = Some s.
(** The lines that are not empty. *)
Definition solid (ls : list bytes) : list bytes := filter (fun l => match l with [] => false | _ => true end) ls.
(** The line that callback is working on. *)
Definition inhand (p : inpc) : list bytes := match p with ICall l => [l] | _ => [] end.

(** An interrupt never makes the program panic. *)
Definition C113_statement : Prop := forall sched s, reached sched s -> u_crash s = false.

Lemma solid_app : forall a b, solid (a ++ b) = solid a ++ solid b.
Proof. intros; unfold solid; apply filter_app. Qed.

Record uinv (s : ustate) : Prop := mkUI {
  ui_lines : solid (u_typed s) = u_called s ++ inhand (u_in s) ++ solid (u_buf s) ++ solid (u_tty s) \/ u_crash s = true;
  ui_block : u_in s = IBlock -> u_buf s = [];
  ui_closed : u_closed s = true <-> (u_main s = PPrint \/ u_main s = PClose \/ u_main s = PExit);
  ui_gone : u_in s = IGone -> u_crash s = true \/ (u_eof s = true /\ u_tty s = [] /\ u_buf s = []);
  ui_crash : u_crash s = true -> u_closed s = true /\ u_buf s = []
            /\ solid (u_typed s) = u_called s ++ solid (u_tty s);
  ui_call : u_in s <> ICall [] 
}.

Lemma start_uinv : uinv u_start.
Proof. constructor; cbn; auto; try discriminate. split; [discriminate|intros [Q|[Q|Q]]; discriminate]. Qed.

Lemma step_uinv : forall s a s', uinv s -> ustep s a = Some s' -> uinv s'.
Proof.
  intros s a s' [L B C G K N] E; unfold ustep in E.
  destruct s as [m i sg cl tty eof buf cr typed called]; cbn [u_crash u_main u_in u_sig u_closed u_tty u_eof u_buf u_typed u_called] in *.
  destruct cr; [discriminate|]. destruct L as [L|L]; [|discriminate].
  assert (E' : match a with
      | UType l => if eof then None else Some (mkU m i sg cl (tty ++ [l]) eof buf false (typed ++ [l]) called)
      | UEof => Some (mkU m i sg cl tty true buf false typed called)
      | UInterrupt => Some (mkU m i true cl tty eof buf false typed called)
      | UMain => main_step (mkU m i sg cl tty eof buf false typed called)
      | UIn => in_step (mkU m i sg cl tty eof buf false typed called)
      | UFill n => match i with IBlock => Some (mkU m IRead sg cl (skipn n tty) eof (firstn n tty) false typed called) | _ => None end
      | UWake => match i with IBlock => if cl then Some (crash (mkU m i sg cl tty eof buf false typed called)) else None | _ => None end
      end = Some s') by (destruct m; [exact E..|discriminate]).
  clear E; rename E' into E.
  destruct a as [l| | | | |n|].
  - destruct eof eqn:Ee; [discriminate|]. injection E as E; subst s'. constructor; cbn; auto; try discriminate.
    + left. rewrite !solid_app, L, <- !app_assoc. reflexivity.
    + intros Q; destruct (G Q) as [Q'|[Q' _]]; discriminate.
  - injection E as E; subst s'. constructor; cbn; auto; try discriminate.
    intros Q; destruct (G Q) as [Q'|[_ Q']]; [discriminate|right; auto].
  - injection E as E; subst s'. constructor; cbn; auto; try discriminate.
  - unfold main_step in E; cbn in E. destruct m; try discriminate.
    1: destruct sg; [|discriminate].
    all: injection E as E; subst s'; constructor; cbn; auto; try discriminate.
    all: destruct cl; split; auto; try discriminate.
    all: try (intros _; destruct C as [C _]; destruct (C eq_refl) as [Q|[Q|Q]]; discriminate).
    all: try (intros [Q|[Q|Q]]; discriminate).
    all: intros _; apply C; auto.
  - unfold in_step in E; cbn in E. destruct i as [| |l|].
    + destruct buf as [|[|x l] b].
      * destruct cl; injection E as E; subst s'; constructor; cbn; auto; try discriminate.
      * injection E as E; subst s'; constructor; cbn; auto; try discriminate.
      * injection E as E; subst s'; constructor; cbn; auto; try discriminate.
    + destruct eof; [|discriminate]. destruct tty; [|discriminate]. injection E as E; subst s'; constructor; cbn; auto; try discriminate.
      left. change (solid typed = called ++ []). rewrite L, (B eq_refl). reflexivity.
    + injection E as E; subst s'; constructor; cbn; auto; try discriminate.
      left. change (solid typed = (called ++ [l]) ++ solid buf ++ solid tty). rewrite L, <- app_assoc. reflexivity.
    + discriminate.
  - destruct i; try discriminate. injection E as E; subst s'. constructor; cbn; auto; try discriminate.
    left. change (solid typed = called ++ solid (firstn n tty) ++ solid (skipn n tty)). rewrite <- solid_app, firstn_skipn, L, (B eq_refl). reflexivity.
  - destruct i; try discriminate. destruct cl; [|discriminate]. injection E as E; subst s'. constructor; cbn; auto; try discriminate.
    intros _. rewrite (B eq_refl) in *. repeat split; auto.
Qed.

Lemma run_uinv : forall sched s s', uinv s -> urun s sched = Some s' -> uinv s'.
Proof.
  induction sched as [|a sched IH]; cbn; intros s s' I E; [injection E as <-; exact I|].
  destruct (ustep s a) as [s1|] eqn:Es; [|discriminate]. exact (IH _ _ (step_uinv _ _ _ I Es) E).
Qed.
Lemma reach_uinv : forall sched s, reached sched s -> uinv s.
Proof. intros sched s R; exact (run_uinv _ _ _ start_uinv R). Qed.

Lemma urun_app : forall l1 l2 s s1, urun s l1 = Some s1 -> urun s (l1 ++ l2) = urun s1 l2.
Proof.
  induction l1 as [|a l1 IH]; cbn; intros l2 s s1 E; [injection E as <-; reflexivity|].
  destruct (ustep s a); [apply IH; exact E|discriminate].
Qed.

Lemma step_sig : forall s a s', ustep s a = Some s' -> a <> UInterrupt -> u_main s = PWait -> u_sig s = false -> u_main s' = PWait /\ u_sig s' = false.
Proof.
  intros s a s' E Na Hm Hs; unfold ustep in E. destruct (u_crash s); [discriminate|]. rewrite Hm in E.
  destruct a; try congruence.
  - destruct (u_eof s); [discriminate|injection E as <-; cbn; auto].
  - injection E as <-; cbn; auto.
  - unfold main_step in E; rewrite Hm, Hs in E; discriminate.
  - unfold in_step in E. destruct (u_in s); [|destruct (u_eof s); [destruct (u_tty s)|]; try discriminate; injection E as <-; cbn; auto| |discriminate].
    + destruct (u_buf s) as [|[|x l] b]; [destruct (u_closed s)| |]; injection E as <-; cbn; auto.
    + injection E as <-; cbn; auto.
  - destruct (u_in s); try discriminate; injection E as <-; cbn; auto.
  - destruct (u_in s); try discriminate; destruct (u_closed s); try discriminate; injection E as <-; cbn; auto.
Qed.
Lemma run_sig : forall sched s s', urun s sched = Some s' -> ~ In UInterrupt sched -> u_main s = PWait -> u_sig s = false -> u_main s' = PWait.
Proof.
  induction sched as [|a sched IH]; cbn; intros s s' E Na Hm Hs; [injection E as <-; exact Hm|].
  destruct (ustep s a) as [s1|] eqn:Es; [|discriminate].
  destruct (step_sig s a s1 Es) as [Hm1 Hs1]; auto. apply (IH s1 s'); auto.
Qed.

(** The lines given to callback are the first lines that were typed, in order, without the empty ones; a program that has not been interrupted does not
    panic, gives every line to callback when its input has ended, and an interrupt that comes after that ends it. *)
Theorem C113_partial : forall sched s, reached sched s ->
  (exists rest, solid (u_typed s) = u_called s ++ rest)
  /\ (~ In UInterrupt sched -> u_crash s = false)
  /\ (u_in s = IGone -> u_crash s = false -> u_called s = solid (u_typed s) /\ u_eof s = true).
Proof.
  intros sched s R. pose proof (reach_uinv sched s R) as I. split; [|split].
  - destruct (ui_lines _ I) as [L|L]; [rewrite L; eexists; reflexivity|].
    destruct (ui_crash _ I L) as [_ [_ Q]]; rewrite Q; eexists; reflexivity.
  - intros Ni. destruct (u_crash s) eqn:Ec; [|reflexivity]. destruct (ui_crash _ I Ec) as [Q _].
    apply (ui_closed _ I) in Q. rewrite (run_sig sched u_start s R Ni eq_refl eq_refl) in Q. destruct Q as [Q|[Q|Q]]; discriminate.
  - intros Hi Hc. destruct (ui_gone _ I Hi) as [Q|[Q1 [Q2 Q3]]]; [congruence|]. split; [|exact Q1].
    destruct (ui_lines _ I) as [L|L]; [|congruence]. rewrite L, Hi, Q2, Q3; cbn. rewrite app_nil_r; reflexivity.
Qed.

(** When the input has ended, no run panics from then on; *)
Lemma gone_step : forall s a s', ustep s a = Some s' -> u_in s = IGone -> u_in s' = IGone /\ u_crash s' = false.
Proof.
  intros s a s' E Hi; unfold ustep in E. destruct (u_crash s) eqn:Ec; [discriminate|].
  assert (Q : forall (o : option ustate), match u_main s with PExit => None | _ => o end = Some s' -> o = Some s') by (destruct (u_main s); auto; discriminate).
  apply Q in E; clear Q. destruct a.
  - destruct (u_eof s); [discriminate|injection E as <-; cbn; auto].
  - injection E as <-; cbn; auto.
  - injection E as <-; cbn; auto.
  - unfold main_step in E; destruct (u_main s); [destruct (u_sig s); [|discriminate]|..]; try discriminate; injection E as <-; cbn; auto.
  - unfold in_step in E; rewrite Hi in E; discriminate.
  - rewrite Hi in E; discriminate.
  - rewrite Hi in E; discriminate.
Qed.
Theorem C113_ended : forall sched s more s', reached sched s -> u_in s = IGone -> u_crash s = false ->
  urun s more = Some s' -> u_crash s' = false.
Proof.
  intros sched s more s' _. revert s s'. induction more as [|a more IH]; cbn; intros s s' Hi Hc E; [injection E as <-; exact Hc|].
  destruct (ustep s a) as [s1|] eqn:Es; [|discriminate]. destruct (gone_step s a s1 Es Hi) as [Hi1 Hc1]. exact (IH s1 s' Hi1 Hc1 E).
Qed.

(** and, whatever state an interrupt finds the program in, steps of main alone take it to its end. *)
Theorem C113_exits : forall sched s, reached sched s -> u_crash s = false -> u_main s <> PExit ->
  exists n s', n <= 4 /\ urun s (UInterrupt :: repeat UMain n) = Some s' /\ u_main s' = PExit /\ u_crash s' = false.
Proof.
  intros sched s _ Hc Hm. destruct s as [m i sg cl tty eof buf cr typed called]; cbn in Hc, Hm; subst cr.
  destruct m; [exists 4|exists 3|exists 2|exists 1|congruence]; eexists; (split; [lia|split; [reflexivity|split; reflexivity]]).
Qed.

(** A panic comes exactly of this: stdin has been closed and the lines read before are used up when input wants another, with no way back. *)
Theorem C113_cause : forall sched s a s', reached sched s -> ustep s a = Some s' ->
  (u_crash s' = true <-> u_closed s = true /\ u_buf s = [] /\ ((a = UIn /\ u_in s = IRead) \/ (a = UWake /\ u_in s = IBlock))).
Proof.
  intros sched s a s' R E. pose proof (reach_uinv sched s R) as I. pose proof E as E0. unfold ustep in E. destruct (u_crash s) eqn:Ec; [discriminate|].
  assert (Q : forall (o : option ustate), match u_main s with PExit => None | _ => o end = Some s' -> o = Some s') by (destruct (u_main s); auto; discriminate).
  apply Q in E; clear Q. split.
  - intros Hc. destruct a.
    + destruct (u_eof s); [discriminate|injection E as <-; cbn in Hc; congruence].
    + injection E as <-; cbn in Hc; congruence.
    + injection E as <-; cbn in Hc; congruence.
    + unfold main_step in E; destruct (u_main s); [destruct (u_sig s); [|discriminate]|..]; try discriminate; injection E as <-; cbn in Hc; congruence.
    + unfold in_step in E. destruct (u_in s) eqn:Ei; [|destruct (u_eof s); [destruct (u_tty s)|]; try discriminate; injection E as <-; cbn in Hc; congruence| |discriminate].
      * destruct (u_buf s) as [|[|x l] b]; [destruct (u_closed s)| |]; try (injection E as <-; cbn in Hc; congruence). auto.
      * injection E as <-; cbn in Hc; congruence.
    + destruct (u_in s); try discriminate; injection E as <-; cbn in Hc; congruence.
    + destruct (u_in s) eqn:Ei; try discriminate; destruct (u_closed s); try discriminate. split; [reflexivity|split; [apply (ui_block _ I Ei)|auto]].
  - intros [Hcl [Hb [[-> Hi]|[-> Hi]]]].
    + unfold in_step in E; rewrite Hi, Hb, Hcl in E; injection E as <-; reflexivity.
    + rewrite Hi, Hcl in E; injection E as <-; reflexivity.
Qed.

(** The interrupt comes while a line is being handled; input then asks for the next line, and panics before node.Close has ended. *)
Definition u_line : bytes := [Byte.x68; Byte.x69].
Definition u_bad : list uact := [UType u_line; UIn; UFill 1; UIn; UInterrupt; UMain; UMain; UIn; UIn].
Theorem C113_refuted : ~ C113_statement.
Proof. intros H. pose proof (H u_bad _ eq_refl) as Q. vm_compute in Q. discriminate. Qed.

(** Closing stdin does not stop a read that is under way: a line typed after it is still handled. *)
Theorem C113_still : exists before s after s', reached before s /\ u_closed s = true /\ u_typed s = [] /\ urun s after = Some s' /\ u_called s' = [u_line] /\ u_crash s' = false.
Proof. exists [UIn; UInterrupt; UMain; UMain]; eexists; exists [UType u_line; UFill 1; UIn; UIn]; eexists. split; [vm_compute; reflexivity|]. split; [reflexivity|]. split; [reflexivity|].
  split; [vm_compute; reflexivity|]. split; reflexivity. Qed.

(** A run with an empty line, an end of input and an interrupt. *)
Example C113_nonvacuous : exists s, reached [UType u_line; UIn; UType []; UType u_line; UFill 2; UIn; UIn; UIn; UIn; UEof; UFill 1; UIn; UIn; UIn; UIn; UInterrupt; UMain; UMain; UMain; UMain] s
  /\ u_called s = [u_line; u_line] /\ u_in s = IGone /\ u_crash s = false /\ u_main s = PExit.
Proof. eexists. split; [vm_compute; reflexivity|]. vm_compute. auto. Qed.

Print Assumptions C113_partial.
Print Assumptions C113_ended.
Print Assumptions C113_exits.
Print Assumptions C113_cause.
Print Assumptions C113_refuted.
Print Assumptions C113_still.
