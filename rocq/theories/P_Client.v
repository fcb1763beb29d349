(** * Lemmas about the client machine *)
From Verif Require Import Base M_Table M_Client.
Local Open Scope nat_scope.

Lemma crun_inv (P : cstate -> Prop) idle : (forall s a s', P s -> cact idle s a = Some s' -> P s') ->
  forall l s s', P s -> crun idle s l = Some s' -> P s'.
Proof.
  intros St. induction l as [|a l IH]; cbn; intros s s' H R; [injection R as <-; exact H|].
  destruct (cact idle s a) as [s1|] eqn:E; [|discriminate]. apply (IH s1); [apply (St s a); assumption|exact R].
Qed.
Lemma crun_app idle l1 : forall s l2, crun idle s (l1 ++ l2) = match crun idle s l1 with Some s1 => crun idle s1 l2 | None => None end.
Proof. induction l1 as [|a l1 IH]; intros s l2; cbn; [reflexivity|]. destruct (cact idle s a); auto. Qed.

(** Case analysis on one step: the state before is taken apart, the state after replaced by its value. *)
Ltac ccases H :=
  match type of H with cact _ ?s ?a = Some ?s' =>
    destruct s as [sd m w o wc cn cc rd rrd wd cd pn er bf nw dl rp ac wn wi];
    destruct a as [oc|oc sp|mm| | |ee|]; cbn [cact send] in H;
    [ unfold main_step in H; cbn [c_main] in H; destruct m
    | unfold writer_step in H; cbn [c_wr] in H; destruct w as [ | | | |[|m0 lw]| | | | ]
    | | | | | ];
    unfold late in H;
    cbn [c_side c_main c_wr c_once c_wclosed c_conn c_cclosed c_ready c_rdone c_wdone c_cdone c_panic c_err c_buf c_now c_wdl c_reports c_accepted
         c_written c_wire] in H;
    repeat match type of H with
           | context [match ?x with _ => _ end] => match x with context [match _ with _ => _ end] => fail 1 | _ => destruct x eqn:? end; try discriminate H
           end;
    try discriminate H;
    apply (f_equal (fun z => match z with Some y => y | None => s' end)) in H; cbv beta iota in H; subst s';
    unfold with_main, with_wr, report, set_conn, close_ready, close_rdone, close_wdone, close_cdone, close_flag, close_conn
  end.
Ltac cproj := cbn [c_side c_main c_wr c_once c_wclosed c_conn c_cclosed c_ready c_rdone c_wdone c_cdone c_panic c_err c_buf c_now c_wdl c_reports c_accepted
         c_written c_wire] in *.

(** *** Signals *)
Definition before_ready (m : mpc) : bool := match m with MDial | MAccept | MFailReady | MHandshake | MReady => true | _ => false end.
Definition before_rdone (m : mpc) : bool := match m with MClose | MDisconnected | MRemove | MDone | MEnd => false | _ => true end.
Definition before_spawn (m : mpc) : bool :=
  match m with MDial | MAccept | MFailReady | MFailWriter | MFailReader | MHandshake | MReady | MCheck | MAbort | MSpawn => true | _ => false end.
Definition fail_path (m : mpc) : bool := match m with MFailReader => true | _ => false end.
Definition after_close (m : mpc) : bool := match m with MDisconnected | MRemove | MDone | MEnd => true | _ => false end.
Definition started (w : wrpc) : bool := match w with WNone => false | _ => true end.
Definition ended (w : wrpc) : bool := match w with WEnd => true | _ => false end.

Definition sig_inv (s : cstate) : Prop :=
  c_panic s = false /\
  (c_ready s = negb (before_ready (c_main s))) /\
  (before_rdone (c_main s) = true -> c_rdone s = false) /\
  (before_spawn (c_main s) = true -> started (c_wr s) = false) /\
  (before_spawn (c_main s) = true -> fail_path (c_main s) = false -> c_wdone s = false) /\
  (started (c_wr s) = true -> c_wdone s = ended (c_wr s)) /\
  (c_cdone s = match c_main s with MEnd => true | _ => false end).
Lemma sig_step idle s a s' : sig_inv s -> cact idle s a = Some s' -> sig_inv s'.
Proof.
  intros I H. unfold sig_inv in *. ccases H; cproj; cbn [before_ready before_rdone before_spawn fail_path started ended negb] in *;
    destruct I as (-> & E1 & I2 & I3 & I4 & I5 & E6); subst; cbn [orb negb];
    try (rewrite ?(I2 eq_refl), ?(I3 eq_refl), ?(I4 eq_refl eq_refl)); try (rewrite (I5 eq_refl)); cbn [orb];
    try (repeat split; auto; discriminate);
    try (repeat split; auto; intros; try discriminate; auto).
Qed.
Lemma sig_start sd : sig_inv (newClient sd).
Proof. destruct sd; repeat split; cbn; auto; discriminate. Qed.

(** *** close *)
Definition once_inv (s : cstate) : Prop :=
  c_once s <= 2 /\ (c_wclosed s = negb (c_once s =? 0)) /\
  (after_close (c_main s) = true -> started (c_wr s) = true -> c_once s = 2) /\
  (before_spawn (c_main s) = true -> started (c_wr s) = false).
Lemma once_step idle s a s' : once_inv s -> cact idle s a = Some s' -> once_inv s'.
Proof.
  intros I H. unfold once_inv in *. ccases H; cproj; cbn [after_close started before_spawn negb] in *;
    destruct I as (L & E1 & I2 & I3); subst;
    repeat match goal with X : (_ =? _) = true |- _ => apply Nat.eqb_eq in X; subst end;
    repeat split; auto; intros; try discriminate; auto; try lia.
Qed.
Lemma once_start sd : once_inv (newClient sd).
Proof. destruct sd; repeat split; cbn; auto; discriminate. Qed.

(** *** Messages *)
Definition batch (w : wrpc) : list nat := match w with WSend l => l | _ => [] end.
Definition leaving (w : wrpc) : bool := match w with WExit | WEnd => true | _ => false end.
Definition flushed (w : wrpc) : bool := match w with WSend _ | WFlush | WExit | WEnd => false | _ => true end.
Definition fifo_inv (s : cstate) : Prop :=
  (leaving (c_wr s) = false -> c_accepted s = c_written s ++ batch (c_wr s) ++ c_buf s) /\
  (exists rest, c_accepted s = c_written s ++ rest) /\
  (exists rest, c_written s = c_wire s ++ rest) /\
  (flushed (c_wr s) = true -> c_wire s = c_written s).
Lemma firstn_prefix {A} (a rest : list A) n : length a <= n -> exists r, firstn n (a ++ rest) = a ++ r.
Proof. intros H. exists (firstn (n - length a) rest). rewrite firstn_app. rewrite firstn_all2 by exact H. reflexivity. Qed.
Lemma fifo_step idle s a s' : once_inv s -> fifo_inv s -> cact idle s a = Some s' -> fifo_inv s'.
Proof.
  intros (_ & _ & _ & On) I H. unfold fifo_inv in *. ccases H; cproj; cbn [batch leaving flushed app before_spawn] in *;
    destruct I as (I1 & (r1 & E1) & (r2 & E2) & I4);
    try (split; [try discriminate; auto|]; split; [try (eexists; eassumption)|]; split; [try (eexists; eassumption)|]; auto; fail).
  - specialize (On eq_refl). destruct w; try discriminate. cbn [batch leaving flushed app] in *. split; [auto|]. split; [eexists; eassumption|].
    split; [eexists; eassumption|]. auto.
  - rewrite app_nil_r. split; [intros _; exact (I1 eq_refl)|]. split; [eexists; eassumption|]. split; [eexists; eassumption|discriminate].
  - specialize (I1 eq_refl). split; [intros _; rewrite I1, <- app_assoc; reflexivity|]. split; [exists (lw ++ bf); rewrite I1, <- app_assoc; reflexivity|].
    split; [|discriminate]. exists (r2 ++ [m0]). rewrite E2, <- app_assoc. reflexivity.
  - specialize (I1 eq_refl). split; [intros _; rewrite I1, <- app_assoc; reflexivity|]. split; [exists (lw ++ bf); rewrite I1, <- app_assoc; reflexivity|].
    split; [|discriminate]. eexists. symmetry. apply firstn_skipn.
  - specialize (I1 eq_refl). split; [intros _; rewrite I1, <- app_assoc; reflexivity|]. split; [exists (lw ++ bf); rewrite I1, <- app_assoc; reflexivity|].
    split; [|discriminate]. eexists. symmetry. apply firstn_skipn.
  - split; [auto|]. split; [eexists; eassumption|]. split; [|auto]. exists []. rewrite app_nil_r. reflexivity.
  - split; [auto|]. split; [eexists; eassumption|]. split; [|auto]. exists []. rewrite app_nil_r. reflexivity.
  - split; [intros X; rewrite (I1 X), <- !app_assoc; reflexivity|]. split; [exists (r1 ++ [mm]); rewrite E1, <- app_assoc; reflexivity|].
    split; [eexists; eassumption|auto].
Qed.
Lemma fifo_start sd : fifo_inv (newClient sd).
Proof. destruct sd; (split; [reflexivity|]; split; [exists []; reflexivity|]; split; [exists []; reflexivity|reflexivity]). Qed.

(** Once closing has begun the writer takes nothing more. *)
Definition cap_inv (cap : list nat) (s : cstate) : Prop :=
  c_wclosed s = true /\ (exists rest, cap = (c_written s ++ batch (c_wr s)) ++ rest) /\ (exists rest, c_written s = c_wire s ++ rest) /\
  (before_spawn (c_main s) = true -> started (c_wr s) = false).
Lemma cap_step idle cap s a s' : cap_inv cap s -> cact idle s a = Some s' -> cap_inv cap s'.
Proof.
  intros I H. unfold cap_inv in *. ccases H; cproj; cbn [batch app before_spawn started] in *;
    destruct I as (Ewc & (r1 & E1) & (r2 & E2) & On); try discriminate; try subst wc;
    try rewrite app_nil_r in E1; try rewrite app_nil_r;
    try (split; [reflexivity|]; split; [eexists; eassumption|]; split; [eexists; eassumption|]; auto; discriminate).
  all: try (split; [reflexivity|]; split; [|split; [eexists; eassumption|auto; discriminate]]).
  all: try (specialize (On eq_refl); destruct w; try discriminate; cbn [batch] in E1; rewrite ?app_nil_r in E1; eexists; eassumption).
  - split; [reflexivity|]. split; [exists r1; rewrite E1, <- !app_assoc; reflexivity|]. split; [exists (r2 ++ [m0]); rewrite E2, <- app_assoc; reflexivity|auto].
  - split; [reflexivity|]. split; [exists r1; rewrite E1, <- !app_assoc; reflexivity|]. split; [eexists; symmetry; apply firstn_skipn|auto].
  - split; [reflexivity|]. split; [exists r1; rewrite E1, <- !app_assoc; reflexivity|]. split; [eexists; symmetry; apply firstn_skipn|auto].
  - exists ((m0 :: lw) ++ r1). rewrite E1, <- app_assoc. reflexivity.
  - split; [reflexivity|]. split; [eexists; eassumption|]. split; [exists []; rewrite app_nil_r; reflexivity|auto].
  - split; [reflexivity|]. split; [eexists; eassumption|]. split; [exists []; rewrite app_nil_r; reflexivity|auto].
Qed.
