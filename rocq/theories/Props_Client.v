(** * Properties of one client's goroutines (C34, C35, C39-C41, C67, C68): every schedule, every network. *)
From Verif Require Import Base M_Table M_Client P_Client.
Local Open Scope nat_scope.

(** [s] is a state that a new client of a node with idle timeout [idle] reaches. *)
Definition reaches (sd : cside) (idle : nat) (l : list caction) (s : cstate) : Prop := crun idle (newClient sd) l = Some s.
Definition prefix {A} (a b : list A) : Prop := exists rest, b = a ++ rest.

Lemma reach_inv sd idle l s : reaches sd idle l s -> sig_inv s /\ once_inv s /\ fifo_inv s.
Proof.
  intros R. apply (crun_inv (fun s => sig_inv s /\ once_inv s /\ fifo_inv s) idle) with (l := l) (s := newClient sd).
  - intros s0 a s1 (A & B & C) H. split; [apply (sig_step idle s0 a); assumption|]. split; [apply (once_step idle s0 a); assumption|].
    apply (fifo_step idle s0 a); assumption.
  - split; [apply sig_start|]. split; [apply once_start|apply fifo_start].
  - exact R.
Qed.

(** ** C34: order *)

(** What reaches the connection is a prefix of what send accepted: in order, nothing twice, nothing invented. *)
Theorem C34_fifo : forall sd idle l s, reaches sd idle l s -> prefix (c_wire s) (c_accepted s).
Proof.
  intros sd idle l s R. destruct (reach_inv _ _ _ _ R) as (_ & _ & (_ & (r1 & E1) & (r2 & E2) & _)).
  exists (r2 ++ r1). rewrite E1, E2, <- app_assoc. reflexivity.
Qed.
(** And only grows. *)
Theorem C34_append_only : forall sd idle l s l' s', reaches sd idle l s -> crun idle s l' = Some s' ->
  prefix (c_wire s) (c_wire s') /\ prefix (c_accepted s) (c_accepted s').
Proof.
  intros sd idle l s l' s' R H.
  apply (crun_inv (fun x => (once_inv x /\ fifo_inv x) /\ prefix (c_wire s) (c_wire x) /\ prefix (c_accepted s) (c_accepted x)) idle) with (l := l') (s := s) in H.
  - apply H.
  - intros x a y ((On & Fi) & Pw & Pa) St. split; [split; [apply (once_step idle x a); assumption|apply (fifo_step idle x a); assumption]|].
    clear On R. clear sd l. unfold fifo_inv in Fi. unfold prefix in *. revert St Fi Pw Pa. intros St.
    ccases St; cproj; intros (_ & _ & (r2 & E2) & _) (rw & Ew) (ra & Ea); (split; [try (eexists; eassumption)|try (eexists; eassumption)]).
    + assert (Q : exists r, firstn (Nat.max (length wi) sp) (wn ++ [m0]) = wi ++ r).
      { rewrite E2, <- app_assoc. apply firstn_prefix. lia. }
      destruct Q as (r & Q). exists (rw ++ r). rewrite Q, Ew, <- app_assoc. reflexivity.
    + assert (Q : exists r, firstn (Nat.max (length wi) sp) (wn ++ [m0]) = wi ++ r).
      { rewrite E2, <- app_assoc. apply firstn_prefix. lia. }
      destruct Q as (r & Q). exists (rw ++ r). rewrite Q, Ew, <- app_assoc. reflexivity.
    + exists (rw ++ r2). rewrite E2, Ew, <- app_assoc. reflexivity.
    + exists (rw ++ r2). rewrite E2, Ew, <- app_assoc. reflexivity.
    + exists (ra ++ [mm]). rewrite Ea, <- app_assoc. reflexivity.
  - destruct (reach_inv _ _ _ _ R) as (_ & On & Fi). split; [auto|]. split; exists []; rewrite app_nil_r; reflexivity.
Qed.

(** While the writer runs, the reader has not stopped, Close was not called and the write deadline (if there is an idle timeout) has
    not passed, everything accepted is transmitted by the writer's next steps. *)
Definition wsteps (n : nat) : list caction := repeat (AWriter Fine 0) n.
Definition up (s : cstate) : Prop := c_wclosed s = false /\ c_rdone s = false /\ c_cdone s = false /\ late s = false.
Section Idle.
Variable idle : nat.
Lemma wsteps_S n s s1 : cact idle s (AWriter Fine 0) = Some s1 -> crun idle s (wsteps (S n)) = crun idle s1 (wsteps n).
Proof. intros H. unfold wsteps. cbn [repeat crun]. rewrite H. reflexivity. Qed.
Lemma wsteps_add n m s s1 s2 : crun idle s (wsteps n) = Some s1 -> crun idle s1 (wsteps m) = Some s2 -> crun idle s (wsteps (n + m)) = Some s2.
Proof. intros A B. unfold wsteps. rewrite repeat_app, crun_app. fold (wsteps n). rewrite A. exact B. Qed.
Lemma wstep1 s s1 : cact idle s (AWriter Fine 0) = Some s1 -> crun idle s (wsteps 1) = Some s1.
Proof. intros H. rewrite (wsteps_S 0 _ _ H). reflexivity. Qed.
Lemma flush_step s : up s -> c_wr s = WFlush -> exists s', crun idle s (wsteps 1) = Some s' /\ up s' /\ c_wr s' = WSent /\
  c_buf s' = c_buf s /\ c_accepted s' = c_accepted s /\ c_written s' = c_written s /\ c_wire s' = c_written s.
Proof.
  intros (U1 & U2 & U3 & U4) W. eexists. split.
  - apply wstep1. cbn [cact]. unfold writer_step. rewrite W, U4. reflexivity.
  - unfold up, late in *. cproj. repeat split; assumption.
Qed.
Lemma drain_batch l : forall s, up s -> c_wr s = WSend l -> exists n s', crun idle s (wsteps n) = Some s' /\ up s' /\ c_wr s' = WSent /\
  c_buf s' = c_buf s /\ c_accepted s' = c_accepted s /\ c_written s' = c_written s ++ l /\ c_wire s' = c_written s'.
Proof.
  induction l as [|m l IH]; intros s U W.
  - destruct (flush_step (with_wr s WFlush) U eq_refl) as (s' & R & U' & W' & B & A & Wn & Wi).
    exists 2, s'. split; [rewrite (wsteps_S 1 s (with_wr s WFlush)); [exact R|cbn [cact]; unfold writer_step; rewrite W; reflexivity]|].
    split; [exact U'|]. split; [exact W'|]. split; [exact B|]. split; [exact A|]. unfold with_wr in Wn, Wi. cproj. rewrite app_nil_r. split; [exact Wn|congruence].
  - assert (Q : exists s1, cact idle s (AWriter Fine 0) = Some s1 /\ up s1 /\ c_wr s1 = WSend l /\ c_buf s1 = c_buf s /\ c_accepted s1 = c_accepted s /\ c_written s1 = c_written s ++ [m]).
    { eexists. split; [cbn [cact]; unfold writer_step; rewrite W; reflexivity|]. unfold up, late in *. cproj. tauto. }
    destruct Q as (s1 & St & U1 & W1 & B1 & A1 & Wn1).
    destruct (IH s1 U1 W1) as (n & s' & R & U' & W' & B & A & Wn & Wi).
    exists (S n), s'. split; [rewrite (wsteps_S n _ s1 St); exact R|].
    split; [exact U'|]. split; [exact W'|]. split; [congruence|]. split; [congruence|]. split; [|exact Wi].
    rewrite Wn, Wn1, <- app_assoc. reflexivity.
Qed.
Definition kept (s s' : cstate) : Prop := c_buf s' = c_buf s /\ c_accepted s' = c_accepted s /\ c_written s' = c_written s /\ c_wire s' = c_wire s.
Lemma from_deadline s : up s -> c_wr s = WDeadline -> exists n s', crun idle s (wsteps n) = Some s' /\ up s' /\ c_wr s' = WWait /\ kept s s'.
Proof.
  intros (U1 & U2 & U3 & U4) W. exists 1. destruct (Nat.eq_dec idle 0) as [Z|Z].
  - exists (with_wr s WWait). split; [apply wstep1; cbn [cact]; unfold writer_step; rewrite W; subst idle; reflexivity|].
    unfold up, late, kept, with_wr in *. cproj. tauto.
  - apply Nat.eqb_neq in Z. eexists. split; [apply wstep1; cbn [cact]; unfold writer_step; rewrite W, Z; reflexivity|].
    apply Nat.eqb_neq in Z. unfold up, late, kept in *. cproj. repeat split; auto. apply Nat.leb_gt. lia.
Qed.
Lemma from_top s : up s -> c_wr s = WTop -> exists n s', crun idle s (wsteps n) = Some s' /\ up s' /\ c_wr s' = WWait /\ kept s s'.
Proof.
  intros U W. destruct (from_deadline (with_wr s WDeadline) U eq_refl) as (n & s' & R & U' & W' & K').
  exists (S n), s'. split; [rewrite (wsteps_S n s (with_wr s WDeadline)); [exact R|]|auto].
  cbn [cact]. unfold writer_step. rewrite W. destruct U as (_ & -> & -> & _). reflexivity.
Qed.
Lemma to_wait s : up s -> c_wr s = WSent \/ c_wr s = WTop \/ c_wr s = WDeadline \/ c_wr s = WWait -> exists n s', crun idle s (wsteps n) = Some s' /\ up s' /\
  c_wr s' = WWait /\ c_buf s' = c_buf s /\ c_accepted s' = c_accepted s /\ c_written s' = c_written s /\ c_wire s' = c_wire s.
Proof.
  intros U [W|[W|[W|W]]].
  - destruct (from_top (with_wr s WTop) U eq_refl) as (n & s' & R & U' & W' & K').
    exists (S n), s'. split; [rewrite (wsteps_S n s (with_wr s WTop)); [exact R|cbn [cact]; unfold writer_step; rewrite W; reflexivity]|auto].
  - exact (from_top s U W).
  - exact (from_deadline s U W).
  - exists 0, s. split; [reflexivity|]. auto 10.
Qed.
Lemma from_wait s : up s -> c_wr s = WWait -> c_accepted s = c_written s ++ c_buf s -> c_wire s = c_written s ->
  exists n s', crun idle s (wsteps n) = Some s' /\ c_wire s' = c_accepted s.
Proof.
  intros U W A Wi. destruct (c_buf s) as [|b bs] eqn:B.
  - exists 0, s. split; [reflexivity|]. rewrite A, Wi, app_nil_r. reflexivity.
  - assert (Q : exists s1, cact idle s (AWriter Fine 0) = Some s1 /\ up s1 /\ c_wr s1 = WSend (b :: bs) /\ c_written s1 = c_written s).
    { destruct U as (U1 & U2 & U3 & U4). eexists. split; [cbn [cact]; unfold writer_step; rewrite W, U1, B; reflexivity|]. unfold up, late in *. cproj. tauto. }
    destruct Q as (s1 & St & U1 & W1 & Wn1).
    destruct (drain_batch (b :: bs) s1 U1 W1) as (n & s' & R & _ & _ & _ & _ & Wn & Wi').
    exists (S n), s'. split; [rewrite (wsteps_S n _ s1 St); exact R|]. rewrite Wi', Wn, Wn1. congruence.
Qed.
End Idle.
Theorem C34_transmits : forall sd idle l s, reaches sd idle l s ->
  c_main s = MRead -> c_once s = 0 -> leaving (c_wr s) = false -> late s = false ->
  exists n s', crun idle s (repeat (AWriter Fine 0) n) = Some s' /\ c_wire s' = c_accepted s.
Proof.
  intros sd idle l s R M On Lv Dl. change (exists n s', crun idle s (wsteps n) = Some s' /\ c_wire s' = c_accepted s).
  destruct (reach_inv _ _ _ _ R) as (Si & Oi & Fi).
  assert (St : started (c_wr s) = true).
  { apply (crun_inv (fun x => before_spawn (c_main x) = true \/ started (c_wr x) = true \/ (match c_main x with MRead | MDispatch | MReaderDone => False | _ => True end)) idle)
      with (l := l) (s := newClient sd) in R; [|clear; intros x a y I St; ccases St; cproj; cbn [before_spawn started] in *; tauto|destruct sd; left; reflexivity].
    rewrite M in R. cbn in R. destruct R as [R|[R|[]]]; [discriminate|exact R]. }
  assert (U : up s).
  { unfold sig_inv, once_inv in *. rewrite M in *. cbn in *. destruct Si as (_ & _ & S2 & _ & _ & _ & S6). destruct Oi as (_ & O1 & _). unfold up.
    rewrite O1, On, S6, (S2 eq_refl). auto. }
  destruct Fi as (F1 & _ & _ & F4). specialize (F1 Lv).
  destruct (c_wr s) as [ | | | |lb| | | | ] eqn:W; try discriminate; cbn [batch flushed app] in *.
  - destruct (to_wait idle s U (or_intror (or_introl W))) as (n & s1 & R1 & U1 & W1 & B1 & A1 & Wn1 & Wi1).
    destruct (from_wait idle s1 U1 W1) as (n2 & s2 & R2 & E2); [congruence|rewrite Wi1, Wn1; auto|].
    exists (n + n2), s2. split; [apply (wsteps_add idle n n2 s s1 s2 R1 R2)|congruence].
  - destruct (to_wait idle s U (or_intror (or_intror (or_introl W)))) as (n & s1 & R1 & U1 & W1 & B1 & A1 & Wn1 & Wi1).
    destruct (from_wait idle s1 U1 W1) as (n2 & s2 & R2 & E2); [congruence|rewrite Wi1, Wn1; auto|].
    exists (n + n2), s2. split; [apply (wsteps_add idle n n2 s s1 s2 R1 R2)|congruence].
  - destruct (from_wait idle s U W F1 (F4 eq_refl)) as (n2 & s2 & R2 & E2). exists n2, s2. auto.
  - destruct (drain_batch idle lb s U W) as (n0 & s0 & R0 & U0 & W0 & B0 & A0 & Wn0 & Wi0).
    destruct (to_wait idle s0 U0 (or_introl W0)) as (n & s1 & R1 & U1 & W1 & B1 & A1 & Wn1 & Wi1).
    destruct (from_wait idle s1 U1 W1) as (n2 & s2 & R2 & E2); [rewrite A1, A0, Wn1, Wn0, B1, B0, F1, <- app_assoc; reflexivity|congruence|].
    exists (n0 + (n + n2)), s2. split; [apply (wsteps_add idle n0 _ s s0 s2 R0), (wsteps_add idle n n2 s0 s1 s2 R1 R2)|congruence].
  - destruct (flush_step idle s U W) as (s0 & R0 & U0 & W0 & B0 & A0 & Wn0 & Wi0).
    destruct (to_wait idle s0 U0 (or_introl W0)) as (n & s1 & R1 & U1 & W1 & B1 & A1 & Wn1 & Wi1).
    destruct (from_wait idle s1 U1 W1) as (n2 & s2 & R2 & E2); [congruence|congruence|].
    exists (1 + (n + n2)), s2. split; [apply (wsteps_add idle 1 _ s s0 s2 R0), (wsteps_add idle n n2 s0 s1 s2 R1 R2)|congruence].
  - destruct (to_wait idle s U (or_introl W)) as (n & s1 & R1 & U1 & W1 & B1 & A1 & Wn1 & Wi1).
    destruct (from_wait idle s1 U1 W1) as (n2 & s2 & R2 & E2); [congruence|rewrite Wi1, Wn1; auto|].
    exists (n + n2), s2. split; [apply (wsteps_add idle n n2 s s1 s2 R1 R2)|congruence].
Qed.

(** Opening an outbound connection: dial, handshake, start of both loops. *)
Definition open : list caction := [AMain Fine; AMain Fine; AMain Fine; AMain Fine].
Definition sending : list caction := open ++ [ASend 1; AWriter Fine 0; ASend 2; AWriter Fine 0; AWriter Fine 0; ASend 3; AWriter Fine 0; AWriter Fine 1].
Example C34_nonvacuous : exists s, reaches SideOutbound 0 sending s /\ c_main s = MRead /\ c_once s = 0 /\ c_wr s = WSend [] /\
  c_accepted s = [1; 2; 3] /\ c_written s = [1; 2] /\ c_wire s = [1] /\ c_buf s = [3].
Proof. eexists. split; [unfold reaches; vm_compute; reflexivity|]. repeat split; reflexivity. Qed.
Example C34_transmits_nonvacuous : exists s, reaches SideOutbound 3 (open ++ [AWriter Fine 0; ASend 1; ATick; AWriter Fine 0; ATick; ATick; ASend 2; AWriter Fine 0]) s /\
  c_main s = MRead /\ c_once s = 0 /\ leaving (c_wr s) = false /\ late s = false /\ c_wdl s = Some 4 /\ c_now s = 3 /\ c_accepted s = [1; 2] /\ c_wire s = [].
Proof. eexists. split; [unfold reaches; vm_compute; reflexivity|]. repeat split; reflexivity. Qed.

(** ** C35: sending on a closed client *)
Definition C35_statement : Prop := forall sd idle l s m s', reaches sd idle l s ->
  c_once s = 2 -> ~ In m (c_accepted s) -> send m s = Ok s' ->
  exists l' s'', crun idle s' l' = Some s'' /\ In m (c_wire s'').

(** Once Close has begun, nothing sent afterwards is ever transmitted, and every send reports success. *)
Theorem C35_silently_dropped : forall sd idle l s m, reaches sd idle l s -> c_once s <> 0 ->
  exists s', send m s = Ok s' /\ forall l' s'', crun idle s' l' = Some s'' -> prefix (c_wire s'') (c_accepted s).
Proof.
  intros sd idle l s m R On. destruct (reach_inv _ _ _ _ R) as (_ & Oi & Fi).
  unfold send. eexists. split; [reflexivity|]. intros l' s'' H.
  assert (C : cap_inv (c_accepted s) s'').
  { apply (crun_inv (cap_inv (c_accepted s)) idle) with (l := l') (s := mkC (c_side s) (c_main s) (c_wr s) (c_once s) (c_wclosed s) (c_conn s) (c_cclosed s)
        (c_ready s) (c_rdone s) (c_wdone s) (c_cdone s) (c_panic s) (c_err s) (c_buf s ++ [m]) (c_now s) (c_wdl s) (c_reports s) (c_accepted s ++ [m]) (c_written s) (c_wire s)).
    - intros x a y. apply cap_step.
    - destruct Oi as (_ & O1 & _ & O3). destruct Fi as (F1 & (r1 & E1) & (r2 & E2) & _). unfold cap_inv. cproj.
      split; [rewrite O1; destruct (Nat.eqb_spec (c_once s) 0); [contradiction|reflexivity]|].
      split; [|split; [eexists; exact E2|exact O3]].
      destruct (leaving (c_wr s)) eqn:Lv.
      + assert (batch (c_wr s) = []) as -> by (destruct (c_wr s); try discriminate; reflexivity). rewrite app_nil_r. eexists. exact E1.
      + exists (c_buf s). rewrite (F1 eq_refl), <- app_assoc. reflexivity.
    - exact H. }
  destruct C as (_ & (r1 & E1) & (r2 & E2) & _). exists (r2 ++ batch (c_wr s'') ++ r1). rewrite E1, E2, <- !app_assoc. reflexivity.
Qed.

Definition closed_sched : list caction := open ++ [ACloseFlag; ACloseConn].
Theorem C35_refuted : ~ C35_statement.
Proof.
  intros H. assert (E : exists s, reaches SideOutbound 0 closed_sched s /\ c_once s = 2 /\ c_accepted s = []) by (eexists; split; [unfold reaches; vm_compute; reflexivity|split; reflexivity]).
  destruct E as (s & R & On & A).
  destruct (C35_silently_dropped SideOutbound 0 closed_sched s 7 R ltac:(lia)) as (s' & S & N).
  destruct (H SideOutbound 0 closed_sched s 7 s' R On) as (l' & s'' & H' & I); [rewrite A; auto|exact S|].
  destruct (N l' s'' H') as (r & P). rewrite A in P. symmetry in P. apply app_eq_nil in P as [P _]. rewrite P in I. destruct I.
Qed.

(** ** C39: the first error *)
Theorem C39_first : forall sd idle l s, reaches sd idle l s -> c_err s = hd_error (c_reports s).
Proof.
  intros sd idle l s R. apply (crun_inv (fun x => c_err x = hd_error (c_reports x)) idle) with (l := l) (s := newClient sd); [|destruct sd; reflexivity|exact R].
  clear. intros x a y I St. ccases St; cproj; auto; try (destruct rp as [|r0 rp]; cbn in I |- *; subst; try discriminate; congruence).
Qed.
Theorem C39_stable : forall idle s l s' e, crun idle s l = Some s' -> c_err s = Some e -> c_err s' = Some e.
Proof.
  intros idle s l s' e H E. apply (crun_inv (fun x => c_err x = Some e) idle) with (l := l) (s := s); [|exact E|exact H].
  clear. intros x a y I St. ccases St; cproj; subst; try discriminate; auto; congruence.
Qed.
Example C39_nonvacuous : exists s, reaches SideOutbound 0 (open ++ [AReport 3; AMain (Fails 4); AReport 5]) s /\ c_reports s = [3; 4; 5] /\ c_err s = Some 3.
Proof. eexists. split; [unfold reaches; vm_compute; reflexivity|]. split; reflexivity. Qed.

(** ** C40: signals *)
Theorem C40_no_double_close : forall sd idle l s, reaches sd idle l s -> c_panic s = false.
Proof. intros sd idle l s R. destruct (reach_inv _ _ _ _ R) as (Si & _). apply Si. Qed.
Theorem C40_ready_before_closed : forall sd idle l s, reaches sd idle l s -> c_cdone s = true -> c_ready s = true.
Proof.
  intros sd idle l s R C. destruct (reach_inv _ _ _ _ R) as ((_ & S1 & _ & _ & _ & _ & S6) & _). rewrite S6 in C. rewrite S1.
  destruct (c_main s); try discriminate. reflexivity.
Qed.
(** WaitUntilClosed returns only when the goroutine that ran the handshake and the reader has ended, and it never runs again. *)
Theorem C40_reader_stopped : forall sd idle l s, reaches sd idle l s -> c_cdone s = true ->
  c_main s = MEnd /\ forall o, cact idle s (AMain o) = None.
Proof.
  intros sd idle l s R C. destruct (reach_inv _ _ _ _ R) as ((_ & _ & _ & _ & _ & _ & S6) & _). rewrite S6 in C.
  destruct (c_main s) eqn:M; try discriminate. split; [reflexivity|]. intros o. cbn. unfold main_step. rewrite M. reflexivity.
Qed.
(** By then readerDone is raised too, except on an accepted connection whose handshake failed: there no reader and no writer ever ran. *)
Theorem C40_reader_signalled : forall sd idle l s, reaches sd idle l s -> c_cdone s = true ->
  c_rdone s = true \/ sd = SideInbound /\ c_wr s = WNone /\ c_err s <> None.
Proof.
  intros sd idle l s R C. destruct (reach_inv _ _ _ _ R) as ((_ & _ & _ & _ & _ & _ & S6) & _). rewrite S6 in C.
  assert (X : c_side s = sd /\ (before_spawn (c_main s) = true -> started (c_wr s) = false) /\
    match c_main s with
    | MClose | MDisconnected => c_rdone s = true
    | MCheck => c_side s = SideInbound
    | MAbort => c_side s = SideInbound /\ c_err s <> None
    | MRemove | MDone | MEnd => c_rdone s = true \/ c_side s = SideInbound /\ c_wr s = WNone /\ c_err s <> None
    | _ => True
    end).
  { apply (crun_inv (fun s => c_side s = sd /\ (before_spawn (c_main s) = true -> started (c_wr s) = false) /\
      match c_main s with
      | MClose | MDisconnected => c_rdone s = true
      | MCheck => c_side s = SideInbound
      | MAbort => c_side s = SideInbound /\ c_err s <> None
      | MRemove | MDone | MEnd => c_rdone s = true \/ c_side s = SideInbound /\ c_wr s = WNone /\ c_err s <> None
      | _ => True
      end) idle) with (l := l) (s := newClient sd); [|destruct sd; repeat split; reflexivity|exact R].
    clear. intros x a y. generalize sd. clear sd. intros sd0 (I1 & I2 & I3) St. ccases St; cproj; cbn [before_spawn started] in *; (split; [exact I1|]); (split; [first [exact I2|discriminate|auto]|]); auto; try discriminate; try congruence.
    all: try (split; [exact I3|discriminate]).
    all: try (right; destruct I3 as (I3 & I4); split; [exact I3|]; split; [|exact I4]; specialize (I2 eq_refl); destruct w; [reflexivity|discriminate I2..]).
    all: destruct m; cbn [before_spawn] in *; auto; try (specialize (I2 eq_refl); discriminate I2).
    all: try (destruct er; intuition congruence). }
  destruct (c_main s); try discriminate C. destruct X as (<- & _ & X). exact X.
Qed.
(** Signals are never lowered. *)
Theorem C40_signals_stay : forall idle s l s', crun idle s l = Some s' ->
  (c_ready s = true -> c_ready s' = true) /\ (c_rdone s = true -> c_rdone s' = true) /\
  (c_wdone s = true -> c_wdone s' = true) /\ (c_cdone s = true -> c_cdone s' = true).
Proof.
  intros idle s l s' H.
  apply (crun_inv (fun x => (c_ready s = true -> c_ready x = true) /\ (c_rdone s = true -> c_rdone x = true) /\
     (c_wdone s = true -> c_wdone x = true) /\ (c_cdone s = true -> c_cdone x = true)) idle) with (l := l) (s := s); [|auto|exact H].
  clear. intros x a y I St. remember (c_ready s) as r1. remember (c_rdone s) as r2. remember (c_wdone s) as r3. remember (c_cdone s) as r4. clear - I St. ccases St; cproj; intuition.
Qed.
(** Close is idempotent: after one Close has finished, further calls change nothing. *)
Theorem C40_close_idempotent : forall idle s, c_once s = 2 -> cact idle s ACloseFlag = Some s /\ cact idle s ACloseConn = None.
Proof. intros idle s H. cbn. rewrite H. auto. Qed.
(** The goroutine never waits for ever on its own client: it can always take a step, possibly after finishing close. *)
Theorem C40_progress : forall sd idle l s, reaches sd idle l s -> c_main s <> MEnd ->
  exists l' s', crun idle s l' = Some s' /\ c_main s' <> c_main s /\ forall a, In a l' -> a = ACloseFlag \/ a = ACloseConn \/ exists o, a = AMain o.
Proof.
  intros sd idle l s R N. destruct (reach_inv _ _ _ _ R) as (_ & (O1 & _) & _).
  destruct s as [sd' m w o wc cn cc rd rrd wd cd pn er bf nw dl rp ac wn wi]; cproj. clear R.
  destruct (match m with MAbort | MClose => true | _ => false end) eqn:K.
  - assert (X : o = 0 \/ o = 1 \/ o = 2) by lia. clear O1. destruct X as [-> | [-> | ->]]; (destruct m; try discriminate K).
    1, 2: exists [ACloseFlag; ACloseConn; AMain Fine].
    3, 4: exists [ACloseConn; AMain Fine].
    5, 6: exists [AMain Fine].
    all: eexists; split; [reflexivity|]; cproj; (split; [discriminate|]); intros a J; cbn [In] in J; intuition (subst; eauto).
  - exists [AMain Fine]. destruct m; try discriminate K; try (exfalso; apply N; reflexivity).
    all: cbn [crun cact]; unfold main_step; cproj.
    all: repeat match goal with |- context [match ?x with _ => _ end] => is_var x; destruct x end.
    all: eexists; split; [reflexivity|]; cproj; (split; [discriminate|]); intros a J; cbn [In] in J; intuition (subst; eauto).
Qed.

Definition life : list caction := open ++ [AWriter Fine 0; AMain (Fails 9); AMain Fine; ACloseFlag; ACloseConn; AMain Fine; AMain Fine; AMain Fine; AMain Fine].
Example C40_nonvacuous : exists s, reaches SideOutbound 0 life s /\ c_cdone s = true /\ c_ready s = true /\ c_rdone s = true /\ c_wdone s = false.
Proof. eexists. split; [unfold reaches; vm_compute; reflexivity|]. repeat split. Qed.
Example C40_nonvacuous_inbound : exists s, reaches SideInbound 0 [AMain Fine; AMain (Fails 1); AMain Fine; AMain Fine; ACloseFlag; ACloseConn; AMain Fine; AMain Fine; AMain Fine] s /\
  c_cdone s = true /\ c_ready s = true /\ c_rdone s = false.
Proof. eexists. split; [unfold reaches; vm_compute; reflexivity|]. repeat split. Qed.

(** ** C41: WaitUntilClosed and the writer *)
Definition C41_statement : Prop := forall sd idle l s, reaches sd idle l s -> c_cdone s = true -> c_wr s = WNone \/ c_wr s = WEnd.
Theorem C41_refuted : ~ C41_statement.
Proof. intros H. destruct C40_nonvacuous as (s & R & C & _ & _ & _). revert R C. intros R C. specialize (H _ _ _ _ R C). 
  unfold reaches in R. vm_compute in R. injection R as <-. cbn in H. destruct H; discriminate. Qed.

(** The writer ends soon after: at most this many more steps of its own, and it is never blocked. *)
Definition wleft (w : wrpc) : nat :=
  match w with WNone | WEnd => 0 | WExit => 1 | WTop => 2 | WWait => 2 | WDeadline => 3 | WSent => 3 | WFlush => 4 | WSend l => 5 + length l end.
Definition is_writer (a : caction) : bool := match a with AWriter _ _ => true | _ => false end.
Theorem C41_partial : forall sd idle l s, reaches sd idle l s -> c_cdone s = true ->
  (forall l' s', crun idle s l' = Some s' -> length (filter is_writer l') + wleft (c_wr s') <= wleft (c_wr s)) /\
  (c_wr s <> WNone -> c_wr s <> WEnd -> exists o s', cact idle s (AWriter o 0) = Some s').
Proof.
  intros sd idle l s R C. destruct (reach_inv _ _ _ _ R) as (Si & Oi & _).
  assert (Wc : started (c_wr s) = true -> c_wclosed s = true).
  { intros St. destruct Oi as (_ & O1 & O2 & _). destruct Si as (_ & _ & _ & _ & _ & _ & S6). rewrite S6 in C.
    assert (M : c_main s = MEnd) by (destruct (c_main s); try discriminate; reflexivity). rewrite O1, O2; try assumption; [reflexivity|]. rewrite M. reflexivity. }
  assert (Me : c_main s = MEnd) by (destruct Si as (_ & _ & _ & _ & _ & _ & S6); rewrite S6 in C; destruct (c_main s); try discriminate; reflexivity).
  split.
  - intros l'. clear R Si Oi. clear sd l. revert s C Wc Me. induction l' as [|a l' IH]; intros s C Wc Me s' H; cbn [crun] in H; [injection H as <-; cbn; lia|].
    destruct (cact idle s a) as [s1|] eqn:E; [|discriminate].
    assert (X : c_cdone s1 = true /\ (started (c_wr s1) = true -> c_wclosed s1 = true) /\ c_main s1 = MEnd /\
                (if is_writer a then S (wleft (c_wr s1)) else wleft (c_wr s1)) <= wleft (c_wr s)).
    { clear IH H. revert C Wc Me. ccases E; cproj; intros -> Wc Me; try discriminate Me; subst m;
        cbn [started is_writer wleft length] in *; repeat split; auto; try lia; try (specialize (Wc eq_refl); discriminate).
      all: try (rewrite orb_true_r in *; discriminate). }
    destruct X as (C1 & W1 & M1 & L1). specialize (IH s1 C1 W1 M1 s' H). cbn [filter]. destruct (is_writer a); cbn [length]; lia.
  - intros N1 N2. destruct (c_wr s) as [ | | | |[|m lb]| | | | ] eqn:W; try contradiction; cbn [cact]; unfold writer_step; rewrite W.
    + exists Fine. eauto.
    + exists (Fails 0). destruct (idle =? 0); eauto.
    + exists Fine. rewrite (Wc eq_refl). eauto.
    + exists Fine. eauto.
    + exists (Fails 0). eauto.
    + exists (Fails 0). eauto.
    + exists Fine. eauto.
    + exists Fine. eauto.
Qed.

(** ** C67: idle timeouts *)

(** The network never fails by itself, and no Close: only a passed deadline makes a write fail. *)
Fixpoint network_fine (idle : nat) (s : cstate) (l : list caction) : Prop :=
  match l with
  | [] => True
  | a :: l' => match a with
               | AMain (Fails _) | ACloseFlag | ACloseConn | AReport _ => False
               | AWriter (Fails _) _ => late s = true
               | _ => True
               end /\ forall s', cact idle s a = Some s' -> network_fine idle s' l'
  end.
(** While the connection is up and its reader runs, everything accepted can still be transmitted. *)
Definition C67_statement : Prop := forall sd idle l s, reaches sd idle l s -> network_fine idle (newClient sd) l ->
  c_main s = MRead -> exists l' s', crun idle s l' = Some s' /\ c_wire s' = c_accepted s.

(** The deadline set before waiting for messages has passed when a message arrives: flushing fails, and the client stays half
    dead, its reader running, sends succeeding, nothing transmitted. *)
Definition idle_sched : list caction :=
  open ++ [AWriter Fine 0; AWriter Fine 0; ATick; AMain Fine; AMain Fine; ATick; AMain Fine; AMain Fine; ASend 7; AWriter Fine 0; AWriter Fine 0; AWriter Fine 0;
           AWriter (Fails 1) 0; AWriter Fine 0].
Lemma idle_fine : network_fine 2 (newClient SideOutbound) idle_sched.
Proof.
  unfold idle_sched, open. cbn [app]. repeat (cbn [network_fine]; split; [first [exact I | reflexivity]|]; 
    let s := fresh "s" in let H := fresh in intros s H; vm_compute in H; injection H as <-). exact I.
Qed.
Theorem C67_half_dead : forall l' s' s, reaches SideOutbound 2 idle_sched s -> crun 2 s l' = Some s' ->
  c_wire s' = [] /\ c_accepted s = [7] /\ c_main s = MRead /\ c_once s = 0 /\ c_cclosed s = false.
Proof.
  intros l' s' s R H. unfold reaches in R. vm_compute in R. injection R as <-. split; [|repeat split].
  assert (X : c_wr s' = WEnd /\ c_wire s' = [] /\ before_spawn (c_main s') = false); [|apply X].
  apply (crun_inv (fun x => c_wr x = WEnd /\ c_wire x = [] /\ before_spawn (c_main x) = false) 2) with (l := l') (2 := conj eq_refl (conj eq_refl eq_refl)) (3 := H).
  intros x a y (I1 & I2 & I3) St. ccases St; cproj; subst; try discriminate; auto.
Qed.
Theorem C67_refuted : ~ C67_statement.
Proof.
  intros H. assert (E : exists s, reaches SideOutbound 2 idle_sched s) by (eexists; vm_compute; reflexivity). destruct E as (s & R).
  assert (M : c_main s = MRead) by (eapply C67_half_dead with (l' := []); [exact R|reflexivity]).
  destruct (H SideOutbound 2 idle_sched s R idle_fine M) as (l' & s' & R' & E).
  destruct (C67_half_dead l' s' s R R') as (W & A & _). rewrite W, A in E. discriminate.
Qed.

(** ** C68: Close kills the connection *)

(** After Close has been called and the client's goroutine has ended, its connection is closed. *)
Definition C68_statement : Prop := forall sd idle l s, reaches sd idle l s -> c_main s = MEnd -> c_once s = 2 -> c_conn s = true -> c_cclosed s = true.
(** Close before the connection exists is lost, and the client's own close at the end does nothing. *)
Definition early_close : list caction :=
  [ACloseFlag; ACloseConn; AMain Fine; AMain Fine; AMain Fine; AMain Fine; AMain (Fails 1); AMain Fine; AMain Fine; AMain Fine; AMain Fine; AMain Fine].
Theorem C68_refuted : ~ C68_statement.
Proof.
  intros H. assert (E : exists s, reaches SideOutbound 0 early_close s /\ c_main s = MEnd /\ c_once s = 2 /\ c_conn s = true /\ c_cclosed s = false).
  { eexists. split; [unfold reaches; vm_compute; reflexivity|]. repeat split. }
  destruct E as (s & R & M & O & C & D). specialize (H _ _ _ _ R M O C). congruence.
Qed.
(** Even a live, accepted connection: closing it before its goroutine has stored it leaves it open and being read. *)
Theorem C68_refuted_inbound : exists l s, reaches SideInbound 0 l s /\ c_once s = 2 /\ c_main s = MRead /\ c_cclosed s = false.
Proof. exists [ACloseFlag; ACloseConn; AMain Fine; AMain Fine; AMain Fine; AMain Fine; AMain Fine]. eexists. split; [unfold reaches; vm_compute; reflexivity|]. repeat split. Qed.

(** If no Close finishes before the connection exists, the connection is closed when the client's goroutine has ended. *)
Fixpoint no_early_close (idle : nat) (s : cstate) (l : list caction) : Prop :=
  match l with
  | [] => True
  | a :: l' => (a = ACloseConn -> c_conn s = true) /\ forall s', cact idle s a = Some s' -> no_early_close idle s' l'
  end.
Theorem C68_partial : forall sd idle l s, reaches sd idle l s -> no_early_close idle (newClient sd) l ->
  c_main s = MEnd -> c_conn s = true -> c_cclosed s = true.
Proof.
  intros sd idle l s R Ne M C.
  assert (G : forall l s s', (c_once s = 2 -> c_cclosed s = true) /\ (after_close (c_main s) = true -> c_conn s = true -> c_once s = 2) /\
       (match c_main s with MDial | MAccept | MFailReady | MFailWriter | MFailReader => c_conn s = false | _ => True end) ->
     no_early_close idle s l -> crun idle s l = Some s' -> (c_once s' = 2 -> c_cclosed s' = true) /\ (after_close (c_main s') = true -> c_conn s' = true -> c_once s' = 2)).
  { clear. induction l as [|a l IH]; cbn [crun]; intros s s' I N H; [injection H as <-; tauto|].
    destruct (cact idle s a) as [s1|] eqn:E; [|discriminate]. destruct N as (N1 & N2). apply (IH s1 s'); [|apply N2, E|exact H].
    clear IH H N2. revert I N1. ccases E; cproj; intros (I1 & I2 & I3) N1; cbn [after_close] in *; subst;
      repeat match goal with X : (_ =? _) = true |- _ => apply Nat.eqb_eq in X; subst end;
      repeat split; auto; intros; try discriminate; auto; try lia. }
  destruct (G l (newClient sd) s) as (G1 & G2); [destruct sd; repeat split; cbn; auto; discriminate|exact Ne|exact R|].
  apply G1, G2; [rewrite M; reflexivity|exact C].
Qed.
Example C68_nonvacuous : exists s, reaches SideOutbound 0 life s /\ no_early_close 0 (newClient SideOutbound) life /\ c_main s = MEnd /\ c_conn s = true.
Proof.
  eexists. split; [unfold reaches; vm_compute; reflexivity|]. split; [|split; reflexivity]. unfold life, open. cbn [app].
  repeat (cbn [no_early_close]; split; [intros; reflexivity || discriminate|]; let s := fresh "s" in let H := fresh in intros s H; vm_compute in H; injection H as <-). exact I.
Qed.

Print Assumptions C34_fifo.
Print Assumptions C34_append_only.
Print Assumptions C34_transmits.
Print Assumptions C35_silently_dropped.
Print Assumptions C35_refuted.
Print Assumptions C39_first.
Print Assumptions C39_stable.
Print Assumptions C40_no_double_close.
Print Assumptions C40_ready_before_closed.
Print Assumptions C40_reader_stopped.
Print Assumptions C40_reader_signalled.
Print Assumptions C40_signals_stay.
Print Assumptions C40_close_idempotent.
Print Assumptions C40_progress.
Print Assumptions C41_refuted.
Print Assumptions C41_partial.
Print Assumptions C67_half_dead.
Print Assumptions C67_refuted.
Print Assumptions C68_refuted.
Print Assumptions C68_refuted_inbound.
Print Assumptions C68_partial.
