(** * Properties of the callbacks of one client (C72-C75): every schedule, every network. *)
From Verif Require Import Base M_Table M_Client M_Events P_Client Props_Client.
Local Open Scope nat_scope.

(** A run of a new client that ends in [s], and what was observed. *)
Definition shows (sd : cside) (idle : nat) (l : list caction) (s : cstate) (t : list event) : Prop :=
  reaches sd idle l s /\ t = events idle (newClient sd) l.
(** reportError is called by the client's own goroutine, its reader, its writer, and by workers that handle its messages: the latter not
    before its reader has run. *)
Fixpoint sober (idle : nat) (s : cstate) (l : list caction) : Prop :=
  match l with
  | [] => True
  | a :: l' => match a with AReport _ => before_spawn (c_main s) = false | _ => True end /\ forall s', cact idle s a = Some s' -> sober idle s' l'
  end.

Lemma events_inv (I : list event -> cstate -> Prop) idle : (forall t s a s', I t s -> cact idle s a = Some s' -> I (t ++ emits s a) s') ->
  forall l t s s', I t s -> crun idle s l = Some s' -> I (t ++ events idle s l) s'.
Proof.
  intros St. induction l as [|a l IH]; intros t s s' H R; cbn in R |- *; [injection R as <-; rewrite app_nil_r; exact H|].
  destruct (cact idle s a) as [s1|] eqn:E; [|discriminate]. rewrite app_assoc. apply IH; [apply (St t s a s1 H E)|exact R].
Qed.
Lemma events_sober (I : list event -> cstate -> Prop) idle :
  (forall t s a s', I t s -> (match a with AReport _ => before_spawn (c_main s) = false | _ => True end) -> cact idle s a = Some s' -> I (t ++ emits s a) s') ->
  forall l t s s', I t s -> sober idle s l -> crun idle s l = Some s' -> I (t ++ events idle s l) s'.
Proof.
  intros St. induction l as [|a l IH]; intros t s s' H So R; cbn in R, So |- *; [injection R as <-; rewrite app_nil_r; exact H|].
  destruct So as (S1 & S2). destruct (cact idle s a) as [s1|] eqn:E; [|discriminate]. rewrite app_assoc. apply IH; [apply (St t s a s1 H S1 E)|apply S2; reflexivity|exact R].
Qed.

(** One step, with what it makes observable. *)
Ltac ecases St := ccases St; repeat match goal with x : outcome |- _ => destruct x end; cbn [emits]; cproj.

(** ** C72: OnPeerConnected and OnPeerDisconnected are paired *)
Definition conn_events (t : list event) : list event := filter (fun e => match e with EvConnected | EvDisconnected => true | _ => false end) t.

(** mod.go:28-34: OnPeerConnected once the handshake is complete; OnPeerDisconnected for a connection that was connected and has been terminated. *)
Definition C72_statement : Prop := forall sd idle l s t, shows sd idle l s t -> sober idle (newClient sd) l ->
  prefix (conn_events t) [EvConnected; EvDisconnected] /\ (c_cdone s = true -> conn_events t = [] \/ conn_events t = [EvConnected; EvDisconnected]).

(** An outbound client does not look whether its handshake failed (client.go:232-235): OnPeerDisconnected without OnPeerConnected. *)
Definition unpaired : list caction :=
  [AMain Fine; AMain (Fails 1); AMain Fine; AMain Fine; AMain (Fails 2); AMain Fine; ACloseFlag; ACloseConn; AMain Fine; AMain Fine; AMain Fine; AMain Fine].
Theorem C72_refuted : ~ C72_statement.
Proof.
  intros H. assert (E : exists s, shows SideOutbound 0 unpaired s [EvDisconnected]) by (eexists; split; [unfold reaches; vm_compute; reflexivity|reflexivity]). destruct E as (s & E).
  destruct (H SideOutbound 0 unpaired s _ E) as ((r & P) & _); [|discriminate P].
  clear. unfold unpaired. repeat (cbn [sober]; split; [exact I|]; let s := fresh "s" in let X := fresh in intros s X; vm_compute in X; injection X as <-). exact I.
Qed.

Definition conn_inv (sd : cside) (t : list event) (s : cstate) : Prop :=
  c_side s = sd /\ (before_spawn (c_main s) = true -> started (c_wr s) = false) /\
  match c_main s with
  | MDial | MAccept | MHandshake => conn_events t = [] /\ c_err s = None
  | MFailReady | MFailWriter | MFailReader | MAbort => conn_events t = [] /\ c_err s <> None
  | MReady => conn_events t = [EvConnected] /\ c_err s = None \/ conn_events t = [] /\ c_err s <> None
  | MCheck => sd = SideInbound /\ (conn_events t = [EvConnected] /\ c_err s = None \/ conn_events t = [] /\ c_err s <> None)
  | MSpawn | MRead | MDispatch | MReaderDone | MClose | MDisconnected => conn_events t = [EvConnected] \/ sd = SideOutbound /\ conn_events t = [] /\ c_err s <> None
  | MRemove | MDone | MEnd => conn_events t = [EvConnected; EvDisconnected] \/ (conn_events t = [] \/ sd = SideOutbound /\ conn_events t = [EvDisconnected]) /\ c_err s <> None
  end.
Lemma conn_step idle sd0 t x a y : conn_inv sd0 t x -> (match a with AReport _ => before_spawn (c_main x) = false | _ => True end) -> cact idle x a = Some y -> conn_inv sd0 (t ++ emits x a) y.
Proof.
  intros J So St. unfold conn_inv, conn_events in *. rewrite filter_app. remember (filter (fun e => match e with EvConnected | EvDisconnected => true | _ => false end) t) as ft eqn:Q. clear Q t.
  ecases St; cbn [filter before_spawn started] in *; rewrite ?app_nil_r; destruct J as (<- & W & J); (split; [reflexivity|]); (split; [first [exact W|discriminate|auto]|]);
    try discriminate So; try exact J.
  all: try (destruct m; cbn [before_spawn] in *; try discriminate So; try (specialize (W eq_refl); discriminate W)).
  all: destruct sd, er; cbn [app] in *; intuition (subst; cbn [app] in *; try congruence; auto).
Qed.
Lemma conn_reach sd idle l s t : shows sd idle l s t -> sober idle (newClient sd) l -> conn_inv sd t s.
Proof.
  intros (R & ->) So. apply (events_sober (conn_inv sd) idle) with (t := []); [|destruct sd; repeat split; reflexivity|exact So|exact R].
  intros t x a y. apply conn_step.
Qed.

(** Proved: accepted connections are paired; a dialled one is too unless its handshake failed, and then OnPeerDisconnected is called once
    and the client has an error; whoever was announced connected is announced disconnected by the time the client is closed. *)
Theorem C72_partial : forall sd idle l s t, shows sd idle l s t -> sober idle (newClient sd) l ->
  (prefix (conn_events t) [EvConnected; EvDisconnected] \/ sd = SideOutbound /\ conn_events t = [EvDisconnected] /\ c_err s <> None) /\
  (c_cdone s = true -> In EvConnected t -> In EvDisconnected t) /\
  (c_ready s = true -> c_err s = None -> In EvConnected t).
Proof.
  intros sd idle l s t H So. pose proof (conn_reach _ _ _ _ _ H So) as (Sd & _ & J). destruct H as (R & E). destruct (reach_inv _ _ _ _ R) as ((_ & S1 & _ & _ & _ & _ & S6) & _).
  assert (K : forall e, In e (conn_events t) -> In e t) by (intros e X; apply filter_In in X; apply X).
  assert (K2 : In EvConnected t -> In EvConnected (conn_events t)) by (intros X; apply filter_In; split; [exact X|reflexivity]).
  split; [|split].
  - assert (X : conn_events t = [] \/ conn_events t = [EvConnected] \/ conn_events t = [EvConnected; EvDisconnected] \/ sd = SideOutbound /\ conn_events t = [EvDisconnected] /\ c_err s <> None)
      by (destruct (c_main s); intuition auto).
    destruct X as [X|[X|[X|X]]]; [left; rewrite X; eexists; reflexivity|left; rewrite X; eexists; reflexivity|left; rewrite X; exists []; reflexivity|right; exact X].
  - intros Cd X. apply K2 in X. rewrite S6 in Cd. destruct (c_main s); try discriminate Cd. apply K.
    destruct J as [Q|([Q|(_ & Q)] & _)]; rewrite Q in *; cbn in *; auto; intuition discriminate.
  - intros Rd Er. rewrite S1 in Rd. apply K. destruct (c_main s); try discriminate Rd; intuition (try match goal with X : conn_events t = _ |- _ => rewrite X end; cbn; auto; congruence).
Qed.
Example C72_nonvacuous : exists s t, shows SideInbound 0 ([AMain Fine; AMain Fine; AMain Fine; AMain Fine; AMain Fine; AMain (Fails 2); AMain Fine; ACloseFlag; ACloseConn; AMain Fine; AMain Fine; AMain Fine; AMain Fine]) s t /\
  conn_events t = [EvConnected; EvDisconnected] /\ c_cdone s = true.
Proof. eexists. eexists. split; [split; [unfold reaches; vm_compute; reflexivity|reflexivity]|]. split; reflexivity. Qed.

(** ** C73: OnMessageRecv *)
Definition times (e : event) (t : list event) : nat := count_occ event_eq_dec t e.
Lemma times_app e a b : times e (a ++ b) = times e a + times e b.
Proof. apply count_occ_app. Qed.

(** mod.go:45-46: called whenever a message or response is received: as often as a message has been read, whenever the reader waits for the next. *)
Definition C73_statement : Prop := forall sd idle l s t, shows sd idle l s t -> c_main s = MRead -> times EvRecv t = times EvGot t.

(** Not for responses. *)
Theorem C73_refuted : ~ C73_statement.
Proof.
  intros H. assert (E : exists s, shows SideOutbound 0 (open ++ [AMain Fine; AMain (Fails 0)]) s [EvConnected; EvGot; EvResponse] /\ c_main s = MRead)
    by (eexists; split; [split; [unfold reaches; vm_compute; reflexivity|reflexivity]|reflexivity]).
  destruct E as (s & E & M). specialize (H _ _ _ _ _ E M). discriminate H.
Qed.
(** Proved: once per message that is no response. *)
Theorem C73_partial : forall sd idle l s t, shows sd idle l s t ->
  times EvRecv t + times EvResponse t + (match c_main s with MDispatch => 1 | _ => 0 end) = times EvGot t.
Proof.
  intros sd idle l s t (R & ->).
  apply (events_inv (fun t s => times EvRecv t + times EvResponse t + (match c_main s with MDispatch => 1 | _ => 0 end) = times EvGot t) idle) with (t := []); [|destruct sd; reflexivity|exact R].
  clear. intros t x a y J St. rewrite !times_app. remember (times EvRecv t) as n1. remember (times EvResponse t) as n2. remember (times EvGot t) as n3. clear Heqn1 Heqn2 Heqn3 t.
  ecases St; unfold times; cbn [count_occ event_eq_dec event_rec event_rect sumbool_rec sumbool_rect] in *; lia.
Qed.
Example C73_nonvacuous : exists s t, shows SideInbound 0 ([AMain Fine; AMain Fine; AMain Fine; AMain Fine; AMain Fine; AMain Fine; AMain Fine; AMain Fine; AMain (Fails 0); AMain Fine]) s t /\
  times EvRecv t = 1 /\ times EvResponse t = 1 /\ times EvGot t = 3 /\ c_main s = MDispatch.
Proof. eexists. eexists. split; [split; [unfold reaches; vm_compute; reflexivity|reflexivity]|]. repeat split; reflexivity. Qed.

(** ** C74: OnMessageSent *)
Definition resting (w : wrpc) : bool := match w with WSend _ | WFlush | WSent => false | _ => true end.

(** mod.go:42-43: called whenever bytes of a message have been flushed or sent: when messages have reached the connection and the writer is
    not in the middle of its work, it was called. *)
Definition C74_statement : Prop := forall sd idle l1 s1 l2 s2, reaches sd idle l1 s1 -> crun idle s1 l2 = Some s2 ->
  c_wire s2 <> c_wire s1 -> resting (c_wr s2) = true -> In EvSent (events idle s1 l2).

(** Not when a later message of the same batch fails to be written. *)
Definition spilled : list caction := [ASend 1; ASend 2; AWriter Fine 0; AWriter Fine 0; AWriter Fine 0; AWriter Fine 1; AWriter (Fails 5) 0; AWriter Fine 0].
Theorem C74_refuted : ~ C74_statement.
Proof.
  intros H. assert (E : exists s1 s2, reaches SideOutbound 0 open s1 /\ crun 0 s1 spilled = Some s2 /\ c_wire s1 = [] /\ c_wire s2 = [1] /\ c_wr s2 = WEnd /\ events 0 s1 spilled = [])
    by (eexists; eexists; split; [unfold reaches; vm_compute; reflexivity|split; [vm_compute; reflexivity|repeat split; reflexivity]]).
  destruct E as (s1 & s2 & R & C & W1 & W2 & Wr & Ev). specialize (H _ _ _ _ _ _ R C). rewrite W1, W2, Wr, Ev in H. apply H; [discriminate|reflexivity].
Qed.
(** Proved: while the writer has not given up. *)
Theorem C74_partial : forall sd idle l1 s1 l2 s2, reaches sd idle l1 s1 -> crun idle s1 l2 = Some s2 ->
  c_wire s2 <> c_wire s1 -> resting (c_wr s2) = true -> leaving (c_wr s2) = false -> In EvSent (events idle s1 l2).
Proof.
  intros sd idle l1 s1 l2 s2 R C Ne Re Lv. destruct (reach_inv _ _ _ _ R) as (_ & On & _).
  assert (X : once_inv s2 /\ (In EvSent (events idle s1 l2) \/ c_wire s2 = c_wire s1 \/ resting (c_wr s2) = false \/ leaving (c_wr s2) = true)).
  { apply (events_inv (fun t x => once_inv x /\ (In EvSent t \/ c_wire x = c_wire s1 \/ resting (c_wr x) = false \/ leaving (c_wr x) = true)) idle) with (t := []); [|auto|exact C].
    clear. intros t x a y (On & J) St. split; [apply (once_step idle x a); assumption|]. rewrite in_app_iff. destruct On as (_ & _ & _ & On). remember (c_wire s1) as w1. remember (In EvSent t) as P. clear HeqP t.
    ecases St; cbn [In resting leaving before_spawn] in *; try (specialize (On eq_refl); destruct w; cbn [started resting leaving] in *; try discriminate On); intuition congruence. }
  destruct X as (_ & [X|[X|[X|X]]]); [exact X|contradiction|congruence|congruence].
Qed.
(** When it is called, everything that is not still waiting in the buffer has reached the connection. *)
Theorem C74_flushed : forall sd idle l s o sp s', reaches sd idle l s -> cact idle s (AWriter o sp) = Some s' -> In EvSent (emits s (AWriter o sp)) ->
  c_accepted s = c_wire s ++ c_buf s.
Proof.
  intros sd idle l s o sp s' R St X. destruct (reach_inv _ _ _ _ R) as (_ & _ & (F1 & _ & _ & F4)). cbn [emits] in X.
  destruct (c_wr s); cbn in X; try contradiction. rewrite (F4 eq_refl). exact (F1 eq_refl).
Qed.
(** And at most once per message. *)
Definition sent_inv (n : nat) (s : cstate) : Prop :=
  n <= length (c_wire s) /\ match c_wr s with WSend l => S n <= length (c_written s) + length l | WFlush => S n <= length (c_written s) | WSent => S n <= length (c_wire s) | _ => True end.
Theorem C74_at_most : forall sd idle l s t, shows sd idle l s t -> times EvSent t <= length (c_wire s).
Proof.
  intros sd idle l s t (R & ->).
  assert (X : (once_inv s /\ fifo_inv s) /\ sent_inv (times EvSent (events idle (newClient sd) l)) s); [|apply X].
  apply (events_inv (fun t x => (once_inv x /\ fifo_inv x) /\ sent_inv (times EvSent t) x) idle) with (t := []); [| |exact R].
  2:{ split; [split; [apply once_start|apply fifo_start]|]. destruct sd; split; cbn; auto. }
  clear. intros t x a y ((On & Fi) & J) St. split; [split; [apply (once_step idle x a); assumption|apply (fifo_step idle x a); assumption]|].
  rewrite times_app. remember (times EvSent t) as n eqn:Q. clear Q t. unfold sent_inv, fifo_inv in *. destruct On as (_ & _ & _ & On). destruct Fi as (F1 & (q1 & G1) & (q2 & G2) & F4).
  assert (Lw : length (c_wire x) <= length (c_written x)) by (rewrite G2, app_length; lia). clear q1 G1 q2 G2.
  ecases St; unfold times; cbn [count_occ event_eq_dec event_rec event_rect sumbool_rec sumbool_rect before_spawn flushed] in *; rewrite ?Nat.add_0_r; try exact J; destruct J as (J1 & J2);
    rewrite ?firstn_length, ?app_length; cbn [length] in *; split; auto; try lia.
  all: rewrite (F4 eq_refl) in *; lia.
Qed.
Example C74_nonvacuous : exists s1 s2, reaches SideOutbound 0 open s1 /\ crun 0 s1 [ASend 1; ASend 2; AWriter Fine 0; AWriter Fine 0; AWriter Fine 0; ASend 3; AWriter Fine 0; AWriter Fine 0; AWriter Fine 0; AWriter Fine 0; AWriter Fine 0] = Some s2 /\
  c_wire s1 = [] /\ c_wire s2 = [1; 2] /\ c_wr s2 = WTop /\ c_accepted s2 = [1; 2; 3] /\ shows SideOutbound 0 (open ++ [ASend 1; ASend 2; AWriter Fine 0; AWriter Fine 0; AWriter Fine 0; ASend 3; AWriter Fine 0; AWriter Fine 0; AWriter Fine 0; AWriter Fine 0; AWriter Fine 0]) s2 [EvConnected; EvSent].
Proof. eexists. eexists. split; [unfold reaches; vm_compute; reflexivity|]. split; [vm_compute; reflexivity|]. repeat split; reflexivity. Qed.


(** ** C75: what happens on a connection happens between its two events *)
Definition C75_statement : Prop := forall sd idle l s t, shows sd idle l s t -> sober idle (newClient sd) l ->
  forall a e b, t = a ++ e :: b -> e = EvRecv \/ e = EvSent -> In EvConnected a /\ ~ In EvDisconnected a.

Lemma sober_plain l : (forall a, In a l -> match a with AReport _ => False | _ => True end) -> forall idle s, sober idle s l.
Proof.
  induction l as [|a l IH]; intros H idle s; [exact I|]. split; [specialize (H a (or_introl eq_refl)); destruct a; tauto|]. intros s' _. apply IH. intros b X. apply H. right. exact X.
Qed.

(** The writer calls OnMessageSent although the reader has already called OnPeerDisconnected. *)
Definition late_sent : list caction :=
  [AMain Fine; AMain Fine; AMain Fine; AMain Fine; AMain Fine; ASend 1; AWriter Fine 0; AWriter Fine 0; AWriter Fine 0; AWriter Fine 0; AWriter Fine 0; AWriter Fine 0;
   AMain (Fails 2); AMain Fine; ACloseFlag; ACloseConn; AMain Fine; AMain Fine; AWriter Fine 0].
Theorem C75_refuted : ~ C75_statement.
Proof.
  intros H. assert (E : exists s, shows SideInbound 0 late_sent s [EvConnected; EvDisconnected; EvSent]) by (eexists; split; [unfold reaches; vm_compute; reflexivity|reflexivity]).
  destruct E as (s & E). destruct (H _ _ _ _ _ E ltac:(apply sober_plain; unfold late_sent; cbn [In]; intuition (subst; exact I)) [EvConnected; EvDisconnected] EvSent [] eq_refl (or_intror eq_refl)) as (_ & X).
  apply X. cbn. auto.
Qed.
(** And on a dialled connection whose handshake failed messages are received although OnPeerConnected was not called. *)
Definition early_recv : list caction := [AMain Fine; AMain (Fails 1); AMain Fine; AMain Fine; AMain Fine; AMain Fine].
Theorem C75_refuted_outbound : exists s, shows SideOutbound 0 early_recv s [EvGot; EvRecv] /\ sober 0 (newClient SideOutbound) early_recv.
Proof.
  eexists. split; [split; [unfold reaches; vm_compute; reflexivity|reflexivity]|]. apply sober_plain. unfold early_recv. cbn [In]. intuition (subst; exact I).
Qed.

(** Proved: OnMessageRecv is never called after OnPeerDisconnected; and neither it nor OnMessageSent before OnPeerConnected, unless the client
    was dialled and has an error. *)
Definition order_inv (sd : cside) (t : list event) (s : cstate) : Prop :=
  (started (c_wr s) = true -> In EvConnected t \/ sd = SideOutbound /\ c_err s <> None) /\
  forall a e b, t = a ++ e :: b ->
    (e = EvRecv -> ~ In EvDisconnected a) /\ (e = EvRecv \/ e = EvSent -> In EvConnected a \/ sd = SideOutbound /\ c_err s <> None).
Lemma snoc_split {A} (t a b : list A) x e : t ++ [x] = a ++ e :: b -> (exists b', t = a ++ e :: b') \/ a = t /\ e = x.
Proof.
  intros E. destruct (exists_last (l := e :: b) ltac:(discriminate)) as (b' & y & Q). rewrite Q, app_assoc in E. apply app_inj_tail in E as (E & ->).
  destruct b' as [|z b']; cbn in Q; injection Q as <- Q; [right; rewrite app_nil_r in E; auto|left; exists b'; exact E].
Qed.
Lemma err_kept idle x a y : cact idle x a = Some y -> c_err x <> None -> c_err y <> None.
Proof. intros St. ccases St; cproj; auto; try (destruct er; intros; congruence). Qed.
Lemma emits_one s a : emits s a = [] \/ exists e, emits s a = [e].
Proof.
  destruct a as [[|e]|o sp| | | | | ]; cbn [emits]; auto; try (destruct (c_main s); auto; right; eexists; reflexivity). destruct (c_wr s); auto. right. eexists. reflexivity.
Qed.
Lemma order_step idle sd0 t x a y : conn_inv sd0 t x -> order_inv sd0 t x -> cact idle x a = Some y -> order_inv sd0 (t ++ emits x a) y.
Proof.
  intros J (O1 & O2) St. pose proof (err_kept idle x a y St) as Er. split.
  - intros W. rewrite in_app_iff. destruct (started (c_wr x)) eqn:Wx.
    + destruct (O1 eq_refl) as [K|(K & K')]; auto.
    + assert (M : c_main x = MSpawn /\ c_err y = c_err x).
      { clear - St W Wx. revert Wx W. ccases St; cproj; cbn [started]; try discriminate; intros; try congruence; auto. }
      destruct M as (M & Ey). destruct J as (_ & _ & J). rewrite M in J. rewrite Ey. destruct J as [J|J]; [left; left|right; tauto].
      assert (X : In EvConnected (conn_events t)) by (rewrite J; left; reflexivity). apply filter_In in X. apply X.
  - intros u e b E. destruct (emits_one x a) as [Q|(e0 & Q)]; rewrite Q in E.
    + rewrite app_nil_r in E. destruct (O2 u e b E) as (A & B). split; [exact A|]. intros K. destruct (B K) as [L|(L & L')]; auto.
    + apply snoc_split in E as [(b' & E)|(-> & ->)].
      * destruct (O2 u e b' E) as (A & B). split; [exact A|]. intros K. destruct (B K) as [L|(L & L')]; auto.
      * split.
        -- intros ->. assert (M : c_main x = MDispatch) by (clear - Q; destruct a as [[|e]|o sp| | | | | ]; cbn in Q; try discriminate; [destruct (c_main x); try discriminate; reflexivity|destruct (c_main x); discriminate|destruct (c_wr x); discriminate]).
           destruct J as (_ & _ & J). rewrite M in J. intros X.
           assert (Y : In EvDisconnected (conn_events t)) by (apply filter_In; split; [exact X|reflexivity]).
           destruct J as [J|(_ & J & _)]; rewrite J in Y; cbn in Y; intuition discriminate.
        -- intros K. assert (M : c_main x = MDispatch \/ started (c_wr x) = true).
           { clear - Q K. destruct a as [[|e]|o sp| | | | | ]; cbn in Q; try discriminate; [destruct (c_main x); try discriminate; injection Q as <-; intuition discriminate|destruct (c_main x); try discriminate; injection Q as <-; intuition discriminate|].
             destruct (c_wr x); try discriminate. auto. }
           destruct M as [M|M]; [|destruct (O1 M) as [L|(L & L')]; auto].
           destruct J as (_ & _ & J). rewrite M in J. destruct J as [J|(J & _ & J')]; [left|right; auto].
           assert (X : In EvConnected (conn_events t)) by (rewrite J; left; reflexivity). apply filter_In in X. apply X.
Qed.
Theorem C75_partial : forall sd idle l s t, shows sd idle l s t -> sober idle (newClient sd) l -> forall a e b, t = a ++ e :: b ->
  (e = EvRecv -> ~ In EvDisconnected a) /\
  (e = EvRecv \/ e = EvSent -> In EvConnected a \/ sd = SideOutbound /\ c_err s <> None).
Proof.
  intros sd idle l s t (R & ->) So.
  assert (X : conn_inv sd (events idle (newClient sd) l) s /\ order_inv sd (events idle (newClient sd) l) s); [|apply X].
  apply (events_sober (fun t x => conn_inv sd t x /\ order_inv sd t x) idle) with (t := []); [| |exact So|exact R].
  - intros t x a y (J & O) Q St. split; [apply (conn_step idle sd t x a y J Q St)|apply (order_step idle sd t x a y J O St)].
  - split; [destruct sd; repeat split; reflexivity|]. split; [destruct sd; discriminate|]. intros a e b E. destruct a; discriminate E.
Qed.
Definition between : list caction :=
  [AMain Fine; AMain Fine; AMain Fine; AMain Fine; AMain Fine; ASend 1; AMain Fine; AMain Fine; AWriter Fine 0; AWriter Fine 0; AWriter Fine 0; AWriter Fine 0; AWriter Fine 0; AWriter Fine 0;
   AWriter Fine 0; AMain (Fails 2); AMain Fine; ACloseFlag; ACloseConn; AMain Fine; AMain Fine].
Example C75_nonvacuous : exists s, shows SideInbound 0 between s [EvConnected; EvGot; EvRecv; EvSent; EvDisconnected] /\ sober 0 (newClient SideInbound) between.
Proof.
  eexists. split; [split; [unfold reaches; vm_compute; reflexivity|reflexivity]|]. apply sober_plain. unfold between. cbn [In]. intuition (subst; exact I).
Qed.

Print Assumptions C72_refuted.
Print Assumptions C72_partial.
Print Assumptions C73_refuted.
Print Assumptions C73_partial.
Print Assumptions C74_refuted.
Print Assumptions C74_partial.
Print Assumptions C74_flushed.
Print Assumptions C74_at_most.
Print Assumptions C75_refuted.
Print Assumptions C75_refuted_outbound.
Print Assumptions C75_partial.
