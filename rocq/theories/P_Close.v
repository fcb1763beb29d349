(** * Invariants of a node being closed *)
From Verif Require Import Base Spec M_Table P_Table P_Iter P_Gossip P_Conn M_Maps M_Client P_Client Props_Maps M_Dial P_Dial Props_Dial M_Close.
Local Open Scope nat_scope.

Ltac nproj := cbn [nd_in nd_out nd_lst nd_listening nd_open nd_done nd_dclosed nd_closers nd_made nd_wclosed nd_queue nd_workers nd_stuck nd_panic set_lst set_in set_out set_queue set_worker add_stuck die] in *.

Section Inv.
Variables (w max att p idle : nat) (isctx : nat -> bool).
Notation in_step := (dstep SideInbound max 1 0 idle isctx).
Notation out_step := (dstep SideOutbound max att p idle isctx).
Notation nstep := (nstep w max att p idle isctx).
Notation nrun := (nrun w max att p idle isctx).

Lemma nrun_inv (P : nstate -> Prop) : (forall s a s', P s -> nstep s a = Some s' -> P s') -> forall l s s', P s -> nrun s l = Some s' -> P s'.
Proof.
  intros St. induction l as [|a l IH]; cbn [M_Close.nrun]; intros s s' H R; [injection R as <-; exact H|].
  destruct (nstep s a) as [s1|] eqn:E; [|discriminate]. apply (IH s1 s'); [apply (St s a s1 H E)|exact R].
Qed.
Lemma nrun_app l1 l2 : forall s, nrun s (l1 ++ l2) = match nrun s l1 with Some s' => nrun s' l2 | None => None end.
Proof. induction l1 as [|a l1 IH]; intros s; cbn [M_Close.nrun app]; [reflexivity|]. destruct (nstep s a); [apply IH|reflexivity]. Qed.

(** ** What a step does *)
(** The inbound pool changes by one of its own steps; the listener alone calls get. *)
Definition in_move (s s' : nstate) (a : nact) : Prop :=
  nd_in s' = nd_in s \/
  (exists ad, a = NaAccept ad /\ nd_lst s = LAccept /\ nd_open s = true /\ in_step (nd_in s) (DaCall ad) = Some (nd_in s')) \/
  (exists da, a = NaIn da /\ in_step (nd_in s) da = Some (nd_in s') /\ match da with DaGet _ | DaEvicted _ | DaClient _ _ => True | _ => False end) \/
  (a = NaRelease /\ nd_lst s = LRelease /\ ds_lock (nd_in s) = None /\
   nd_in s' = mkDS (ds_callers (nd_in s)) (ds_clients (nd_in s)) (cm_release (ds_pool (nd_in s))) None (ds_gets (nd_in s)) (ds_failed (nd_in s)) (ds_late (nd_in s))).
Definition out_move (s s' : nstate) (a : nact) : Prop :=
  nd_out s' = nd_out s \/ exists da, a = NaOut da /\ out_step (nd_out s) da = Some (nd_out s').
End Inv.

(** Case analysis on a step: one case per way of succeeding. *)
Ltac ncases E :=
  match type of E with M_Close.nstep ?w ?max ?att ?p ?idle ?isctx ?s ?a = Some ?s1 =>
    unfold M_Close.nstep in E; destruct (nd_panic s) eqn:Pn; [discriminate E|];
    destruct a as [ | |ad| | | | |pk| | | | | | |ci|wj|wj ok|wj|da|da];
    [ destruct (nd_lst s) eqn:Ls; try discriminate E; injection E as <-
    | destruct (nd_lst s) eqn:Ls; try discriminate E; injection E as <-
    | destruct (nd_lst s) eqn:Ls; try discriminate E; destruct (nd_open s) eqn:Op; [|discriminate E]; destruct (dstep SideInbound max 1 0 idle isctx (nd_in s) (DaCall ad)) as [dd|] eqn:Sd; [|discriminate E]; injection E as <-
    | destruct (nd_lst s) eqn:Ls; try discriminate E; injection E as <-
    | destruct (nd_lst s) as [ | | |li| | | | | | | | ] eqn:Ls; try discriminate E; destruct (nth_error (ds_callers (nd_in s)) li) as [cl|] eqn:Hcl; [|discriminate E]; destruct (d_pc cl) eqn:Pcl; try discriminate E; injection E as <-
    | destruct (nd_lst s) eqn:Ls; try discriminate E; destruct (nd_dclosed s) eqn:Dc; [injection E as <-|destruct (nd_done s <? 1) eqn:Dn; [injection E as <-|discriminate E]]
    | destruct (nd_lst s) eqn:Ls; try discriminate E; destruct (ds_lock (nd_in s)) as [lk|] eqn:Lk; [discriminate E|]; injection E as <-
    | destruct (nd_lst s) as [ | | | | | |todo| | | | | ] eqn:Ls; try discriminate E; destruct (existsb (Nat.eqb pk) todo) eqn:Ex; [|discriminate E]; injection E as <-
    | destruct (nd_lst s) as [ | | | | | | |jk todo| | | | ] eqn:Ls; try discriminate E; destruct (nth_error (ds_clients (nd_in s)) jk) as [jq|] eqn:Hjk; [|discriminate E]; destruct ((c_once (k_st jq) =? 2) && c_cdone (k_st jq)) eqn:Jd; [|discriminate E]; injection E as <-
    | destruct (nd_lst s) as [ | | | | | |todo| | | | | ] eqn:Ls; try discriminate E; destruct todo; [|discriminate E]; destruct (nd_wclosed s) eqn:Wc; injection E as <-
    | destruct (nd_lst s) eqn:Ls; try discriminate E; destruct (forallb (fun k => match k with KGone => true | _ => false end) (nd_workers s)) eqn:Al; [|discriminate E]; injection E as <-
    | destruct (nd_lst s) eqn:Ls; try discriminate E; injection E as <-
    | destruct (nd_lst s) eqn:Ls; try discriminate E; destruct (nd_dclosed s) eqn:Dc; injection E as <-
    | injection E as <-
    | destruct (nth_error (nd_closers s) ci) as [[ | | | | ]|] eqn:Hci; try discriminate E;
      [ destruct (nd_listening s) eqn:Li; injection E as <-
      | destruct (nd_open s) eqn:Op; injection E as <-
      | destruct (nd_done s) as [|dn] eqn:Dn; [destruct (nd_dclosed s) eqn:Dc; [|discriminate E]|]; injection E as <- ]
    | destruct (nth_error (nd_workers s) wj) as [[ | | ]|] eqn:Hwj; try discriminate E; destruct (nd_queue s) as [|[qs qk] qq] eqn:Qu; [discriminate E|]; injection E as <-
    | destruct (nth_error (nd_workers s) wj) as [[ |ws wk| ]|] eqn:Hwj; try discriminate E; injection E as <-
    | destruct (nth_error (nd_workers s) wj) as [[ | | ]|] eqn:Hwj; try discriminate E; destruct (nd_queue s) as [|qx qq] eqn:Qu; [|discriminate E]; destruct (nd_wclosed s) eqn:Wc; [|discriminate E]; injection E as <-
    | destruct da as [ |gi|gi|gi| | | | |gk ga]; try discriminate E;
      [ destruct (dstep SideInbound max 1 0 idle isctx (nd_in s) (DaGet gi)) as [dd|] eqn:Sd; [|discriminate E]; injection E as <-
      | destruct (dstep SideInbound max 1 0 idle isctx (nd_in s) (DaEvicted gi)) as [dd|] eqn:Sd; [|discriminate E]; injection E as <-
      | destruct (dstep SideInbound max 1 0 idle isctx (nd_in s) (DaClient gk ga)) as [dd|] eqn:Sd; [|discriminate E];
        destruct (handing (nd_in s) gk ga) eqn:Hd; [destruct (nd_wclosed s) eqn:Wc; [injection E as <-|destruct (length (nd_queue s) <? w) eqn:Ql; [injection E as <-|discriminate E]]|injection E as <-] ]
    | destruct (dstep SideOutbound max att p idle isctx (nd_out s) da) as [dd|] eqn:Sd; [|discriminate E];
      destruct da as [ca|cj|gi|gi|si b|xi|xi|fi|gk ga]; try injection E as <-;
      [ .. | destruct (is_main ga && existsb (Nat.eqb gk) (nd_stuck s)) eqn:Sk; [discriminate E|]; destruct (handing (nd_out s) gk ga) eqn:Hd;
             [destruct (nd_made s) eqn:Md; cbn [negb] in E; [destruct (nd_wclosed s) eqn:Wc; [injection E as <-|destruct (length (nd_queue s) <? w) eqn:Ql; [injection E as <-|discriminate E]]|injection E as <-]|injection E as <-] ] ];
    nproj
  end.
Section Inv2.
Variables (w max att p idle : nat) (isctx : nat -> bool).
Notation in_step := (dstep SideInbound max 1 0 idle isctx).
Notation out_step := (dstep SideOutbound max att p idle isctx).
Notation nstep := (nstep w max att p idle isctx).
Notation nrun := (nrun w max att p idle isctx).

Lemma moves s a s' : nstep s a = Some s' -> in_move max idle isctx s s' a /\ out_move max att p idle isctx s s' a.
Proof.
  intros E. unfold in_move, out_move. ncases E; (split; [|first [left; reflexivity|right; eexists; split; [reflexivity|exact Sd]]]); try (left; reflexivity).
  - right. left. eauto 6.
  - right. right. right. auto.
  - right. right. left. eexists. split; [reflexivity|]. auto.
  - right. right. left. eexists. split; [reflexivity|]. auto.
  - right. right. left. eexists. split; [reflexivity|]. auto.
  - right. right. left. eexists. split; [reflexivity|]. auto.
Qed.

(** ** The inbound pool through its life *)
Definition released (x : lpc) : bool := match x with LClosing _ | LJoin _ _ | LWait | LUnset | LFinish | LEnd => true | _ => false end.
Definition drained (x : lpc) : bool := match x with LWait | LUnset | LFinish | LEnd => true | _ => false end.
Definition todo_of (x : lpc) : list nat := match x with LClosing l => l | LJoin k l => k :: l | _ => [] end.
Definition done_call (c : caller) : Prop := exists k e, d_pc c = DOk k e.

Record ninv (s : nstate) : Prop := {
  ni_calls : forall i c, nth_error (ds_callers (nd_in s)) i = Some c -> done_call c \/ nd_lst s = LGet i;
  ni_before : released (nd_lst s) = false -> pinv max (nd_in s);
  ni_sig : forall q, In q (ds_clients (nd_in s)) -> sig_inv (k_st q) /\ once_inv (k_st q);
  ni_after : released (nd_lst s) = true -> ds_lock (nd_in s) = None /\ forall k q, nth_error (ds_clients (nd_in s)) k = Some q -> past (k_st q) = false -> In k (todo_of (nd_lst s));
  ni_out : pinv max (nd_out s);
  ni_work : nd_wclosed s = drained (nd_lst s);
  ni_done : (released (nd_lst s) = false -> nd_lst s <> LRelease -> nd_done s = 0) /\ nd_done s <= 1 /\ nd_dclosed s = match nd_lst s with LEnd => true | _ => false end
}.

Hypothesis max_pos : 0 < max.

(** Steps of the inbound pool that do not touch the listener. *)
Lemma client_sig d gk ga dd : (forall q, In q (ds_clients d) -> sig_inv (k_st q) /\ once_inv (k_st q)) -> in_step d (DaClient gk ga) = Some dd ->
  forall q, In q (ds_clients dd) -> sig_inv (k_st q) /\ once_inv (k_st q).
Proof.
  intros H E. destruct (nth_error (ds_clients d) gk) as [q0|] eqn:Hq; [|cbn [dstep] in E; rewrite Hq in E; discriminate].
  destruct (cact idle (k_st q0) ga) as [st|] eqn:Ha; [|cbn [dstep] in E; rewrite Hq, Ha in E; discriminate].
  destruct (client_shape _ _ _ _ _ _ _ _ _ _ _ _ E Hq Ha) as (_ & Q2 & _). rewrite Q2. intros q1 H1. apply in_set_nth in H1 as [->|H1]; [|auto]. cbn [k_st].
  destruct (H q0 (nth_error_In _ _ Hq)) as [X Y]. split; [exact (sig_step _ _ _ _ X Ha)|exact (once_step _ _ _ _ Y Ha)].
Qed.
Lemma client_past d gk ga dd k q : in_step d (DaClient gk ga) = Some dd -> nth_error (ds_clients dd) k = Some q -> past (k_st q) = false -> exists q0, nth_error (ds_clients d) k = Some q0 /\ past (k_st q0) = false.
Proof.
  intros E Hk Pk. destruct (nth_error (ds_clients d) gk) as [q0|] eqn:Hq; [|cbn [dstep] in E; rewrite Hq in E; discriminate].
  destruct (cact idle (k_st q0) ga) as [st|] eqn:Ha; [|cbn [dstep] in E; rewrite Hq, Ha in E; discriminate].
  destruct (client_shape _ _ _ _ _ _ _ _ _ _ _ _ E Hq Ha) as (_ & Q2 & _). rewrite Q2, (nth_error_set _ _ _ _ k Hq) in Hk. destruct (Nat.eqb_spec k gk) as [->|]; [|eauto].
  injection Hk as <-. cbn [k_st] in Pk. exists q0. split; [exact Hq|]. destruct (past_step _ _ _ _ Ha) as [(M1 & _ & _)|[M1 _]]; [unfold past; rewrite M1; reflexivity|congruence].
Qed.
Lemma client_calls d gk ga dd : in_step d (DaClient gk ga) = Some dd -> ds_callers dd = ds_callers d /\ ds_lock dd = ds_lock d.
Proof.
  intros E. destruct (nth_error (ds_clients d) gk) as [q0|] eqn:Hq; [|cbn [dstep] in E; rewrite Hq in E; discriminate].
  destruct (cact idle (k_st q0) ga) as [st|] eqn:Ha; [|cbn [dstep] in E; rewrite Hq, Ha in E; discriminate].
  destruct (client_shape _ _ _ _ _ _ _ _ _ _ _ _ E Hq Ha) as (Q1 & _ & Q3 & _). auto.
Qed.
(** get changes only the call that runs it, which has not returned. *)
Lemma get_calls d gi a dd : (a = DaGet gi \/ a = DaEvicted gi) -> in_step d a = Some dd ->
  exists c c', nth_error (ds_callers d) gi = Some c /\ ~ done_call c /\ ds_callers dd = set_nth gi c' (ds_callers d).
Proof.
  intros [-> | ->] E.
  - pose proof E as E0. cbn [dstep] in E. destruct (nth_error (ds_callers d) gi) as [c|] eqn:Hi; [|discriminate]. destruct (d_pc c) as [n| | | | | | |] eqn:Pc; try discriminate. destruct (n <? 1); [|discriminate]. destruct (ds_lock d); [discriminate|].
    assert (Nd : ~ done_call c) by (intros (k & e & X); congruence).
    destruct (cm_fetch max (ds_pool d) (d_addr c) (length (ds_clients d))) as [[[[mm k] ex] [vv|]]|er|]; try discriminate; injection E as <-; eexists c, _; dproj; eauto.
  - cbn [dstep] in E. destruct (nth_error (ds_callers d) gi) as [c|] eqn:Hi; [|discriminate]. destruct (d_pc c) as [|n k v m| | | | | |] eqn:Pc; try discriminate. assert (Nd : ~ done_call c) by (intros (k' & e & X); congruence).
    destruct (nth_error (ds_clients d) v) as [q|]; [|discriminate]. destruct ((c_once (k_st q) =? 2) && c_cdone (k_st q)); [|discriminate]. injection E as <-. eexists c, _; dproj; eauto.
Qed.

Theorem ninv_step s a s' : ninv s -> nstep s a = Some s' -> ninv s'.
Proof.
  intros I E. pose proof I as [A B B' C D W (F1 & F2 & F3)].
  assert (Out : pinv max (nd_out s')).
  { destruct (moves _ _ _ E) as [_ [->|(da & _ & X)]]; [exact D|exact (pinv_step _ _ _ _ _ _ max_pos _ _ _ D X)]. }
  (* steps of get *)
  assert (G : forall gi da dd, (da = DaGet gi \/ da = DaEvicted gi) -> in_step (nd_in s) da = Some dd ->
            nd_lst s = LGet gi /\ pinv max dd /\ forall i c, nth_error (ds_callers dd) i = Some c -> done_call c \/ nd_lst s = LGet i).
  { intros gi da dd Hda Sd. destruct (get_calls _ _ _ _ Hda Sd) as (c & c' & Hc & Nd & Ec). destruct (A gi c Hc) as [X|X]; [contradiction|]. split; [exact X|].
    split; [apply (pinv_step _ _ _ _ _ _ max_pos _ _ _ (B ltac:(rewrite X; reflexivity)) Sd)|]. intros i c1 Hi. rewrite Ec, (nth_error_set _ _ _ _ i Hc) in Hi. destruct (Nat.eqb_spec i gi) as [->|]; [auto|exact (A i c1 Hi)]. }
  ncases E; try rewrite Ls in *; cbn [released drained todo_of] in *.
  all: constructor; nproj; try exact Out; cbn [released drained todo_of] in *.
  all: try (intros i0 c0 H0; destruct (A i0 c0 H0) as [X0|X0]; [left; exact X0 | first [right; exact X0 | discriminate X0]]; fail).
  all: try (auto; fail); try (intros; discriminate).
  all: try (split; [intros; discriminate|]; split; [lia|reflexivity]).
  all: try (split; [auto|]; split; [lia|auto]; fail).
  all: try congruence.
  all: try (split; [intros _ _; apply F1; [reflexivity|discriminate]|split; [lia|auto]]; fail).
  all: try (split; [intros; discriminate|]; split; [lia|auto; fail]).
  all: try (exact (proj2 (proj2 (G gi _ dd (or_introl eq_refl) Sd)))); try (intros _; exact (proj1 (proj2 (G gi _ dd (or_introl eq_refl) Sd)))); try (exact (pi_sig _ _ (proj1 (proj2 (G gi _ dd (or_introl eq_refl) Sd)))));
    try (rewrite (proj1 (G gi _ dd (or_introl eq_refl) Sd)); intros; discriminate).
  all: try (exact (proj2 (proj2 (G gi _ dd (or_intror eq_refl) Sd)))); try (intros _; exact (proj1 (proj2 (G gi _ dd (or_intror eq_refl) Sd)))); try (exact (pi_sig _ _ (proj1 (proj2 (G gi _ dd (or_intror eq_refl) Sd)))));
    try (rewrite (proj1 (G gi _ dd (or_intror eq_refl) Sd)); intros; discriminate).
  all: try (destruct (client_calls _ _ _ _ Sd) as [-> _]; exact A); try (intros X; exact (pinv_step _ _ _ _ _ _ max_pos _ _ _ (B X) Sd)); try (exact (client_sig _ _ _ _ B' Sd));
    try (intros X; destruct (C X) as [C1 C2]; split; [rewrite (proj2 (client_calls _ _ _ _ Sd)); exact C1|]; intros k q Hk Pk; destruct (client_past _ _ _ _ _ _ Sd Hk Pk) as (q0 & Hq0 & Pq0); exact (C2 k q0 Hq0 Pq0)).
  (* accept *)
  - cbn [dstep] in Sd. injection Sd as <-. dproj. intros i c Hi. apply nth_error_snoc in Hi as [Hi|[-> ->]]; [|auto]. destruct (A i c Hi) as [X|X]; [auto|discriminate].
  - exact (pi_sig _ _ (pinv_step _ _ _ _ _ _ max_pos _ _ _ (B eq_refl) Sd)).
  (* get has returned *)
  - intros i c Hi. destruct (A i c Hi) as [X|X]; [auto|]. injection X as <-. left. assert (c = cl) as -> by congruence. unfold done_call. eauto.
  (* report *)
  - apply Nat.ltb_lt in Dn. split; [congruence|]. split; [lia|reflexivity].
  (* release *)
  - intros _. dproj. split; [reflexivity|]. intros k q Hk Pk. destruct (B eq_refl) as [(l & R & _ & P) _ _ _]. destruct R as [_ R2 R3 _ _].
    assert (H : In (k_addr q, k) l) by (apply P; eauto). apply (in_find _ _ _ R2) in H. rewrite <- R3 in H. apply in_map_iff. exists (k_addr q, k). split; [reflexivity|].
    revert H; generalize (k_addr q); clear; intros aq H; induction (cm_entries (ds_pool (nd_in s))) as [|[b c] e IH]; cbn in *; [discriminate|]. destruct (bytes_eqb_spec aq b) as [->|]; [left; congruence|right; auto].
  (* pick *)
  - intros _. destruct (C eq_refl) as [C1 C2]. split; [exact C1|]. intros k q Hk Pk. destruct (Nat.eq_dec k pk) as [->|N]; [left; reflexivity|right]. apply filter_In. split; [exact (C2 k q Hk Pk)|]. apply Nat.eqb_neq in N. rewrite N. reflexivity.
  (* joined *)
  - intros _. destruct (C eq_refl) as [C1 C2]. split; [exact C1|]. intros k q Hk Pk. destruct (C2 k q Hk Pk) as [->|H]; [exfalso|exact H]. assert (q = jq) as -> by congruence.
    apply andb_true_iff in Jd as [_ Jd]. destruct (B' jq (nth_error_In _ _ Hk)) as [(_ & _ & _ & _ & _ & _ & X) _]. rewrite Jd in X. unfold past in Pk. destruct (c_main (k_st jq)); discriminate.
  (* a Close has received *)
  - split; [intros X Y; specialize (F1 X Y); discriminate|]. split; [lia|exact F3].
Qed.
Lemma ninv_start : ninv n_start.
Proof.
  constructor; cbn.
  - intros [|i] c H; discriminate.
  - intros _. apply (pinv_start max).
  - intros q [].
  - discriminate.
  - apply (pinv_start max).
  - reflexivity.
  - auto.
Qed.
End Inv2.
