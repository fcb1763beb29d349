(** * C112: a handler that does not return holds up no other messages *)
From Verif Require Import Base M_Table P_Table P_Iter P_Gossip P_Conn M_Work P_Work Props_Work.
Local Open Scope nat_scope.

(** ** The claim *)

(** Call number [i] of a handler has not returned. *)
Definition running (s : wstate) (i : nat) : Prop := exists v, nth_error (ws_calls s) i = Some v /\ iv_ret v = None.
(** Message [x] has been read, and no handler of it has been called yet. *)
Definition waits (s : wstate) (x : wctx) : Prop := (exists c, nth_error (ws_readers s) c = Some (Some x)) \/ In x (ws_queue s).

(** No handler has failed, and some calls, [B], do not return.  Every message that waits, and comes from another connection than the messages of those calls,
    can still be handed to all handlers. *)
Definition C112_statement : Prop := forall w h n l s B x, 0 < w -> node_does w h n l s -> errors s = 0 -> (forall i, In i B -> running s i) -> waits s x ->
  (forall i v, In i B -> nth_error (ws_calls s) i = Some v -> x_conn (iv_ctx v) <> x_conn x) ->
  exists l' s', wrun w h s l' = Some s' /\ (forall i, In i B -> running s' i) /\ handled s' (x_id x) = all_nil h.

(** ** Workers and calls *)

Definition in_call (B : list nat) (k : wk) : bool := match k with WRun _ _ i => existsb (Nat.eqb i) B | _ => false end.
Definition is_gone (k : wk) : bool := match k with WGone => true | _ => false end.

Lemma call_of w h s j x k i : winv w h s -> nth_error (ws_workers s) j = Some (WRun x k i) -> exists v, nth_error (ws_calls s) i = Some v /\ iv_ctx v = x /\ iv_ret v = None.
Proof. intros I Hj. destruct (wi_workers w h s I j _ Hj) as (_ & _ & _ & v & H1 & H2 & _ & H3). eauto. Qed.
Lemma call_worker w h s j1 j2 x1 x2 k1 k2 i : winv w h s -> nth_error (ws_workers s) j1 = Some (WRun x1 k1 i) -> nth_error (ws_workers s) j2 = Some (WRun x2 k2 i) -> j1 = j2.
Proof.
  intros I H1 H2. destruct (call_of _ _ _ _ _ _ _ I H1) as (v & V1 & <- & _). destruct (call_of _ _ _ _ _ _ _ I H2) as (v2 & V2 & <- & _). assert (v2 = v) as -> by congruence.
  destruct (Nat.eq_dec j2 j1) as [->|N]; [reflexivity|]. destruct (only_worker w h s j1 _ (x_id (iv_ctx v)) I H1 (Nat.eqb_refl _)) as (O & _).
  specialize (O j2 _ H2 N). cbn in O. rewrite Nat.eqb_refl in O. discriminate.
Qed.
Lemma in_calls_le (ws : list wk) B : (forall j1 j2 x1 x2 k1 k2 i, nth_error ws j1 = Some (WRun x1 k1 i) -> nth_error ws j2 = Some (WRun x2 k2 i) -> j1 = j2) -> cntb (in_call B) ws <= length B.
Proof.
  intros U. pose (f := fun k => match k with WRun _ _ i => i | _ => 0 end).
  rewrite <- cntb_filter, <- (map_length f (filter (in_call B) ws)). apply NoDup_incl_length.
  - revert U. induction ws as [|k r IH]; intros U; cbn [filter]; [constructor|].
    assert (U' : forall j1 j2 x1 x2 k1 k2 i, nth_error r j1 = Some (WRun x1 k1 i) -> nth_error r j2 = Some (WRun x2 k2 i) -> j1 = j2).
    { intros j1 j2 x1 x2 k1 k2 i H1 H2. assert (S j1 = S j2) by (eapply (U (S j1) (S j2)); eassumption). congruence. }
    destruct (in_call B k) eqn:E; [|exact (IH U')]. cbn [map]. constructor; [|exact (IH U')]. intros H. apply in_map_iff in H as (k' & Ef & Hk). apply filter_In in Hk as [Hk E'].
    apply In_nth_error in Hk as (j & Hj). destruct k; try discriminate. destruct k'; try discriminate. cbn in Ef. subst. assert (0 = S j) by (eapply (U 0 (S j)); [reflexivity|exact Hj]). discriminate.
  - intros i H. apply in_map_iff in H as (k & <- & Hk). apply filter_In in Hk as [_ E]. destruct k; try discriminate. cbn in E |- *. apply existsb_exists in E as (b & Hb & Eb). apply Nat.eqb_eq in Eb as ->. exact Hb.
Qed.
Lemma spare_worker (ws : list wk) B : cntb is_gone ws + cntb (in_call B) ws < length ws -> exists j k, nth_error ws j = Some k /\ is_gone k = false /\ in_call B k = false.
Proof.
  induction ws as [|k r IH]; cbn [length]; [cbn; lia|]. rewrite !cntb_cons. intros L. destruct (is_gone k) eqn:E1; [|destruct (in_call B k) eqn:E2].
  - assert (in_call B k = false) by (destruct k; try discriminate; reflexivity). rewrite H in L. cbn in L. destruct IH as (j & k' & X); [lia|]. exists (S j), k'. exact X.
  - cbn in L. destruct IH as (j & k' & X); [lia|]. exists (S j), k'. exact X.
  - exists 0, k. auto.
Qed.

(** Calls that another worker makes go on. *)
Lemma others_run w h j i : forall l s s', winv w h s -> running s i -> (forall x k, nth_error (ws_workers s) j <> Some (WRun x k i)) -> forallb (only j) l = true ->
  wrun w h s l = Some s' -> running s' i.
Proof.
  induction l as [|a l IH]; intros s s' I Rn N O R; cbn in R; [injection R as <-; exact Rn|]. cbn [forallb] in O. apply andb_true_iff in O as [Oa O].
  destruct (wstep w h s a) as [s1|] eqn:E; [|discriminate]. pose proof (winv_step w h s a s1 I E) as I1.
  assert (X : running s1 i /\ forall x k, nth_error (ws_workers s1) j <> Some (WRun x k i)); [|destruct X as [X1 X2]; exact (IH s1 s' I1 X1 X2 O R)].
  clear IH R O l. destruct Rn as (v & Hv & Rv). destruct a as [c nonce|c|j'|j'|j' ok|i' d]; cbn in Oa; try discriminate; cbn [wstep] in E.
  - destruct (nth_error (ws_readers s) c) as [[|]|]; try discriminate. destruct (_ <? _); [|discriminate]. injection E as <-. split; [exists v; auto|exact N].
  - apply Nat.eqb_eq in Oa as ->. destruct (nth_error (ws_workers s) j) as [[| | |]|] eqn:Hj; try discriminate. destruct (ws_queue s); [discriminate|]. injection E as <-. wproj.
    split; [exists v; auto|]. intros x k. rewrite (nth_set_eq _ _ _ _ Hj). discriminate.
  - apply Nat.eqb_eq in Oa as ->. destruct (nth_error (ws_workers s) j) as [[|x k| |]|] eqn:Hj; try discriminate. destruct (k <? h); injection E as <-; wproj.
    + split; [exists v; split; [apply nth_error_keep, Hv|exact Rv]|]. intros x' k'. rewrite (nth_set_eq _ _ _ _ Hj). intros [= _ _ Q]. assert (i < length (ws_calls s)) by (apply nth_error_Some; congruence). lia.
    + split; [exists v; auto|]. intros x' k'. rewrite (nth_set_eq _ _ _ _ Hj). discriminate.
  - apply Nat.eqb_eq in Oa as ->. destruct (nth_error (ws_workers s) j) as [[| |x k i'|]|] eqn:Hj; try discriminate. destruct (nth_error (ws_calls s) i') as [v'|] eqn:Hv'; [|discriminate].
    assert (Ni : i <> i') by (intros ->; exact (N x k eq_refl)).
    assert (Q : forall y, nth_error (set_nth i' y (ws_calls s)) i = Some v) by (intros y; rewrite (nth_error_set _ _ _ _ i Hv'); apply Nat.eqb_neq in Ni; rewrite Ni; exact Hv).
    destruct ok; injection E as <-; wproj; (split; [exists v; split; [apply Q|exact Rv]|]); intros x' k'; rewrite (nth_set_eq _ _ _ _ Hj); discriminate.
Qed.

(** ** What holds *)

(** While fewer calls hang and handlers have failed than there are workers, every message that waits can still be handed to all handlers, whichever connection
    it comes from; so can a message that a worker not held up is busy with. *)
Theorem C112_partial : forall w h n l s B x, node_does w h n l s -> length B + errors s < w -> (forall i, In i B -> running s i) ->
  waits s x \/ (exists j k, nth_error (ws_workers s) j = Some k /\ wid (x_id x) k = true /\ forall y n i, k = WRun y n i -> ~ In i B) ->
  exists l' s', wrun w h s l' = Some s' /\ (forall i, In i B -> running s' i) /\ handled s' (x_id x) = all_nil h.
Proof.
  intros w h n l s B x H L Rn P. apply reach_inv in H as I.
  assert (Go : forall j k, nth_error (ws_workers s) j = Some k -> k <> WGone -> (forall y n i, k = WRun y n i -> ~ In i B) ->
     (exists c, nth_error (ws_readers s) c = Some (Some x)) \/ In x (ws_queue s) \/ wid (x_id x) k = true ->
     exists l' s', wrun w h s l' = Some s' /\ (forall i, In i B -> running s' i) /\ handled s' (x_id x) = all_nil h).
  { intros j k Hj N NB Q. destruct (one_serves w h s j k x I ltac:(lia) Hj N Q) as (l' & s' & R & O & _ & F). exists l', s'. split; [exact R|]. split; [|exact F].
    intros i Hi. apply (others_run w h j i l' s s' I (Rn i Hi)); [|exact O|exact R]. intros y m E. rewrite Hj in E. injection E as ->. exact (NB y m i eq_refl Hi). }
  destruct P as [Wt|(j & k & Hj & Hk & NB)].
  - destruct (spare_worker (ws_workers s) B) as (j & k & Hj & G & C).
    { rewrite (wi_len w h s I). pose proof (in_calls_le (ws_workers s) B (fun j1 j2 x1 x2 k1 k2 i => call_worker w h s j1 j2 x1 x2 k1 k2 i I)).
      unfold errors in L. rewrite cntb_filter, <- (wi_gone w h s I) in L. change (fun k => match k with WGone => true | _ => false end) with is_gone in L. lia. }
    apply (Go j k Hj); [intros ->; discriminate| |destruct Wt; auto]. intros y m i -> Hi. cbn in C. assert (existsb (Nat.eqb i) B = true) by (apply existsb_exists; exists i; split; [exact Hi|apply Nat.eqb_refl]). congruence.
  - apply (Go j k Hj); [intros ->; discriminate|exact NB|auto].
Qed.
Print Assumptions C112_partial.

(** *** When all workers hang *)

(** A call that has not returned holds a worker. *)
Definition held (s : wstate) : Prop := forall i v, nth_error (ws_calls s) i = Some v -> iv_ret v = None -> exists j x k, nth_error (ws_workers s) j = Some (WRun x k i).
Definition some_msg (o : option wctx) : bool := match o with Some _ => true | None => false end.
Definition tally (n : nat) (s : wstate) : Prop := length (ws_readers s) = n /\ length (ws_recv s) = length (ws_queued s) + cntb some_msg (ws_readers s).

Lemma held_step w h s a s' : winv w h s -> held s -> wstep w h s a = Some s' -> held s'.
Proof.
  intros I H E. destruct a as [c nonce|c|j|j|j ok|i0 d]; cbn [wstep] in E.
  - destruct (nth_error (ws_readers s) c) as [[|]|]; try discriminate. injection E as <-. exact H.
  - destruct (nth_error (ws_readers s) c) as [[|]|]; try discriminate. destruct (_ <? _); [|discriminate]. injection E as <-. exact H.
  - destruct (nth_error (ws_workers s) j) as [[| | |]|] eqn:Hj; try discriminate. destruct (ws_queue s) as [|x q]; [discriminate|]. injection E as <-. intros i v Hv Rv. wproj.
    destruct (H i v Hv Rv) as (j' & y & k & Hj'). exists j', y, k. rewrite (nth_error_set _ _ _ _ j' Hj). destruct (Nat.eqb_spec j' j) as [->|]; [congruence|exact Hj'].
  - destruct (nth_error (ws_workers s) j) as [[|x k| |]|] eqn:Hj; try discriminate. destruct (k <? h); injection E as <-; intros i v Hv Rv; wproj.
    + apply nth_error_snoc in Hv as [Hv|[-> ->]].
      * destruct (H i v Hv Rv) as (j' & y & k' & Hj'). exists j', y, k'. rewrite (nth_error_set _ _ _ _ j' Hj). destruct (Nat.eqb_spec j' j) as [->|]; [congruence|exact Hj'].
      * exists j, x, k. apply (nth_set_eq _ _ _ _ Hj).
    + destruct (H i v Hv Rv) as (j' & y & k' & Hj'). exists j', y, k'. rewrite (nth_error_set _ _ _ _ j' Hj). destruct (Nat.eqb_spec j' j) as [->|]; [congruence|exact Hj'].
  - destruct (nth_error (ws_workers s) j) as [[| |x k i0|]|] eqn:Hj; try discriminate. destruct (nth_error (ws_calls s) i0) as [v0|] eqn:Hv0; [|discriminate].
    assert (G : forall W, forall i v, nth_error (set_nth i0 (mkInv (iv_ctx v0) (iv_handler v0) (iv_sent v0) (Some ok)) (ws_calls s)) i = Some v -> iv_ret v = None ->
       exists j' y m, nth_error (set_nth j W (ws_workers s)) j' = Some (WRun y m i)).
    { intros W i v Hv Rv. rewrite (nth_error_set _ _ _ _ i Hv0) in Hv. destruct (Nat.eqb_spec i i0) as [->|Ni]; [injection Hv as <-; discriminate|].
      destruct (H i v Hv Rv) as (j' & y & k' & Hj'). exists j', y, k'. rewrite (nth_error_set _ _ _ _ j' Hj). destruct (Nat.eqb_spec j' j) as [->|]; [congruence|exact Hj']. }
    destruct ok; injection E as <-; intros i v Hv Rv; wproj; eapply G; eassumption.
  - destruct (nth_error (ws_calls s) i0) as [v0|] eqn:Hv0; [|discriminate]. destruct (_ && _); injection E as <-; [exact H|]. intros i v Hv Rv. wproj.
    rewrite (nth_error_set _ _ _ _ i Hv0) in Hv. destruct (Nat.eqb_spec i i0) as [->|]; [|exact (H i v Hv Rv)]. injection Hv as <-. exact (H i0 v0 Hv0 Rv).
Qed.
Lemma tally_step w h n s a s' : tally n s -> wstep w h s a = Some s' -> tally n s'.
Proof.
  intros [L T] E. unfold tally. destruct a as [c nonce|c|j|j|j ok|i0 d]; cbn [wstep] in E.
  - destruct (nth_error (ws_readers s) c) as [[|]|] eqn:Hc; try discriminate. injection E as <-. wproj. rewrite set_nth_length, app_length. split; [exact L|].
    pose proof (cntb_setn some_msg _ _ _ (Some (mkX (length (ws_recv s)) c nonce)) Hc) as Q. cbn in Q |- *. lia.
  - destruct (nth_error (ws_readers s) c) as [[x|]|] eqn:Hc; try discriminate. destruct (_ <? _); [|discriminate]. injection E as <-. wproj. rewrite set_nth_length, app_length. split; [exact L|].
    pose proof (cntb_setn some_msg _ _ _ None Hc) as Q. cbn in Q |- *. lia.
  - destruct (nth_error (ws_workers s) j) as [[| | |]|]; try discriminate. destruct (ws_queue s); [discriminate|]. injection E as <-. auto.
  - destruct (nth_error (ws_workers s) j) as [[|x k| |]|]; try discriminate. destruct (k <? h); injection E as <-; auto.
  - destruct (nth_error (ws_workers s) j) as [[| |x k i0|]|]; try discriminate. destruct (nth_error (ws_calls s) i0); [|discriminate]. destruct ok; injection E as <-; auto.
  - destruct (nth_error (ws_calls s) i0) as [v0|]; [|discriminate]. destruct (_ && _); injection E as <-; auto.
Qed.
Lemma reach_held w h n l s : node_does w h n l s -> winv w h s /\ held s /\ tally n s.
Proof.
  apply (wrun_inv w h (fun s => winv w h s /\ held s /\ tally n s)).
  - intros s0 a s1 (A & B & C) E. split; [exact (winv_step w h s0 a s1 A E)|]. split; [exact (held_step w h s0 a s1 A B E)|exact (tally_step w h n s0 a s1 C E)].
  - split; [apply winv_start|]. split; [intros [|i] v Hv; discriminate|]. split; cbn; [apply repeat_length|]. symmetry. apply cntb_zero. intros y Hy. apply repeat_spec in Hy. subst. reflexivity.
Qed.

(** A call that has returned has returned for good. *)
Lemma returned_step w h s a s' i v b : wstep w h s a = Some s' -> nth_error (ws_calls s) i = Some v -> iv_ret v = Some b ->
  (forall j x k, nth_error (ws_workers s) j <> Some (WRun x k i)) -> exists v', nth_error (ws_calls s') i = Some v' /\ iv_ret v' = Some b.
Proof.
  intros E Hv Rv N. destruct a as [c nonce|c|j|j|j ok|i0 d]; cbn [wstep] in E.
  - destruct (nth_error (ws_readers s) c) as [[|]|]; try discriminate. injection E as <-. eauto.
  - destruct (nth_error (ws_readers s) c) as [[|]|]; try discriminate. destruct (_ <? _); [|discriminate]. injection E as <-. eauto.
  - destruct (nth_error (ws_workers s) j) as [[| | |]|]; try discriminate. destruct (ws_queue s); [discriminate|]. injection E as <-. eauto.
  - destruct (nth_error (ws_workers s) j) as [[|x k| |]|]; try discriminate. destruct (k <? h); injection E as <-; wproj; [exists v; split; [apply nth_error_keep, Hv|exact Rv]|eauto].
  - destruct (nth_error (ws_workers s) j) as [[| |x k i0|]|] eqn:Hj; try discriminate. destruct (nth_error (ws_calls s) i0) as [v0|] eqn:Hv0; [|discriminate].
    assert (Ni : i <> i0) by (intros ->; exact (N j x k Hj)). exists v. split; [|exact Rv]. destruct ok; injection E as <-; wproj; rewrite (nth_error_set _ _ _ _ i Hv0); apply Nat.eqb_neq in Ni; rewrite Ni; exact Hv.
  - destruct (nth_error (ws_calls s) i0) as [v0|] eqn:Hv0; [|discriminate]. destruct (_ && _); injection E as <-; [eauto|]. wproj. rewrite (nth_error_set _ _ _ _ i Hv0).
    destruct (Nat.eqb_spec i i0) as [->|]; [|eauto]. assert (v0 = v) as -> by congruence. eexists. split; [reflexivity|exact Rv].
Qed.
Lemma returned_run w h i b : forall l s s', winv w h s -> wrun w h s l = Some s' -> (exists v, nth_error (ws_calls s) i = Some v /\ iv_ret v = Some b) -> exists v, nth_error (ws_calls s') i = Some v /\ iv_ret v = Some b.
Proof.
  induction l as [|a l IH]; intros s s' I R (v & Hv & Rv); cbn in R; [injection R as <-; eauto|]. destruct (wstep w h s a) as [s1|] eqn:E; [|discriminate].
  apply (IH s1 s' (winv_step w h s a s1 I E) R). apply (returned_step w h s a s1 i v b E Hv Rv). intros j x k Hj. destruct (call_of _ _ _ _ _ _ _ I Hj) as (v' & Hv' & _ & Rv'). congruence.
Qed.

(** As many calls as there are workers, less those ended by errors, do not return.  Whatever happens meanwhile, no handler is called, for any connection; only
    as many messages as there are workers are queued, and every connection reads one more. *)
Theorem C112_blocked : forall w h n l s B l' s', node_does w h n l s -> NoDup B -> w <= length B + errors s -> (forall i, In i B -> running s i) ->
  wrun w h s l' = Some s' -> (forall i, In i B -> running s' i) ->
  map iv_ctx (ws_calls s') = map iv_ctx (ws_calls s) /\ ws_done s' = ws_done s /\ length (ws_recv s') <= length (ws_taken s) + w + n.
Proof.
  intros w h n l s B l' s' H NB L Rn R Rn'. destruct (reach_held w h n l s H) as (I & Hd & T).
  assert (All : forall j k, nth_error (ws_workers s) j = Some k -> is_gone k = true \/ in_call B k = true).
  { assert (LB : length B <= cntb (in_call B) (ws_workers s)).
    { pose (f := fun k => match k with WRun _ _ i => i | _ => 0 end). rewrite <- cntb_filter, <- (map_length f (filter (in_call B) (ws_workers s))). apply NoDup_incl_length; [exact NB|].
      intros i Hi. destruct (Rn i Hi) as (v & Hv & Rv). destruct (Hd i v Hv Rv) as (j & x & k & Hj). apply in_map_iff. exists (WRun x k i). split; [reflexivity|]. apply filter_In. split; [exact (nth_error_In _ _ Hj)|].
      cbn. apply existsb_exists. exists i. split; [exact Hi|apply Nat.eqb_refl]. }
    unfold errors in L. rewrite cntb_filter, <- (wi_gone w h s I), <- (wi_len w h s I) in L. change (fun k => match k with WGone => true | _ => false end) with is_gone in L.
    assert (L' : length (ws_workers s) <= cntb (in_call B) (ws_workers s) + cntb is_gone (ws_workers s)) by lia. clear - L'.
    induction (ws_workers s) as [|k r IH]; intros j k0 Hj; [destruct j; discriminate|]. rewrite !cntb_cons in L'. cbn [length] in L'.
    assert (Lr : cntb (in_call B) r + cntb is_gone r <= length r).
    { clear. induction r as [|k r IH]; [cbn; lia|]. rewrite !cntb_cons. cbn [length]. destruct k; cbn [in_call is_gone Nat.b2n]; lia. }
    assert (K : is_gone k = true \/ in_call B k = true). { destruct (is_gone k); [auto|]. destruct (in_call B k); [auto|]. cbn in L'. lia. }
    destruct j as [|j]; [injection Hj as <-; exact K|]. apply (IH) with (j := j); [|exact Hj]. destruct k; cbn [in_call is_gone Nat.b2n] in L'; lia. }
  assert (J : forall l1 t, winv w h t -> (forall j k, nth_error (ws_workers t) j = Some k -> is_gone k = true \/ in_call B k = true) -> wrun w h t l1 = Some s' ->
     map iv_ctx (ws_calls s') = map iv_ctx (ws_calls t) /\ ws_done s' = ws_done t /\ ws_taken s' = ws_taken t).
  { induction l1 as [|a l1 IH]; intros t It At Rt; cbn in Rt; [injection Rt as ->; auto|]. destruct (wstep w h t a) as [t1|] eqn:E; [|discriminate]. pose proof (winv_step w h t a t1 It E) as I1.
    assert (X : (forall j k, nth_error (ws_workers t1) j = Some k -> is_gone k = true \/ in_call B k = true) /\ map iv_ctx (ws_calls t1) = map iv_ctx (ws_calls t) /\ ws_done t1 = ws_done t /\ ws_taken t1 = ws_taken t);
      [|destruct X as (X0 & X1 & X2 & X3); destruct (IH t1 I1 X0 Rt) as (Y1 & Y2 & Y3); repeat split; congruence].
    pose proof E as E0. destruct a as [c nonce|c|j|j|j ok|i0 d]; cbn [wstep] in E.
    - destruct (nth_error (ws_readers t) c) as [[|]|]; try discriminate. injection E as <-. auto.
    - destruct (nth_error (ws_readers t) c) as [[|]|]; try discriminate. destruct (_ <? _); [|discriminate]. injection E as <-. auto.
    - destruct (nth_error (ws_workers t) j) as [k|] eqn:Hj; [|discriminate]. destruct (At j k Hj); destruct k; discriminate.
    - destruct (nth_error (ws_workers t) j) as [k|] eqn:Hj; [|discriminate]. destruct (At j k Hj); destruct k; discriminate.
    - exfalso. destruct (nth_error (ws_workers t) j) as [k|] eqn:Hj; [|discriminate]. destruct k as [| |x k i|]; try discriminate. destruct (nth_error (ws_calls t) i) as [v|] eqn:Hv; [|discriminate].
      destruct (At j _ Hj) as [G|C]; [discriminate|]. cbn in C. apply existsb_exists in C as (b & Hb & Eb). apply Nat.eqb_eq in Eb as <-.
      assert (Q : exists v', nth_error (ws_calls t1) i = Some v' /\ iv_ret v' = Some ok) by (destruct ok; injection E as <-; wproj; rewrite (nth_set_eq _ _ _ _ Hv); eexists; split; reflexivity).
      destruct (returned_run w h i ok l1 t1 s' I1 Rt Q) as (v' & Hv' & Rv'). destruct (Rn' i Hb) as (v2 & Hv2 & Rv2). congruence.
    - destruct (nth_error (ws_calls t) i0) as [v|] eqn:Hv; [|discriminate]. destruct (_ && _); injection E as <-; wproj; auto. repeat split; auto. apply (map_set _ _ i0 v); auto. }
  destruct (J l' s I All R) as (J1 & J2 & J3). split; [exact J1|]. split; [exact J2|].
  assert (I' : winv w h s' /\ tally n s').
  { revert R. apply (wrun_inv w h (fun s => winv w h s /\ tally n s)); [|auto]. intros t a t' [X1 X2] E. split; [exact (winv_step w h t a t' X1 E)|exact (tally_step w h n t a t' X2 E)]. }
  destruct I' as [I' [T1 T2]]. rewrite T2, (wi_fifo w h s' I'), app_length, J3. pose proof (wi_cap w h s' I').
  pose proof (cntb_le some_msg (fun _ => true) (ws_readers s') ltac:(auto)) as Q. rewrite <- (cntb_filter (fun _ => true)) in Q.
  assert (F : forall r : list (option wctx), filter (fun _ => true) r = r) by (induction r as [|b r IHr]; [reflexivity|cbn; rewrite IHr; reflexivity]). rewrite F in Q. lia.
Qed.
Print Assumptions C112_blocked.

(** One connection sends as many messages as there are workers, and the handler waits for something; another connection's message waits as well. *)
Definition slow_run : list wact :=
  [WaRecv 0 0%N; WaPut 0; WaTake 0; WaStart 0; WaRecv 0 0%N; WaPut 0; WaTake 1; WaStart 1; WaRecv 1 0%N; WaPut 1].
Theorem C112_refuted : ~ C112_statement.
Proof.
  intros H. destruct (wrun 2 1 (w_start 2 2) slow_run) as [s|] eqn:E; [|vm_compute in E; discriminate].
  pose proof (fun l' s' => C112_blocked 2 1 2 slow_run s [0; 1] l' s' E) as D. specialize (H 2 1 2 slow_run s [0; 1] (mkX 2 1 0%N) ltac:(lia) E).
  vm_compute in E. injection E as <-.
  assert (Rn : forall i, In i [0; 1] -> running (mkWS [WRun {| x_id := 0; x_conn := 0; x_nonce := 0 |} 0 0; WRun {| x_id := 1; x_conn := 0; x_nonce := 0 |} 0 1] [{| x_id := 2; x_conn := 1; x_nonce := 0 |}] [None; None] [false; false]
     [mkInv (mkX 0 0 0%N) 0 false None; mkInv (mkX 1 0 0%N) 0 false None] [mkX 0 0 0%N; mkX 1 0 0%N; mkX 2 1 0%N] [mkX 0 0 0%N; mkX 1 0 0%N; mkX 2 1 0%N] [mkX 0 0 0%N; mkX 1 0 0%N] [] []) i).
  { intros i [<- |[<- |[]]]; eexists; split; reflexivity. }
  destruct (H eq_refl Rn (or_intror (or_introl eq_refl))) as (l' & s' & R & Rn' & F).
  { intros i v [<- |[<- |[]]]; cbn; intros [= <-]; discriminate. }
  destruct (D l' s' ltac:(repeat constructor; cbn; lia) ltac:(cbn; lia) Rn R Rn') as (Q & _). cbn [map ws_calls iv_ctx] in Q. unfold handled in F. cbn in F.
  assert (Z : filter (fun v => x_id (iv_ctx v) =? 2) (ws_calls s') = []).
  { assert (M : map iv_ctx (filter (fun v => x_id (iv_ctx v) =? 2) (ws_calls s')) = filter (fun x => x_id x =? 2) (map iv_ctx (ws_calls s'))).
    { clear. induction (ws_calls s') as [|v r IH]; [reflexivity|]. cbn. destruct (x_id (iv_ctx v) =? 2); cbn; congruence. }
    rewrite Q in M. cbn in M. destruct (filter _ _); [reflexivity|discriminate]. }
  rewrite Z in F. discriminate.
Qed.
Print Assumptions C112_refuted.

(** One of three workers hangs, one is gone: the third still handles what waits, also from the connection of the message that hangs. *)
Definition slow_part : list wact :=
  [WaRecv 0 0%N; WaPut 0; WaTake 0; WaStart 0; WaRecv 1 0%N; WaPut 1; WaTake 1; WaStart 1; WaReturn 1 false; WaRecv 0 0%N; WaPut 0; WaRecv 1 0%N].
Example C112_partial_nonvacuous : exists s, node_does 3 2 2 slow_part s /\ length [0] + errors s < 3 /\ (forall i, In i [0] -> running s i) /\
  waits s (mkX 2 0 0%N) /\ waits s (mkX 3 1 0%N).
Proof.
  eexists. split; [vm_compute; reflexivity|]. split; [vm_compute; lia|]. split; [intros i [<- |[]]; eexists; split; reflexivity|].
  split; [right; left; reflexivity|left; exists 1; reflexivity].
Qed.
Example C112_blocked_nonvacuous : exists s s', node_does 2 1 2 slow_run s /\ NoDup [0; 1] /\ 2 <= length [0; 1] + errors s /\ (forall i, In i [0; 1] -> running s i) /\
  wrun 2 1 s [WaRecv 0 0%N; WaPut 0; WaRecv 0 0%N; WaRecv 1 0%N] = Some s' /\ (forall i, In i [0; 1] -> running s' i) /\ length (ws_recv s') = length (ws_taken s) + 2 + 2.
Proof.
  do 2 eexists. split; [vm_compute; reflexivity|]. split; [repeat constructor; cbn; lia|]. split; [cbn; lia|]. split; [intros i [<- |[<- |[]]]; eexists; split; reflexivity|].
  split; [vm_compute; reflexivity|]. split; [intros i [<- |[<- |[]]]; eexists; split; reflexivity|reflexivity].
Qed.
