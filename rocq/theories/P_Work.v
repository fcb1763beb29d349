(** * Invariants of workers and handlers *)
From Verif Require Import Base M_Table P_Table P_Iter P_Gossip P_Conn M_Work.
Local Open Scope nat_scope.

Lemma wrun_inv w h (P : wstate -> Prop) : (forall s a s', P s -> wstep w h s a = Some s' -> P s') -> forall l s s', P s -> wrun w h s l = Some s' -> P s'.
Proof.
  intros St. induction l as [|a l IH]; cbn; intros s s' H R; [injection R as <-; exact H|].
  destruct (wstep w h s a) as [s1|] eqn:E; [|discriminate]. apply (IH s1 s'); [apply (St s a s1 H E)|exact R].
Qed.
Lemma wrun_app w h l1 l2 : forall s, wrun w h s (l1 ++ l2) = match wrun w h s l1 with Some s' => wrun w h s' l2 | None => None end.
Proof. induction l1 as [|a l1 IH]; intros s; cbn; [reflexivity|]. destruct (wstep w h s a); [apply IH|reflexivity]. Qed.

(** The handlers called for message [m] so far, in order, with what they returned. *)
Definition of_msg (m : nat) (v : inv) : bool := x_id (iv_ctx v) =? m.
Definition trace (calls : list inv) (m : nat) : list (nat * option bool) := map (fun v => (iv_handler v, iv_ret v)) (filter (of_msg m) calls).
(** Handlers 0 to k-1, all of which returned nil. *)
Definition oks (k : nat) : list (nat * option bool) := map (fun i => (i, Some true)) (seq 0 k).

Definition wid (m : nat) (k : wk) : bool := match k with WNext x _ | WRun x _ _ => x_id x =? m | _ => false end.
Definition rid (m : nat) (o : option wctx) : bool := match o with Some x => x_id x =? m | None => false end.
Definition xid (m : nat) (x : wctx) : bool := x_id x =? m.
Definition did (m : nat) (e : nat * bool) : bool := fst e =? m.
(** How often message [m] is somewhere between being read and being done with. *)
Definition places (s : wstate) (m : nat) : nat :=
  cntb (rid m) (ws_readers s) + cntb (xid m) (ws_queue s) + cntb (wid m) (ws_workers s) + cntb (did m) (ws_done s).

Lemma oks_S k : oks (S k) = oks k ++ [(k, Some true)].
Proof. unfold oks. rewrite seq_S, map_app. reflexivity. Qed.
Lemma oks_no_none k : ~ In (k, None) (oks k).
Proof. unfold oks. intros H. apply in_map_iff in H as (i & E & _). discriminate. Qed.
Lemma split_last k a b : a ++ (k, None) :: b = oks k ++ [(k, None)] -> a = oks k /\ b = [].
Proof.
  intros H. destruct b as [|y b _] using rev_ind.
  - apply app_inj_tail in H as [H _]. auto.
  - exfalso. rewrite app_comm_cons, app_assoc in H. apply app_inj_tail in H as [H _]. apply (oks_no_none k). rewrite <- H. apply in_or_app. right. left. reflexivity.
Qed.
Lemma trace_set calls m : forall i v v', nth_error calls i = Some v -> iv_ctx v' = iv_ctx v -> of_msg m v = true ->
  exists a b, trace calls m = a ++ (iv_handler v, iv_ret v) :: b /\ trace (set_nth i v' calls) m = a ++ (iv_handler v', iv_ret v') :: b.
Proof.
  unfold trace. induction calls as [|c calls IH]; intros [|i] v v' H E O; cbn in H; try discriminate.
  - injection H as ->. cbn [set_nth filter]. rewrite O. assert (of_msg m v' = true) as -> by (unfold of_msg in *; rewrite E; exact O). exists [], (map (fun v => (iv_handler v, iv_ret v)) (filter (of_msg m) calls)). auto.
  - destruct (IH i v v' H E O) as (a & b & A & B). cbn [set_nth filter]. destruct (of_msg m c); [|eauto]. cbn [map]. rewrite A, B. exists ((iv_handler c, iv_ret c) :: a), b. auto.
Qed.
Lemma trace_set_same calls m : forall i v v', nth_error calls i = Some v -> iv_ctx v' = iv_ctx v ->
  (of_msg m v = false \/ (iv_handler v', iv_ret v') = (iv_handler v, iv_ret v)) -> trace (set_nth i v' calls) m = trace calls m.
Proof.
  unfold trace. induction calls as [|c calls IH]; intros [|i] v v' H E O; cbn in H; try discriminate.
  - injection H as ->. cbn [set_nth filter]. assert (of_msg m v' = of_msg m v) as -> by (unfold of_msg; rewrite E; reflexivity). destruct (of_msg m v); [|reflexivity].
    destruct O as [O|O]; [discriminate|]. cbn [map]. rewrite O. reflexivity.
  - cbn [set_nth filter]. destruct (of_msg m c); cbn [map]; rewrite (IH i v v' H E O); reflexivity.
Qed.
Lemma trace_snoc calls m v : trace (calls ++ [v]) m = trace calls m ++ (if of_msg m v then [(iv_handler v, iv_ret v)] else []).
Proof. unfold trace. rewrite filter_app, map_app. cbn. destruct (of_msg m v); reflexivity. Qed.

Lemma cntb_two {A} (p : A -> bool) (l : list A) : forall i j x y, nth_error l i = Some x -> nth_error l j = Some y -> i <> j -> p x = true -> p y = true -> 2 <= cntb p l.
Proof.
  induction l as [|a l IH]; intros [|i] [|j] x y H1 H2 N P Q; cbn in H1, H2; try discriminate; rewrite cntb_cons; try (exfalso; apply N; reflexivity).
  - injection H1 as ->. rewrite P. pose proof (cntb_pos p l y (nth_error_In _ _ H2) Q). cbn. lia.
  - injection H2 as ->. rewrite Q. pose proof (cntb_pos p l x (nth_error_In _ _ H1) P). cbn. lia.
  - specialize (IH i j x y H1 H2 ltac:(congruence) P Q). lia.
Qed.
Lemma cntb_setn {A} (p : A -> bool) l i x y : nth_error l i = Some x -> cntb p (set_nth i y l) + Nat.b2n (p x) = cntb p l + Nat.b2n (p y).
Proof. apply (sumf_set (fun z => Nat.b2n (p z))). Qed.

(** What is known of message [m] held by a worker. *)
Definition worker_ok (h : nat) (s : wstate) (k : wk) : Prop :=
  match k with
  | WNext x n => n <= h /\ trace (ws_calls s) (x_id x) = oks n /\ nth_error (ws_recv s) (x_id x) = Some x
  | WRun x n i => n < h /\ trace (ws_calls s) (x_id x) = oks n ++ [(n, None)] /\ nth_error (ws_recv s) (x_id x) = Some x /\
      exists v, nth_error (ws_calls s) i = Some v /\ iv_ctx v = x /\ iv_handler v = n /\ iv_ret v = None
  | _ => True
  end.
Definition done_ok (h : nat) (s : wstate) (e : nat * bool) : Prop :=
  if snd e then trace (ws_calls s) (fst e) = oks h else exists k, k < h /\ trace (ws_calls s) (fst e) = oks k ++ [(k, Some false)].
Definition waiting (s : wstate) (x : wctx) : Prop := (exists c, nth_error (ws_readers s) c = Some (Some x)) \/ In x (ws_queue s).

Record winv (w h : nat) (s : wstate) : Prop := {
  wi_len : length (ws_workers s) = w;
  wi_ids : forall i x, nth_error (ws_recv s) i = Some x -> x_id x = i;
  wi_places : forall m, places s m = if m <? length (ws_recv s) then 1 else 0;
  wi_workers : forall j k, nth_error (ws_workers s) j = Some k -> worker_ok h s k;
  wi_waiting : forall x, waiting s x -> nth_error (ws_recv s) (x_id x) = Some x /\ trace (ws_calls s) (x_id x) = [];
  wi_done : forall e, In e (ws_done s) -> done_ok h s e;
  wi_calls : forall v, In v (ws_calls s) -> nth_error (ws_recv s) (x_id (iv_ctx v)) = Some (iv_ctx v);
  wi_fifo : ws_queued s = ws_taken s ++ ws_queue s;
  wi_conn : forall c o, nth_error (ws_readers s) c = Some o -> (forall x, o = Some x -> x_conn x = c) /\
     filter (fun x => x_conn x =? c) (ws_recv s) = filter (fun x => x_conn x =? c) (ws_queued s) ++ match o with Some x => [x] | None => [] end;
  wi_cap : length (ws_queue s) <= w;
  wi_gone : cntb (fun k => match k with WGone => true | _ => false end) (ws_workers s) = cntb (fun e => negb (snd e)) (ws_done s)
}.

Lemma winv_start w h n : winv w h (w_start w n).
Proof.
  constructor; cbn [w_start ws_workers ws_queue ws_readers ws_calls ws_recv ws_queued ws_taken ws_done ws_sends].
  - apply repeat_length.
  - intros [|i] x H; discriminate.
  - intros m. unfold places, w_start. cbn [ws_readers ws_queue ws_workers ws_done ws_recv length]. rewrite !cntb_zero; try reflexivity; try (intros ? []).
    + intros y H. apply repeat_spec in H. subst. reflexivity.
    + intros y H. apply repeat_spec in H. subst. reflexivity.
  - intros j k H. apply nth_error_In, repeat_spec in H. subst. exact I.
  - intros x [(c & H)|[]]. apply nth_error_In, repeat_spec in H. discriminate.
  - intros e [].
  - intros v [].
  - reflexivity.
  - intros c o H. apply nth_error_In, repeat_spec in H. subst. split; [discriminate|reflexivity].
  - cbn. lia.
  - rewrite cntb_zero; [reflexivity|]. intros y H. apply repeat_spec in H. subst. reflexivity.
Qed.

Ltac wproj := cbn [ws_workers ws_queue ws_readers ws_closed ws_calls ws_recv ws_queued ws_taken ws_done ws_sends] in *.

Lemma recv_keep {A} (l : list A) x i y : nth_error l i = Some y -> nth_error (l ++ [x]) i = Some y.
Proof. apply nth_error_keep. Qed.
Lemma no_trace h w s m : winv w h s -> length (ws_recv s) <= m -> trace (ws_calls s) m = [].
Proof.
  intros I H. unfold trace. destruct (filter (of_msg m) (ws_calls s)) as [|v l] eqn:F; [reflexivity|]. exfalso.
  assert (V : In v (filter (of_msg m) (ws_calls s))) by (rewrite F; left; reflexivity). apply filter_In in V as [V O]. apply Nat.eqb_eq in O.
  pose proof (wi_calls w h s I v V) as N. rewrite O in N. assert (m < length (ws_recv s)) by (apply nth_error_Some; congruence). lia.
Qed.

Lemma w_recv w h s c nonce s' : winv w h s -> wstep w h s (WaRecv c nonce) = Some s' -> winv w h s'.
Proof.
  intros I E. pose proof (no_trace h w s (length (ws_recv s)) I (Nat.le_refl _)) as Nt. destruct I as [A1 A2 A3 A4 A5 A6 A7 A8 A9 A10 A11]. cbn [wstep] in E.
  destruct (nth_error (ws_readers s) c) as [[y|]|] eqn:Hc; try discriminate. injection E as <-. set (x := mkX (length (ws_recv s)) c nonce).
  constructor; wproj; auto.
  - intros i y H. apply nth_error_snoc in H as [H|[-> ->]]; [apply A2, H|reflexivity].
  - intros m. specialize (A3 m). unfold places in *; wproj. rewrite app_length. cbn [length]. pose proof (cntb_setn (rid m) _ _ _ (Some x) Hc) as Q. cbn [rid x_id x Nat.b2n] in Q.
    destruct (Nat.eqb_spec (length (ws_recv s)) m) as [Em|Em]; cbn [Nat.b2n] in Q; destruct (Nat.ltb_spec m (length (ws_recv s))), (Nat.ltb_spec m (length (ws_recv s) + 1)); lia.
  - intros j k H. specialize (A4 j k H). destruct k; cbn in *; intuition; apply recv_keep; auto.
  - intros y [(c' & H)|H]; wproj.
    + rewrite (nth_error_set _ _ _ _ c' Hc) in H. destruct (Nat.eqb_spec c' c) as [Ec|N].
      * injection H as <-. cbn [x_id x]. split; [rewrite nth_error_app2, Nat.sub_diag by lia; reflexivity|exact Nt].
      * destruct (A5 y (or_introl (ex_intro _ c' H))) as [P Q]. split; [apply recv_keep, P|exact Q].
    + destruct (A5 y (or_intror H)) as [P Q]. split; [apply recv_keep, P|exact Q].
  - intros v H. apply recv_keep, A7, H.
  - intros c' o H. rewrite (nth_error_set _ _ _ _ c' Hc) in H. rewrite filter_app. cbn [filter x_conn x]. destruct (Nat.eqb_spec c' c) as [Ec|N].
    + rewrite Ec. injection H as <-. destruct (A9 c None Hc) as [_ Q]. rewrite Q, Nat.eqb_refl, app_nil_r. split; [intros y Hy; injection Hy as <-; reflexivity|reflexivity].
    + destruct (A9 c' o H) as [P Q]. split; [exact P|]. rewrite Q. assert ((c =? c') = false) as -> by (apply Nat.eqb_neq; auto). apply app_nil_r.
Qed.

Lemma w_put w h s c s' : winv w h s -> wstep w h s (WaPut c) = Some s' -> winv w h s'.
Proof.
  intros [A1 A2 A3 A4 A5 A6 A7 A8 A9 A10 A11] E. cbn [wstep] in E. destruct (nth_error (ws_readers s) c) as [[x|]|] eqn:Hc; try discriminate.
  destruct (Nat.ltb_spec (length (ws_queue s)) w) as [L|]; [|discriminate]. injection E as <-. constructor; wproj; auto.
  - intros m. specialize (A3 m). unfold places in *; wproj. pose proof (cntb_setn (rid m) _ _ _ None Hc) as Q. cbn [rid Nat.b2n] in Q. rewrite cntb_app, cntb_one. unfold xid at 2. lia.
  - intros y [(c' & H)|H]; wproj.
    + rewrite (nth_error_set _ _ _ _ c' Hc) in H. destruct (c' =? c); [discriminate|]. apply A5. left. eauto.
    + apply in_app_or in H as [H|[<-|[]]]; apply A5; [right; exact H|left; eauto].
  - rewrite A8, app_assoc. reflexivity.
  - intros c' o H. rewrite (nth_error_set _ _ _ _ c' Hc) in H. rewrite filter_app. cbn [filter]. destruct (A9 c _ Hc) as [P0 Q0]. rewrite (P0 x eq_refl). destruct (Nat.eqb_spec c' c) as [->|N].
    + injection H as <-. rewrite Nat.eqb_refl, app_nil_r. split; [discriminate|exact Q0].
    + destruct (A9 c' o H) as [P Q]. assert ((c =? c') = false) as -> by (apply Nat.eqb_neq; auto). rewrite app_nil_r. auto.
  - rewrite app_length. cbn. lia.
Qed.

Lemma w_take w h s j s' : winv w h s -> wstep w h s (WaTake j) = Some s' -> winv w h s'.
Proof.
  intros [A1 A2 A3 A4 A5 A6 A7 A8 A9 A10 A11] E. cbn [wstep] in E. destruct (nth_error (ws_workers s) j) as [[| | |]|] eqn:Hj; try discriminate.
  destruct (ws_queue s) as [|x q] eqn:Eq; [discriminate|]. injection E as <-. constructor; wproj; auto.
  - rewrite set_nth_length. exact A1.
  - intros m. specialize (A3 m). unfold places in *; wproj. pose proof (cntb_setn (wid m) _ _ _ (WNext x 0) Hj) as Q. cbn [wid Nat.b2n] in Q. rewrite Eq, cntb_cons in A3. unfold xid at 1 in A3. lia.
  - intros i k H. rewrite (nth_error_set _ _ _ _ i Hj) in H. destruct (i =? j); [|exact (A4 i k H)]. injection H as <-. cbn.
    destruct (A5 x) as [P Q]; [right; rewrite Eq; left; reflexivity|]. split; [lia|auto].
  - intros y [H|H]; apply A5; [left; exact H|right; rewrite Eq; right; exact H].
  - rewrite A8, <- app_assoc. reflexivity.
  - cbn in A10. lia.
  - pose proof (cntb_setn (fun k => match k with WGone => true | _ => false end) _ _ _ (WNext x 0) Hj) as Q. cbn in Q. lia.
Qed.

(** Nothing else holds the message of worker [j]. *)
Lemma only_worker w h s j k m : winv w h s -> nth_error (ws_workers s) j = Some k -> wid m k = true ->
  (forall i k', nth_error (ws_workers s) i = Some k' -> i <> j -> wid m k' = false) /\
  (forall x, waiting s x -> x_id x <> m) /\ (forall e, In e (ws_done s) -> fst e <> m).
Proof.
  intros [A1 A2 A3 A4 A5 A6 A7 A8 A9 A10 A11] Hj Hm. specialize (A3 m). unfold places in A3. pose proof (cntb_pos _ _ _ (nth_error_In _ _ Hj) Hm) as P.
  assert (cntb (rid m) (ws_readers s) = 0 /\ cntb (xid m) (ws_queue s) = 0 /\ cntb (wid m) (ws_workers s) = 1 /\ cntb (did m) (ws_done s) = 0) as (Z1 & Z2 & Z3 & Z4) by (destruct (m <? _); lia).
  split; [|split].
  - intros i k' Hi N. destruct (wid m k') eqn:W; [|reflexivity]. pose proof (cntb_two _ _ i j k' k Hi Hj N W Hm). lia.
  - intros x [(c & H)|H] E.
    + assert (R : rid m (Some x) = true) by (apply Nat.eqb_eq; exact E). pose proof (cntb_pos _ _ _ (nth_error_In _ _ H) R). lia.
    + assert (R : xid m x = true) by (apply Nat.eqb_eq; exact E). pose proof (cntb_pos _ _ _ H R). lia.
  - intros e H E. assert (R : did m e = true) by (apply Nat.eqb_eq; exact E). pose proof (cntb_pos _ _ _ H R). lia.
Qed.

(** Changing the trace of one message held by worker [j] only. *)
Lemma worker_ok_other h s s' k m : worker_ok h s k -> wid m k = false -> (forall m', m' <> m -> trace (ws_calls s') m' = trace (ws_calls s) m') -> ws_recv s' = ws_recv s ->
  (forall i v, nth_error (ws_calls s) i = Some v -> x_id (iv_ctx v) <> m -> iv_ret v = None -> exists v', nth_error (ws_calls s') i = Some v' /\ iv_ctx v' = iv_ctx v /\ iv_handler v' = iv_handler v /\ iv_ret v' = None) ->
  worker_ok h s' k.
Proof.
  intros W N T R V. destruct k as [|x n|x n i|]; cbn in *; auto; apply Nat.eqb_neq in N; rewrite (T _ N), R; [exact W|].
  destruct W as (W1 & W2 & W3 & v & Hv & Cv & Kv & Rv). split; [exact W1|]. split; [exact W2|]. split; [exact W3|]. subst x. destruct (V i v Hv N Rv) as (v' & H1' & H2' & H3' & H4'). exists v'. repeat split; congruence.
Qed.
Lemma done_ok_other h s s' e m : done_ok h s e -> fst e <> m -> (forall m', m' <> m -> trace (ws_calls s') m' = trace (ws_calls s) m') -> done_ok h s' e.
Proof. intros D N T. unfold done_ok in *. rewrite (T _ N). exact D. Qed.

Lemma w_start_step w h s j s' : winv w h s -> wstep w h s (WaStart j) = Some s' -> winv w h s'.
Proof.
  intros I E. pose proof I as [A1 A2 A3 A4 A5 A6 A7 A8 A9 A10 A11]. cbn [wstep] in E. destruct (nth_error (ws_workers s) j) as [[|x k| |]|] eqn:Hj; try discriminate.
  pose proof (A4 j _ Hj) as (K1 & K2 & K3). assert (Wm : wid (x_id x) (WNext x k) = true) by apply Nat.eqb_refl. destruct (only_worker w h s j _ _ I Hj Wm) as (O1 & O2 & O3).
  destruct (Nat.ltb_spec k h) as [L|L]; injection E as <-.
  - set (v := mkInv x k false None).
    assert (T : forall m', m' <> x_id x -> trace (ws_calls s ++ [v]) m' = trace (ws_calls s) m').
    { intros m' N. rewrite trace_snoc. cbn [of_msg v iv_ctx]. unfold of_msg. cbn [iv_ctx v]. assert ((x_id x =? m') = false) as -> by (apply Nat.eqb_neq; auto). apply app_nil_r. }
    assert (T0 : trace (ws_calls s ++ [v]) (x_id x) = oks k ++ [(k, None)]).
    { rewrite trace_snoc, K2. unfold of_msg. cbn [iv_ctx v]. rewrite Nat.eqb_refl. reflexivity. }
    constructor; wproj; auto.
    + rewrite set_nth_length. exact A1.
    + intros m. specialize (A3 m). unfold places in *; wproj. pose proof (cntb_setn (wid m) _ _ _ (WRun x k (length (ws_calls s))) Hj) as Q. cbn [wid] in Q. lia.
    + intros i k' H. rewrite (nth_error_set _ _ _ _ i Hj) in H. destruct (Nat.eqb_spec i j) as [->|N].
      * injection H as <-. cbn [worker_ok]; wproj. split; [exact L|]. split; [exact T0|]. split; [exact K3|]. exists v. rewrite nth_error_app2, Nat.sub_diag by lia. auto.
      * apply (worker_ok_other h s _ k' (x_id x) (A4 i k' H) (O1 i k' H N)); wproj; auto. intros i' v' Hv _ Rv. exists v'. split; [apply nth_error_keep, Hv|auto].
    + intros y H. destruct (A5 y H) as [P Q]. split; [exact P|]. rewrite T by exact (O2 y H). exact Q.
    + intros e H. apply (done_ok_other h s _ e (x_id x) (A6 e H) (O3 e H)). exact T.
    + intros v' H. apply in_app_or in H as [H|[<-|[]]]; [apply A7, H|exact K3].
    + pose proof (cntb_setn (fun k => match k with WGone => true | _ => false end) _ _ _ (WRun x k (length (ws_calls s))) Hj) as Q. cbn in Q. lia.
  - assert (k = h) as -> by lia. constructor; wproj; auto.
    + rewrite set_nth_length. exact A1.
    + intros m. specialize (A3 m). unfold places in *; wproj. pose proof (cntb_setn (wid m) _ _ _ WIdle Hj) as Q. cbn [wid] in Q. rewrite cntb_app, cntb_one. cbn [Nat.b2n] in Q. unfold did at 2. cbn [fst]. lia.
    + intros i k' H. rewrite (nth_error_set _ _ _ _ i Hj) in H. destruct (i =? j); [injection H as <-; exact Logic.I|exact (A4 i k' H)].
    + intros e H. apply in_app_or in H as [H|[<-|[]]]; [exact (A6 e H)|exact K2].
    + pose proof (cntb_setn (fun k => match k with WGone => true | _ => false end) _ _ _ WIdle Hj) as Q. rewrite cntb_app, cntb_one. cbn in Q |- *. lia.
Qed.

Lemma w_return w h s j ok s' : winv w h s -> wstep w h s (WaReturn j ok) = Some s' -> winv w h s'.
Proof.
  intros I E. pose proof I as [A1 A2 A3 A4 A5 A6 A7 A8 A9 A10 A11]. cbn [wstep] in E. destruct (nth_error (ws_workers s) j) as [[| |x k i0|]|] eqn:Hj; try discriminate.
  pose proof (A4 j _ Hj) as (K1 & K2 & K3 & v & Hv & Cv & Hk & Rv). assert (Wm : wid (x_id x) (WRun x k i0) = true) by apply Nat.eqb_refl. destruct (only_worker w h s j _ _ I Hj Wm) as (O1 & O2 & O3).
  rewrite Hv in E. set (v' := mkInv (iv_ctx v) (iv_handler v) (iv_sent v) (Some ok)) in *.
  assert (T : forall m', m' <> x_id x -> trace (set_nth i0 v' (ws_calls s)) m' = trace (ws_calls s) m').
  { intros m' N. apply (trace_set_same _ _ i0 v v' Hv eq_refl). left. unfold of_msg. rewrite Cv. apply Nat.eqb_neq. auto. }
  assert (T0 : trace (set_nth i0 v' (ws_calls s)) (x_id x) = oks k ++ [(k, Some ok)]).
  { destruct (trace_set (ws_calls s) (x_id x) i0 v v' Hv eq_refl) as (a & b & Ea & Eb); [unfold of_msg; rewrite Cv; apply Nat.eqb_refl|].
    rewrite Ea, Hk, Rv in K2. apply split_last in K2 as [-> ->]. rewrite Eb. cbn [v' iv_handler iv_ret]. rewrite Hk. reflexivity. }
  assert (Vs : forall i1 v1, nth_error (ws_calls s) i1 = Some v1 -> x_id (iv_ctx v1) <> x_id x -> iv_ret v1 = None ->
     exists v2, nth_error (set_nth i0 v' (ws_calls s)) i1 = Some v2 /\ iv_ctx v2 = iv_ctx v1 /\ iv_handler v2 = iv_handler v1 /\ iv_ret v2 = None).
  { intros i1 v1 H1 N1 R1. exists v1. rewrite (nth_error_set _ _ _ _ i1 Hv). destruct (Nat.eqb_spec i1 i0) as [->|]; [exfalso; apply N1; congruence|auto]. }
  assert (Cs : forall v1, In v1 (set_nth i0 v' (ws_calls s)) -> nth_error (ws_recv s) (x_id (iv_ctx v1)) = Some (iv_ctx v1)).
  { intros v1 H. apply in_set_nth in H as [->|H]; [cbn [v' iv_ctx]; rewrite Cv; exact K3|apply A7, H]. }
  destruct ok; injection E as <-; constructor; wproj; auto.
  - rewrite set_nth_length. exact A1.
  - intros m. specialize (A3 m). unfold places in *; wproj. pose proof (cntb_setn (wid m) _ _ _ (WNext x (S k)) Hj) as Q. cbn [wid] in Q. lia.
  - intros i k' H. rewrite (nth_error_set _ _ _ _ i Hj) in H. destruct (Nat.eqb_spec i j) as [->|N].
    + injection H as <-. cbn [worker_ok]; wproj. split; [lia|]. split; [rewrite oks_S; exact T0|exact K3].
    + apply (worker_ok_other h s _ k' (x_id x) (A4 i k' H) (O1 i k' H N)); wproj; auto.
  - intros y H. destruct (A5 y H) as [P Q]. split; [exact P|]. rewrite T by exact (O2 y H). exact Q.
  - intros e H. apply (done_ok_other h s _ e (x_id x) (A6 e H) (O3 e H)). exact T.
  - pose proof (cntb_setn (fun k => match k with WGone => true | _ => false end) _ _ _ (WNext x (S k)) Hj) as Q. cbn in Q. lia.
  - rewrite set_nth_length. exact A1.
  - intros m. specialize (A3 m). unfold places in *; wproj. pose proof (cntb_setn (wid m) _ _ _ WGone Hj) as Q. cbn [wid] in Q. rewrite cntb_app, cntb_one. cbn [Nat.b2n] in Q. unfold did at 2. cbn [fst]. lia.
  - intros i k' H. rewrite (nth_error_set _ _ _ _ i Hj) in H. destruct (Nat.eqb_spec i j) as [->|N]; [injection H as <-; exact Logic.I|].
    apply (worker_ok_other h s _ k' (x_id x) (A4 i k' H) (O1 i k' H N)); wproj; auto.
  - intros y H. destruct (A5 y H) as [P Q]. split; [exact P|]. rewrite T by exact (O2 y H). exact Q.
  - intros e H. apply in_app_or in H as [H|[<-|[]]]; [apply (done_ok_other h s _ e (x_id x) (A6 e H) (O3 e H)); exact T|]. unfold done_ok; cbn [snd fst]; wproj. eauto.
  - pose proof (cntb_setn (fun k => match k with WGone => true | _ => false end) _ _ _ WGone Hj) as Q. rewrite cntb_app, cntb_one. cbn in Q |- *. lia.
Qed.

Lemma w_send w h s i d s' : winv w h s -> wstep w h s (WaSend i d) = Some s' -> winv w h s'.
Proof.
  intros [A1 A2 A3 A4 A5 A6 A7 A8 A9 A10 A11] E. cbn [wstep] in E. destruct (nth_error (ws_calls s) i) as [v|] eqn:Hv; [|discriminate].
  destruct ((0 <? x_nonce (iv_ctx v))%N && iv_sent v); injection E as <-; [constructor; wproj; auto|].
  set (v' := mkInv (iv_ctx v) (iv_handler v) (iv_sent v || (0 <? x_nonce (iv_ctx v))%N) (iv_ret v)).
  assert (T : forall m, trace (set_nth i v' (ws_calls s)) m = trace (ws_calls s) m) by (intros m; apply (trace_set_same _ _ i v v' Hv eq_refl); right; reflexivity).
  constructor; wproj; auto.
  - intros j k H. specialize (A4 j k H). destruct k as [|x n|x n i1|]; cbn [worker_ok] in *; wproj; rewrite ?T; auto. destruct A4 as (B1 & B2 & B3 & v1 & H1 & C1 & K1 & R1). repeat split; auto.
    rewrite (nth_error_set _ _ _ _ i1 Hv). destruct (Nat.eqb_spec i1 i) as [->|]; [|exists v1; auto]. exists v'. assert (v1 = v) as -> by congruence. auto.
  - intros x H. rewrite T. apply A5, H.
  - intros e H. specialize (A6 e H). unfold done_ok in *; wproj. rewrite T. exact A6.
  - intros v1 H. apply in_set_nth in H as [->|H]; [cbn [v' iv_ctx]; apply A7, (nth_error_In _ _ Hv)|apply A7, H].
Qed.
Theorem winv_step w h s a s' : winv w h s -> wstep w h s a = Some s' -> winv w h s'.
Proof. destruct a; [apply w_recv|apply w_put|apply w_take|apply w_start_step|apply w_return|apply w_send]. Qed.
