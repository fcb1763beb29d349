(** * Workers and handlers: every message reaches every handler once, responses, and what a failing handler costs (C32, C42, C43) *)
From Verif Require Import Base M_Table P_Table P_Iter P_Gossip P_Conn M_Work P_Work.
Local Open Scope nat_scope.

(** ** Specification *)

(** What can happen on a node with [w] workers, [h] registered handlers and [n] connections. *)
Definition node_does (w h n : nat) (l : list wact) (s : wstate) : Prop := wrun w h (w_start w n) l = Some s.
(** The handlers called with message [m] so far, in the order of the calls, each with what it returned:
    [Some true] is nil, [Some false] an error, [None] says it is still running. *)
Definition handled (s : wstate) (m : nat) : list (nat * option bool) :=
  map (fun v => (iv_handler v, iv_ret v)) (filter (fun v => x_id (iv_ctx v) =? m) (ws_calls s)).
(** The first [k] handlers in the order they were registered, all of which returned nil. *)
Definition all_nil (k : nat) : list (nat * option bool) := map (fun i => (i, Some true)) (seq 0 k).
(** The messages sent to the peer in response to message [m]. *)
Definition responses (s : wstate) (m : nat) : list wsend := filter (fun e => sd_ok e && (x_id (sd_ctx e) =? m)) (ws_sends s).
Definition errors (s : wstate) : nat := length (filter (fun e => negb (snd e)) (ws_done s)).
Definition from (c : nat) (x : wctx) : bool := x_conn x =? c.

Lemma reach_inv w h n l s : node_does w h n l s -> winv w h s.
Proof. apply (wrun_inv w h (winv w h) (fun s a s' => winv_step w h s a s')), winv_start. Qed.

(** ** C42 *)

(** C42: the handlers called with a message are the first ones in the order of registration, each called once and each but the last having returned nil. *)
Theorem C42_in_order w h n l s m : node_does w h n l s ->
  exists k r, handled s m = all_nil k ++ r /\ k + length r <= h /\ (r = [] \/ r = [(k, None)] \/ r = [(k, Some false)]).
Proof.
  intros H. apply reach_inv in H as I. change (handled s m) with (trace (ws_calls s) m). change all_nil with oks. pose proof (wi_places w h s I m) as P. unfold places in P.
  destruct (Nat.ltb_spec m (length (ws_recv s))) as [L|L]; [|exists 0, []; rewrite (no_trace h w s m I L); cbn; split; [reflexivity|split; [lia|auto]]].
  destruct (cntb (rid m) (ws_readers s)) as [|a] eqn:E1.
  - destruct (cntb (xid m) (ws_queue s)) as [|b] eqn:E2.
    + destruct (cntb (wid m) (ws_workers s)) as [|d] eqn:E3.
      * destruct (cntb_ex (did m) (ws_done s)) as (e & He & Em); [lia|]. apply Nat.eqb_eq in Em. pose proof (wi_done w h s I e He) as D. unfold done_ok in D. rewrite Em in D.
        destruct (snd e); [exists h, []; rewrite D, app_nil_r; cbn; split; [reflexivity|split; [lia|auto]]|]. destruct D as (k & Lk & D). exists k, [(k, Some false)]. cbn. split; [exact D|split; [lia|auto]].
      * destruct (cntb_ex (wid m) (ws_workers s)) as (k & Hk & Em); [lia|]. apply In_nth_error in Hk as (j & Hj). pose proof (wi_workers w h s I j k Hj) as K. destruct k as [|x k|x k i|]; cbn in Em; try discriminate; apply Nat.eqb_eq in Em; subst m.
        -- destruct K as (K1 & K2 & _). exists k, []. rewrite K2, app_nil_r. cbn. split; [reflexivity|split; [lia|auto]].
        -- destruct K as (K1 & K2 & _). exists k, [(k, None)]. cbn. split; [exact K2|split; [lia|auto]].
    + destruct (cntb_ex (xid m) (ws_queue s)) as (x & Hx & Em); [lia|]. apply Nat.eqb_eq in Em. subst m. destruct (wi_waiting w h s I x (or_intror Hx)) as [_ T]. exists 0, []. rewrite T. cbn. split; [reflexivity|split; [lia|auto]].
  - destruct (cntb_ex (rid m) (ws_readers s)) as (o & Ho & Em); [lia|]. destruct o as [x|]; [|discriminate]. apply Nat.eqb_eq in Em. subst m. apply In_nth_error in Ho as (c & Hc).
    destruct (wi_waiting w h s I x (or_introl (ex_intro _ c Hc))) as [_ T]. exists 0, []. rewrite T. cbn. split; [reflexivity|split; [lia|auto]].
Qed.

(** C42: a message a worker is done with has been given to every handler, or to every handler up to the first one that failed.
    A message is otherwise with its reader, in the queue or with one worker, and in exactly one of these places. *)
Theorem C42_complete w h n l s m : node_does w h n l s -> m < length (ws_recv s) ->
  (exists c x, nth_error (ws_readers s) c = Some (Some x) /\ x_id x = m /\ handled s m = []) \/
  (exists x, In x (ws_queue s) /\ x_id x = m /\ handled s m = []) \/
  (exists j x k, (nth_error (ws_workers s) j = Some (WNext x k) \/ exists i, nth_error (ws_workers s) j = Some (WRun x k i)) /\ x_id x = m) \/
  (In (m, true) (ws_done s) /\ handled s m = all_nil h) \/
  (In (m, false) (ws_done s) /\ exists k, k < h /\ handled s m = all_nil k ++ [(k, Some false)]).
Proof.
  intros H L. apply reach_inv in H as I. change (handled s m) with (trace (ws_calls s) m). change all_nil with oks. pose proof (wi_places w h s I m) as P. unfold places in P.
  destruct (Nat.ltb_spec m (length (ws_recv s))); [|lia].
  destruct (cntb (rid m) (ws_readers s)) as [|a] eqn:E1.
  - destruct (cntb (xid m) (ws_queue s)) as [|b] eqn:E2.
    + destruct (cntb (wid m) (ws_workers s)) as [|d] eqn:E3.
      * destruct (cntb_ex (did m) (ws_done s)) as (e & He & Em); [lia|]. apply Nat.eqb_eq in Em. pose proof (wi_done w h s I e He) as D. unfold done_ok in D. rewrite Em in D.
        right. right. right. destruct e as [m' [|]]; cbn in *; subst m'; [left; auto|right; auto].
      * destruct (cntb_ex (wid m) (ws_workers s)) as (k & Hk & Em); [lia|]. apply In_nth_error in Hk as (j & Hj). right. right. left. exists j.
        destruct k as [|x k|x k i|]; cbn in Em; try discriminate; apply Nat.eqb_eq in Em; exists x, k; eauto.
    + destruct (cntb_ex (xid m) (ws_queue s)) as (x & Hx & Em); [lia|]. apply Nat.eqb_eq in Em. subst m. destruct (wi_waiting w h s I x (or_intror Hx)) as [_ T]. right. left. eauto.
  - destruct (cntb_ex (rid m) (ws_readers s)) as (o & Ho & Em); [lia|]. destruct o as [x|]; [|discriminate]. apply Nat.eqb_eq in Em. subst m. apply In_nth_error in Ho as (c & Hc).
    destruct (wi_waiting w h s I x (or_introl (ex_intro _ c Hc))) as [_ T]. left. eauto.
Qed.

(** Never by two workers at a time. *)
Theorem C42_one_worker w h n l s j1 j2 x1 x2 k1 k2 : node_does w h n l s ->
  nth_error (ws_workers s) j1 = Some k1 -> nth_error (ws_workers s) j2 = Some k2 ->
  (match k1 with WNext x _ | WRun x _ _ => x = x1 | _ => False end) -> (match k2 with WNext x _ | WRun x _ _ => x = x2 | _ => False end) ->
  x_id x1 = x_id x2 -> j1 = j2.
Proof.
  intros H N1 N2 K1 K2 E. apply reach_inv in H as I. destruct (Nat.eq_dec j1 j2) as [|D]; [assumption|exfalso].
  assert (W1 : wid (x_id x1) k1 = true) by (destruct k1; try contradiction; subst; apply Nat.eqb_refl).
  assert (W2 : wid (x_id x1) k2 = true) by (destruct k2; try contradiction; subst; rewrite E; apply Nat.eqb_refl).
  destruct (only_worker w h s j2 k2 _ I N2 W2) as [O _]. rewrite (O j1 k1 N1 D) in W1. discriminate.
Qed.

(** C42: the messages of a connection are queued in the order they arrive, all of them but perhaps the last one; workers take messages in the order they were queued. *)
Theorem C42_fifo w h n l s : node_does w h n l s ->
  ws_queued s = ws_taken s ++ ws_queue s /\
  forall c o, nth_error (ws_readers s) c = Some o -> filter (from c) (ws_recv s) = filter (from c) (ws_queued s) ++ match o with Some x => [x] | None => [] end.
Proof. intros H. apply reach_inv in H as I. split; [exact (wi_fifo w h s I)|]. intros c o Hc. exact (proj2 (wi_conn w h s I c o Hc)). Qed.

(** ** C32 *)

Record sinv (w h : nat) (s : wstate) : Prop := {
  si_w : winv w h s;
  si_sum : forall m x, nth_error (ws_recv s) m = Some x -> (0 < x_nonce x)%N ->
     cntb (fun e => sd_ok e && (x_id (sd_ctx e) =? m)) (ws_sends s) = cntb (fun v => of_msg m v && iv_sent v) (ws_calls s);
  si_call : forall e, In e (ws_sends s) -> exists v, nth_error (ws_calls s) (sd_call e) = Some v /\ iv_ctx v = sd_ctx e;
  si_one : forall i v, nth_error (ws_calls s) i = Some v -> (0 < x_nonce (iv_ctx v))%N ->
     exists k, map sd_ok (filter (fun e => sd_call e =? i) (ws_sends s)) = if iv_sent v then true :: repeat false k else [];
  si_plain : forall e, In e (ws_sends s) -> x_nonce (sd_ctx e) = 0%N -> sd_ok e = true
}.
Lemma sinv_start w h n : sinv w h (w_start w n).
Proof. constructor; [apply winv_start|..]; cbn; intros; try contradiction; try reflexivity; destruct i; discriminate. Qed.

Lemma sinv_same w h s s' : sinv w h s -> winv w h s' -> ws_sends s' = ws_sends s -> ws_calls s' = ws_calls s -> (forall x, In x (ws_recv s') -> In x (ws_recv s) \/ forall v, In v (ws_calls s) -> x_id (iv_ctx v) <> x_id x) -> sinv w h s'.
Proof.
  intros [A B C D F] I Es Ec Er. constructor; rewrite ?Es, ?Ec; auto. intros m x Hx Nx. pose proof (wi_ids w h s' I m x Hx) as Im.
  destruct (Er x (nth_error_In _ _ Hx)) as [O|O].
  - apply In_nth_error in O as (i & Hi). assert (i = m) as -> by (rewrite <- (wi_ids w h s A i x Hi); exact Im). exact (B m x Hi Nx).
  - rewrite !cntb_zero; [reflexivity|..].
    + intros v Hv. unfold of_msg. assert ((x_id (iv_ctx v) =? m) = false) as -> by (apply Nat.eqb_neq; rewrite <- Im; apply O, Hv). reflexivity.
    + intros e He. destruct (C e He) as (v & Hv & Cv). rewrite <- Cv. assert ((x_id (iv_ctx v) =? m) = false) as -> by (apply Nat.eqb_neq; rewrite <- Im; apply O, (nth_error_In _ _ Hv)). apply andb_false_r.
Qed.
Lemma set_sent_same l : forall i v v' (p : inv -> bool), nth_error l i = Some v -> p v' = p v -> cntb p (set_nth i v' l) = cntb p l.
Proof. intros i v v' p H E. pose proof (cntb_setn p l i v v' H). rewrite E in H0. lia. Qed.

Theorem sinv_step w h s a s' : sinv w h s -> wstep w h s a = Some s' -> sinv w h s'.
Proof.
  intros I E. pose proof I as [A B C D F]. pose proof (winv_step w h s a s' A E) as A'. destruct a as [c nonce|c|j|j|j ok|i d]; cbn [wstep] in E.
  - destruct (nth_error (ws_readers s) c) as [[|]|] eqn:Hc; try discriminate. injection E as <-. apply (sinv_same w h s _ I A'); wproj; auto.
    intros x Hx. apply in_app_or in Hx as [Hx|[<-|[]]]; [left; exact Hx|right]. intros v Hv N. pose proof (wi_calls w h s A v Hv) as Q. cbn [x_id] in N. rewrite N in Q. assert (length (ws_recv s) < length (ws_recv s)) by (apply nth_error_Some; congruence). lia.
  - destruct (nth_error (ws_readers s) c) as [[|]|] eqn:Hc; try discriminate. destruct (_ <? _); [|discriminate]. injection E as <-. apply (sinv_same w h s _ I A'); wproj; auto.
  - destruct (nth_error (ws_workers s) j) as [[| | |]|] eqn:Hj; try discriminate. destruct (ws_queue s) as [|x q]; [discriminate|]. injection E as <-. apply (sinv_same w h s _ I A'); wproj; auto.
  - destruct (nth_error (ws_workers s) j) as [[|x k| |]|] eqn:Hj; try discriminate. destruct (k <? h); injection E as <-; [|apply (sinv_same w h s _ I A'); wproj; auto].
    constructor; wproj; auto.
    + intros m y Hy Ny. rewrite cntb_app, cntb_one. cbn [iv_sent]. rewrite andb_false_r. cbn. rewrite (B m y Hy Ny). lia.
    + intros e He. destruct (C e He) as (v & Hv & Cv). exists v. split; [apply nth_error_keep, Hv|exact Cv].
    + intros i v Hv Nv. apply nth_error_snoc in Hv as [Hv|[Ei Ev]]; [exact (D i v Hv Nv)|]. subst i v. cbn [iv_sent]. exists 0.
      destruct (filter _ (ws_sends s)) as [|e l] eqn:Fl; [reflexivity|exfalso]. assert (He : In e (filter (fun e => sd_call e =? length (ws_calls s)) (ws_sends s))) by (rewrite Fl; left; reflexivity).
      apply filter_In in He as [He Ee]. apply Nat.eqb_eq in Ee. destruct (C e He) as (v & Hv & _). rewrite Ee in Hv. assert (length (ws_calls s) < length (ws_calls s)) by (apply nth_error_Some; congruence). lia.
  - destruct (nth_error (ws_workers s) j) as [[| |x k i|]|] eqn:Hj; try discriminate. destruct (nth_error (ws_calls s) i) as [v|] eqn:Hv; [|discriminate].
    set (v' := mkInv (iv_ctx v) (iv_handler v) (iv_sent v) (Some ok)) in *.
    assert (Q : ws_calls s' = set_nth i v' (ws_calls s) /\ ws_sends s' = ws_sends s /\ ws_recv s' = ws_recv s) by (destruct ok; injection E as <-; auto). destruct Q as (Q1 & Q2 & Q3).
    constructor; rewrite ?Q1, ?Q2, ?Q3; auto.
    + intros m y Hy Ny. rewrite (B m y Hy Ny). symmetry. apply (set_sent_same _ i v); [exact Hv|reflexivity].
    + intros e He. destruct (C e He) as (u & Hu & Cu). rewrite (nth_error_set _ _ _ _ (sd_call e) Hv). destruct (Nat.eqb_spec (sd_call e) i) as [Ei|]; [|eauto]. exists v'. split; [reflexivity|]. rewrite Ei in Hu. assert (u = v) as -> by congruence. exact Cu.
    + intros i1 v1 H1 N1. rewrite (nth_error_set _ _ _ _ i1 Hv) in H1. destruct (Nat.eqb_spec i1 i) as [->|]; [|exact (D i1 v1 H1 N1)]. assert (v1 = v') as -> by congruence. exact (D i v Hv N1).
  - destruct (nth_error (ws_calls s) i) as [v|] eqn:Hv; [|discriminate]. destruct (0 <? x_nonce (iv_ctx v))%N eqn:Nv; cbn [andb] in E.
    + apply N.ltb_lt in Nv. destruct (D i v Hv Nv) as (k & Dk). destruct (iv_sent v) eqn:Sv; injection E as <-; constructor; wproj; auto.
      * intros m y Hy Ny. rewrite cntb_app, cntb_one. cbn. rewrite (B m y Hy Ny). lia.
      * intros e He. apply in_app_or in He as [He|[<-|[]]]; [exact (C e He)|]. exists v. auto.
      * intros i1 v1 H1 N1. rewrite filter_app, map_app. cbn [filter sd_call]. destruct (Nat.eqb_spec i i1) as [<-|Ni]; [|destruct (D i1 v1 H1 N1) as (k1 & D1); exists k1; rewrite D1, app_nil_r; reflexivity].
        exists (S k). rewrite Dk. assert (v1 = v) as -> by congruence. rewrite Sv. cbn [map sd_ok]. cbn [app]. f_equal. change [false] with (repeat false 1). rewrite <- repeat_app. f_equal. lia.
      * intros e He Ne. apply in_app_or in He as [He|[<-|[]]]; [exact (F e He Ne)|]. cbn in Ne. rewrite Ne in Nv. discriminate.
      * intros m y Hy Ny. rewrite cntb_app, cntb_one. cbn [sd_ok sd_ctx andb]. rewrite (B m y Hy Ny).
        pose proof (cntb_setn (fun v => of_msg m v && iv_sent v) _ _ _ (mkInv (iv_ctx v) (iv_handler v) (false || true) (iv_ret v)) Hv) as Q. cbn [iv_sent] in Q. rewrite Sv, andb_false_r in Q. unfold of_msg in *; cbn [iv_ctx orb] in *. rewrite andb_true_r in Q. cbn [Nat.b2n] in Q. lia.
      * intros e He. apply in_app_or in He as [He|[<-|[]]]; rewrite (nth_error_set _ _ _ _ _ Hv).
        -- destruct (C e He) as (u & Hu & Cu). destruct (Nat.eqb_spec (sd_call e) i) as [Ei|]; [|eauto]. eexists. split; [reflexivity|]. rewrite Ei in Hu. assert (u = v) as -> by congruence. exact Cu.
        -- cbn [sd_call]. rewrite Nat.eqb_refl. eexists. split; [reflexivity|reflexivity].
      * intros i1 v1 H1 N1. rewrite (nth_error_set _ _ _ _ i1 Hv) in H1. rewrite filter_app, map_app. cbn [filter sd_call]. destruct (Nat.eqb_spec i1 i) as [->|Ni].
        -- rewrite Nat.eqb_refl, Dk. injection H1 as <-. cbn. exists 0. reflexivity.
        -- assert ((i =? i1) = false) as -> by (apply Nat.eqb_neq; auto). destruct (D i1 v1 H1 N1) as (k1 & D1). exists k1. rewrite D1, app_nil_r. reflexivity.
      * intros e He Ne. apply in_app_or in He as [He|[<-|[]]]; [exact (F e He Ne)|reflexivity].
    + assert (Zv : x_nonce (iv_ctx v) = 0%N) by (destruct (x_nonce (iv_ctx v)); [reflexivity|discriminate]). injection E as <-. rewrite orb_false_r in A' |- *.
      constructor; wproj; auto.
      * intros m y Hy Ny. rewrite cntb_app, cntb_one. cbn [sd_ok sd_ctx andb]. rewrite (B m y Hy Ny). rewrite (set_sent_same _ i v) by (exact Hv || reflexivity).
        destruct (Nat.eqb_spec (x_id (iv_ctx v)) m) as [<-|]; cbn [Nat.b2n]; [|lia]. rewrite (wi_calls w h s A v (nth_error_In _ _ Hv)) in Hy. injection Hy as <-. rewrite Zv in Ny. discriminate.
      * intros e He. apply in_app_or in He as [He|[<-|[]]]; rewrite (nth_error_set _ _ _ _ _ Hv).
        -- destruct (C e He) as (u & Hu & Cu). destruct (Nat.eqb_spec (sd_call e) i) as [Ei|]; [|eauto]. eexists. split; [reflexivity|]. rewrite Ei in Hu. assert (u = v) as -> by congruence. exact Cu.
        -- cbn [sd_call]. rewrite Nat.eqb_refl. eexists. split; [reflexivity|reflexivity].
      * intros i1 v1 H1 N1. rewrite (nth_error_set _ _ _ _ i1 Hv) in H1. rewrite filter_app, map_app. cbn [filter sd_call]. destruct (Nat.eqb_spec i1 i) as [->|Ni].
        -- injection H1 as <-. cbn [iv_ctx] in N1. rewrite Zv in N1. discriminate.
        -- assert ((i =? i1) = false) as -> by (apply Nat.eqb_neq; auto). destruct (D i1 v1 H1 N1) as (k1 & D1). exists k1. rewrite D1, app_nil_r. reflexivity.
      * intros e He Ne. apply in_app_or in He as [He|[<-|[]]]; [exact (F e He Ne)|reflexivity].
Qed.
Lemma reach_sinv w h n l s : node_does w h n l s -> sinv w h s.
Proof. apply (wrun_inv w h (sinv w h) (fun s a s' => sinv_step w h s a s')), sinv_start. Qed.

Definition C32_statement : Prop := forall w h n l s m x, node_does w h n l s -> nth_error (ws_recv s) m = Some x -> (0 < x_nonce x)%N -> length (responses s m) <= 1.

(** Two handlers that both answer a request. *)
Theorem C32_refuted : ~ C32_statement.
Proof.
  intros H. pose (l := [WaRecv 0 7%N; WaPut 0; WaTake 0; WaStart 0; WaSend 0 1; WaReturn 0 true; WaStart 0; WaSend 1 2; WaReturn 0 true; WaStart 0]).
  destruct (wrun 1 2 (w_start 1 1) l) as [s|] eqn:E; [|vm_compute in E; discriminate]. specialize (H 1 2 1 l s 0 (mkX 0 0 7%N) E).
  vm_compute in E. injection E as <-. specialize (H eq_refl eq_refl). vm_compute in H. lia.
Qed.

(** Of the calls of Send one handler makes on the context of a request the first is sent and the others are refused. *)
Theorem C32_once_per_handler w h n l s i v : node_does w h n l s -> nth_error (ws_calls s) i = Some v -> (0 < x_nonce (iv_ctx v))%N ->
  map sd_ok (filter (fun e => sd_call e =? i) (ws_sends s)) = [] \/ exists k, map sd_ok (filter (fun e => sd_call e =? i) (ws_sends s)) = true :: repeat false k.
Proof. intros H Hv Nv. apply reach_sinv in H as I. destruct (si_one w h s I i v Hv Nv) as (k & E). destruct (iv_sent v); [right; eauto|left; exact E]. Qed.

(** C32: a request gets at most one response from every handler; so at most one if there is only one handler. *)
Theorem C32_partial w h n l s m x : node_does w h n l s -> nth_error (ws_recv s) m = Some x -> (0 < x_nonce x)%N -> length (responses s m) <= length (handled s m) /\ length (handled s m) <= h.
Proof.
  intros H Hx Nx. pose proof (C42_in_order w h n l s m H) as (k & r & E & L & _). apply reach_sinv in H as I. split.
  - unfold responses. rewrite cntb_filter, (si_sum w h s I m x Hx Nx). unfold handled. rewrite map_length, cntb_filter. apply cntb_le. intros v Hv. apply andb_prop in Hv as [Hv _]. exact Hv.
  - rewrite E, app_length. unfold all_nil. rewrite map_length, seq_length. exact L.
Qed.
Theorem C32_single_handler w n l s m x : node_does w 1 n l s -> nth_error (ws_recv s) m = Some x -> (0 < x_nonce x)%N -> length (responses s m) <= 1.
Proof. intros H Hx Nx. destruct (C32_partial w 1 n l s m x H Hx Nx). lia. Qed.
(** Messages that are not requests may be answered freely. *)
Theorem C32_plain w h n l s e : node_does w h n l s -> In e (ws_sends s) -> x_nonce (sd_ctx e) = 0%N -> sd_ok e = true.
Proof. intros H. apply reach_sinv in H as I. apply (si_plain w h s I). Qed.

Example C32_nonvacuous : exists s, node_does 1 1 1 [WaRecv 0 7%N; WaPut 0; WaTake 0; WaStart 0; WaSend 0 1; WaSend 0 2; WaReturn 0 true; WaStart 0; WaSend 0 3] s /\
  length (responses s 0) = 1 /\ map sd_ok (ws_sends s) = [true; false; false] /\ handled s 0 = [(0, Some true)].
Proof. eexists. split; [vm_compute; reflexivity|]. vm_compute. auto. Qed.

Example C42_nonvacuous : exists s, node_does 2 3 2 [WaRecv 0 0%N; WaRecv 1 0%N; WaPut 1; WaPut 0; WaTake 1; WaTake 0; WaStart 0; WaStart 1; WaReturn 1 true; WaStart 1; WaReturn 1 false; WaReturn 0 true; WaStart 0; WaReturn 0 true; WaStart 0; WaReturn 0 true; WaStart 0] s /\
  handled s 1 = [(0, Some true); (1, Some false)] /\ handled s 0 = all_nil 3 /\ map x_id (ws_taken s) = [1; 0].
Proof. eexists. split; [vm_compute; reflexivity|]. vm_compute. auto. Qed.

(** ** C43 *)

(** Every queued message can still be handled, however many handlers failed. *)
Definition C43_statement : Prop := forall w h n l s x, 0 < w -> node_does w h n l s -> In x (ws_queue s) -> nth_error (ws_closed s) (x_conn x) = Some false ->
  exists l' s', wrun w h s l' = Some s' /\ In (x_id x, true) (ws_done s').

(** A worker that failed never does anything again. *)
Definition all_gone (s : wstate) : Prop := forall k, In k (ws_workers s) -> k = WGone.
Lemma map_set {A B} (f : A -> B) l : forall i x y, nth_error l i = Some x -> f y = f x -> map f (set_nth i y l) = map f l.
Proof. induction l as [|a l IH]; intros [|i] x y H E; cbn in *; try discriminate; [injection H as ->; rewrite E; reflexivity|f_equal; exact (IH i x y H E)]. Qed.
Lemma gone_step w h s a s' : all_gone s -> wstep w h s a = Some s' -> all_gone s' /\ ws_taken s' = ws_taken s /\ ws_done s' = ws_done s /\ map iv_ctx (ws_calls s') = map iv_ctx (ws_calls s).
Proof.
  intros G E. destruct a as [c nonce|c|j|j|j ok|i d]; cbn [wstep] in E.
  - destruct (nth_error (ws_readers s) c) as [[|]|]; try discriminate. injection E as <-. auto.
  - destruct (nth_error (ws_readers s) c) as [[|]|]; try discriminate. destruct (_ <? _); [|discriminate]. injection E as <-. auto.
  - destruct (nth_error (ws_workers s) j) as [k|] eqn:Hj; [|discriminate]. rewrite (G k (nth_error_In _ _ Hj)) in E. discriminate.
  - destruct (nth_error (ws_workers s) j) as [k|] eqn:Hj; [|discriminate]. rewrite (G k (nth_error_In _ _ Hj)) in E. discriminate.
  - destruct (nth_error (ws_workers s) j) as [k|] eqn:Hj; [|discriminate]. rewrite (G k (nth_error_In _ _ Hj)) in E. discriminate.
  - destruct (nth_error (ws_calls s) i) as [v|] eqn:Hv; [|discriminate]. destruct (_ && _); injection E as <-; wproj; auto. repeat split; auto. apply (map_set _ _ i v); auto.
Qed.

(** Once every worker has seen an error no message is handled any more: no handler is called again, and only as many messages as
    there are workers fit in the queue; each connection then reads one more message and stalls. *)
Theorem C43_dead w h n l s l' s' : node_does w h n l s -> errors s = w -> wrun w h s l' = Some s' ->
  map iv_ctx (ws_calls s') = map iv_ctx (ws_calls s) /\ ws_done s' = ws_done s /\ length (ws_queued s') <= length (ws_taken s) + w.
Proof.
  intros H E R. apply reach_inv in H as I. assert (G : all_gone s).
  { unfold errors in E. rewrite cntb_filter, <- (wi_gone w h s I) in E. rewrite <- (wi_len w h s I) in E. clear - E. unfold all_gone. induction (ws_workers s) as [|a q IH]; [intros ? []|].
    rewrite cntb_cons in E. cbn [length] in E. pose proof (cntb_le (fun k => match k with WGone => true | _ => false end) (fun _ => true) q ltac:(auto)) as L. rewrite <- (cntb_filter (fun _ => true)) in L.
    assert (F : forall r : list wk, filter (fun _ => true) r = r) by (induction r as [|b r IHr]; [reflexivity|cbn; rewrite IHr; reflexivity]). rewrite F in L.
    intros k [<-|Hk]; [destruct a; cbn in E; try lia; reflexivity|]. apply IH; [|exact Hk]. destruct a; cbn in E; lia. }
  assert (J : all_gone s' /\ ws_taken s' = ws_taken s /\ ws_done s' = ws_done s /\ map iv_ctx (ws_calls s') = map iv_ctx (ws_calls s)).
  { revert R. apply (wrun_inv w h (fun q => all_gone q /\ ws_taken q = ws_taken s /\ ws_done q = ws_done s /\ map iv_ctx (ws_calls q) = map iv_ctx (ws_calls s))); [|auto].
    intros q a q' (G1 & Q1 & Q2 & Q3) St. destruct (gone_step w h q a q' G1 St) as (G2 & R1 & R2 & R3). repeat split; congruence || exact G2. }
  destruct J as (_ & J1 & J2 & J3). split; [exact J3|]. split; [exact J2|].
  assert (I' : winv w h s') by (revert R; apply (wrun_inv w h (winv w h) (fun s a s' => winv_step w h s a s')), I).
  rewrite (wi_fifo w h s' I'), app_length, J1. pose proof (wi_cap w h s' I'). lia.
Qed.

Theorem C43_refuted : ~ C43_statement.
Proof.
  intros H. pose (l := [WaRecv 0 0%N; WaPut 0; WaTake 0; WaStart 0; WaReturn 0 false; WaRecv 1 0%N; WaPut 1]).
  destruct (wrun 1 1 (w_start 1 2) l) as [s|] eqn:E; [|vm_compute in E; discriminate]. pose proof (fun l' s' => C43_dead 1 1 2 l s l' s' E) as D. specialize (H 1 1 2 l s (mkX 1 1 0%N) ltac:(lia) E).
  vm_compute in E. injection E as <-. specialize (H (or_introl eq_refl) eq_refl) as (l' & s' & R & Hd). destruct (D l' s' eq_refl R) as (_ & Q & _). rewrite Q in Hd. cbn in Hd. intuition discriminate.
Qed.

(** *** While fewer handlers have failed than there are workers *)

Lemma nth_set_eq {A} (l : list A) i x y : nth_error l i = Some y -> nth_error (set_nth i x l) i = Some x.
Proof. intros H. rewrite (nth_error_set _ _ _ _ i H), Nat.eqb_refl. reflexivity. Qed.

(** Steps of worker [j], or of readers that queue what they have read. *)
Definition only (j : nat) (a : wact) : bool := match a with WaTake i | WaStart i | WaReturn i _ => i =? j | WaPut _ => true | _ => false end.
(** A worker that is busy with a message can finish it, by itself. *)
Lemma finish w h : forall d s j x k, winv w h s -> h - k = d -> nth_error (ws_workers s) j = Some (WNext x k) ->
  exists l s', wrun w h s l = Some s' /\ forallb (only j) l = true /\ nth_error (ws_workers s') j = Some WIdle /\ ws_queue s' = ws_queue s /\ ws_readers s' = ws_readers s /\ In (x_id x, true) (ws_done s') /\ (forall e, In e (ws_done s) -> In e (ws_done s')).
Proof.
  induction d as [|d IH]; intros s j x k I E Hj.
  - pose (s1 := mkWS (set_nth j WIdle (ws_workers s)) (ws_queue s) (ws_readers s) (ws_closed s) (ws_calls s) (ws_recv s) (ws_queued s) (ws_taken s) (ws_done s ++ [(x_id x, true)]) (ws_sends s)).
    exists [WaStart j], s1. cbn [wrun wstep]. rewrite Hj. destruct (Nat.ltb_spec k h); [lia|]. split; [reflexivity|]. split; [cbn; rewrite Nat.eqb_refl; reflexivity|]. unfold s1; wproj. split; [apply (nth_set_eq _ _ _ _ Hj)|]. repeat split; auto.
    + apply in_or_app. right. left. reflexivity.
    + intros e He. apply in_or_app. auto.
  - assert (L : k < h) by lia.
    destruct (wstep w h s (WaStart j)) as [s1|] eqn:E1; [|cbn [wstep] in E1; rewrite Hj in E1; destruct (k <? h); discriminate].
    pose proof (winv_step w h s _ s1 I E1) as I1. cbn [wstep] in E1. rewrite Hj in E1. destruct (Nat.ltb_spec k h); [|lia]. injection E1 as E1.
    assert (H1 : nth_error (ws_workers s1) j = Some (WRun x k (length (ws_calls s)))) by (subst s1; wproj; apply (nth_set_eq _ _ _ _ Hj)).
    assert (Hv : nth_error (ws_calls s1) (length (ws_calls s)) = Some (mkInv x k false None)) by (subst s1; wproj; rewrite nth_error_app2, Nat.sub_diag by lia; reflexivity).
    destruct (wstep w h s1 (WaReturn j true)) as [s2|] eqn:E2; [|cbn [wstep] in E2; rewrite H1, Hv in E2; discriminate].
    pose proof (winv_step w h s1 _ s2 I1 E2) as I2. pose proof E2 as E2'. cbn [wstep] in E2'. rewrite H1, Hv in E2'. injection E2' as E2'.
    assert (H2 : nth_error (ws_workers s2) j = Some (WNext x (S k))) by (subst s2; wproj; apply (nth_set_eq _ _ _ _ H1)).
    destruct (IH s2 j x (S k) I2 ltac:(lia) H2) as (l & s' & R & O & W & Q1 & Q2 & D1 & D2). exists (WaStart j :: WaReturn j true :: l), s'.
    split; [cbn [wrun wstep]; rewrite Hj; destruct (Nat.ltb_spec k h); [|lia]; rewrite E1; change (match wstep w h s1 (WaReturn j true) with Some s' => wrun w h s' l | None => None end = Some s'); rewrite E2; exact R|].
    split; [cbn [forallb only]; rewrite Nat.eqb_refl; exact O|]. split; [exact W|]. split; [rewrite Q1; subst s2 s1; reflexivity|]. split; [rewrite Q2; subst s2 s1; reflexivity|]. split; [exact D1|]. intros e He. apply D2. subst s2 s1. exact He.
Qed.
Lemma wrun_winv w h l s s' : winv w h s -> wrun w h s l = Some s' -> winv w h s'.
Proof. intros I R. revert R. apply (wrun_inv w h (winv w h) (fun s a s' => winv_step w h s a s')), I. Qed.

(** An idle worker can handle everything in the queue. *)
Lemma serve w h : forall q s j, winv w h s -> nth_error (ws_workers s) j = Some WIdle -> ws_queue s = q ->
  exists l s', wrun w h s l = Some s' /\ forallb (only j) l = true /\ nth_error (ws_workers s') j = Some WIdle /\ ws_queue s' = [] /\ ws_readers s' = ws_readers s /\ (forall x, In x q -> In (x_id x, true) (ws_done s')) /\ (forall e, In e (ws_done s) -> In e (ws_done s')).
Proof.
  induction q as [|x q IH]; intros s j I Hj Eq; [exists [], s; cbn; repeat split; auto; contradiction|].
  destruct (wstep w h s (WaTake j)) as [s1|] eqn:E1; [|cbn [wstep] in E1; rewrite Hj, Eq in E1; discriminate].
  pose proof (winv_step w h s _ s1 I E1) as I1. pose proof E1 as E1'. cbn [wstep] in E1'. rewrite Hj, Eq in E1'. injection E1' as E1'.
  assert (H1 : nth_error (ws_workers s1) j = Some (WNext x 0)) by (subst s1; wproj; apply (nth_set_eq _ _ _ _ Hj)).
  destruct (finish w h h s1 j x 0 I1 ltac:(lia) H1) as (l1 & s2 & R2 & O2 & W2 & Q2 & Q2' & D2 & D2'). pose proof (wrun_winv w h l1 s1 s2 I1 R2) as I2.
  destruct (IH s2 j I2 W2 ltac:(rewrite Q2; subst s1; reflexivity)) as (l2 & s3 & R3 & O3 & W3 & Q3 & Q3' & D3 & D3').
  exists (WaTake j :: l1 ++ l2), s3. split; [cbn [wrun]; rewrite E1, wrun_app, R2; exact R3|]. split; [cbn [forallb only]; rewrite Nat.eqb_refl, forallb_app, O2; exact O3|]. split; [exact W3|]. split; [exact Q3|]. split; [rewrite Q3', Q2'; subst s1; reflexivity|]. split.
  - intros y [<-|Hy]; [apply D3', D2|apply D3, Hy].
  - intros e He. apply D3', D2'. subst s1. exact He.
Qed.

(** A worker that is not gone can become idle. *)
Lemma free w h s j k : winv w h s -> nth_error (ws_workers s) j = Some k -> k <> WGone ->
  exists l s', wrun w h s l = Some s' /\ forallb (only j) l = true /\ nth_error (ws_workers s') j = Some WIdle /\ ws_queue s' = ws_queue s /\ ws_readers s' = ws_readers s /\ (forall m, wid m k = true -> In (m, true) (ws_done s')).
Proof.
  intros I Hj N. destruct k as [|x k|x k i|]; [|..|contradiction].
  - exists [], s. cbn. repeat split; auto; discriminate.
  - destruct (finish w h (h - k) s j x k I eq_refl Hj) as (l & s' & R & O & W & Q1 & Q2 & D & _). exists l, s'. repeat split; auto. intros m Hm. cbn in Hm. apply Nat.eqb_eq in Hm. subst m. exact D.
  - destruct (wi_workers w h s I j _ Hj) as (K1 & K2 & K3 & v & Hv & _).
    destruct (wstep w h s (WaReturn j true)) as [s1|] eqn:E1; [|cbn [wstep] in E1; rewrite Hj, Hv in E1; discriminate].
    pose proof (winv_step w h s _ s1 I E1) as I1. pose proof E1 as E1'. cbn [wstep] in E1'. rewrite Hj, Hv in E1'. injection E1' as E1'.
    assert (H1 : nth_error (ws_workers s1) j = Some (WNext x (S k))) by (subst s1; wproj; apply (nth_set_eq _ _ _ _ Hj)).
    destruct (finish w h (h - S k) s1 j x (S k) I1 eq_refl H1) as (l & s' & R & O & W & Q1 & Q2 & D & _). exists (WaReturn j true :: l), s'. split; [cbn [wrun]; rewrite E1; exact R|].
    split; [cbn [forallb only]; rewrite Nat.eqb_refl; exact O|]. split; [exact W|].
    split; [rewrite Q1; subst s1; reflexivity|]. split; [rewrite Q2; subst s1; reflexivity|]. intros m Hm. cbn in Hm. apply Nat.eqb_eq in Hm. subst m. exact D.
Qed.

(** A worker that is not gone can, by itself, hand any message that waits, or that it is busy with, to every handler. *)
Lemma one_serves w h s j k x : winv w h s -> 0 < w -> nth_error (ws_workers s) j = Some k -> k <> WGone ->
  (exists c, nth_error (ws_readers s) c = Some (Some x)) \/ In x (ws_queue s) \/ wid (x_id x) k = true ->
  exists l' s', wrun w h s l' = Some s' /\ forallb (only j) l' = true /\ In (x_id x, true) (ws_done s') /\ handled s' (x_id x) = all_nil h.
Proof.
  intros I Lw Hj N P.
  assert (F : forall l' s', wrun w h s l' = Some s' -> In (x_id x, true) (ws_done s') -> handled s' (x_id x) = all_nil h) by (intros l' s' R D; exact (wi_done w h s' (wrun_winv w h l' s s' I R) _ D)).
  assert (Q : exists l' s', wrun w h s l' = Some s' /\ forallb (only j) l' = true /\ In (x_id x, true) (ws_done s')).
  { destruct (free w h s j k I Hj N) as (l1 & s1 & R1 & O1 & W1 & Q1 & Q1' & D1). pose proof (wrun_winv w h l1 s s1 I R1) as I1. destruct P as [(c & Hc)|[Hq|Hk]].
    - destruct (serve w h _ s1 j I1 W1 eq_refl) as (l2 & s2 & R2 & O2 & W2 & Q2 & Q2' & D2 & _). pose proof (wrun_winv w h l2 s1 s2 I1 R2) as I2.
      assert (Hc2 : nth_error (ws_readers s2) c = Some (Some x)) by (rewrite Q2', Q1'; exact Hc).
      destruct (wstep w h s2 (WaPut c)) as [s3|] eqn:E3; [|cbn [wstep] in E3; rewrite Hc2, Q2 in E3; cbn [length] in E3; destruct (Nat.ltb_spec 0 w); [discriminate|lia]].
      pose proof (winv_step w h s2 _ s3 I2 E3) as I3. pose proof E3 as E3'. cbn [wstep] in E3'. rewrite Hc2, Q2 in E3'. cbn [length] in E3'. destruct (Nat.ltb_spec 0 w); [|lia]. injection E3' as E3'.
      assert (W3 : nth_error (ws_workers s3) j = Some WIdle) by (subst s3; exact W2). assert (Q3 : ws_queue s3 = [x]) by (subst s3; reflexivity).
      destruct (serve w h _ s3 j I3 W3 Q3) as (l4 & s4 & R4 & O4 & W4 & Q4 & Q4' & D4 & _). exists (l1 ++ l2 ++ WaPut c :: l4), s4. split; [|split; [|apply D4; left; reflexivity]].
      + rewrite wrun_app, R1, wrun_app, R2. cbn [wrun]. rewrite E3. exact R4.
      + rewrite !forallb_app, O1, O2. cbn [forallb only]. exact O4.
    - destruct (serve w h _ s1 j I1 W1 eq_refl) as (l2 & s2 & R2 & O2 & W2 & Q2 & Q2' & D2 & _). exists (l1 ++ l2), s2. split; [rewrite wrun_app, R1; exact R2|].
      split; [rewrite forallb_app, O1; exact O2|]. apply D2; rewrite Q1; exact Hq.
    - exists l1, s1. split; [exact R1|]. split; [exact O1|exact (D1 _ Hk)]. }
  destruct Q as (l' & s' & R & O & D). exists l', s'. split; [exact R|]. split; [exact O|]. split; [exact D|exact (F l' s' R D)].
Qed.

(** C43: as long as fewer handlers have failed than there are workers, every message that was read and is not done with can still be handed to every handler. *)
Theorem C43_partial w h n l s x : node_does w h n l s -> errors s < w ->
  (exists c, nth_error (ws_readers s) c = Some (Some x)) \/ In x (ws_queue s) \/ (exists j k, nth_error (ws_workers s) j = Some k /\ wid (x_id x) k = true) ->
  exists l' s', wrun w h s l' = Some s' /\ In (x_id x, true) (ws_done s') /\ handled s' (x_id x) = all_nil h.
Proof.
  intros H E P. apply reach_inv in H as I.
  assert (Ex : exists j k, nth_error (ws_workers s) j = Some k /\ k <> WGone).
  { clear P. unfold errors in E. rewrite cntb_filter, <- (wi_gone w h s I) in E. rewrite <- (wi_len w h s I) in E. clear - E. induction (ws_workers s) as [|a q IH]; [cbn in E; lia|].
    destruct a as [|a b|a b c|]; [exists 0, WIdle; split; [reflexivity|discriminate]|exists 0, (WNext a b); split; [reflexivity|discriminate]|exists 0, (WRun a b c); split; [reflexivity|discriminate]|].
    rewrite cntb_cons in E. cbn in E. destruct IH as (j & k & Hj & N); [lia|]. exists (S j), k. auto. }
  destruct P as [Hc|[Hq|(j & k & Hj & Hk)]].
  - destruct Ex as (j & k & Hj & N). destruct (one_serves w h s j k x I ltac:(lia) Hj N (or_introl Hc)) as (l' & s' & R & _ & D & F). eauto.
  - destruct Ex as (j & k & Hj & N). destruct (one_serves w h s j k x I ltac:(lia) Hj N (or_intror (or_introl Hq))) as (l' & s' & R & _ & D & F). eauto.
  - destruct (one_serves w h s j k x I ltac:(lia) Hj ltac:(intros ->; discriminate) (or_intror (or_intror Hk))) as (l' & s' & R & _ & D & F). eauto.
Qed.

(** *** A failing handler closes the connection its message came from, and no other. *)
Definition cinv (n : nat) (s : wstate) : Prop :=
  length (ws_readers s) = n /\ length (ws_closed s) = n /\ (forall x, In x (ws_recv s) -> x_conn x < n) /\
  forall c, nth_error (ws_closed s) c = Some true <-> exists x, nth_error (ws_recv s) (x_id x) = Some x /\ x_conn x = c /\ In (x_id x, false) (ws_done s).
Lemma cinv_step w h n s a s' : winv w h s -> cinv n s -> wstep w h s a = Some s' -> cinv n s'.
Proof.
  intros I (A & B & C & D) E. unfold cinv. destruct a as [c nonce|c|j|j|j ok|i d]; cbn [wstep] in E.
  - destruct (nth_error (ws_readers s) c) as [[|]|] eqn:Hc; try discriminate. injection E as <-; wproj. split; [rewrite set_nth_length; exact A|]. split; [exact B|]. split.
    + intros x Hx. apply in_app_or in Hx as [Hx|[<-|[]]]; [exact (C x Hx)|]. cbn. rewrite <- A. apply nth_error_Some. congruence.
    + intros c'. rewrite D. split; intros (x & X1 & X2 & X3); exists x; (split; [|auto]).
      * apply nth_error_keep, X1.
      * apply nth_error_snoc in X1 as [X1|[X1 _]]; [exact X1|exfalso]. pose proof (wi_places w h s I (x_id x)) as P. rewrite X1, Nat.ltb_irrefl in P. unfold places in P. rewrite <- X1 in P.
        assert (Z : did (x_id x) (x_id x, false) = true) by apply Nat.eqb_refl. pose proof (cntb_pos _ _ _ X3 Z). lia.
  - destruct (nth_error (ws_readers s) c) as [[|]|] eqn:Hc; try discriminate. destruct (_ <? _); [|discriminate]. injection E as <-; wproj. rewrite set_nth_length. auto.
  - destruct (nth_error (ws_workers s) j) as [[| | |]|]; try discriminate. destruct (ws_queue s); [discriminate|]. injection E as <-; wproj. auto.
  - destruct (nth_error (ws_workers s) j) as [[|x k| |]|]; try discriminate. destruct (k <? h); injection E as <-; wproj; auto. split; [exact A|]. split; [exact B|]. split; [exact C|].
    intros c. rewrite D. split; intros (y & X1 & X2 & X3); exists y; (split; [exact X1|split; [exact X2|]]); [apply in_or_app; auto|]. apply in_app_or in X3 as [X3|[X3|[]]]; [exact X3|discriminate].
  - destruct (nth_error (ws_workers s) j) as [[| |x k i|]|] eqn:Hj; try discriminate. destruct (nth_error (ws_calls s) i) as [v|]; [|discriminate]. destruct (wi_workers w h s I j _ Hj) as (_ & _ & K3 & _).
    destruct ok; injection E as <-; wproj; auto. split; [exact A|]. split; [rewrite set_nth_length; exact B|]. split; [exact C|].
    assert (Lx : x_conn x < n) by (apply C, (nth_error_In _ _ K3)). destruct (nth_error (ws_closed s) (x_conn x)) as [b|] eqn:Hb; [|apply nth_error_None in Hb; lia].
    intros c. rewrite (nth_error_set _ _ _ _ c Hb). destruct (Nat.eqb_spec c (x_conn x)) as [->|N].
    + split; [intros _|reflexivity]. exists x. repeat split; auto. apply in_or_app. right. left. reflexivity.
    + rewrite D. split; intros (y & X1 & X2 & X3); exists y; (split; [exact X1|split; [exact X2|]]); [apply in_or_app; auto|]. apply in_app_or in X3 as [X3|[X3|[]]]; [exact X3|]. injection X3 as X3. rewrite <- X3 in X1. congruence.
  - destruct (nth_error (ws_calls s) i) as [v|]; [|discriminate]. destruct (_ && _); injection E as <-; wproj; auto.
Qed.
Theorem C43_closes w h n l s c : node_does w h n l s ->
  nth_error (ws_closed s) c = Some true <-> exists x k, nth_error (ws_recv s) (x_id x) = Some x /\ x_conn x = c /\ handled s (x_id x) = all_nil k ++ [(k, Some false)].
Proof.
  intros H. assert (J : winv w h s /\ cinv n s).
  { revert H. unfold node_does. apply (wrun_inv w h (fun s => winv w h s /\ cinv n s)).
    - intros s1 a s2 [J1 J2] St. split; [exact (winv_step w h s1 a s2 J1 St)|exact (cinv_step w h n s1 a s2 J1 J2 St)].
    - split; [apply winv_start|]. unfold cinv, w_start; wproj. rewrite !repeat_length. split; [reflexivity|]. split; [reflexivity|]. split; [intros ? []|]. intros c'. split; [intros Q; apply nth_error_In, repeat_spec in Q; discriminate|intros (x & Q & _); destruct (x_id x); discriminate]. }
  destruct J as [I (_ & _ & _ & D)]. rewrite D. split.
  - intros (x & X1 & X2 & X3). destruct (wi_done w h s I _ X3) as (k & _ & T). exists x, k. auto.
  - intros (x & k & X1 & X2 & X3). exists x. split; [exact X1|]. split; [exact X2|]. assert (L : x_id x < length (ws_recv s)) by (apply nth_error_Some; congruence).
    destruct (C42_complete w h n l s (x_id x) H L) as [(c' & y & _ & _ & T)|[(y & _ & _ & T)|[(j & y & k' & W & Ey)|[(_ & T)|(T & _)]]]].
    + rewrite T in X3. destruct (all_nil k); discriminate.
    + rewrite T in X3. destruct (all_nil k); discriminate.
    + exfalso. destruct W as [W|(i & W)]; pose proof (wi_workers w h s I j _ W) as (K1 & K2 & _); rewrite Ey in K2; change (trace (ws_calls s) (x_id x)) with (handled s (x_id x)) in K2; rewrite X3 in K2.
      * assert (Z : In (k, Some false) (oks k')) by (rewrite <- K2; apply in_or_app; right; left; reflexivity). apply in_map_iff in Z as (? & Z & _). discriminate.
      * apply app_inj_tail in K2 as [_ K2]. discriminate.
    + exfalso. rewrite X3 in T. assert (Z : In (k, Some false) (all_nil h)) by (rewrite <- T; apply in_or_app; right; left; reflexivity). apply in_map_iff in Z as (? & Z & _). discriminate.
    + exact T.
Qed.

Example C43_nonvacuous : exists s, node_does 2 1 3 [WaRecv 0 0%N; WaPut 0; WaTake 0; WaStart 0; WaReturn 0 false; WaRecv 1 0%N; WaPut 1; WaRecv 2 0%N] s /\ errors s = 1 /\
  ws_closed s = [true; false; false] /\ map x_id (ws_queue s) = [1] /\ nth_error (ws_readers s) 2 = Some (Some (mkX 2 2 0%N)).
Proof. eexists. split; [vm_compute; reflexivity|]. vm_compute. auto. Qed.
Example C43_dead_nonvacuous : exists s, node_does 2 1 2 [WaRecv 0 0%N; WaPut 0; WaTake 0; WaStart 0; WaReturn 0 false; WaRecv 1 0%N; WaPut 1; WaTake 1; WaStart 1; WaReturn 1 false] s /\ errors s = 2.
Proof. eexists. split; [vm_compute; reflexivity|reflexivity]. Qed.

Print Assumptions C42_in_order.
Print Assumptions C42_complete.
Print Assumptions C42_one_worker.
Print Assumptions C42_fifo.
Print Assumptions C32_refuted.
Print Assumptions C32_once_per_handler.
Print Assumptions C32_partial.
Print Assumptions C32_single_handler.
Print Assumptions C32_plain.
Print Assumptions C43_refuted.
Print Assumptions C43_dead.
Print Assumptions C43_partial.
Print Assumptions C43_closes.
