(** * C129: in which order handlers are called with the messages of one connection. *)
From Coq Require Import Sorting.Sorted.
From Verif Require Import Base M_Table P_Table P_Iter P_Gossip P_Conn M_Work P_Work Props_Work.
Local Open Scope nat_scope.

(** ** Spec *)

(** The messages that came before [x] on its connection and that the workers are not done with. *)
Definition behind (s : wstate) (x : wctx) : list wctx :=
  filter (fun y => (x_conn y =? x_conn x) && (x_id y <? x_id x) && negb (existsb (fun e => fst e =? x_id y) (ws_done s))) (ws_recv s).

(** ** C129 *)

(** A handler is called with the messages of a connection in the order in which they came. *)
Definition C129_statement : Prop := forall w h n l s i i' v v', 0 < w -> node_does w h n l s ->
  nth_error (ws_calls s) i = Some v -> nth_error (ws_calls s) i' = Some v' -> i < i' ->
  iv_handler v = iv_handler v' -> x_conn (iv_ctx v) = x_conn (iv_ctx v') -> x_id (iv_ctx v) < x_id (iv_ctx v').

(** *** Lemmas *)

Definition before (a b : wctx) : Prop := x_id a < x_id b.

Lemma ids_sorted (l : list wctx) : forall k, (forall i x, nth_error l i = Some x -> x_id x = i + k) -> StronglySorted before l.
Proof.
  induction l as [|a l IH]; intros k H; [constructor|]. constructor.
  - apply (IH (S k)). intros i x Hx. rewrite (H (S i) x Hx). lia.
  - rewrite Forall_forall. intros y Hy. apply In_nth_error in Hy as [i Hi]. unfold before. rewrite (H 0 a eq_refl), (H (S i) y Hi). lia.
Qed.
Lemma ssorted_filter {A} (R : A -> A -> Prop) f l : StronglySorted R l -> StronglySorted R (filter f l).
Proof.
  induction 1 as [|x l S IH F]; cbn; [constructor|]. destruct (f x); [|exact IH]. constructor; [exact IH|].
  rewrite Forall_forall in *. intros y Hy. apply filter_In in Hy as [Hy _]. auto.
Qed.
Lemma ssorted_app {A} (R : A -> A -> Prop) l1 l2 : StronglySorted R (l1 ++ l2) -> forall x y, In x l1 -> In y l2 -> R x y.
Proof.
  induction l1 as [|a l1 IH]; cbn; intros H x y Hx Hy; [destruct Hx|]. inversion H as [|? ? S F]; subst. rewrite Forall_forall in F.
  destruct Hx as [<-|Hx]; [apply F, in_or_app; auto | auto].
Qed.
Lemma sorted_nodup l : StronglySorted before l -> NoDup (map x_id l).
Proof.
  induction 1 as [|x l S IH F]; cbn; constructor; [|exact IH]. rewrite Forall_forall in F. intros C. apply in_map_iff in C as (y & E & Hy).
  specialize (F y Hy). unfold before in F. lia.
Qed.

Definition held (k : wk) : list nat := match k with WNext x _ | WRun x _ _ => [x_id x] | _ => [] end.
Lemma held_wid m k : wid m k = true -> In m (held k).
Proof. destruct k as [|x q|x q i|]; cbn; try discriminate; intros H; apply Nat.eqb_eq in H; auto. Qed.
Lemma held_length l : length (flat_map held l) <= length l.
Proof. induction l as [|k l IH]; cbn; [lia|]. rewrite app_length. destruct k; cbn; lia. Qed.

Lemma did_done s m : cntb (did m) (ws_done s) = 0 -> existsb (fun e => fst e =? m) (ws_done s) = false.
Proof.
  intros H. destruct (existsb _ (ws_done s)) eqn:E; [|reflexivity]. apply existsb_exists in E as (e & He & Em).
  pose proof (cntb_pos (did m) (ws_done s) e He). unfold did in H0. rewrite Em in H0. specialize (H0 eq_refl). unfold did in H. lia.
Qed.
Lemma done_did s m : existsb (fun e => fst e =? m) (ws_done s) = false -> cntb (did m) (ws_done s) = 0.
Proof.
  intros H. apply cntb_zero. intros e He. unfold did. destruct (fst e =? m) eqn:E; [|reflexivity].
  assert (existsb (fun e => fst e =? m) (ws_done s) = true); [|congruence]. apply existsb_exists. eauto.
Qed.

(** A worker that has [x] is one of [w]; all that came before [x] on its connection and is not done with is with other workers. *)
Lemma behind_held w h s j k x : winv w h s -> nth_error (ws_workers s) j = Some k -> wid (x_id x) k = true -> nth_error (ws_recv s) (x_id x) = Some x ->
  x_conn x < length (ws_readers s) -> length (behind s x) < w.
Proof.
  intros I Hj Hk Rx Cx.
  pose proof (ids_sorted (ws_recv s) 0 (fun i y Hy => eq_trans (wi_ids w h s I i y Hy) (eq_sym (Nat.add_0_r i)))) as Srt.
  assert (Lx : x_id x < length (ws_recv s)) by (apply nth_error_Some; congruence).
  pose proof (wi_places w h s I (x_id x)) as Px. assert (x_id x <? length (ws_recv s) = true) as E by (apply Nat.ltb_lt, Lx). rewrite E in Px. clear E. unfold places in Px.
  pose proof (cntb_pos (wid (x_id x)) (ws_workers s) k (nth_error_In _ _ Hj) Hk) as Cw.
  destruct (nth_error (ws_readers s) (x_conn x)) as [o|] eqn:Ho; [|apply nth_error_None in Ho; lia].
  destruct (wi_conn w h s I _ _ Ho) as [_ Fc]. rewrite (wi_fifo w h s I), filter_app, <- app_assoc in Fc.
  assert (Sf : StronglySorted before (filter (fun y => x_conn y =? x_conn x) (ws_recv s))) by (apply ssorted_filter, Srt).
  rewrite Fc in Sf.
  assert (Xt : In x (filter (fun y => x_conn y =? x_conn x) (ws_taken s))).
  { assert (X : In x (filter (fun y => x_conn y =? x_conn x) (ws_recv s))) by (apply filter_In; split; [exact (nth_error_In _ _ Rx) | apply Nat.eqb_refl]).
    rewrite Fc in X. apply in_app_or in X as [X|X]; [exact X|]. exfalso. apply in_app_or in X as [X|X].
    - apply filter_In in X as [X _]. pose proof (cntb_pos (xid (x_id x)) (ws_queue s) x X (Nat.eqb_refl _)). lia.
    - destruct o as [z|]; [|destruct X]. destruct X as [-> |[]]. pose proof (cntb_pos (rid (x_id x)) (ws_readers s) (Some x) (nth_error_In _ _ Ho) (Nat.eqb_refl _)). lia. }
  assert (Out : forall y, In y (behind s x) -> In (x_id y) (flat_map held (ws_workers s))).
  { intros y Hy. unfold behind in Hy. apply filter_In in Hy as [Ry Hy]. apply andb_prop in Hy as [Hy Dy]. apply andb_prop in Hy as [Cy Iy].
    apply Nat.ltb_lt in Iy. apply Bool.negb_true_iff in Dy. apply done_did in Dy. pose proof Ry as Ry'. apply In_nth_error in Ry as [i Ri]. pose proof (wi_ids w h s I i y Ri) as <-.
    pose proof (wi_places w h s I (x_id y)) as P. assert (x_id y <? length (ws_recv s) = true) as E by (apply Nat.ltb_lt; lia). rewrite E in P. clear E. unfold places in P.
    assert (N : forall z, In z (filter (fun y => x_conn y =? x_conn x) (ws_queue s) ++ match o with Some q => [q] | None => [] end) -> x_id z <> x_id y).
    { intros z Hz E. pose proof (ssorted_app _ _ _ Sf x z Xt Hz) as B. unfold before in B. lia. }
    assert (Q0 : cntb (xid (x_id y)) (ws_queue s) = 0).
    { apply cntb_zero. intros z Hz. unfold xid. destruct (Nat.eqb_spec (x_id z) (x_id y)) as [E|]; [|reflexivity]. exfalso.
      assert (z = y) as ->.
      { destruct (wi_waiting w h s I z (or_intror Hz)) as [Rz _]. rewrite E, Ri in Rz. congruence. }
      apply (N y); [|reflexivity]. apply in_or_app. left. apply filter_In. auto. }
    assert (R0 : cntb (rid (x_id y)) (ws_readers s) = 0).
    { apply cntb_zero. intros q Hq. unfold rid. destruct q as [z|]; [|reflexivity]. destruct (Nat.eqb_spec (x_id z) (x_id y)) as [E|]; [|reflexivity]. exfalso.
      apply In_nth_error in Hq as [c Hc]. assert (z = y) as ->.
      { destruct (wi_waiting w h s I z (or_introl (ex_intro _ c Hc))) as [Rz _]. rewrite E, Ri in Rz. congruence. }
      pose proof (proj1 (wi_conn w h s I c (Some y) Hc) y eq_refl) as Ec. apply Nat.eqb_eq in Cy. rewrite Cy in Ec. subst c. rewrite Ho in Hc. injection Hc as ->.
      apply (N y); [|reflexivity]. apply in_or_app. right. left. reflexivity. }
    destruct (cntb_ex (wid (x_id y)) (ws_workers s)) as (k' & Hk' & Wk'); [lia|]. apply in_flat_map. exists k'. split; [exact Hk' | apply held_wid, Wk']. }
  assert (G : length (x_id x :: map x_id (behind s x)) <= length (flat_map held (ws_workers s))).
  { apply NoDup_incl_length.
    - constructor; [|apply sorted_nodup, ssorted_filter, Srt]. intros C. apply in_map_iff in C as (y & E & Hy). unfold behind in Hy. apply filter_In in Hy as [_ Hy].
      apply andb_prop in Hy as [Hy _]. apply andb_prop in Hy as [_ Hy]. apply Nat.ltb_lt in Hy. lia.
    - intros m [<-|Hm]; [apply in_flat_map; exists k; split; [exact (nth_error_In _ _ Hj) | apply held_wid, Hk]|]. apply in_map_iff in Hm as (y & <- & Hy). apply Out, Hy. }
  cbn [length] in G. rewrite map_length in G. pose proof (held_length (ws_workers s)) as HL. rewrite (wi_len w h s I) in HL. lia.
Qed.

Definition tinv (w : nat) (s : wstate) : Prop :=
  (forall x, In x (ws_recv s) -> x_conn x < length (ws_readers s)) /\
  (forall v, In v (ws_calls s) -> length (behind s (iv_ctx v)) < w).

Lemma set_nth_length {A} (l : list A) : forall i x, length (set_nth i x l) = length l.
Proof. induction l as [|a l IH]; intros [|i] x; cbn; auto. Qed.
Lemma set_nth_in {A} (l : list A) : forall i x y, In y (set_nth i x l) -> y = x \/ In y l.
Proof.
  induction l as [|a l IH]; intros [|i] x y H; cbn in *; auto.
  - destruct H; auto.
  - destruct H as [H|H]; auto. destruct (IH _ _ _ H); auto.
Qed.

Lemma behind_done s s' x : ws_recv s' = ws_recv s -> (forall e, In e (ws_done s) -> In e (ws_done s')) -> length (behind s' x) <= length (behind s x).
Proof.
  intros R D. unfold behind. rewrite R, !cntb_filter. apply cntb_le. intros y H. apply andb_prop in H as [H1 H2]. rewrite H1. cbn. apply Bool.negb_true_iff in H2. apply Bool.negb_true_iff.
  destruct (existsb (fun e => fst e =? x_id y) (ws_done s)) eqn:E; [|reflexivity]. apply existsb_exists in E as (e & He & Ee).
  assert (existsb (fun e => fst e =? x_id y) (ws_done s') = true); [|congruence]. apply existsb_exists. eauto.
Qed.

Lemma tinv_step w h s a s' : winv w h s -> tinv w s -> wstep w h s a = Some s' -> tinv w s'.
Proof.
  intros I [C T] E.
  assert (Same : ws_recv s' = ws_recv s -> length (ws_readers s') = length (ws_readers s) -> (forall e, In e (ws_done s) -> In e (ws_done s')) ->
    (forall v, In v (ws_calls s') -> (exists u, In u (ws_calls s) /\ iv_ctx v = iv_ctx u) \/ length (behind s (iv_ctx v)) < w) -> tinv w s').
  { intros Rr Lr Dr Cr. split; [intros x; rewrite Rr, Lr; apply C|]. intros v Hv. pose proof (behind_done s s' (iv_ctx v) Rr Dr) as B.
    destruct (Cr v Hv) as [(u & Hu & Eu)|X]; [|lia]. pose proof (T u Hu) as Tu. rewrite <- Eu in Tu. lia. }
  destruct a as [c nonce|c|j|j|j ok|i d]; cbn [wstep] in E.
  - destruct (nth_error (ws_readers s) c) as [[|]|] eqn:Hc; try discriminate. injection E as <-. split; wproj.
    + intros x Hx. rewrite set_nth_length. apply in_app_or in Hx as [Hx|[<-|[]]]; [apply C, Hx|]. cbn. apply nth_error_Some. congruence.
    + intros v Hv. specialize (T v Hv). unfold behind in *. wproj. rewrite filter_app, app_length. cbn [filter x_conn x_id].
      assert (x_id (iv_ctx v) < length (ws_recv s)) by (apply nth_error_Some; rewrite (wi_calls w h s I v Hv); discriminate).
      assert (length (ws_recv s) <? x_id (iv_ctx v) = false) as -> by (apply Nat.ltb_ge; lia). rewrite Bool.andb_false_r. cbn [andb length]. rewrite Nat.add_0_r. exact T.
  - destruct (nth_error (ws_readers s) c) as [[x|]|] eqn:Hc; try discriminate. destruct (length (ws_queue s) <? w); [|discriminate]. injection E as <-.
    apply Same; wproj; [reflexivity | apply set_nth_length | auto | eauto].
  - destruct (nth_error (ws_workers s) j) as [[| | |]|]; try discriminate. destruct (ws_queue s); [discriminate|]. injection E as <-. apply Same; wproj; eauto.
  - destruct (nth_error (ws_workers s) j) as [[|x k| |]|] eqn:Hj; try discriminate. destruct (k <? h); injection E as <-; apply Same; wproj; eauto.
    + intros v Hv. apply in_app_or in Hv as [Hv|[<-|[]]]; [eauto|]. right. cbn [iv_ctx].
      destruct (wi_workers w h s I j _ Hj) as (_ & _ & Rx). apply (behind_held w h s j (WNext x k) x I Hj); [apply Nat.eqb_refl | exact Rx | apply C, (nth_error_In _ _ Rx)].
    + intros e He. apply in_or_app. auto.
  - destruct (nth_error (ws_workers s) j) as [[| |x k i|]|] eqn:Hj; try discriminate. destruct (nth_error (ws_calls s) i) as [u|] eqn:Hu; [|discriminate].
    assert (Cl : forall v, In v (set_nth i (mkInv (iv_ctx u) (iv_handler u) (iv_sent u) (Some ok)) (ws_calls s)) -> (exists q, In q (ws_calls s) /\ iv_ctx v = iv_ctx q) \/ length (behind s (iv_ctx v)) < w).
    { intros v Hv. apply set_nth_in in Hv as [-> |Hv]; [left; exists u; split; [exact (nth_error_In _ _ Hu) | reflexivity] | eauto]. }
    destruct ok; injection E as <-; apply Same; wproj; auto. intros e He. apply in_or_app. auto.
  - destruct (nth_error (ws_calls s) i) as [u|] eqn:Hu; [|discriminate]. destruct ((0 <? x_nonce (iv_ctx u))%N && iv_sent u); injection E as <-; apply Same; wproj; eauto.
    intros v Hv. apply set_nth_in in Hv as [-> |Hv]; [left; exists u; split; [exact (nth_error_In _ _ Hu) | reflexivity] | eauto].
Qed.

Lemma reach_tinv w h n l s : node_does w h n l s -> winv w h s /\ tinv w s.
Proof.
  apply (wrun_inv w h (fun s => winv w h s /\ tinv w s)).
  - intros s0 a s1 [I T] E. split; [exact (winv_step w h s0 a s1 I E) | exact (tinv_step w h s0 a s1 I T E)].
  - split; [apply winv_start|]. split; [intros x [] | intros v []].
Qed.

(** *** Theorems *)

(** With [w] workers, whenever a handler has been called with a message, fewer than [w] of those that came before it on its connection are
    not done with. *)
Theorem C129_partial : forall w h n l s i v, node_does w h n l s -> nth_error (ws_calls s) i = Some v -> length (behind s (iv_ctx v)) < w.
Proof. intros w h n l s i v H Hv. exact (proj2 (proj2 (reach_tinv w h n l s H)) v (nth_error_In _ _ Hv)). Qed.

(** So with one worker the order is kept: handlers are called with the messages of a connection in the order in which they came. *)
Theorem C129_one_worker : forall h n l s i i' v v', node_does 1 h n l s ->
  nth_error (ws_calls s) i = Some v -> nth_error (ws_calls s) i' = Some v' -> i < i' -> x_conn (iv_ctx v) = x_conn (iv_ctx v') ->
  x_id (iv_ctx v) < x_id (iv_ctx v') \/ (iv_ctx v = iv_ctx v' /\ iv_handler v <> iv_handler v').
Proof.
  intros h n l s i i' v v' H Hi Hi' L Ec.
  assert (O : x_id (iv_ctx v) <= x_id (iv_ctx v')).
  { clear - H Hi Hi' L Ec. revert s i i' v v' H Hi Hi' L Ec. induction l as [|a l IH] using rev_ind; intros s i i' v v' H Hi Hi' L Ec.
    - injection H as <-. destruct i; discriminate.
    - unfold node_does in H. rewrite wrun_app in H. destruct (wrun 1 h (w_start 1 n) l) as [s0|] eqn:R; [|discriminate]. cbn [wrun] in H.
      destruct (wstep 1 h s0 a) as [s1|] eqn:E; [|discriminate]. injection H as ->. specialize (IH s0). destruct (reach_tinv 1 h n l s0 R) as [I [Cn T]].
      assert (Keep : forall m u, (forall p q, nth_error (ws_calls s) p = Some q -> exists q', nth_error (ws_calls s0) p = Some q' /\ iv_ctx q' = iv_ctx q) -> nth_error (ws_calls s) m = Some u -> x_id (iv_ctx v) <= x_id (iv_ctx v')).
      { intros m u K _. destruct (K i v Hi) as (q & Hq & Eq). destruct (K i' v' Hi') as (q' & Hq' & Eq'). rewrite <- Eq, <- Eq'. apply (IH i i' q q' R Hq Hq' L). congruence. }
      assert (SetK : forall r u u', nth_error (ws_calls s0) r = Some u -> iv_ctx u' = iv_ctx u -> ws_calls s = set_nth r u' (ws_calls s0) ->
        forall p q, nth_error (ws_calls s) p = Some q -> exists q', nth_error (ws_calls s0) p = Some q' /\ iv_ctx q' = iv_ctx q).
      { intros r u u' Hr Eu Es p q Hp. rewrite Es, (nth_error_set _ _ _ _ p Hr) in Hp. destruct (Nat.eqb_spec p r) as [-> |]; [injection Hp as <-; eauto | eauto]. }
      destruct a as [c nonce|c|j|j|j ok|r d]; cbn [wstep] in E.
      + destruct (nth_error (ws_readers s0) c) as [[|]|]; try discriminate. injection E as <-. wproj. apply (Keep i v); eauto.
      + destruct (nth_error (ws_readers s0) c) as [[x|]|]; try discriminate. destruct (length (ws_queue s0) <? 1); [|discriminate]. injection E as <-. wproj. apply (Keep i v); eauto.
      + destruct (nth_error (ws_workers s0) j) as [[| | |]|]; try discriminate. destruct (ws_queue s0); [discriminate|]. injection E as <-. wproj. apply (Keep i v); eauto.
      + destruct (nth_error (ws_workers s0) j) as [[|x k| |]|] eqn:Hj; try discriminate. destruct (k <? h); injection E as <-; wproj; [|apply (Keep i v); eauto].
        apply nth_error_snoc in Hi' as [Hi'|[Li' ->]].
        * apply nth_error_snoc in Hi as [Hi|[Li _]]; [exact (IH i i' v v' R Hi Hi' L Ec)|]. assert (i' < length (ws_calls s0)) by (apply nth_error_Some; congruence). lia.
        * apply nth_error_snoc in Hi as [Hi|[Li _]]; [|lia]. cbn [iv_ctx] in *. destruct (Nat.le_gt_cases (x_id (iv_ctx v)) (x_id x)) as [Le|Gt]; [exact Le|]. exfalso.
          destruct (wi_workers 1 h s0 I j _ Hj) as (_ & _ & Rx). specialize (T v (nth_error_In _ _ Hi)).
          assert (B : In x (behind s0 (iv_ctx v))).
          { unfold behind. apply filter_In. split; [exact (nth_error_In _ _ Rx)|]. rewrite Ec, Nat.eqb_refl. assert (x_id x <? x_id (iv_ctx v) = true) as -> by (apply Nat.ltb_lt; lia). cbn.
            rewrite did_done; [reflexivity|]. pose proof (wi_places 1 h s0 I (x_id x)) as P. unfold places in P. pose proof (cntb_pos (wid (x_id x)) (ws_workers s0) _ (nth_error_In _ _ Hj) (Nat.eqb_refl _)).
            destruct (x_id x <? length (ws_recv s0)); lia. }
          destruct (behind s0 (iv_ctx v)); [destruct B | cbn in T; lia].
      + destruct (nth_error (ws_workers s0) j) as [[| |x k q|]|] eqn:Hj; try discriminate. destruct (nth_error (ws_calls s0) q) as [u|] eqn:Hu; [|discriminate].
        apply (Keep i v); [|exact Hi]. eapply (SetK q u (mkInv (iv_ctx u) (iv_handler u) (iv_sent u) (Some ok))); [exact Hu | reflexivity|]. destruct ok; injection E as <-; reflexivity.
      + destruct (nth_error (ws_calls s0) r) as [u|] eqn:Hu; [|discriminate]. destruct ((0 <? x_nonce (iv_ctx u))%N && iv_sent u) eqn:B.
        * injection E as <-. wproj. apply (Keep i v); eauto.
        * apply (Keep i v); [|exact Hi]. eapply (SetK r u (mkInv (iv_ctx u) (iv_handler u) (iv_sent u || (0 <? x_nonce (iv_ctx u))%N) (iv_ret u))); [exact Hu | reflexivity|]. injection E as <-. reflexivity. }
  destruct (Nat.eq_dec (x_id (iv_ctx v)) (x_id (iv_ctx v'))) as [Eid|D]; [|left; lia]. right.
  pose proof (reach_inv 1 h n l s H) as I. split.
  - pose proof (wi_calls 1 h s I v (nth_error_In _ _ Hi)) as A. pose proof (wi_calls 1 h s I v' (nth_error_In _ _ Hi')) as B. rewrite Eid, B in A. congruence.
  - intros Eh. pose proof (C42_in_order 1 h n l s (x_id (iv_ctx v)) H) as (k & r & Hd & _ & Hr).
    assert (ND : NoDup (map fst (handled s (x_id (iv_ctx v))))).
    { rewrite Hd. assert (Z : map fst (all_nil k) = seq 0 k) by (unfold all_nil; rewrite map_map; cbn; apply map_id). rewrite map_app, Z. destruct Hr as [-> | [-> | ->]]; cbn [map fst].
      - rewrite app_nil_r. apply seq_NoDup.
      - rewrite <- seq_S. apply seq_NoDup.
      - rewrite <- seq_S. apply seq_NoDup. }
    unfold handled in ND. rewrite map_map in ND. cbn [fst] in ND.
    assert (Y : forall (l : list inv) i i' v v' (p : inv -> bool), i < i' -> nth_error l i = Some v -> nth_error l i' = Some v' -> p v = true -> p v' = true -> iv_handler v = iv_handler v' -> ~ NoDup (map iv_handler (filter p l))).
    { clear. induction l as [|b l IH]; intros i i' v v' p L Hi Hi' Pv Pv' Eh; [destruct i; discriminate|]. destruct i' as [|i']; [lia|]. cbn in Hi'. destruct i as [|i].
      - cbn in Hi. injection Hi as ->. cbn [filter]. rewrite Pv. cbn [map]. intros N. inversion N as [|? ? N1 N2]; subst. apply N1. rewrite Eh. apply in_map, filter_In. split; [exact (nth_error_In _ _ Hi') | exact Pv'].
      - cbn in Hi. intros N. apply (IH i i' v v' p ltac:(lia) Hi Hi' Pv Pv' Eh). cbn [filter] in N. destruct (p b); [|exact N]. inversion N; assumption. }
    apply (Y (ws_calls s) i i' v v' (fun u => x_id (iv_ctx u) =? x_id (iv_ctx v)) L Hi Hi'); [apply Nat.eqb_refl | apply Nat.eqb_eq; auto | exact Eh | exact ND].
Qed.

(** Two messages of one connection, and two workers. *)
Definition ex_two : list wact := [WaRecv 0 0%N; WaPut 0; WaRecv 0 0%N; WaPut 0; WaTake 0; WaTake 1; WaStart 1; WaStart 0].

Theorem C129_refuted : ~ C129_statement.
Proof.
  intros X. destruct (wrun 2 1 (w_start 2 1) ex_two) as [s|] eqn:E; [|vm_compute in E; discriminate]. specialize (X 2 1 1 ex_two s 0 1 (mkInv (mkX 1 0 0%N) 0 false None) (mkInv (mkX 0 0 0%N) 0 false None) ltac:(lia) E).
  vm_compute in E. injection E as <-. specialize (X eq_refl eq_refl ltac:(lia) eq_refl eq_refl). cbn in X. lia.
Qed.

Example C129_nonvacuous :
  (exists s v, node_does 2 1 1 ex_two s /\ nth_error (ws_calls s) 0 = Some v /\ length (behind s (iv_ctx v)) = 1) /\
  (exists s, node_does 1 2 1 [WaRecv 0 0%N; WaPut 0; WaTake 0; WaRecv 0 0%N; WaPut 0; WaStart 0; WaReturn 0 true; WaStart 0; WaReturn 0 true; WaStart 0; WaTake 0; WaStart 0] s /\
     map (fun v => (x_id (iv_ctx v), iv_handler v)) (ws_calls s) = [(0, 0); (0, 1); (1, 0)]).
Proof.
  split.
  - eexists _, _. split; [vm_compute; reflexivity|]. split; reflexivity.
  - eexists. split; [vm_compute; reflexivity|]. reflexivity.
Qed.

Print Assumptions C129_refuted.
Print Assumptions C129_partial.
Print Assumptions C129_one_worker.
