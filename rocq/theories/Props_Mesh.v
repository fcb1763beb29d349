(** * C117: nodes whose handlers send messages do not hold each other up for good. *)
From Verif Require Import Base M_Table M_Gossip P_Table P_Iter P_Gossip P_Conn P_Kad M_Mesh.
Local Open Scope nat_scope.

Section WithMessages.
Context {M : Type}.
Variables (w cap : nat) (react : nat -> @mail M -> list (@mail M)).
Local Notation mstep := (mstep w cap react).
Local Notation mrun := (mrun w cap react).

(** ** The claims *)
Definition idle_link (k : @link M) : Prop := k_box k = [] /\ k_batch k = [] /\ k_wire k = [] /\ k_hold k = None.
Definition idle_node (n : @station M) : Prop := n_work n = [] /\ n_busy n = [].
(** Nothing underway anywhere. *)
Definition quiet (s : @mesh M) : Prop := Forall idle_link (m_links s) /\ Forall idle_node (m_nodes s).
(** An application's own call of Send. *)
Definition is_send (a : @mact M) : bool := match a with XSend _ => true | _ => false end.
(** Each link leads to a node that there is. *)
Definition wired (tos : list nat) (n : nat) : Prop := Forall (fun t => t < n) tos.

(** As long as something is underway, some goroutine can go on. *)
Definition goes_on := 1 <= w -> 1 <= cap -> forall tos n, wired tos n -> forall sched s, mrun (m_start tos n) sched = Some s ->
  quiet s \/ exists a s', is_send a = false /\ mstep s a = Some s'.
(** Messages are neither lost nor made up nor handled twice: once all is quiet, of every kind of message as many have been handled as were sent. *)
Definition once_each := forall tos n sched s, mrun (m_start tos n) sched = Some s ->
  (forall p, cntb p (m_handled s) <= cntb p (m_sent s)) /\
  (quiet s -> forall p, cntb p (m_handled s) = cntb p (m_sent s)).
(** If what a message leads to is finite, it is bounded how long it takes, however the goroutines are scheduled. *)
Definition comes_to_rest := forall cost, (forall n x, 6 + sumf cost (react n x) <= cost x) ->
  forall tos n sched s, mrun (m_start tos n) sched = Some s ->
  forall more s', forallb (fun a => negb (is_send a)) more = true -> mrun s more = Some s' -> length more <= sumf cost (m_sent s).

(** ** Proof *)
Local Ltac break H := repeat match type of H with
  | match ?x with _ => _ end = Some _ => let E := fresh "E" in destruct x eqn:E; try discriminate H
  end; injection H as <-.

Lemma put_length x (ls : list (@link M)) : length (put x ls) = length ls.
Proof. unfold put. destruct (nth_error ls (fst x)); [apply set_nth_length|reflexivity]. Qed.
Lemma put_all_length xs : forall ls : list (@link M), length (put_all xs ls) = length ls.
Proof. induction xs as [|x xs IH]; intros ls; [reflexivity|]. cbn [put_all fold_left]. change (length (put_all xs (put x ls)) = length ls). rewrite IH. apply put_length. Qed.

(** Links keep where they lead. *)
Definition tos_ok (s : @mesh M) : Prop := Forall (fun k => k_to k < length (m_nodes s)) (m_links s).
Lemma put_to x (ls : list (@link M)) b : Forall (fun k => k_to k < b) ls -> Forall (fun k => k_to k < b) (put x ls).
Proof.
  intros H. unfold put. destruct (nth_error ls (fst x)) as [k|] eqn:E; [|exact H]. apply Forall_set_nth; [exact H|]. cbn.
  exact (proj1 (Forall_forall _ _) H k (nth_error_In _ _ E)).
Qed.
Lemma put_all_to b xs : forall ls : list (@link M), Forall (fun k => k_to k < b) ls -> Forall (fun k => k_to k < b) (put_all xs ls).
Proof. induction xs as [|x xs IH]; intros ls H; [exact H|]. change (Forall (fun k => k_to k < b) (put_all xs (put x ls))). apply IH, put_to, H. Qed.
Lemma tos_step s a s' : tos_ok s -> mstep s a = Some s' -> tos_ok s'.
Proof.
  unfold tos_ok. intros H E. destruct a as [x|l|l|l|l|n|n i]; cbn [M_Mesh.mstep] in E.
  all: break E; cbn [m_links m_nodes] in *; rewrite ?set_nth_length.
  all: try (apply put_to; exact H).
  all: try (apply put_all_to; exact H).
  all: try exact H.
  all: apply Forall_set_nth; [exact H|]; cbn.
  all: match goal with K : nth_error _ _ = Some (mkLink _ _ _ _ _), H : Forall _ _ |- _ => exact (proj1 (Forall_forall _ _) H _ (nth_error_In _ _ K)) end.
Qed.
Lemma tos_run sched : forall s s', tos_ok s -> mrun s sched = Some s' -> tos_ok s'.
Proof.
  induction sched as [|a l IH]; intros s s' H E; cbn [M_Mesh.mrun] in E; [injection E as <-; exact H|].
  destruct (mstep s a) as [s1|] eqn:E1; [|discriminate]. eauto using tos_step.
Qed.
Lemma tos_start tos n : wired tos n -> tos_ok (@m_start M tos n).
Proof.
  intros H. unfold tos_ok, m_start. cbn [m_links m_nodes]. rewrite repeat_length. apply Forall_forall. intros k Hk. apply in_map_iff in Hk.
  destruct Hk as (t & <- & Ht). exact (proj1 (Forall_forall _ _) H t Ht).
Qed.

Lemma idle_node_dec n : {idle_node n} + {~ idle_node n}.
Proof. destruct n as [[|x wk] [|y b]]; [left; split; reflexivity|right; intros (A & B); discriminate..]. Qed.
Lemma idle_link_dec k : {idle_link k} + {~ idle_link k}.
Proof.
  destruct k as [[|x a] [|y b] [|z c] [h|] t]; [right|left|right..]; try (repeat split; reflexivity).
  all: intros (A & B & C & D); discriminate.
Qed.

Theorem C117_goes_on : goes_on.
Proof.
  intros Hw Hc tos n W sched s E. pose proof (tos_run _ _ _ (tos_start tos n W) E) as T. clear E W. destruct s as [ls ns sent hd]. unfold tos_ok, quiet in *. cbn [m_links m_nodes] in *.
  destruct (Forall_Exists_dec _ idle_node_dec ns) as [Hn|Hn].
  2:{ right. apply Exists_exists in Hn. destruct Hn as (st & Hin & Hst). apply In_nth_error in Hin. destruct Hin as (i & Hi). destruct st as [wk [|y b]].
      - destruct wk as [|x wk]; [destruct Hst; split; reflexivity|]. exists (XTake i). eexists. split; [reflexivity|]. cbn [M_Mesh.mstep m_nodes]. rewrite Hi. cbn [length].
        replace (0 <? w) with true by (symmetry; apply Nat.ltb_lt; lia). reflexivity.
      - exists (XDone i 0). eexists. split; [reflexivity|]. cbn [M_Mesh.mstep m_nodes]. rewrite Hi. cbn [nth_error]. reflexivity. }
  destruct (Forall_Exists_dec _ idle_link_dec ls) as [Hl|Hl]; [left; split; assumption|right].
  apply Exists_exists in Hl. destruct Hl as (k & Hin & Hk). apply In_nth_error in Hin. destruct Hin as (i & Hi).
  pose proof (proj1 (Forall_forall _ _) T k (nth_error_In _ _ Hi)) as Ht. destruct k as [box bt wire hold to]. cbn [k_to] in Ht.
  destruct hold as [x|].
  { destruct (nth_error ns to) as [st|] eqn:Es; [|apply nth_error_None in Es; lia].
    pose proof (proj1 (Forall_forall _ _) Hn st (nth_error_In _ _ Es)) as (Hwk & Hb). destruct st as [wk b]. cbn in Hwk, Hb. subst wk b.
    exists (XPush i). eexists. split; [reflexivity|]. cbn [M_Mesh.mstep m_nodes m_links]. rewrite Hi, Es. cbn [length].
    replace (0 <? w) with true by (symmetry; apply Nat.ltb_lt; lia). reflexivity. }
  destruct wire as [|x wire].
  2:{ exists (XRead i). eexists. split; [reflexivity|]. cbn [M_Mesh.mstep m_links]. rewrite Hi. reflexivity. }
  destruct bt as [|x bt].
  2:{ exists (XWrite i). eexists. split; [reflexivity|]. cbn [M_Mesh.mstep m_links]. rewrite Hi. cbn [length].
      replace (0 <? cap) with true by (symmetry; apply Nat.ltb_lt; lia). reflexivity. }
  destruct box as [|x box]; [destruct Hk; repeat split; reflexivity|].
  exists (XFlush i). eexists. split; [reflexivity|]. cbn [M_Mesh.mstep m_links]. rewrite Hi. reflexivity.
Qed.

Lemma sumf_rem {A} (f : A -> nat) (l : list A) : forall i x, nth_error l i = Some x -> sumf f (remove_nth i l) + f x = sumf f l.
Proof. induction l as [|a l IH]; intros [|i] x H; cbn in *; try discriminate; [injection H as ->; lia|]. pose proof (IH i x H). lia. Qed.
Lemma sumf_up {A} (f g : A -> nat) l : (forall x, f x <= g x) -> sumf f l <= sumf g l.
Proof. intros H. induction l as [|x l IH]; cbn; [lia|]. pose proof (H x). lia. Qed.
(** Weights: what each message underway weighs, at each stage; [o1] .. [o6] say how. *)
Section Weights.
Variables o1 o2 o3 o4 o5 o6 : @mail M -> nat.
Definition wl (k : @link M) := sumf o1 (k_box k) + sumf o2 (k_batch k) + sumf o3 (k_wire k) + match k_hold k with Some x => o4 x | None => 0 end.
Definition wn (n : @station M) := sumf o5 (n_work n) + sumf o6 (n_busy n).
Definition weight (s : @mesh M) := sumf wl (m_links s) + sumf wn (m_nodes s).
Lemma put_w x ls : sumf wl (put x ls) = sumf wl ls + sumf o1 (valid ls [x]).
Proof.
  unfold put, valid. cbn [filter]. destruct (nth_error ls (fst x)) as [k|] eqn:E.
  - replace (fst x <? length ls) with true by (symmetry; apply Nat.ltb_lt, nth_error_Some; congruence).
    pose proof (sumf_set wl ls (fst x) k (mkLink (k_box k ++ [x]) (k_batch k) (k_wire k) (k_hold k) (k_to k)) E) as Q.
    unfold wl at 2 4 in Q. cbn [k_box k_batch k_wire k_hold k_to] in Q. rewrite sumf_app in Q. cbn [sumf] in *. lia.
  - replace (fst x <? length ls) with false by (symmetry; apply Nat.ltb_ge, nth_error_None; exact E). cbn [sumf]. lia.
Qed.
Lemma put_all_w xs : forall ls, sumf wl (put_all xs ls) = sumf wl ls + sumf o1 (valid ls xs).
Proof.
  induction xs as [|x xs IH]; intros ls; [cbn; lia|]. change (sumf wl (put_all xs (put x ls)) = sumf wl ls + sumf o1 (valid ls (x :: xs))).
  rewrite IH, put_w. unfold valid. rewrite put_length.
  cbn [filter]. destruct (fst x <? length ls); cbn [sumf]; lia.
Qed.
Lemma step_w s a s' : mstep s a = Some s' ->
  match a with
  | XSend x => weight s' = weight s + o1 x /\ m_sent s' = m_sent s ++ [x] /\ m_handled s' = m_handled s
  | XDone n i => exists x, weight s' + o6 x = weight s + sumf o1 (valid (m_links s) (react n x)) /\
      m_sent s' = m_sent s ++ valid (m_links s) (react n x) /\ m_handled s' = m_handled s ++ [x]
  | _ => m_sent s' = m_sent s /\ m_handled s' = m_handled s /\
      match a with
      | XFlush _ => exists x xs, weight s' + sumf o1 (x :: xs) = weight s + sumf o2 (x :: xs)
      | XWrite _ => exists x, weight s' + o2 x = weight s + o3 x
      | XRead _ => exists x, weight s' + o3 x = weight s + o4 x
      | XPush _ => exists x, weight s' + o4 x = weight s + o5 x
      | XTake _ => exists x, weight s' + o5 x = weight s + o6 x
      | _ => True
      end
  end.
Proof.
  intros E. destruct a as [x|l|l|l|l|n|n i]; cbn [M_Mesh.mstep] in E; unfold weight.
  - destruct (fst x <? length (m_links s)) eqn:E1; [|discriminate]. injection E as <-. cbn [m_links m_nodes m_sent m_handled]. rewrite put_w. unfold valid. cbn [filter]. rewrite E1. cbn [sumf].
    split; [lia|split; reflexivity].
  - destruct (nth_error (m_links s) l) as [[[|x box] [|y bt] wire hold to]|] eqn:El; try discriminate. injection E as <-. cbn [m_links m_nodes m_sent m_handled]. split; [reflexivity|split; [reflexivity|]].
    exists x, box. pose proof (sumf_set wl _ l _ (mkLink [] (x :: box) wire hold to) El) as Q. unfold wl at 2 4 in Q. cbn [k_box k_batch k_wire k_hold] in Q. change (sumf o2 []) with 0 in Q. change (sumf o1 []) with 0 in Q. lia.
  - destruct (nth_error (m_links s) l) as [[box [|x bt] wire hold to]|] eqn:El; try discriminate. destruct (length wire <? cap); [|discriminate]. injection E as <-.
    cbn [m_links m_nodes m_sent m_handled]. split; [reflexivity|split; [reflexivity|]].
    exists x. pose proof (sumf_set wl _ l _ (mkLink box bt (wire ++ [x]) hold to) El) as Q. unfold wl at 2 4 in Q. cbn [k_box k_batch k_wire k_hold] in Q. rewrite sumf_app in Q. cbn [sumf] in Q. lia.
  - destruct (nth_error (m_links s) l) as [[box bt [|x wire] [h|] to]|] eqn:El; try discriminate. injection E as <-. cbn [m_links m_nodes m_sent m_handled]. split; [reflexivity|split; [reflexivity|]].
    exists x. pose proof (sumf_set wl _ l _ (mkLink box bt wire (Some x) to) El) as Q. unfold wl at 2 4 in Q. cbn [k_box k_batch k_wire k_hold sumf] in Q. lia.
  - destruct (nth_error (m_links s) l) as [[box bt wire [x|] to]|] eqn:El; try discriminate. destruct (nth_error (m_nodes s) to) as [[wk b]|] eqn:En; [|discriminate].
    destruct (length wk <? w); [|discriminate]. injection E as <-. cbn [m_links m_nodes m_sent m_handled]. split; [reflexivity|split; [reflexivity|]].
    exists x. pose proof (sumf_set wl _ l _ (mkLink box bt wire None to) El) as Q. pose proof (sumf_set wn _ to _ (mkStation (wk ++ [x]) b) En) as R.
    unfold wl at 2 4 in Q. unfold wn at 2 4 in R. cbn [k_box k_batch k_wire k_hold n_work n_busy] in Q, R. rewrite sumf_app in R. cbn [sumf] in R. lia.
  - destruct (nth_error (m_nodes s) n) as [[[|x wk] b]|] eqn:En; try discriminate. destruct (length b <? w); [|discriminate]. injection E as <-. cbn [m_links m_nodes m_sent m_handled]. split; [reflexivity|split; [reflexivity|]].
    exists x. pose proof (sumf_set wn _ n _ (mkStation wk (b ++ [x])) En) as R. unfold wn at 2 4 in R. cbn [n_work n_busy] in R. rewrite sumf_app in R. cbn [sumf] in R. lia.
  - destruct (nth_error (m_nodes s) n) as [[wk b]|] eqn:En; [|discriminate]. destruct (nth_error b i) as [x|] eqn:Ei; [|discriminate]. injection E as <-. cbn [m_links m_nodes m_sent m_handled].
    exists x. split; [|split; reflexivity]. rewrite put_all_w. pose proof (sumf_set wn _ n _ (mkStation wk (remove_nth i b)) En) as R. pose proof (sumf_rem o6 b i x Ei) as V.
    unfold wn at 2 4 in R. cbn [n_work n_busy] in R. lia.
Qed.
Lemma quiet_w s : quiet s -> weight s = 0.
Proof.
  intros (A & B). unfold weight. rewrite (sumf_zero wl), (sumf_zero wn); [reflexivity| |].
  - intros n Hn. destruct (proj1 (Forall_forall _ _) B n Hn) as (C & D). unfold wn. rewrite C, D. reflexivity.
  - intros k Hk. destruct (proj1 (Forall_forall _ _) A k Hk) as (C & D & F & G). unfold wl. rewrite C, D, F, G. reflexivity.
Qed.
Lemma start_w tos n : weight (m_start tos n) = 0.
Proof.
  unfold weight, m_start. cbn [m_links m_nodes]. rewrite (sumf_zero wl), (sumf_zero wn); [reflexivity| |].
  - intros x Hx. apply repeat_spec in Hx. subst x. reflexivity.
  - intros k Hk. apply in_map_iff in Hk. destruct Hk as (t & <- & _). reflexivity.
Qed.
End Weights.

(** Every message sent has been handled or is underway. *)
Lemma kept_step p s a s' : let b := fun x => Nat.b2n (p x) in mstep s a = Some s' ->
  cntb p (m_sent s) = cntb p (m_handled s) + weight b b b b b b s -> cntb p (m_sent s') = cntb p (m_handled s') + weight b b b b b b s'.
Proof.
  intros b E I. pose proof (step_w b b b b b b s a s' E) as Q. destruct a as [x|l|l|l|l|n|n i].
  - destruct Q as (Q & -> & ->). rewrite cntb_app, cntb_one. change (Nat.b2n (p x)) with (b x). lia.
  - destruct Q as (-> & -> & x & xs & Q). lia.
  - destruct Q as (-> & -> & x & Q). lia.
  - destruct Q as (-> & -> & x & Q). lia.
  - destruct Q as (-> & -> & x & Q). lia.
  - destruct Q as (-> & -> & x & Q). lia.
  - destruct Q as (x & Q & -> & ->). rewrite !cntb_app, cntb_one. change (Nat.b2n (p x)) with (b x). change (cntb p (valid ?a ?c)) with (sumf b (valid a c)). lia.
Qed.
Lemma kept_run p sched : forall s s', let b := fun x => Nat.b2n (p x) in mrun s sched = Some s' ->
  cntb p (m_sent s) = cntb p (m_handled s) + weight b b b b b b s -> cntb p (m_sent s') = cntb p (m_handled s') + weight b b b b b b s'.
Proof.
  induction sched as [|a l IH]; intros s s' b E I; cbn [M_Mesh.mrun] in E; [injection E as <-; exact I|].
  destruct (mstep s a) as [s1|] eqn:E1; [|discriminate]. apply (IH s1 s' E). apply (kept_step p s a s1 E1 I).
Qed.
Theorem C117_once : once_each.
Proof.
  intros tos n sched s E. assert (K : forall p, let b := fun x => Nat.b2n (p x) in cntb p (m_sent s) = cntb p (m_handled s) + weight b b b b b b s).
  { intros p b. apply (kept_run p sched _ _ E). cbn zeta. rewrite start_w. reflexivity. }
  split.
  - intros p. specialize (K p). cbn zeta in K. lia.
  - intros Q p. specialize (K p). cbn zeta in K. rewrite (quiet_w _ _ _ _ _ _ s Q) in K. lia.
Qed.

(** Each stage lowers what a message may still cost. *)
Section Costs.
Variable cost : @mail M -> nat.
Hypothesis Hcost : forall n x, 6 + sumf cost (react n x) <= cost x.
Definition less k (x : @mail M) := cost x - k.
Definition mw := weight cost (less 1) (less 2) (less 3) (less 4) (less 5).
Lemma cost6 x : 6 <= cost x. Proof. pose proof (Hcost 0 x). lia. Qed.
Lemma sum_less xs : sumf (less 1) xs <= sumf cost xs.
Proof. apply sumf_up. intros x. unfold less. lia. Qed.
Lemma sum_filter (f : @mail M -> bool) xs : sumf cost (filter f xs) <= sumf cost xs.
Proof. induction xs as [|x xs IH]; cbn; [lia|]. destruct (f x); cbn [sumf]; lia. Qed.
Lemma cost_step s a s' : is_send a = false -> mstep s a = Some s' -> mw s' < mw s.
Proof.
  intros N E. pose proof (step_w cost (less 1) (less 2) (less 3) (less 4) (less 5) s a s' E) as Q. fold (mw s) (mw s') in Q. destruct a as [x|l|l|l|l|n|n i]; [discriminate N|..].
  - destruct Q as (_ & _ & x & xs & Q). cbn [sumf] in Q. pose proof (sum_less xs). pose proof (cost6 x). unfold less at 1 in Q. lia.
  - destruct Q as (_ & _ & x & Q). pose proof (cost6 x). unfold less in Q. lia.
  - destruct Q as (_ & _ & x & Q). pose proof (cost6 x). unfold less in Q. lia.
  - destruct Q as (_ & _ & x & Q). pose proof (cost6 x). unfold less in Q. lia.
  - destruct Q as (_ & _ & x & Q). pose proof (cost6 x). unfold less in Q. lia.
  - destruct Q as (x & Q & _). pose proof (Hcost n x). unfold less in Q. pose proof (sum_filter (fun x => fst x <? length (m_links s)) (react n x)) as F. change (filter _ (react n x)) with (valid (m_links s) (react n x)) in F. cbv beta in Q. lia.
Qed.
Lemma cost_more more : forall s s', forallb (fun a => negb (is_send a)) more = true -> mrun s more = Some s' -> length more + mw s' <= mw s.
Proof.
  induction more as [|a l IH]; intros s s' N E; cbn [M_Mesh.mrun] in E; [injection E as <-; cbn [length]; lia|].
  cbn [forallb] in N. apply andb_prop in N. destruct N as (Na & Nl). apply negb_true_iff in Na. destruct (mstep s a) as [s1|] eqn:E1; [|discriminate].
  pose proof (cost_step s a s1 Na E1). pose proof (IH s1 s' Nl E). cbn [length]. lia.
Qed.
Lemma cost_sent sched : forall s s', mrun s sched = Some s' -> mw s <= sumf cost (m_sent s) -> mw s' <= sumf cost (m_sent s').
Proof.
  induction sched as [|a l IH]; intros s s' E I; cbn [M_Mesh.mrun] in E; [injection E as <-; exact I|].
  destruct (mstep s a) as [s1|] eqn:E1; [|discriminate]. apply (IH s1 s' E).
  pose proof (step_w cost (less 1) (less 2) (less 3) (less 4) (less 5) s a s1 E1) as Q. fold (mw s) (mw s1) in Q.
  destruct (is_send a) eqn:S0.
  - destruct a as [x|l0|l0|l0|l0|n|n i]; try discriminate S0. destruct Q as (Q & -> & _). rewrite sumf_app. cbn [sumf]. lia.
  - pose proof (cost_step s a s1 S0 E1). assert (sumf cost (m_sent s) <= sumf cost (m_sent s1)); [|lia].
    destruct a as [x|l0|l0|l0|l0|n|n i]; try discriminate S0.
    1-5: destruct Q as (-> & _); lia.
    destruct Q as (x & _ & -> & _). rewrite sumf_app. lia.
Qed.
End Costs.
Theorem C117_rests : comes_to_rest.
Proof.
  intros cost Hc tos n sched s E more s' N E'. pose proof (cost_more cost Hc more s s' N E'). pose proof (cost_sent cost Hc sched _ _ E) as Q.
  unfold mw in Q at 1. rewrite start_w in Q. specialize (Q (Nat.le_0_l _)). lia.
Qed.
End WithMessages.

(** ** A case: two nodes with one worker each and room for one message on the wire; each answers a message of number n > 0 with two, of numbers n - 1 and 0. *)
Definition answer (_ : nat) (x : @mail nat) : list (@mail nat) := match snd x with 0 => [] | S n => [(1 - fst x, n); (1 - fst x, 0)] end.
Definition price (x : @mail nat) : nat := 6 + 12 * snd x.
Lemma answer_price n x : 6 + sumf price (answer n x) <= price x.
Proof. unfold answer, price. destruct x as [l [|k]]; cbn [snd fst sumf]; lia. Qed.
Definition turn (l : nat) : list (@mact nat) := [XFlush l; XWrite l; XRead l; XPush l; XTake (1 - l); XDone (1 - l) 0].
Definition talk : list (@mact nat) :=
  [XSend (0, 2)] ++ turn 0 ++ [XFlush 1; XWrite 1; XRead 1; XWrite 1; XPush 1; XTake 0; XRead 1; XPush 1; XDone 0 0] ++ [XTake 0; XDone 0 0] ++ [XFlush 0; XWrite 0; XRead 0; XPush 0; XWrite 0; XRead 0; XTake 1; XDone 1 0; XPush 0].
Example C117_nonvacuous :
  (exists s, mrun 1 1 answer (m_start [1; 0] 2) talk = Some s /\ ~ quiet s /\ m_handled s = [(0, 2); (1, 1); (1, 0); (0, 0)] /\ length (m_sent s) = 5 /\
     exists s', mrun 1 1 answer s [XTake 1; XDone 1 0] = Some s' /\ quiet s' /\ length (m_handled s') = 5) /\
  wired [1; 0] 2 /\ (forall n x, 6 + sumf price (answer n x) <= price x).
Proof.
  split; [|split; [repeat constructor; lia|exact answer_price]].
  eexists. split; [vm_compute; reflexivity|]. split; [intros (_ & H); apply Forall_inv_tail in H; apply Forall_inv in H; destruct H; discriminate|]. split; [reflexivity|]. split; [reflexivity|].
  eexists. split; [vm_compute; reflexivity|]. split; [|reflexivity]. split; repeat constructor.
Qed.
(** With no workers the claim's hypothesis fails, and so does the claim (cf. C42). *)
Example C117_no_workers : exists s, mrun 0 1 answer (m_start [1; 0] 2) [XSend (0, 2); XFlush 0; XWrite 0; XRead 0] = Some s /\ ~ quiet s /\
  forall a, is_send a = false -> mstep 0 1 answer s a = None.
Proof.
  eexists. split; [vm_compute; reflexivity|]. split; [intros (H & _); apply Forall_inv in H; destruct H as (_ & _ & _ & H); discriminate|].
  intros [x|[|[|l]]|[|[|l]]|[|[|l]]|[|[|l]]|[|[|n]]|[|[|n]] [|i]] N; try discriminate N; try reflexivity; try (destruct l; reflexivity); try (destruct n; reflexivity).
Qed.

Print Assumptions C117_goes_on.
Print Assumptions C117_once.
Print Assumptions C117_rests.
