(** * Lemmas about the model of Find *)
From Verif Require Import Base Spec M_ID M_Binary M_Table P_Table M_Iter.
From Coq Require Import Permutation.
Local Open Scope nat_scope.

Definition cntp (p : ID -> bool) (l : list ID) : nat := length (filter p l).
Lemma cntp_app p a b : cntp p (a ++ b) = cntp p a + cntp p b.
Proof. unfold cntp. rewrite filter_app, app_length. reflexivity. Qed.
Lemma cntp_cons p x l : cntp p (x :: l) = Nat.b2n (p x) + cntp p l.
Proof. unfold cntp. cbn. destruct (p x); reflexivity. Qed.
Lemma cntp_nil p : cntp p [] = 0. Proof. reflexivity. Qed.
Lemma cntp_zero p l : cntp p l = 0 <-> forall x, In x l -> p x = false.
Proof.
  induction l as [|a l IH]; [split; [intros _ x []|reflexivity]|]. rewrite cntp_cons. split.
  - intros H x [<-|Hx]; [destruct (p a); [discriminate|reflexivity] | apply IH; [lia|exact Hx]].
  - intros H. rewrite (H a (or_introl eq_refl)). cbn. apply IH. intros x Hx. apply H. right. exact Hx.
Qed.

Fixpoint sumf {A} (f : A -> nat) (l : list A) : nat := match l with [] => 0 | x :: r => f x + sumf f r end.
Lemma sumf_set {A} (f : A -> nat) (l : list A) : forall i x y, nth_error l i = Some x -> sumf f (set_nth i y l) + f x = sumf f l + f y.
Proof.
  induction l as [|a l IH]; intros [|i] x y H; cbn in *; try discriminate.
  - injection H as ->. lia.
  - pose proof (IH i x y H). lia.
Qed.
Lemma sumf_le {A} (f : A -> nat) l : forall i x, nth_error l i = Some x -> f x <= sumf f l.
Proof. induction l as [|a l IH]; intros [|i] x H; cbn in *; try discriminate; [injection H as ->; lia | pose proof (IH i x H); lia]. Qed.
Lemma sumf_zero {A} (f : A -> nat) l : (forall x, In x l -> f x = 0) -> sumf f l = 0.
Proof. induction l as [|a l IH]; cbn; intros H; [reflexivity|]. rewrite (H a), IH; auto. Qed.
Lemma sumf_app {A} (f : A -> nat) a b : sumf f (a ++ b) = sumf f a + sumf f b.
Proof. induction a as [|x a IH]; cbn; [reflexivity|]. rewrite IH. lia. Qed.
Lemma sumf_ext {A} (f g : A -> nat) l : (forall x, f x = g x) -> sumf f l = sumf g l.
Proof. intros E. induction l as [|a l IH]; cbn; congruence. Qed.
Lemma sumf_repeat {A} (f : A -> nat) x n : sumf f (repeat x n) = n * f x.
Proof. induction n as [|n IH]; cbn; [reflexivity|]. rewrite IH. lia. Qed.
Lemma sumf_map {A B} (f : B -> nat) (g : A -> B) l : sumf f (map g l) = sumf (fun x => f (g x)) l.
Proof. induction l as [|a l IH]; cbn; congruence. Qed.
Lemma sumf_add {A} (f g : A -> nat) l : sumf (fun x => f x + g x) l = sumf f l + sumf g l.
Proof. induction l as [|a l IH]; cbn; [reflexivity|]. lia. Qed.

(** What a worker holds: the peer being asked, the peer about to be published, the IDs received. *)
Definition w_ask (w : wpc) : list ID := match w with WAsk id => [id] | _ => [] end.
Definition w_res (w : wpc) : list ID := match w with WRes id _ => [id] | _ => [] end.
Definition w_ids (w : wpc) : list ID := match w with WRes _ ids => ids | WOut ids => ids | _ => [] end.
Definition w_busy (w : wpc) : nat := match w with WIdle | WExit => 0 | _ => 1 end.
Definition pc_ids (c : lpc) : list ID := match c with LMerge ids => ids | _ => [] end.

Definition l_pend p (l : lookup) : nat := cntp p (l_bucket l) + cntp p (l_queue l).
Definition l_ask p (l : lookup) : nat := sumf (fun w => cntp p (w_ask w)) (l_workers l).
Definition l_res p (l : lookup) : nat := sumf (fun w => cntp p (w_res w)) (l_workers l).
Definition l_flight p (l : lookup) : nat :=
  cntp p (pc_ids (l_pc l)) + sumf (cntp p) (l_outq l) + sumf (fun w => cntp p (w_ids w)) (l_workers l).

Definition s_pend p (s : istate) : nat := cntp p (map fst (i_asked s)) + sumf (l_pend p) (i_lookups s).
Definition s_flight p (s : istate) : nat := sumf (l_flight p) (i_lookups s).
Definition s_got p (s : istate) : nat := sumf (fun a => cntp p (snd a)) (i_answered s).
Definition has (k : pubkey) (id : ID) : bool := bytes_eqb (id_key id) k.
Definition vis (s : istate) (k : pubkey) : nat := Nat.b2n (visited (i_visited s) k).

Lemma visited_cons v k k' : visited (k' :: v) k = bytes_eqb k k' || visited v k.
Proof. reflexivity. Qed.
Lemma visited_in v k : visited v k = true <-> In k v.
Proof.
  unfold visited. rewrite existsb_exists. split.
  - intros (x & Hx & E). apply bytes_eqb_eq in E. subst. exact Hx.
  - intros H. exists k. split; [exact H | apply bytes_eqb_refl].
Qed.

Lemma bytes_eqb_sym a b : bytes_eqb a b = bytes_eqb b a.
Proof.
  destruct (bytes_eqb a b) eqn:E.
  - apply bytes_eqb_eq in E. subst. symmetry. apply bytes_eqb_refl.
  - destruct (bytes_eqb b a) eqn:F; [|reflexivity]. apply bytes_eqb_eq in F. subst. rewrite bytes_eqb_refl in E. discriminate.
Qed.

Lemma merge_count k ids : forall v b v' b', merge v b ids = (v', b') ->
  cntp (has k) b' + Nat.b2n (visited v k) = cntp (has k) b + Nat.b2n (visited v' k).
Proof.
  induction ids as [|id r IH]; cbn [merge]; intros v b v' b' H; [injection H as -> ->; lia|].
  destruct (visited v (id_key id)) eqn:V; [exact (IH _ _ _ _ H)|].
  apply IH in H. rewrite visited_cons, cntp_app, cntp_cons, cntp_nil in H. change (has k id) with (bytes_eqb (id_key id) k) in H.
  rewrite (bytes_eqb_sym k) in H. destruct (bytes_eqb (id_key id) k) eqn:E.
  - apply bytes_eqb_eq in E. subst k. rewrite V. cbn [orb Nat.b2n] in *. lia.
  - cbn [orb Nat.b2n] in H. lia.
Qed.

Lemma merge_visited k ids : forall v b v' b', merge v b ids = (v', b') -> visited v' k = false ->
  visited v k = false /\ cntp (has k) ids = 0.
Proof.
  induction ids as [|id r IH]; cbn [merge]; intros v b v' b' H N; [injection H as -> ->; auto|].
  rewrite cntp_cons. change (has k id) with (bytes_eqb (id_key id) k). destruct (visited v (id_key id)) eqn:V.
  - destruct (IH _ _ _ _ H N) as [A B]. split; [exact A|]. rewrite B.
    destruct (bytes_eqb (id_key id) k) eqn:E; [|reflexivity]. apply bytes_eqb_eq in E. congruence.
  - destruct (IH _ _ _ _ H N) as [A B]. rewrite visited_cons in A. apply orb_false_iff in A as [A1 A2].
    rewrite (bytes_eqb_sym k) in A1. rewrite A1, B. auto.
Qed.

Lemma merge_pend p ids : forall v b v' b', merge v b ids = (v', b') -> cntp p b' <= cntp p b + cntp p ids.
Proof.
  induction ids as [|id r IH]; cbn [merge]; intros v b v' b' H; [injection H as -> ->; lia|].
  rewrite cntp_cons. destruct (visited v (id_key id)); apply IH in H; rewrite ?cntp_app, ?cntp_cons, ?cntp_nil in H; lia.
Qed.

Ltac step_cases H :=
  match type of H with istep _ _ ?a = Some _ => destruct a; cbn [istep] in H end;
  repeat (match type of H with
          | context [match ?x with _ => _ end] =>
              match x with context [match _ with _ => _ end] => fail 1 | _ => destruct x eqn:? end
          end; try discriminate H);
  match type of H with Some ?x = Some ?y => assert (y = x) as -> by congruence; clear H end.

Ltac prep :=
  unfold set_lookup, set_worker in *;
  cbn [i_visited i_lookups i_results i_closed i_found i_done i_asked i_answered
       l_pc l_bucket l_queue l_outq l_pending l_workers map fst snd sumf] in *.

(** For the lookup changed, the equation of a sum over lookups; then the same for its workers. *)
Ltac sums f g :=
  repeat match goal with
  | N : nth_error (i_lookups ?s) ?i = Some ?l |- context [sumf ?ff (set_nth ?i ?y (i_lookups ?s))] =>
      let E := fresh "E" in pose proof (sumf_set ff (i_lookups s) i l y N) as E;
      let z := fresh "z" in set (z := sumf ff (set_nth i y (i_lookups s))) in *; clearbody z
  end;
  unfold f in *; prep;
  repeat match goal with
  | N : nth_error ?ws ?j = Some ?w, E : context [sumf ?ff (set_nth ?j ?y ?ws)] |- _ =>
      let F := fresh "F" in pose proof (sumf_set ff ws j w y N) as F;
      let z := fresh "z" in set (z := sumf ff (set_nth j y ws)) in *; clearbody z
  end;
  unfold g in *; prep.

Ltac eqs := repeat match goal with
  | E : l_queue _ = _ |- _ => rewrite E in *; clear E
  | E : l_pc _ = _ |- _ => rewrite E in *; clear E
  | E : i_results _ = _ |- _ => rewrite E in *; clear E
  end.
Ltac cnts := eqs; cbn [w_ask w_res w_ids w_busy pc_ids] in *; rewrite ?cntp_app, ?cntp_cons, ?cntp_nil, ?sumf_app in *; cbn [sumf] in *.

(** Conservation: what was asked or waits to be asked changes exactly with what is marked visited. *)
Lemma pend_step n s a s' k : istep n s a = Some s' ->
  s_pend (has k) s' + vis s k = s_pend (has k) s + vis s' k.
Proof.
  intros H. unfold s_pend, vis. step_cases H; prep; sums l_pend l_pend; subst; prep; cnts; try lia.
  match goal with M : merge _ _ _ = _ |- _ => apply (merge_count k) in M end. lia.
Qed.

Lemma asked_answered_step n s a s' p : istep n s a = Some s' ->
  cntp p (map fst (i_answered s)) + sumf (l_ask p) (i_lookups s) <= cntp p (map fst (i_asked s)) ->
  cntp p (map fst (i_answered s')) + sumf (l_ask p) (i_lookups s') <= cntp p (map fst (i_asked s')).
Proof. intros H. step_cases H; prep; sums l_ask l_ask; subst; prep; cnts; try lia. Qed.

Lemma found_step n s a s' p : istep n s a = Some s' ->
  cntp p (i_found s) + cntp p (i_results s) + sumf (l_res p) (i_lookups s) = cntp p (map fst (i_answered s)) ->
  cntp p (i_found s') + cntp p (i_results s') + sumf (l_res p) (i_lookups s') = cntp p (map fst (i_answered s')).
Proof.
  intros H. step_cases H; prep; sums l_res l_res; subst; prep; cnts; try lia.
Qed.

Lemma got_step n s a s' k : istep n s a = Some s' -> visited (i_visited s') k = false ->
  visited (i_visited s) k = false /\ s_got (has k) s' + s_flight (has k) s = s_got (has k) s + s_flight (has k) s'.
Proof.
  intros H V. unfold s_got, s_flight. step_cases H; prep; (try (split; [exact V|])); sums l_flight l_flight; subst; prep; cnts; try lia.
  match goal with M : merge _ _ _ = _ |- _ => destruct (merge_visited k _ _ _ _ _ M V) as [A B] end. rewrite B in *. split; [exact A|]. lia.
Qed.

(** A predicate that no peer and no reply meets is met by nothing asked, waiting or in flight. *)
Definition reply_ok (P : ID -> Prop) (a : iaction) : Prop :=
  match a with AReply _ _ (Some ids) => forall id, In id ids -> P id | _ => True end.
Lemma zero_step n s a s' p : istep n s a = Some s' -> reply_ok (fun id => p id = false) a ->
  s_pend p s = 0 -> s_flight p s = 0 -> s_pend p s' = 0 /\ s_flight p s' = 0.
Proof.
  intros H R. unfold s_pend, s_flight. step_cases H; prep; cbn [reply_ok] in R.
  all: try (rewrite <- (cntp_zero p) in R).
  all: sums l_pend l_pend; sums l_flight l_flight; subst; prep; cnts; try lia.
  match goal with M : merge _ _ _ = _ |- _ => apply (merge_pend p) in M end. lia.
Qed.

(** ** Shape of each lookup *)
Definition pc_hold (c : lpc) : nat := match c with LMerge _ => 1 | _ => 0 end.
Definition closing (c : lpc) : bool := match c with LClosing | LDone => true | _ => false end.
Definition busy (ws : list wpc) : nat := sumf w_busy ws.
Definition exits (ws : list wpc) : nat := sumf (fun w => Nat.b2n (is_exit w)) ws.

Record lok (k : nat) (l : lookup) : Prop := {
  lok_workers : length (l_workers l) = k;
  lok_queue : length (l_queue l) <= k;
  lok_pending : l_pending l = length (l_queue l) + busy (l_workers l) + length (l_outq l) + pc_hold (l_pc l);
  lok_await : l_pc l = LAwait -> 0 < l_pending l;
  lok_closing : closing (l_pc l) = true -> l_pending l = 0 /\ (0 < k -> l_bucket l = []);
  lok_exit : closing (l_pc l) = false -> exits (l_workers l) = 0;
  lok_done : l_pc l = LDone -> exits (l_workers l) = k
}.

Lemma nth_error_set {A} (l : list A) : forall i j y, nth_error (set_nth i y l) j =
  if (j =? i) && (i <? length l) then Some y else nth_error l j.
Proof.
  induction l as [|a l IH]; intros i j y.
  - cbn [set_nth length]. rewrite andb_false_r. destruct i; reflexivity.
  - destruct i as [|i], j as [|j]; cbn [set_nth nth_error length]; try reflexivity.
    rewrite IH. reflexivity.
Qed.

Lemma forall_set {A} (P : A -> Prop) (l : list A) i y : (forall j x, nth_error l j = Some x -> P x) -> P y ->
  forall j x, nth_error (set_nth i y l) j = Some x -> P x.
Proof.
  intros H Hy j x E. rewrite nth_error_set in E. destruct ((j =? i) && (i <? length l)); [|exact (H j x E)].
  injection E as <-. exact Hy.
Qed.

Lemma exits_full ws : forallb is_exit ws = true -> exits ws = length ws.
Proof.
  induction ws as [|w ws IH]; [reflexivity|]. intros H. cbn [forallb] in H. apply andb_true_iff in H as [H1 H2].
  unfold exits in *. cbn. rewrite H1, IH by exact H2. reflexivity.
Qed.

Definition sok (k : nat) (s : istate) : Prop :=
  (forall i l, nth_error (i_lookups s) i = Some l -> lok k l) /\
  (i_closed s = true -> forallb is_ldone (i_lookups s) = true) /\
  (i_done s = true -> i_closed s = true /\ i_results s = []).

Lemma done_set_false ls i l y : nth_error ls i = Some l -> is_ldone l = false -> forallb is_ldone ls = true ->
  forallb is_ldone (set_nth i y ls) = true.
Proof.
  intros N D H. rewrite forallb_forall in H. rewrite (H l) in D; [discriminate|]. exact (nth_error_In _ _ N).
Qed.

Lemma busy_at ws j w : nth_error ws j = Some w -> w_busy w <= busy ws.
Proof. intros H. exact (sumf_le w_busy ws j w H). Qed.
Lemma exits_le ws : exits ws <= length ws.
Proof. induction ws as [|w ws IH]; [reflexivity|]. unfold exits in *. cbn. destruct (is_exit w); cbn; lia. Qed.
Lemma exits_lt ws j w : nth_error ws j = Some w -> is_exit w = false -> exits ws < length ws.
Proof.
  revert j. induction ws as [|a ws IH]; intros [|j] N E; try discriminate; cbn in N.
  - injection N as ->. pose proof (exits_le ws). unfold exits in *. cbn. rewrite E. cbn. lia.
  - pose proof (IH j N E). unfold exits in *. cbn. destruct (is_exit a); cbn; lia.
Qed.

Lemma lok_step k s a s' : istep k s a = Some s' -> (forall i l, nth_error (i_lookups s) i = Some l -> lok k l) ->
  forall i l, nth_error (i_lookups s') i = Some l -> lok k l.
Proof.
  intros H I. step_cases H; prep; try exact I; apply forall_set; try exact I.
  all: match goal with N : nth_error (i_lookups ?s) ?i = Some ?l |- _ => pose proof (I _ _ N) as [L1 L2 L3 L4 L5 L6 L7] end; clear I; prep.
  all: repeat match goal with E : (_ =? _) = true |- _ => apply Nat.eqb_eq in E | E : (_ =? _) = false |- _ => apply Nat.eqb_neq in E
         | E : (_ <? _) = true |- _ => apply Nat.ltb_lt in E | E : (_ <? _) = false |- _ => apply Nat.ltb_ge in E end.
  all: repeat match goal with N : nth_error (l_workers ?l) ?j = Some ?w |- context [set_nth ?j ?y (l_workers ?l)] =>
         pose proof (sumf_set w_busy _ j w y N); pose proof (sumf_set (fun x => Nat.b2n (is_exit x)) _ j w y N);
         pose proof (busy_at _ _ _ N); pose proof (exits_lt _ _ _ N eq_refl);
         pose proof (set_nth_length (l_workers l) j y);
         let z := fresh "ws" in set (z := set_nth j y (l_workers l)) in *; clearbody z end.
  all: eqs; unfold busy, exits in *; cbn [w_busy is_exit Nat.b2n pc_hold length closing] in *.
  all: constructor; prep; rewrite ?app_length; cbn [length pc_hold closing] in *; unfold busy, exits in *.
  all: try (intros; discriminate); try lia; try (intros; lia).
  all: try (intros ?Hc; try discriminate Hc; try (specialize (L5 Hc)); try (specialize (L4 Hc)); try (specialize (L6 Hc)); try (specialize (L7 Hc)); intuition (try congruence; try lia)).
  all: try solve [split; [lia | intros; try reflexivity; lia]].
  match goal with E : forallb is_exit _ = true |- _ => apply exits_full in E; unfold exits in E end. congruence.
Qed.

Lemma sok_step k s a s' : istep k s a = Some s' -> sok k s -> sok k s'.
Proof.
  intros H (I1 & I2 & I3). pose proof (lok_step k s a s' H I1) as I1'. split; [exact I1'|]. clear I1'.
  step_cases H; prep; split; try exact I2; try exact I3.
  all: try (intros C; specialize (I2 C); eapply done_set_false; [eassumption | unfold is_ldone; prep; eqs; try reflexivity | exact I2]).
  all: try (match goal with N : nth_error (i_lookups _) ?i = Some ?l |- _ => pose proof (I1 _ _ N) as [L1 L2 L3 L4 L5 L6 L7] end).
  all: try (match goal with N : nth_error (l_workers ?l) ?j = Some ?w |- _ => 
       pose proof (exits_lt _ _ _ N eq_refl) as X; pose proof (busy_at _ _ _ N) as Y end).
  all: try (destruct (l_pc l) eqn:P; try reflexivity; specialize (L7 eq_refl); lia).
  all: try (match goal with E : i_results _ = _ |- _ => rewrite E in I3 end).
  all: try (intros D; specialize (I3 D); destruct I3 as [I3 I4]; try discriminate I4; try congruence).
  - match goal with N : nth_error (i_lookups _) ?i = Some ?l |- _ => specialize (I2 I3); rewrite forallb_forall in I2; 
      specialize (I2 l (nth_error_In _ _ N)); unfold is_ldone in I2 end.
    destruct (l_pc l) eqn:P; try discriminate. specialize (L7 eq_refl). lia.
  - intros _. match goal with E : _ && _ = true |- _ => apply andb_true_iff in E as [E _]; exact E end.
  - split; [reflexivity | exact I4].
  - intros _. match goal with E : _ && _ = true |- _ => apply andb_true_iff in E as [E _]; exact (I2 E) end.
  - auto.
Qed.

(** ** Progress *)
Lemma forallb_false_nth {A} (f : A -> bool) l : forallb f l = false -> exists i x, nth_error l i = Some x /\ f x = false.
Proof.
  induction l as [|a l IH]; cbn; intros H; [discriminate|]. destruct (f a) eqn:E.
  - destruct (IH H) as (i & x & N & F). exists (S i), x. auto.
  - exists 0, a. auto.
Qed.
Lemma sumf_pos {A} (f : A -> nat) l : 0 < sumf f l -> exists i x, nth_error l i = Some x /\ 0 < f x.
Proof.
  induction l as [|a l IH]; cbn; intros H; [lia|]. destruct (f a) eqn:E.
  - destruct (IH H) as (i & x & N & F). exists (S i), x. auto.
  - exists 0, a. split; [reflexivity|lia].
Qed.

Lemma progress k s : sok k s -> i_done s = false -> exists a s', istep k s a = Some s' /\ reply_ok (fun _ => False) a.
Proof.
  intros (I1 & I2 & I3) D.
  destruct (i_results s) as [|r rs] eqn:R.
  2:{ exists ACollect. cbn. rewrite R, D. eexists. split; [reflexivity|exact I]. }
  destruct (i_closed s) eqn:C.
  { exists AFindEnd. cbn. rewrite R, C, D. cbn. eexists. split; [reflexivity|exact I]. }
  destruct (forallb is_ldone (i_lookups s)) eqn:F.
  { exists ACloseResults. cbn. rewrite F, C. cbn. eexists. split; [reflexivity|exact I]. }
  destruct (forallb_false_nth _ _ F) as (i & l & N & L). pose proof (I1 i l N) as [L1 L2 L3 L4 L5 L6 L7].
  assert (B : 0 < busy (l_workers l) -> length (l_outq l) < k \/ l_outq l = [] -> exists a s', istep k s a = Some s' /\ reply_ok (fun _ => False) a).
  { intros B Q. destruct (sumf_pos _ _ B) as (j & w & Nw & W).
    destruct w as [|id|id ids|ids|]; cbn in W; try lia.
    - exists (AReply i j None). cbn. rewrite N, Nw. eexists. split; [reflexivity|exact I].
    - exists (APub i j). cbn. rewrite N, Nw, R. eexists. split; [reflexivity|exact I].
    - exists (APut i j). cbn [istep]. rewrite N, Nw.
      assert (Q' : length (l_outq l) <? k = true).
      { apply Nat.ltb_lt. destruct Q as [Q|Q]; [exact Q|]. rewrite Q. cbn. pose proof (nth_error_Some (l_workers l) j) as [X _].
        rewrite Nw in X. specialize (X ltac:(discriminate)). lia. }
      rewrite Q'. eexists. split; [reflexivity|exact I]. }
  destruct l as [c b q o p ws]. cbn [l_pc l_bucket l_queue l_outq l_pending l_workers] in *.
  destruct c as [| |ids| |].
  - exists (AFill i). cbn [istep]. rewrite N. destruct b as [|x b]; [|destruct (length q <? k)]; eexists; (split; [reflexivity|exact I]).
  - destruct o as [|ids o].
    + specialize (L4 eq_refl). cbn [pc_hold length] in L3. destruct (Nat.eq_dec (busy ws) 0) as [Bz|Bz]; [|apply B; [lia|right; reflexivity]].
      destruct q as [|id q]; [cbn in L3; lia|].
      specialize (L6 eq_refl).
      destruct ws as [|w ws]; [cbn in *; lia|].
      assert (w = WIdle) as -> by (destruct w; cbn in *; try reflexivity; lia).
      exists (ATake i 0). cbn [istep]. rewrite N. cbn. eexists. split; [reflexivity|exact I].
    + exists (ARecv i). cbn [istep]. rewrite N. eexists. split; [reflexivity|exact I].
  - exists (AMerge i). cbn [istep]. rewrite N. destruct (merge (i_visited s) b ids). eexists. split; [reflexivity|exact I].
  - destruct (L5 eq_refl) as [P0 _]. cbn [pc_hold] in L3.
    destruct (forallb is_exit ws) eqn:E.
    + exists (AJoin i). cbn [istep]. rewrite N, E. eexists. split; [reflexivity|exact I].
    + destruct (forallb_false_nth _ _ E) as (j & w & Nw & W).
      pose proof (busy_at _ _ _ Nw) as Bj. destruct q; [|cbn in L3; lia].
      exists (AExit i j). cbn [istep]. rewrite N. cbn [l_workers l_queue l_pc]. rewrite Nw.
      destruct w; cbn in W, Bj; try lia; try discriminate. eexists. split; [reflexivity|exact I].
  - discriminate.
Qed.

(** ** Termination measure *)
Definition mu_w (w : wpc) : nat := match w with WIdle => 1 | WAsk _ => 8 | WRes _ _ => 7 | WOut _ => 5 | WExit => 0 end.
Definition mu_c (c : lpc) : nat := match c with LFill => 2 | LAwait => 1 | LMerge _ => 3 | LClosing => 1 | LDone => 0 end.
Definition mu_l (l : lookup) : nat :=
  mu_c (l_pc l) + 9 * length (l_bucket l) + 8 * length (l_queue l) + 3 * length (l_outq l) + sumf mu_w (l_workers l).
Definition unv (U : list pubkey) (v : list pubkey) : nat := length (filter (fun k => negb (visited v k)) U).
Definition mu (U : list pubkey) (s : istate) : nat :=
  10 * unv U (i_visited s) + sumf mu_l (i_lookups s) + length (i_results s) + Nat.b2n (negb (i_closed s)) + Nat.b2n (negb (i_done s)).
Definition outside (U : list pubkey) (id : ID) : bool := negb (existsb (bytes_eqb (id_key id)) U).

Lemma unv_cons_le U v k : unv U (k :: v) <= unv U v.
Proof.
  unfold unv. induction U as [|u U IH]; cbn [filter]; [lia|]. rewrite visited_cons.
  destruct (bytes_eqb u k), (visited v u); cbn [orb negb]; cbn [length]; lia.
Qed.
Lemma unv_cons U v k : In k U -> visited v k = false -> unv U (k :: v) < unv U v.
Proof.
  intros HI V. induction U as [|u U IH]; [destruct HI|]. unfold unv in *. cbn [filter]. rewrite visited_cons.
  destruct HI as [->|HI].
  - rewrite bytes_eqb_refl, V. cbn [orb negb length]. pose proof (unv_cons_le U v k) as X. unfold unv in X. lia.
  - specialize (IH HI). destruct (bytes_eqb u k), (visited v u); cbn [orb negb]; cbn [length]; lia.
Qed.
Lemma merge_mu U ids : forall v b v' b', merge v b ids = (v', b') -> cntp (outside U) ids = 0 ->
  10 * unv U v' + 9 * length b' <= 10 * unv U v + 9 * length b.
Proof.
  induction ids as [|id r IH]; cbn [merge]; intros v b v' b' H Z; [injection H as -> ->; lia|].
  rewrite cntp_cons in Z. destruct (visited v (id_key id)) eqn:V; [apply (IH _ _ _ _ H); lia|].
  apply IH in H; [|lia]. rewrite app_length in H. cbn [length] in H.
  assert (HI : In (id_key id) U).
  { assert (O : outside U id = false) by (destruct (outside U id); [cbn in Z; lia|reflexivity]). unfold outside in O.
    apply negb_false_iff in O. apply (visited_in U). exact O. }
  pose proof (unv_cons U v _ HI V). lia.
Qed.

Lemma mu_step U k s a s' : istep k s a = Some s' -> s_flight (outside U) s = 0 -> mu U s' < mu U s.
Proof.
  intros H Z. unfold mu, s_flight in *. step_cases H; prep.
  all: try (match goal with N : nth_error (i_lookups _) ?i = Some ?l |- _ => pose proof (sumf_le (l_flight (outside U)) _ _ _ N) as FL; rewrite Z in FL end).
  all: sums mu_l mu_l; subst; prep; eqs; cbn [mu_c mu_w length] in *; rewrite ?app_length in *; cbn [length Nat.b2n] in *; try lia.
  unfold l_flight in FL. prep. cbn [pc_ids] in FL. match goal with M : merge _ _ _ = _ |- _ => apply (merge_mu U) in M; [|lia] end. lia.
Qed.

(** ** The initial state *)
Lemma deal_length n peers : forall i bs, length (deal n i peers bs) = length bs.
Proof. induction peers as [|x r IH]; intros i bs; cbn [deal]; [reflexivity|]. rewrite IH. apply set_nth_length. Qed.
Lemma deal_count p n peers : forall i bs, length bs = n -> 0 < n -> sumf (cntp p) (deal n i peers bs) = sumf (cntp p) bs + cntp p peers.
Proof.
  induction peers as [|x r IH]; intros i bs L Hn; cbn [deal]; [rewrite cntp_nil; lia|].
  rewrite IH by (rewrite ?set_nth_length; assumption).
  assert (Hi : i mod n < length bs) by (rewrite L; apply Nat.mod_upper_bound; lia).
  pose proof (nth_error_nth' bs [] Hi) as N.
  pose proof (sumf_set (cntp p) bs _ _ (nth (i mod n) bs [] ++ [x]) N) as E. rewrite cntp_app, cntp_cons, cntp_nil in E. rewrite cntp_cons. lia.
Qed.

Lemma cntp_true l : cntp (fun _ => true) l = length l.
Proof. induction l as [|a l IH]; [reflexivity|]. rewrite cntp_cons, IH. reflexivity. Qed.

Lemma iter_init_inv self target peers n k s : iter_init self target peers n k = Ok s ->
  (0 <= n)%Z /\ (forall x, In x (i_visited s) <-> In x (map id_key peers) \/ x = self \/ x = target) /\
  (exists bs, i_lookups s = map (fun b => mkL LFill b [] [] 0 (repeat WIdle (Z.to_nat k))) bs /\ length bs = Z.to_nat n /\
     forall p, sumf (cntp p) bs = cntp p peers) /\
  i_results s = [] /\ i_closed s = false /\ i_found s = [] /\ i_done s = false /\ i_asked s = [] /\ i_answered s = [].
Proof.
  unfold iter_init. destruct (n <? 0)%Z eqn:N; [discriminate|]. apply Z.ltb_ge in N. destruct (k <? 0)%Z.
  - destruct (n =? 0)%Z eqn:Z0; [|discriminate]. destruct peers; [|discriminate].
    intros H. assert (s = mkI [self; target] [] [] false [] false [] []) as -> by congruence. cbn. apply Z.eqb_eq in Z0. subst n.
    repeat split; try tauto; try lia; try (intros; intuition congruence). exists []. auto.
  - destruct (Z.to_nat n) as [|n'] eqn:En, peers as [|x r]; try discriminate; intros H;
      match type of H with Ok ?x = _ => assert (s = x) as -> by congruence end; cbn [i_visited i_lookups i_results i_closed i_found i_done i_asked i_answered].
    + repeat split; try tauto; try lia; try (cbn; intros; intuition congruence). exists []. auto.
    + repeat split; try tauto; try lia; try (cbn; intros; intuition congruence).
      exists (repeat [] (S n')). split; [reflexivity|]. split; [apply repeat_length|]. intros p. rewrite sumf_repeat. cbn. lia.
    + repeat split; try tauto; try lia; try (intros; rewrite in_app_iff in *; cbn [In] in *; intuition congruence).
      exists (deal (S n') 0 (x :: r) (repeat [] (S n'))). split; [reflexivity|]. split; [rewrite deal_length; apply repeat_length|].
      intros p. rewrite deal_count by (rewrite ?repeat_length; lia). rewrite sumf_repeat, cntp_nil. lia.
Qed.

Lemma init_sok self target peers n k s : iter_init self target peers n k = Ok s -> sok (Z.to_nat k) s.
Proof.
  intros H. destruct (iter_init_inv _ _ _ _ _ _ H) as (Hn & Hv & (bs & El & Lb & _) & Er & Ec & Ef & Ed & Ea & Ew).
  split; [|rewrite Ec, Ed; split; discriminate]. rewrite El. intros i l N. apply nth_error_In in N. apply in_map_iff in N as (b & <- & _).
  constructor; cbn; try lia; try discriminate; try (intros; discriminate).
  - apply repeat_length.
  - unfold busy. rewrite sumf_repeat. cbn. lia.
  - intros _. unfold exits. rewrite sumf_repeat. cbn. lia.
Qed.

(** ** Whole runs *)
Lemma irun_inv k (P : istate -> Prop) (Q : iaction -> Prop) :
  (forall s a s', istep k s a = Some s' -> Q a -> P s -> P s') ->
  forall l s s', irun k s l = Some s' -> (forall a, In a l -> Q a) -> P s -> P s'.
Proof.
  intros St. induction l as [|a l IH]; intros s s' H Ql Ps; cbn in H; [injection H as <-; exact Ps|].
  destruct (istep k s a) as [s1|] eqn:E; [|discriminate].
  exact (IH s1 s' H (fun x Hx => Ql x (or_intror Hx)) (St s a s1 E (Ql a (or_introl eq_refl)) Ps)).
Qed.

Lemma run_pend k l s s' key : irun k s l = Some s' -> s_pend (has key) s' + vis s key = s_pend (has key) s + vis s' key.
Proof.
  intros H. refine (irun_inv k (fun x => s_pend (has key) x + vis s key = s_pend (has key) s + vis x key) (fun _ => True) _ l s s' H (fun _ _ => Logic.I) eq_refl).
  intros x a x' St _ E. pose proof (pend_step _ _ _ _ key St). lia.
Qed.

Lemma run_sok k l s s' : irun k s l = Some s' -> sok k s -> sok k s'.
Proof.
  intros H. apply (irun_inv k (sok k) (fun _ => True)) with (l := l); auto.
  intros x a x' St _. exact (sok_step _ _ _ _ St).
Qed.
