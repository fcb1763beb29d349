(** * Lemmas about the gossip model *)
From Verif Require Import Base Spec M_ID M_Codec M_Table P_Table M_Iter P_Iter M_Gossip.
Local Open Scope nat_scope.

Lemma cache_has_in k c : cache_has k c = true <-> In k c.
Proof.
  unfold cache_has. rewrite existsb_exists. split.
  - intros (x & Hx & E). apply bytes_eqb_eq in E. subst. exact Hx.
  - intros H. exists k. split; [exact H | apply bytes_eqb_refl].
Qed.
Lemma cache_set_in k k' c : In k' (cache_set k c) -> k' = k \/ In k' c.
Proof. unfold cache_set. destruct (_ <? _)%N; [intros [->|H]; auto | auto]. Qed.
Lemma cache_set_old k k' c : In k' c -> In k' (cache_set k c).
Proof. unfold cache_set. destruct (_ <? _)%N; [right|]; auto. Qed.
Lemma cache_set_new k c : (N.of_nat (length k) < max_cache_key)%N -> In k (cache_set k c).
Proof. unfold cache_set. intros H. apply N.ltb_lt in H. rewrite H. left. reflexivity. Qed.

Lemma hash_inj k d k' d' : key32 k -> key32 k' -> hash k d = hash k' d' -> k = k' /\ d = d'.
Proof.
  unfold hash, key32. intros A B. assert (L : length k = length k') by congruence. clear A B.
  revert k' L. induction k as [|x k IH]; intros [|y k'] L H; try discriminate; [auto|].
  cbn in H. injection H as -> H. cbn in L. injection L as L. destruct (IH _ L H) as [-> ->]. auto.
Qed.

(** The cache key an event stands for. *)
Definition mark_of (self : pubkey) (e : gev) : option bytes :=
  match e with
  | EvFrom f d => Some (hash (id_key f) d)
  | EvPushed t d => Some (hash (id_key t) d)
  | EvOwn d => Some (hash self d)
  | _ => None
  end.
Definition marked (self : pubkey) (log : list gev) (k : bytes) : Prop := exists e, In e log /\ mark_of self e = Some k.

Lemma marked_app self a b k : marked self (a ++ b) k <-> marked self a k \/ marked self b k.
Proof.
  unfold marked. split.
  - intros (e & H & M). apply in_app_iff in H as [H|H]; [left|right]; exists e; auto.
  - intros [(e & H & M)|(e & H & M)]; exists e; split; auto; apply in_app_iff; auto.
Qed.
Lemma marked_nil self k : ~ marked self [] k.
Proof. intros (e & [] & _). Qed.
Lemma marked_one self e k : marked self [e] k <-> mark_of self e = Some k.
Proof. split; [intros (x & [<-|[]] & H); exact H | intros H; exists e; split; [left; reflexivity|exact H]]. Qed.

Definition is_evict (a : gaction) : bool := match a with GEvict _ => true | _ => false end.

(** Invariants over runs, the actions restricted by [ok]. *)
Lemma grun_inv (P : gstate -> Prop) (ok : gaction -> Prop) self w :
  (forall s a s', P s -> ok a -> gact self w s a = Some s' -> P s') ->
  forall l s s', P s -> (forall a, In a l -> ok a) -> grun self w s l = Some s' -> P s'.
Proof.
  intros St. induction l as [|a l IH]; cbn; intros s s' H A R; [injection R as <-; exact H|].
  destruct (gact self w s a) as [s1|] eqn:E; [|discriminate].
  apply (IH s1); [apply (St s a); auto | intros; apply A; auto | exact R].
Qed.

(** One step, by cases: [gcases H] leaves a goal per program point. *)
Lemma gact_step self w s i ok s' : gact self w s (GStep i ok) = Some s' ->
  exists p c p' new ev, nth_error (g_threads s) i = Some p /\ gstep self (g_entries s) ok (g_cache s) p = (c, p', new, ev) /\
    s' = mkG c (g_entries s) (set_nth i p' (g_threads s) ++ new) (g_log s ++ ev).
Proof.
  cbn. destruct (nth_error (g_threads s) i) as [p|]; [|discriminate].
  destruct (gstep self (g_entries s) ok (g_cache s) p) as [[[c p'] new] ev] eqn:E. intros [= <-].
  exists p, c, p', new, ev. auto.
Qed.

Lemma in_set_nth {A} (l : list A) : forall i x y, In y (set_nth i x l) -> y = x \/ In y l.
Proof.
  induction l as [|a l IH]; intros [|i] x y; cbn; try tauto.
  - intros [->|H]; auto.
  - intros [->|H]; auto. apply IH in H. tauto.
Qed.

(** *** The cache holds what the log shows, and nothing else. *)
Lemma cache_sound_step self w s a s' :
  (forall k, In k (g_cache s) -> marked self (g_log s) k) -> gact self w s a = Some s' ->
  forall k, In k (g_cache s') -> marked self (g_log s') k.
Proof.
  intros I H k. destruct a as [i ok|from d|d|es|k'].
  - destruct (gact_step _ _ _ _ _ _ H) as (p & c & p' & new & ev & N & E & ->). cbn [g_cache g_log].
    rewrite marked_app.
    assert (X : In k c -> In k (g_cache s) \/ marked self ev k).
    { destruct p; cbn in E; repeat match type of E with (if ?b then _ else _) = _ => destruct b end;
        injection E as <- <- <- <-; auto; intros Hk; apply cache_set_in in Hk as [->|Hk]; auto; right; apply marked_one; reflexivity. }
    intros Hk. apply X in Hk as [Hk|Hk]; auto.
  - cbn [gact] in H. destruct (_ <? w); [|discriminate]. injection H as <-. apply I.
  - injection H as <-. apply I.
  - injection H as <-. apply I.
  - injection H as <-. cbn. intros Hk. apply filter_In in Hk as [Hk _]. apply I, Hk.
Qed.

Lemma cache_complete_step self w s a s' :
  (forall k, (N.of_nat (length k) < max_cache_key)%N -> marked self (g_log s) k -> In k (g_cache s)) ->
  is_evict a = false -> gact self w s a = Some s' ->
  forall k, (N.of_nat (length k) < max_cache_key)%N -> marked self (g_log s') k -> In k (g_cache s').
Proof.
  intros I NE H k F. destruct a as [i ok|from d|d|es|k']; [| | | |discriminate].
  - destruct (gact_step _ _ _ _ _ _ H) as (p & c & p' & new & ev & N & E & ->). cbn [g_cache g_log].
    rewrite marked_app.
    assert (X : marked self ev k -> In k c).
    { destruct p; cbn in E; repeat match type of E with (if ?b then _ else _) = _ => destruct b end;
        injection E as <- <- <- <-; intros M; try (apply marked_nil in M; contradiction); apply marked_one in M;
        cbn in M; try discriminate; injection M as <-; apply cache_set_new; exact F. }
    assert (Y : In k (g_cache s) -> In k c).
    { destruct p; cbn in E; repeat match type of E with (if ?b then _ else _) = _ => destruct b end;
        injection E as <- <- <- <-; auto; apply cache_set_old. }
    intros [M|M]; auto.
  - cbn [gact] in H. destruct (_ <? w); [|discriminate]. injection H as <-. apply I, F.
  - injection H as <-. apply I, F.
  - injection H as <-. apply I, F.
Qed.

(** *** Counting *)
Definition cntb {A} (p : A -> bool) (l : list A) : nat := sumf (fun x => Nat.b2n (p x)) l.
Lemma cntb_app {A} (p : A -> bool) a b : cntb p (a ++ b) = cntb p a + cntb p b.
Proof. apply sumf_app. Qed.
Lemma cntb_filter {A} (p : A -> bool) l : length (filter p l) = cntb p l.
Proof. induction l as [|a l IH]; [reflexivity|]. cbn. destruct (p a); cbn; rewrite IH; reflexivity. Qed.
Lemma cntb_pos {A} (p : A -> bool) l x : In x l -> p x = true -> 0 < cntb p l.
Proof.
  induction l as [|a l IH]; [intros []|]. intros [->|H] E; unfold cntb in *; cbn [sumf]; [rewrite E; cbn; lia|]. specialize (IH H E). lia.
Qed.
Lemma cntb_zero {A} (p : A -> bool) l : (forall x, In x l -> p x = false) -> cntb p l = 0.
Proof. intros H. apply sumf_zero. intros x Hx. rewrite (H x Hx). reflexivity. Qed.
Lemma cntb_le {A} (p q : A -> bool) l : (forall x, p x = true -> q x = true) -> cntb p l <= cntb q l.
Proof.
  intros H. induction l as [|a l IH]; [reflexivity|]. unfold cntb in *. cbn [sumf]. specialize (H a).
  destruct (p a), (q a); cbn; try lia.
Qed.
Lemma cntb_ex {A} (p : A -> bool) l : 0 < cntb p l -> exists x, In x l /\ p x = true.
Proof.
  induction l as [|a l IH]; [cbn; lia|]. unfold cntb in *. cbn [sumf]. destruct (p a) eqn:E.
  - intros _. exists a. split; [left; reflexivity|exact E].
  - cbn. intros H. destruct (IH H) as (x & Hx & Ex). exists x. split; [right|]; assumption.
Qed.

Definition about (d : bytes) (p : gpc) : bool :=
  match p with GSetSelf _ d' | GEvent _ d' => bytes_eqb d d' | _ => false end.
Definition at_set (d : bytes) (p : gpc) : bool := match p with GSetSelf _ d' => bytes_eqb d d' | _ => false end.
Definition at_event (d : bytes) (p : gpc) : bool := match p with GEvent _ d' => bytes_eqb d d' | _ => false end.
Definition is_received (d : bytes) (e : gev) : bool := match e with EvReceived _ d' => bytes_eqb d d' | _ => false end.

(** At most [w] Handle calls run at once, so at most [w] are past the check before one of them marks the content. *)
Definition winv (self : pubkey) (w : nat) (d : bytes) (s : gstate) : Prop :=
  cntb handling (g_threads s) <= w /\
  (In (hash self d) (g_cache s) \/ (cntb (is_received d) (g_log s) = 0 /\ cntb (at_event d) (g_threads s) = 0)) /\
  cntb (is_received d) (g_log s) + cntb (at_set d) (g_threads s) + cntb (at_event d) (g_threads s) <= w.

Lemma winv_step self w d s a s' :
  (N.of_nat (length (hash self d)) < max_cache_key)%N ->
  winv self w d s -> is_evict a = false -> gact self w s a = Some s' -> winv self w d s'.
Proof.
  intros F (A & B & C) NE H. unfold winv. destruct a as [i ok|from d'|d'|es|k']; [| | | |discriminate].
  - destruct (gact_step _ _ _ _ _ _ H) as (p & c & p' & new & ev & N & E & ->). cbn [g_cache g_log g_threads].
    rewrite !cntb_app. unfold cntb in *.
    pose proof (sumf_set (fun x => Nat.b2n (handling x)) _ i _ p' N) as S1.
    pose proof (sumf_set (fun x => Nat.b2n (at_set d x)) _ i _ p' N) as S2.
    pose proof (sumf_set (fun x => Nat.b2n (at_event d x)) _ i _ p' N) as S3.
    assert (L1 : sumf (fun x => Nat.b2n (at_set d x)) (g_threads s) + sumf (fun x => Nat.b2n (at_event d x)) (g_threads s)
                 + sumf (fun x => Nat.b2n (handling x && negb (at_set d x) && negb (at_event d x))) (g_threads s)
                 = sumf (fun x => Nat.b2n (handling x)) (g_threads s)).
    { rewrite <- !sumf_add. apply sumf_ext. intros []; cbn; try destruct (bytes_eqb d _); reflexivity. }
    assert (Mo : In (hash self d) (g_cache s) -> In (hash self d) c).
    { destruct p; cbn in E; repeat match type of E with (if ?b then _ else _) = _ => destruct b end;
        injection E as <- <- <- <-; auto; apply cache_set_old. }
    assert (Z : forall X, (forall x, In x X -> handling x = false) ->
      sumf (fun x => Nat.b2n (handling x)) X = 0 /\ sumf (fun x => Nat.b2n (at_set d x)) X = 0 /\ sumf (fun x => Nat.b2n (at_event d x)) X = 0).
    { intros X HX. repeat split; apply sumf_zero; intros x Hx; specialize (HX x Hx); destruct x; cbn in *; try discriminate; reflexivity. }
    assert (W : forall x, In x new -> handling x = false).
    { intros x Hx. destruct p; cbn in E; repeat match type of E with (if ?b then _ else _) = _ => destruct b end;
        injection E as <- <- <- <-; try contradiction Hx. apply in_map_iff in Hx as (y & <- & _). reflexivity. }
    destruct (Z new W) as (Z1 & Z2 & Z3). rewrite Z1, Z2, Z3.
    destruct p; cbn in E.
    2:{ (* GHasSelf *)
      destruct (cache_has (hash self d0) (g_cache s)) eqn:Ch; injection E as <- <- <- <-;
        cbn [handling at_set at_event Nat.b2n sumf] in *; [split; [lia|]; split; [|lia]; destruct B as [B|(B1 & B2)]; [left; exact B|right; lia] |].
      destruct (bytes_eqb_spec d d0) as [<-|Nd]; cbn [Nat.b2n] in *.
      - destruct B as [B|(B1 & B2)]; [apply cache_has_in in B; congruence|].
        assert (0 < sumf (fun x => Nat.b2n (handling x && negb (at_set d x) && negb (at_event d x))) (g_threads s)).
        { eapply Nat.lt_le_trans; [|apply (sumf_le _ _ _ _ N)]. cbn. lia. }
        split; [lia|]. split; [right; lia|]. lia.
      - split; [lia|]. split; [|lia]. destruct B as [B|(B1 & B2)]; [left; exact B|right; lia]. }
    2:{ (* GSetSelf *)
      injection E as <- <- <- <-. cbn [handling at_set at_event is_received Nat.b2n sumf] in *.
      destruct (bytes_eqb_spec d d0) as [<-|Nd]; cbn [Nat.b2n] in *.
      - split; [lia|]. split; [left; apply cache_set_new; exact F|]. lia.
      - split; [lia|]. split; [|lia]. destruct B as [B|(B1 & B2)]; [left; apply cache_set_old; exact B|right; lia]. }
    2:{ (* GEvent *)
      destruct ok; injection E as <- <- <- <-; cbn [handling at_set at_event is_received Nat.b2n sumf] in *;
      (destruct (bytes_eqb_spec d d0) as [<-|Nd]; cbn [Nat.b2n] in *;
       [ destruct B as [B|(B1 & B2)]; [split; [lia|]; split; [left; exact B|lia] |];
         pose proof (sumf_le (fun x => Nat.b2n (at_event d x)) _ _ _ N) as Q; cbn in Q; rewrite bytes_eqb_refl in Q; cbn in Q; lia
       | split; [lia|]; split; [|lia]; destruct B as [B|(B1 & B2)]; [left; exact B|right; lia] ]). }
    all: repeat match type of E with (if ?b then _ else _) = _ => destruct b end;
      injection E as <- <- <- <-; cbn [handling at_set at_event is_received Nat.b2n sumf] in *;
      (split; [lia|]; split; [|lia]; destruct B as [B|(B1 & B2)]; [left; auto|right; lia]).
  - cbn [gact] in H. destruct (_ <? w) eqn:L; [|discriminate]. injection H as <-. cbn [g_cache g_log g_threads].
    apply Nat.ltb_lt in L. rewrite cntb_filter in L. rewrite !cntb_app. unfold cntb in *. cbn [sumf handling at_set at_event Nat.b2n].
    split; [lia|]. split; [|lia]. destruct B as [B|(B1 & B2)]; [left; exact B|right; lia].
  - injection H as <-. cbn [g_cache g_log g_threads]. rewrite !cntb_app. unfold cntb in *. cbn [sumf handling at_set at_event Nat.b2n].
    split; [lia|]. split; [|lia]. destruct B as [B|(B1 & B2)]; [left; exact B|right; lia].
  - injection H as <-. cbn [g_cache g_log g_threads]. auto.
Qed.

(** *** Push's goroutines run after the content is marked as the node's own. *)
Definition pushing (p : gpc) : option bytes :=
  match p with GEvent _ d | GEntries d | GCheck _ d | GSend _ d | GMark _ d => Some d | _ => None end.
Definition own_inv (s : gstate) : Prop := forall p d, In p (g_threads s) -> pushing p = Some d -> In (EvOwn d) (g_log s).
Lemma own_step self w s a s' : own_inv s -> gact self w s a = Some s' -> own_inv s'.
Proof.
  unfold own_inv. intros I H q d Hq Pq. destruct a as [i ok|from d'|d'|es|k'].
  - destruct (gact_step _ _ _ _ _ _ H) as (p & c & p' & new & ev & N & E & ->). cbn [g_threads g_log] in *.
    apply in_app_iff. apply in_app_iff in Hq as [Hq|Hq].
    + apply in_set_nth in Hq as [->|Hq]; [|left; apply (I q); assumption].
      assert (Hp : In p (g_threads s)) by (apply nth_error_In in N; exact N).
      destruct p; cbn in E; repeat match type of E with (if ?b then _ else _) = _ => destruct b end;
        repeat match type of E with context [if ?b then _ else _] => destruct b end;
        injection E as <- <- <- <-; cbn in Pq; try discriminate; injection Pq as <-;
        try (right; left; reflexivity); left; apply (I _ _ Hp); reflexivity.
    + assert (Hp : In p (g_threads s)) by (apply nth_error_In in N; exact N).
      destruct p; cbn in E; repeat match type of E with (if ?b then _ else _) = _ => destruct b end;
        injection E as <- <- <- <-; try contradiction Hq.
      apply in_map_iff in Hq as (y & <- & _). cbn in Pq. injection Pq as <-. left. apply (I _ _ Hp). reflexivity.
  - cbn [gact] in H. destruct (_ <? w); [|discriminate]. injection H as <-. cbn in *. apply in_app_iff in Hq as [Hq|[<-|[]]]; [|discriminate].
    apply (I q); assumption.
  - injection H as <-. cbn in *. apply in_app_iff in Hq as [Hq|[<-|[]]]; [|discriminate]. apply (I q); assumption.
  - injection H as <-. apply (I q); assumption.
  - injection H as <-. apply (I q); assumption.
Qed.

Lemma app_snoc_split {A} (l l1 l2 : list A) e x : l ++ [e] = l1 ++ x :: l2 ->
  (exists l2', l = l1 ++ x :: l2') \/ (x = e /\ l = l1).
Proof.
  destruct l2 as [|y l2 _] using rev_ind.
  - intros H. apply app_inj_tail in H as [-> ->]. right. auto.
  - intros H. change (l1 ++ x :: l2 ++ [y]) with (l1 ++ (x :: l2) ++ [y]) in H. rewrite app_assoc in H.
    apply app_inj_tail in H as [-> _]. left. exists l2. reflexivity.
Qed.

Lemma gstep_ev_len self es ok c p c' p' new ev : gstep self es ok c p = (c', p', new, ev) -> ev = [] \/ exists e, ev = [e].
Proof.
  destruct p; cbn; repeat match goal with |- context [if ?b then _ else _] => destruct b end; intros [= <- <- <- <-]; eauto.
Qed.

(** *** Keys are 32 bytes; a sender is another node. *)
Definition gok (self : pubkey) (a : gaction) : Prop :=
  match a with
  | GArrive f _ => key32 (id_key f) /\ id_key f <> self
  | GTable es => Forall (fun id => key32 (id_key id)) es
  | _ => True
  end.
Definition pc_ok (self : pubkey) (p : gpc) : Prop :=
  match p with
  | GSetSender f _ | GHasSelf f _ | GSetSelf f _ | GEvent f _ => key32 (id_key f) /\ id_key f <> self
  | GCheck t _ | GSend t _ | GMark t _ => key32 (id_key t)
  | _ => True
  end.
Definition ev_ok (self : pubkey) (e : gev) : Prop :=
  match e with
  | EvFrom f _ | EvReceived f _ => key32 (id_key f) /\ id_key f <> self
  | EvSkip t _ | EvDecide t _ | EvSent t _ | EvPushed t _ => key32 (id_key t)
  | EvOwn _ => True
  end.
Definition ids_inv (self : pubkey) (s : gstate) : Prop :=
  Forall (fun id => key32 (id_key id)) (g_entries s) /\ Forall (pc_ok self) (g_threads s) /\ Forall (ev_ok self) (g_log s).
Lemma ids_step self w s a s' : ids_inv self s -> gok self a -> gact self w s a = Some s' -> ids_inv self s'.
Proof.
  intros (A & B & C) G H. destruct a as [i ok|from d'|d'|es|k'].
  - destruct (gact_step _ _ _ _ _ _ H) as (p & c & p' & new & ev & N & E & ->). unfold ids_inv. cbn [g_threads g_log g_entries].
    assert (Hp : pc_ok self p) by (rewrite Forall_forall in B; apply B; apply nth_error_In in N; exact N).
    assert (X : pc_ok self p' /\ Forall (pc_ok self) new /\ Forall (ev_ok self) ev).
    { destruct p; cbn in E; repeat match type of E with (if ?b then _ else _) = _ => destruct b end;
        repeat match type of E with context [if ?b then _ else _] => destruct b end;
        injection E as <- <- <- <-; (split; [exact Hp || exact I|split]); try (constructor; [exact Hp || exact I|]); try constructor.
      apply Forall_forall. intros x Hx. apply in_map_iff in Hx as (y & <- & Hy). rewrite Forall_forall in A. exact (A y Hy). }
    destruct X as (X1 & X2 & X3). split; [exact A|]. split.
    + apply Forall_app. split; [|exact X2]. apply Forall_forall. intros x Hx. apply in_set_nth in Hx as [->|Hx]; [exact X1|].
      rewrite Forall_forall in B. apply B, Hx.
    + apply Forall_app. auto.
  - cbn [gact] in H. destruct (_ <? w); [|discriminate]. injection H as <-. unfold ids_inv. cbn [g_threads g_log g_entries]. repeat split; auto.
    apply Forall_app. split; [exact B|]. constructor; [exact G|constructor].
  - injection H as <-. unfold ids_inv. cbn [g_threads g_log g_entries]. repeat split; auto.
    apply Forall_app. split; [exact B|]. constructor; [exact I|constructor].
  - injection H as <-. repeat split; auto.
  - injection H as <-. repeat split; auto.
Qed.

(** A peer recorded as pushed to was pushed the node's own content. *)
Definition pushed_inv (s : gstate) : Prop := forall t d, In (EvPushed t d) (g_log s) -> In (EvOwn d) (g_log s).
Lemma pushed_step self w s a s' : own_inv s -> pushed_inv s -> gact self w s a = Some s' -> pushed_inv s'.
Proof.
  unfold pushed_inv. intros O I H t d Ht. destruct a as [i ok|from d'|d'|es|k'].
  - destruct (gact_step _ _ _ _ _ _ H) as (p & c & p' & new & ev & N & E & ->). cbn [g_log] in *.
    apply in_app_iff. apply in_app_iff in Ht as [Ht|Ht]; [left; apply (I t), Ht|].
    assert (Hp : In p (g_threads s)) by (apply nth_error_In in N; exact N).
    destruct p; cbn in E; repeat match type of E with (if ?b then _ else _) = _ => destruct b end;
      injection E as <- <- <- <-; try contradiction Ht; destruct Ht as [Ht|[]]; try discriminate Ht.
    injection Ht as -> ->. left. apply (O _ _ Hp). reflexivity.
  - cbn [gact] in H. destruct (_ <? w); [|discriminate]. injection H as <-. apply (I t), Ht.
  - injection H as <-. apply (I t), Ht.
  - injection H as <-. apply (I t), Ht.
  - injection H as <-. apply (I t), Ht.
Qed.

(** A mark for (k, d) comes from an event about exactly k and d. *)
Definition about_pair (self : pubkey) (k : pubkey) (d : bytes) (e : gev) : Prop :=
  (exists f, e = EvFrom f d /\ id_key f = k) \/ (exists t, e = EvPushed t d /\ id_key t = k) \/ (e = EvOwn d /\ k = self).
Lemma marked_pair self s k d : key32 self -> key32 k -> ids_inv self s -> marked self (g_log s) (hash k d) ->
  exists e, In e (g_log s) /\ about_pair self k d e.
Proof.
  intros Ks Kk (_ & _ & C) (e & He & M). exists e. split; [exact He|]. rewrite Forall_forall in C. specialize (C e He).
  destruct e; cbn in M, C; try discriminate; injection M as M; apply hash_inj in M as [E1 E2]; try assumption; try tauto; subst.
  - left. eexists; split; [reflexivity|assumption || reflexivity].
  - right. left. eexists; split; reflexivity.
  - right. right. auto.
Qed.

(** *** A message handled is not lost. *)
Definition waiting (d : bytes) (p : gpc) : Prop := match p with GHasSelf _ d' | GSetSelf _ d' => d' = d | _ => False end.
Definition lost_inv (self : pubkey) (d : bytes) (s : gstate) : Prop :=
  (forall f, In (EvFrom f d) (g_log s) -> (exists p, In p (g_threads s) /\ waiting d p) \/ In (EvOwn d) (g_log s)) /\
  (In (EvOwn d) (g_log s) -> (exists f, In (GEvent f d) (g_threads s)) \/ (exists f, In (EvReceived f d) (g_log s))) /\
  (In (GPush d) (g_threads s) -> exists f, In (EvReceived f d) (g_log s)).
Definition not_call (d : bytes) (a : gaction) : Prop := a <> GCall d.

Lemma in_set_cases {A} (l : list A) : forall i x y z, nth_error l i = Some x -> In y l -> y = x \/ In y (set_nth i z l).
Proof.
  induction l as [|a l IH]; intros [|i] x y z N H; cbn in *; try contradiction.
  - injection N as ->. destruct H as [->|H]; auto.
  - destruct H as [->|H]; [auto|]. destruct (IH i x y z N H); auto.
Qed.
Lemma in_set_new {A} (l : list A) : forall i x z, nth_error l i = Some x -> In z (set_nth i z l).
Proof. induction l as [|a l IH]; intros [|i] x z N; cbn in *; try discriminate; [left; reflexivity|]. right. apply (IH i x), N. Qed.

Lemma lost_step self w d s a s' : key32 self -> ids_inv self s -> own_inv s -> pushed_inv s ->
  (forall k, In k (g_cache s) -> marked self (g_log s) k) ->
  lost_inv self d s -> not_call d a -> gact self w s a = Some s' -> lost_inv self d s'.
Proof.
  intros Ks Ids Own Pu So (A & B & C) NC H. unfold lost_inv. destruct a as [i ok|from d'|d'|es|k'].
  - destruct (gact_step _ _ _ _ _ _ H) as (p & c & p' & new & ev & N & E & ->). cbn [g_threads g_log].
    assert (Hp : In p (g_threads s)) by (apply nth_error_In in N; exact N).
    set (th := set_nth i p' (g_threads s)) in *.
    assert (Old : forall q, In q (g_threads s) -> q = p \/ In q (th ++ new)).
    { intros q Hq. destruct (in_set_cases _ i p q p' N Hq) as [D|D]; [left; exact D|]. right. apply in_app_iff. left. exact D. }
    assert (Nw : In p' (th ++ new)) by (apply in_app_iff; left; apply (in_set_new _ i p); exact N).
    assert (Th : forall q, In q (th ++ new) -> q = p' \/ In q (g_threads s) \/ In q new).
    { intros q Hq. apply in_app_iff in Hq as [Hq|Hq]; [|auto]. apply in_set_nth in Hq as [->|Hq]; auto. }
    split; [|split].
    + intros f Hf. apply in_app_iff in Hf as [Hf|Hf].
      * apply A in Hf as [(q & Hq & W)|Hf]; [|right; apply in_app_iff; left; exact Hf].
        apply Old in Hq as [->|Hq]; [|left; exists q; split; assumption].
        destruct p; cbn in W; try contradiction; subst; cbn in E.
        -- destruct (cache_has (hash self d) (g_cache s)) eqn:Ch; injection E as <- <- <- <-.
           ++ right. apply in_app_iff. left. apply cache_has_in in Ch. apply So in Ch.
              destruct (marked_pair self s self d Ks Ks Ids Ch) as (e & He & [(g & -> & Eg)|[(t & -> & Et)|(-> & _)]]).
              ** destruct Ids as (_ & _ & C'). rewrite Forall_forall in C'. specialize (C' _ He). cbn in C'. tauto.
              ** apply (Pu t), He.
              ** exact He.
           ++ left. eexists. split; [exact Nw|reflexivity].
        -- injection E as <- <- <- <-. right. apply in_app_iff. right. left. reflexivity.
      * destruct p; cbn in E; repeat match type of E with (if ?b then _ else _) = _ => destruct b end;
          repeat match type of E with context [if ?b then _ else _] => destruct b end;
          injection E as <- <- <- <-; try contradiction Hf; destruct Hf as [Hf|[]]; try discriminate Hf.
        injection Hf as -> ->. left. eexists. split; [exact Nw|reflexivity].
    + intros Ho. apply in_app_iff in Ho as [Ho|Ho].
      * apply B in Ho as [(f & Hf)|(f & Hf)]; [|right; exists f; apply in_app_iff; left; exact Hf].
        apply Old in Hf as [Ep|Hf]; [|left; exists f; exact Hf]. subst p. cbn in E. injection E as <- <- <- <-.
        right. exists f. apply in_app_iff. right. left. reflexivity.
      * destruct p; cbn in E; repeat match type of E with (if ?b then _ else _) = _ => destruct b end;
          repeat match type of E with context [if ?b then _ else _] => destruct b end;
          injection E as <- <- <- <-; try contradiction Ho; destruct Ho as [Ho|[]]; try discriminate Ho; injection Ho as ->.
        -- left. eexists. exact Nw.
        -- right. destruct (C Hp) as (f & Hf). exists f. apply in_app_iff. left. exact Hf.
    + intros Hq. apply Th in Hq as [Eq|[Hq|Hq]].
      * destruct p; cbn in E; repeat match type of E with (if ?b then _ else _) = _ => destruct b end;
          repeat match type of E with context [if ?b then _ else _] => destruct b end;
          injection E as <- <- <- <-; try discriminate Eq. injection Eq as ->.
        eexists. apply in_app_iff. right. left. reflexivity.
      * destruct (C Hq) as (f & Hf). exists f. apply in_app_iff. left. exact Hf.
      * destruct p; cbn in E; repeat match type of E with (if ?b then _ else _) = _ => destruct b end;
          repeat match type of E with context [if ?b then _ else _] => destruct b end;
          injection E as <- <- <- <-; try contradiction Hq. apply in_map_iff in Hq as (y & Hy & _). discriminate.
  - cbn [gact] in H. destruct (_ <? w); [|discriminate]. injection H as <-. cbn [g_threads g_log].
    split; [|split].
    + intros f Hf. apply A in Hf as [(q & Hq & W)|Hf]; [|right; exact Hf]. left. exists q. split; [apply in_app_iff; left; exact Hq|exact W].
    + intros Ho. apply B in Ho as [(f & Hf)|Hf]; [|right; exact Hf]. left. exists f. apply in_app_iff. left. exact Hf.
    + intros Hq. apply in_app_iff in Hq as [Hq|[Hq|[]]]; [apply C, Hq|discriminate].
  - injection H as <-. cbn [g_threads g_log]. split; [|split].
    + intros f Hf. apply A in Hf as [(q & Hq & W)|Hf]; [|right; exact Hf]. left. exists q. split; [apply in_app_iff; left; exact Hq|exact W].
    + intros Ho. apply B in Ho as [(f & Hf)|Hf]; [|right; exact Hf]. left. exists f. apply in_app_iff. left. exact Hf.
    + intros Hq. apply in_app_iff in Hq as [Hq|[Hq|[]]]; [apply C, Hq|]. injection Hq as ->. contradiction NC. reflexivity.
  - injection H as <-. split; [exact A|split; [exact B|exact C]].
  - injection H as <-. split; [exact A|split; [exact B|exact C]].
Qed.

(** *** Deciding, sending *)
Definition at_send (q : ID -> bytes -> bool) (p : gpc) : bool := match p with GSend t d => q t d | _ => false end.
Definition ev_decide (q : ID -> bytes -> bool) (e : gev) : bool := match e with EvDecide t d => q t d | _ => false end.
Definition ev_sent (q : ID -> bytes -> bool) (e : gev) : bool := match e with EvSent t d => q t d | _ => false end.
Lemma decide_step self w q s a s' :
  cntb (ev_sent q) (g_log s) + cntb (at_send q) (g_threads s) <= cntb (ev_decide q) (g_log s) ->
  gact self w s a = Some s' ->
  cntb (ev_sent q) (g_log s') + cntb (at_send q) (g_threads s') <= cntb (ev_decide q) (g_log s').
Proof.
  intros I H. destruct a as [i ok|from d'|d'|es|k'].
  - destruct (gact_step _ _ _ _ _ _ H) as (p & c & p' & new & ev & N & E & ->). cbn [g_threads g_log].
    rewrite !cntb_app. unfold cntb in *. pose proof (sumf_set (fun x => Nat.b2n (at_send q x)) _ i _ p' N) as S1.
    assert (Z : sumf (fun x => Nat.b2n (at_send q x)) new = 0).
    { apply sumf_zero. intros x Hx. destruct p; cbn in E; repeat match type of E with (if ?b then _ else _) = _ => destruct b end;
        injection E as <- <- <- <-; try contradiction Hx. apply in_map_iff in Hx as (y & <- & _). reflexivity. }
    rewrite Z.
    destruct p; cbn in E; repeat match type of E with (if ?b then _ else _) = _ => destruct b end;
      repeat match type of E with context [if ?b then _ else _] => destruct b end;
      injection E as <- <- <- <-; cbn [at_send ev_sent ev_decide sumf Nat.b2n] in *; try lia.
  - cbn [gact] in H. destruct (_ <? w); [|discriminate]. injection H as <-. cbn [g_threads g_log]. rewrite cntb_app. unfold cntb in *. cbn. lia.
  - injection H as <-. cbn [g_threads g_log]. rewrite cntb_app. unfold cntb in *. cbn. lia.
  - injection H as <-. exact I.
  - injection H as <-. exact I.
Qed.
