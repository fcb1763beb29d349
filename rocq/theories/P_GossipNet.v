(** * Lemmas about the gossip network *)
From Verif Require Import Base M_Table P_Table M_Iter P_Iter M_Gossip P_Gossip.
From Coq Require Import Permutation.
Local Open Scope nat_scope.

Section Net.
Variable peers : list (list nat).
Let n := length peers.
Variable o : nat.
Hypothesis Ho : o < n.
Hypothesis Hp : forall i j, In j (nth i peers []) -> j < n.

Lemma nseen_mark s i j a b : length (nt_seen s) = n -> a < n -> forall th w r x,
  nseen (mkNet (nmark true s a b) th w r x) i j = nseen s i j || ((i =? a) && (j =? b)).
Proof.
  intros L A th w r x. unfold nseen, nmark. cbn [nt_seen]. rewrite nth_set_nth.
  replace (a <? length (nt_seen s)) with true by (symmetry; apply Nat.ltb_lt; lia). rewrite andb_true_r.
  destruct (Nat.eqb_spec i a) as [->|D]; cbn [andb]; [|rewrite orb_false_r; reflexivity].
  cbn [existsb]. rewrite orb_comm. reflexivity.
Qed.
Lemma nmark_length s a b : length (nmark true s a b) = length (nt_seen s).
Proof. unfold nmark. apply set_nth_length. Qed.
Lemma in_remove {A} (l : list A) : forall k x, In x (remove_nth k l) -> In x l.
Proof. induction l as [|a l IH]; intros [|k] x; cbn; try tauto. intros [->|H]; [auto|]. right. apply (IH k), H. Qed.
Lemma in_remove_cases {A} (l : list A) : forall k x y, nth_error l k = Some x -> In y l -> y = x \/ In y (remove_nth k l).
Proof.
  induction l as [|a l IH]; intros [|k] x y N H; cbn in *; try contradiction.
  - injection N as ->. destruct H as [->|H]; auto.
  - destruct H as [->|H]; auto. destruct (IH k x y N H); auto.
Qed.
Lemma sumf_remove {A} (f : A -> nat) (l : list A) : forall k x, nth_error l k = Some x -> sumf f (remove_nth k l) + f x = sumf f l.
Proof.
  induction l as [|a l IH]; intros [|k] x N; cbn in *; try discriminate.
  - injection N as ->. lia.
  - specialize (IH k x N). lia.
Qed.

(** A node that knows the message or is about to. *)
Definition informed (s : net) (j : nat) : Prop :=
  nseen s j j = true \/ In (NPass j) (nt_threads s) \/ exists i, In (i, j) (nt_wire s).
Definition tok (s : net) (t : nthread) : Prop :=
  match t with
  | NPass i => i < n /\ i <> o
  | NCheck i j | NSend i j => i < n /\ j < n /\ nseen s i i = true
  | NMark i j => i < n /\ j < n /\ nseen s i i = true /\ informed s j
  end.
Record ninv (s : net) : Prop := {
  ni_len : length (nt_seen s) = n;
  ni_thr : forall t, In t (nt_threads s) -> tok s t;
  ni_wire : forall i j, In (i, j) (nt_wire s) -> i < n /\ j < n /\ nseen s i i = true;
  ni_seen : forall i j, nseen s i j = true -> informed s j;
  ni_push : forall i j, i < n -> nseen s i i = true -> In j (nth i peers []) ->
              informed s j \/ In (NCheck i j) (nt_threads s) \/ In (NSend i j) (nt_threads s);
  ni_recv : forall i, nseen s i i = true -> i = o \/ In i (nt_received s);
  ni_o : nseen s o o = true /\ ~ In o (nt_received s)
}.

Lemma tok_mono s s' t : (forall i j, nseen s i j = true -> nseen s' i j = true) -> (forall j, informed s j -> informed s' j) -> tok s t -> tok s' t.
Proof. intros M I. destruct t; cbn; intuition. Qed.

Lemma ninv_start : ninv (net_start true peers o).
Proof.
  set (s0 := mkNet (map (fun _ => []) peers) [] [] [] []).
  assert (L0 : length (nt_seen s0) = n) by (cbn; rewrite map_length; reflexivity).
  assert (E0 : forall i j, nseen s0 i j = false).
  { intros i j. unfold nseen. cbn. destruct (nth_in_or_default i (map (fun _ => []) peers) (@nil nat)) as [H|H]; [|rewrite H; reflexivity].
    apply in_map_iff in H as (x & <- & _). reflexivity. }
  assert (E : forall i j, nseen (net_start true peers o) i j = (i =? o) && (j =? o)).
  { intros i j. unfold net_start. fold s0. rewrite nseen_mark by (assumption || exact L0). rewrite E0. reflexivity. }
  constructor.
  - unfold net_start. cbn [nt_seen]. rewrite nmark_length. exact L0.
  - intros t Ht. cbn in Ht. apply in_map_iff in Ht as (j & <- & Hj). cbn [tok]. split; [exact Ho|]. split; [apply (Hp o j Hj)|]. rewrite E, Nat.eqb_refl. reflexivity.
  - cbn. tauto.
  - intros i j H. rewrite E in H. apply andb_prop in H as [_ H]. apply Nat.eqb_eq in H as ->. left. rewrite E, Nat.eqb_refl. reflexivity.
  - intros i j Hi H Hj. rewrite E in H. apply andb_prop in H as [H _]. apply Nat.eqb_eq in H as ->. right. left. cbn. apply in_map, Hj.
  - intros i H. rewrite E in H. apply andb_prop in H as [H _]. apply Nat.eqb_eq in H. auto.
  - split; [rewrite E, Nat.eqb_refl; reflexivity | cbn; tauto].
Qed.

Lemma ninv_step s a s' : ninv s -> nact true peers s a = Some s' -> ninv s'.
Proof.
  intros [L T W Se Pu Re [Oo Or]] H. destruct a as [m|k]; cbn [nact] in H.
  - destruct (nth_error (nt_wire s) m) as [[i j]|] eqn:N; [|discriminate].
    assert (Hw : In (i, j) (nt_wire s)) by (apply nth_error_In in N; exact N). destruct (W i j Hw) as (Hi & Hj & Hs).
    set (s1 := mkNet (nmark true s j i) (nt_threads s) (remove_nth m (nt_wire s)) (nt_received s) (nt_sent s)) in H.
    assert (E1 : forall a b, nseen s1 a b = nseen s a b || ((a =? j) && (b =? i))) by (intros; apply nseen_mark; assumption).
    assert (s' = mkNet (nt_seen s1) (if nseen s1 j j then nt_threads s1 else nt_threads s1 ++ [NPass j]) (nt_wire s1) (nt_received s1) (nt_sent s1)) as -> by congruence.
    set (s' := mkNet _ _ _ _ _).
    assert (E : forall a b, nseen s' a b = nseen s a b || ((a =? j) && (b =? i))) by (intros; apply E1).
    assert (Eth : nt_threads s' = if nseen s1 j j then nt_threads s else nt_threads s ++ [NPass j]) by reflexivity.
    assert (Ewi : nt_wire s' = remove_nth m (nt_wire s)) by reflexivity.
    assert (Ere : nt_received s' = nt_received s) by reflexivity.
    assert (Ese : nt_seen s' = nmark true s j i) by reflexivity.
    clearbody s'.
    assert (M : forall a b, nseen s a b = true -> nseen s' a b = true) by (intros a b X; rewrite E, X; reflexivity).
    assert (Tk : forall t, In t (nt_threads s) -> In t (nt_threads s')).
    { intros t Ht. rewrite Eth. destruct (nseen s1 j j); [exact Ht|]. apply in_app_iff. left. exact Ht. }
    assert (Jj : informed s' j).
    { unfold informed. destruct (nseen s1 j j) eqn:Q; [left; rewrite E; rewrite E1 in Q; exact Q|]. right. left. rewrite Eth.
      rewrite ?Q. apply in_app_iff. right. left. reflexivity. }
    assert (I : forall b, informed s b -> informed s' b).
    { intros b [X|[X|(c & X)]]; [left; apply M, X|right; left; apply Tk, X|].
      destruct (in_remove_cases _ m (i, j) (c, b) N X) as [Q|Q]; [injection Q as -> ->; exact Jj|]. right. right. exists c. rewrite Ewi. exact Q. }
    constructor.
    + rewrite Ese, nmark_length. exact L.
    + intros t Ht. rewrite Eth in Ht. destruct (nseen s1 j j) eqn:Q.
      * apply (tok_mono s); auto.
      * apply in_app_iff in Ht as [Ht|[<-|[]]]; [apply (tok_mono s); auto|]. cbn [tok]. split; [exact Hj|].
        intros ->. rewrite E1, Oo in Q. discriminate.
    + intros a b X. rewrite Ewi in X. apply in_remove in X. destruct (W a b X) as (A1 & A2 & A3). auto.
    + intros a b X. rewrite E in X. apply orb_prop in X as [X|X]; [apply I, (Se a b X)|]. apply andb_prop in X as [_ X]. apply Nat.eqb_eq in X as ->.
      left. apply M, Hs.
    + intros a b Ha X Hb. rewrite E in X. apply orb_prop in X as [X|X].
      * destruct (Pu a b Ha X Hb) as [Q|[Q|Q]]; auto.
      * apply andb_prop in X as [X1 X2]. apply Nat.eqb_eq in X1 as ->. apply Nat.eqb_eq in X2 as ->.
        destruct (Pu i b Hi Hs Hb) as [Q|[Q|Q]]; auto.
    + intros a X. rewrite E in X. apply orb_prop in X as [X|X]; [rewrite Ere; apply Re, X|].
      apply andb_prop in X as [X1 X2]. apply Nat.eqb_eq in X1 as ->. apply Nat.eqb_eq in X2 as ->. rewrite Ere; apply (Re i), Hs.
    + split; [apply M, Oo|rewrite Ere; exact Or].
  - destruct (nth_error (nt_threads s) k) as [t|] eqn:N; [|discriminate].
    assert (Ht : In t (nt_threads s)) by (apply nth_error_In in N; exact N). pose proof (T t Ht) as Tt.
    destruct t as [i|i j|i j|i j]; cbn [tok] in Tt.
    + (* NPass *)
      destruct Tt as (Hi & Hio).
      assert (s' = mkNet (nmark true s i i) (remove_nth k (nt_threads s) ++ map (NCheck i) (nth i peers [])) (nt_wire s) (i :: nt_received s) (nt_sent s)) as -> by congruence.
      set (s' := mkNet _ _ _ _ _).
      assert (E : forall a b, nseen s' a b = nseen s a b || ((a =? i) && (b =? i))) by (intros; apply nseen_mark; assumption).
      assert (M : forall a b, nseen s a b = true -> nseen s' a b = true) by (intros a b X; rewrite E, X; reflexivity).
      assert (Ii : nseen s' i i = true) by (rewrite E, Nat.eqb_refl, orb_true_r; reflexivity).
      assert (Tk : forall t, In t (nt_threads s) -> t = NPass i \/ In t (nt_threads s')).
      { intros t X. cbn [nt_threads s']. destruct (in_remove_cases _ k _ t N X) as [->|Q]; [auto|]. right. apply in_app_iff. auto. }
      assert (I : forall b, informed s b -> informed s' b).
      { intros b [X|[X|X]]; [left; apply M, X| |right; right; exact X].
        apply Tk in X as [X|X]; [injection X as ->; left; exact Ii|right; left; exact X]. }
      constructor.
      * cbn [nt_seen s']. rewrite nmark_length. exact L.
      * intros t X. cbn [nt_threads s'] in X. apply in_app_iff in X as [X|X]; [apply (tok_mono s); auto; apply T, (in_remove _ k), X|].
        apply in_map_iff in X as (b & <- & Hb). cbn [tok]. split; [exact Hi|]. split; [apply (Hp i b Hb)|exact Ii].
      * intros a b X. destruct (W a b X) as (A1 & A2 & A3). auto.
      * intros a b X. rewrite E in X. apply orb_prop in X as [X|X]; [apply I, (Se a b X)|]. apply andb_prop in X as [_ X]. apply Nat.eqb_eq in X as ->.
        left. exact Ii.
      * intros a b Ha X Hb. rewrite E in X. apply orb_prop in X as [X|X].
        -- destruct (Pu a b Ha X Hb) as [Q|[Q|Q]]; [auto| |].
           ++ apply Tk in Q as [Q|Q]; [discriminate|auto].
           ++ apply Tk in Q as [Q|Q]; [discriminate|auto].
        -- apply andb_prop in X as [X1 _]. apply Nat.eqb_eq in X1 as ->. right. left. cbn [nt_threads s']. apply in_app_iff. right. apply in_map, Hb.
      * intros a X. rewrite E in X. apply orb_prop in X as [X|X]; [destruct (Re a X); [auto|right; right; assumption]|].
        apply andb_prop in X as [X1 _]. apply Nat.eqb_eq in X1 as ->. right. left. reflexivity.
      * split; [apply M, Oo|]. cbn [nt_received s']. intros [X|X]; [congruence|apply Or, X].
    + (* NCheck *)
      destruct Tt as (Hi & Hj & Hs).
      assert (s' = mkNet (nt_seen s) (if nseen s i j then remove_nth k (nt_threads s) else set_nth k (NSend i j) (nt_threads s)) (nt_wire s) (nt_received s) (nt_sent s)) as -> by congruence.
      set (s' := mkNet _ _ _ _ _).
      assert (Tk : forall t, In t (nt_threads s) -> t = NCheck i j \/ In t (nt_threads s')).
      { intros t X. cbn [nt_threads s']. destruct (nseen s i j).
        - exact (in_remove_cases _ k _ t N X).
        - exact (in_set_cases _ k _ t _ N X). }
      assert (Tb : forall t, In t (nt_threads s') -> In t (nt_threads s) \/ t = NSend i j).
      { intros t X. cbn [nt_threads s'] in X. destruct (nseen s i j); [left; apply (in_remove _ k), X|]. apply in_set_nth in X. tauto. }
      assert (I : forall b, informed s b -> informed s' b).
      { intros b [X|[X|X]]; [left; exact X| |right; right; exact X]. apply Tk in X as [X|X]; [discriminate|right; left; exact X]. }
      constructor.
      * exact L.
      * intros t X. apply Tb in X as [X| ->]; [apply (tok_mono s); auto; apply T, X|]. cbn [tok]. auto.
      * exact W.
      * intros a b X. apply I, (Se a b X).
      * intros a b Ha X Hb. destruct (Pu a b Ha X Hb) as [Q|[Q|Q]]; [auto| |].
        -- apply Tk in Q as [Q|Q]; [|auto]. injection Q as -> ->. cbn [nt_threads s']. destruct (nseen s i j) eqn:Z.
           ++ left. apply I, (Se i j Z).
           ++ right. right. apply (in_set_new _ k (NCheck i j)), N.
        -- apply Tk in Q as [Q|Q]; [discriminate|auto].
      * exact Re.
      * auto.
    + (* NSend *)
      destruct Tt as (Hi & Hj & Hs).
      assert (s' = mkNet (nt_seen s) (set_nth k (NMark i j) (nt_threads s)) (nt_wire s ++ [(i, j)]) (nt_received s) ((i, j) :: nt_sent s)) as -> by congruence.
      set (s' := mkNet _ _ _ _ _).
      assert (Tk : forall t, In t (nt_threads s) -> t = NSend i j \/ In t (nt_threads s')) by (intros t X; exact (in_set_cases _ k _ t _ N X)).
      assert (I : forall b, informed s b -> informed s' b).
      { intros b [X|[X|(c & X)]]; [left; exact X| |right; right; exists c; apply in_app_iff; auto]. apply Tk in X as [X|X]; [discriminate|right; left; exact X]. }
      assert (Ij : informed s' j) by (right; right; exists i; apply in_app_iff; right; left; reflexivity).
      constructor.
      * exact L.
      * intros t X. apply in_set_nth in X as [->|X]; [cbn [tok]; auto|apply (tok_mono s); auto; apply T, X].
      * intros a b X. cbn [nt_wire s'] in X. apply in_app_iff in X as [X|[X|[]]]; [apply W, X|]. injection X as <- <-. auto.
      * intros a b X. apply I, (Se a b X).
      * intros a b Ha X Hb. destruct (Pu a b Ha X Hb) as [Q|[Q|Q]]; [auto| |].
        -- apply Tk in Q as [Q|Q]; [discriminate|auto].
        -- apply Tk in Q as [Q|Q]; [injection Q as -> ->; auto|auto].
      * exact Re.
      * auto.
    + (* NMark *)
      destruct Tt as (Hi & Hj & Hs & Hin).
      assert (s' = mkNet (nmark true s i j) (remove_nth k (nt_threads s)) (nt_wire s) (nt_received s) (nt_sent s)) as -> by congruence.
      set (s' := mkNet _ _ _ _ _).
      assert (E : forall a b, nseen s' a b = nseen s a b || ((a =? i) && (b =? j))) by (intros; apply nseen_mark; assumption).
      assert (M : forall a b, nseen s a b = true -> nseen s' a b = true) by (intros a b X; rewrite E, X; reflexivity).
      assert (Tk : forall t, In t (nt_threads s) -> t = NMark i j \/ In t (nt_threads s')) by (intros t X; exact (in_remove_cases _ k _ t N X)).
      assert (I : forall b, informed s b -> informed s' b).
      { intros b [X|[X|X]]; [left; apply M, X| |right; right; exact X]. apply Tk in X as [X|X]; [discriminate|right; left; exact X]. }
      constructor.
      * cbn [nt_seen s']. rewrite nmark_length. exact L.
      * intros t X. apply (tok_mono s); auto. apply T, (in_remove _ k), X.
      * intros a b X. destruct (W a b X) as (A1 & A2 & A3). auto.
      * intros a b X. rewrite E in X. apply orb_prop in X as [X|X]; [apply I, (Se a b X)|]. apply andb_prop in X as [_ X]. apply Nat.eqb_eq in X as ->.
        apply I, Hin.
      * intros a b Ha X Hb.
        assert (X' : nseen s a a = true).
        { rewrite E in X. apply orb_prop in X as [X|X]; [exact X|]. apply andb_prop in X as [X1 X2]. apply Nat.eqb_eq in X1 as ->. exact Hs. }
        destruct (Pu a b Ha X' Hb) as [Q|[Q|Q]]; [auto| |].
        -- apply Tk in Q as [Q|Q]; [discriminate|auto].
        -- apply Tk in Q as [Q|Q]; [discriminate|auto].
      * intros a X. rewrite E in X. apply orb_prop in X as [X|X]; [apply Re, X|]. apply andb_prop in X as [X1 X2].
        apply Nat.eqb_eq in X1 as ->. apply (Re i), Hs.
      * split; [apply M, Oo|exact Or].
Qed.

Lemma ninv_run l : forall s s', ninv s -> nrun true peers s l = Some s' -> ninv s'.
Proof.
  induction l as [|a l IH]; cbn; intros s s' I R; [injection R as <-; exact I|].
  destruct (nact true peers s a) as [s1|] eqn:E; [|discriminate]. apply (IH s1); [apply (ninv_step s a); assumption|exact R].
Qed.

(** *** Termination *)
Definition unset (s : net) : nat := cntb (fun i => negb (nseen s i i)) (seq 0 n).
Definition unset_but (s : net) (i : nat) : nat := cntb (fun a => negb (nseen s a a) && negb (a =? i)) (seq 0 n).
Definition degree : nat := list_max (map (@length nat) peers).
Fixpoint wgt (d u : nat) : nat := match u with O => 1 | S u' => 2 + d * (wgt d u' + 3) end.
Definition twgt (s : net) (t : nthread) : nat :=
  match t with
  | NPass i => 1 + degree * (wgt degree (unset_but s i) + 3)
  | NCheck _ _ => wgt degree (unset s) + 3
  | NSend _ _ => wgt degree (unset s) + 2
  | NMark _ _ => 1
  end.
Definition nmeasure (s : net) : nat := length (nt_wire s) * wgt degree (unset s) + sumf (twgt s) (nt_threads s).

Lemma wgt_S d u : wgt d u <= wgt d (S u).
Proof. induction u as [|u IH]; [cbn [wgt]; lia|]. change (2 + d * (wgt d u + 3) <= 2 + d * (wgt d (S u) + 3)). nia. Qed.
Lemma wgt_mono d u v : u <= v -> wgt d u <= wgt d v.
Proof. induction 1 as [|v H IH]; [lia|]. pose proof (wgt_S d v). lia. Qed.
Lemma wgt_pos d u : 0 < wgt d u. Proof. destruct u; cbn [wgt]; lia. Qed.
Lemma degree_ge i : length (nth i peers []) <= degree.
Proof.
  unfold degree. destruct (nth_in_or_default i peers []) as [H|H]; [|rewrite H; cbn; lia].
  pose proof (list_max_le (map (@length nat) peers) (list_max (map (@length nat) peers))) as [Q _].
  specialize (Q (le_n _)). rewrite Forall_forall in Q. apply Q. apply in_map, H.
Qed.
Lemma unset_mono s s' : (forall i, nseen s i i = true -> nseen s' i i = true) -> unset s' <= unset s.
Proof. intros M. apply cntb_le. intros i. destruct (nseen s i i) eqn:E; [rewrite (M i E); discriminate|reflexivity]. Qed.
Lemma unset_but_mono s s' i : (forall i, nseen s i i = true -> nseen s' i i = true) -> unset_but s' i <= unset_but s i.
Proof. intros M. apply cntb_le. intros a. destruct (nseen s a a) eqn:E; [rewrite (M a E); discriminate|]. cbn. destruct (nseen s' a a); [discriminate|auto]. Qed.
Lemma unset_split s i : i < n -> unset s = unset_but s i + Nat.b2n (negb (nseen s i i)).
Proof.
  intros Hi. unfold unset, unset_but.
  assert (G : forall l, NoDup l -> cntb (fun a => negb (nseen s a a)) l =
     cntb (fun a => negb (nseen s a a) && negb (a =? i)) l + (if in_dec Nat.eq_dec i l then Nat.b2n (negb (nseen s i i)) else 0)).
  { induction l as [|a l IH]; intros ND; [reflexivity|]. inversion ND as [|? ? Na Nl]; subst. unfold cntb in *. cbn [sumf]. rewrite IH by exact Nl.
    destruct (Nat.eqb_spec a i) as [->|D].
    - destruct (in_dec Nat.eq_dec i l); [contradiction|]. destruct (in_dec Nat.eq_dec i (i :: l)) as [_|X]; [|elim X; left; reflexivity].
      rewrite andb_false_r. cbn [Nat.b2n]. lia.
    - rewrite andb_true_r. destruct (in_dec Nat.eq_dec i l) as [X|X]; destruct (in_dec Nat.eq_dec i (a :: l)) as [Y|Y]; try lia.
      + elim Y. right. exact X.
      + destruct Y; contradiction. }
  rewrite G by apply seq_NoDup. destruct (in_dec Nat.eq_dec i (seq 0 n)) as [_|X]; [reflexivity|]. elim X. apply in_seq. lia.
Qed.
Lemma twgt_mono s s' t : (forall i, nseen s i i = true -> nseen s' i i = true) -> twgt s' t <= twgt s t.
Proof.
  intros M. pose proof (wgt_mono degree _ _ (unset_mono s s' M)). destruct t; cbn [twgt]; try lia.
  pose proof (wgt_mono degree _ _ (unset_but_mono s s' i M)). nia.
Qed.
Lemma sumf_mono {A} (f g : A -> nat) l : (forall x, f x <= g x) -> sumf f l <= sumf g l.
Proof. intros H. induction l as [|a l IH]; cbn; [lia|]. specialize (H a). lia. Qed.
Lemma remove_nth_length {A} (l : list A) : forall k x, nth_error l k = Some x -> S (length (remove_nth k l)) = length l.
Proof. induction l as [|a l IH]; intros [|k] x N; cbn in *; try discriminate; [reflexivity|]. f_equal. apply (IH k x N). Qed.
Lemma sumf_const {A B} (f : B -> nat) (g : A -> B) c l : (forall x, f (g x) = c) -> sumf f (map g l) = length l * c.
Proof. intros H. induction l as [|a l IH]; cbn; [reflexivity|]. rewrite H, IH. reflexivity. Qed.

Lemma nmeasure_step s a s' : ninv s -> nact true peers s a = Some s' -> nmeasure s' < nmeasure s.
Proof.
  intros [L T W Se Pu Re [Oo Or]] H. destruct a as [m|k]; cbn [nact] in H.
  - destruct (nth_error (nt_wire s) m) as [[i j]|] eqn:N; [|discriminate].
    assert (Hw : In (i, j) (nt_wire s)) by (apply nth_error_In in N; exact N). destruct (W i j Hw) as (Hi & Hj & Hs).
    set (s1 := mkNet (nmark true s j i) (nt_threads s) (remove_nth m (nt_wire s)) (nt_received s) (nt_sent s)) in H.
    assert (E1 : forall a b, nseen s1 a b = nseen s a b || ((a =? j) && (b =? i))) by (intros; apply nseen_mark; assumption).
    assert (s' = mkNet (nt_seen s1) (if nseen s1 j j then nt_threads s1 else nt_threads s1 ++ [NPass j]) (nt_wire s1) (nt_received s1) (nt_sent s1)) as -> by congruence.
    set (s' := mkNet _ _ _ _ _).
    assert (E : forall a b, nseen s' a b = nseen s a b || ((a =? j) && (b =? i))) by (intros; apply E1).
    assert (M : forall a, nseen s a a = true -> nseen s' a a = true) by (intros a X; rewrite E, X; reflexivity).
    unfold nmeasure. pose proof (wgt_mono degree _ _ (unset_mono s s' M)) as U.
    pose proof (remove_nth_length _ _ _ N) as RL.
    pose proof (sumf_mono (twgt s') (twgt s) (nt_threads s) (fun t => twgt_mono s s' t M)) as Q.
    change (nt_wire s') with (remove_nth m (nt_wire s)). rewrite <- RL.
    set (A := length (remove_nth m (nt_wire s))) in *. clearbody A.
    change (nt_threads s') with (if nseen s' j j then nt_threads s else nt_threads s ++ [NPass j]).
    pose proof (wgt_pos degree (unset s)) as Wp.
    destruct (nseen s' j j) eqn:Z; [nia|].
    rewrite sumf_app. cbn [sumf].
    assert (Zs : nseen s j j = false) by (rewrite E in Z; apply orb_false_iff in Z; tauto).
    pose proof (unset_split s j Hj) as Sp. rewrite Zs in Sp. cbn [negb Nat.b2n] in Sp.
    pose proof (unset_but_mono s s' j M) as Um. apply (wgt_mono degree) in Um.
    replace (unset s) with (S (unset_but s j)) in * by lia. 
    change (twgt s' (NPass j)) with (1 + degree * (wgt degree (unset_but s' j) + 3)).
    change (wgt degree (S (unset_but s j))) with (2 + degree * (wgt degree (unset_but s j) + 3)) in *.
    nia.
  - destruct (nth_error (nt_threads s) k) as [t|] eqn:N; [|discriminate].
    assert (Ht : In t (nt_threads s)) by (apply nth_error_In in N; exact N). pose proof (T t Ht) as Tt.
    unfold nmeasure.
    destruct t as [i|i j|i j|i j]; cbn [tok] in Tt.
    + destruct Tt as (Hi & Hio).
      assert (s' = mkNet (nmark true s i i) (remove_nth k (nt_threads s) ++ map (NCheck i) (nth i peers [])) (nt_wire s) (i :: nt_received s) (nt_sent s)) as -> by congruence.
      set (s' := mkNet _ _ _ _ _).
      assert (E : forall a b, nseen s' a b = nseen s a b || ((a =? i) && (b =? i))) by (intros; apply nseen_mark; assumption).
      assert (M : forall a, nseen s a a = true -> nseen s' a a = true) by (intros a X; rewrite E, X; reflexivity).
      change (nt_wire s') with (nt_wire s). change (nt_threads s') with (remove_nth k (nt_threads s) ++ map (NCheck i) (nth i peers [])).
      rewrite sumf_app, (sumf_const _ _ (wgt degree (unset s') + 3)) by reflexivity.
      pose proof (sumf_remove (twgt s) _ _ _ N) as R. pose proof (sumf_mono (twgt s') (twgt s) (remove_nth k (nt_threads s)) (fun t => twgt_mono s s' t M)) as Q.
      pose proof (wgt_mono degree _ _ (unset_mono s s' M)) as U.
      pose proof (unset_split s' i Hi) as Sp. rewrite E, Nat.eqb_refl, orb_true_r in Sp. cbn [negb Nat.b2n] in Sp. rewrite Nat.add_0_r in Sp.
      pose proof (unset_but_mono s s' i M) as Um. rewrite <- Sp in Um. apply (wgt_mono degree) in Um.
      change (twgt s (NPass i)) with (1 + degree * (wgt degree (unset_but s i) + 3)) in R.
      pose proof (degree_ge i) as D. nia.
    + assert (s' = mkNet (nt_seen s) (if nseen s i j then remove_nth k (nt_threads s) else set_nth k (NSend i j) (nt_threads s)) (nt_wire s) (nt_received s) (nt_sent s)) as -> by congruence.
      change (unset (mkNet (nt_seen s) _ _ _ _)) with (unset s).
      change (twgt (mkNet (nt_seen s) _ _ _ _)) with (twgt s). cbn [nt_wire nt_threads].
      destruct (nseen s i j).
      * pose proof (sumf_remove (twgt s) _ _ _ N) as R. cbn [twgt] in R. lia.
      * pose proof (sumf_set (twgt s) _ _ _ (NSend i j) N) as R. cbn [twgt] in R. lia.
    + assert (s' = mkNet (nt_seen s) (set_nth k (NMark i j) (nt_threads s)) (nt_wire s ++ [(i, j)]) (nt_received s) ((i, j) :: nt_sent s)) as -> by congruence.
      change (unset (mkNet (nt_seen s) _ _ _ _)) with (unset s).
      change (twgt (mkNet (nt_seen s) _ _ _ _)) with (twgt s). cbn [nt_wire nt_threads].
      rewrite app_length. cbn [length]. pose proof (sumf_set (twgt s) _ _ _ (NMark i j) N) as R. cbn [twgt] in R. nia.
    + destruct Tt as (Hi & Hj & _).
      assert (s' = mkNet (nmark true s i j) (remove_nth k (nt_threads s)) (nt_wire s) (nt_received s) (nt_sent s)) as -> by congruence.
      set (s' := mkNet _ _ _ _ _).
      assert (E : forall a b, nseen s' a b = nseen s a b || ((a =? i) && (b =? j))) by (intros; apply nseen_mark; assumption).
      assert (M : forall a, nseen s a a = true -> nseen s' a a = true) by (intros a X; rewrite E, X; reflexivity).
      change (nt_wire s') with (nt_wire s). change (nt_threads s') with (remove_nth k (nt_threads s)).
      pose proof (sumf_remove (twgt s) _ _ _ N) as R. pose proof (sumf_mono (twgt s') (twgt s) (remove_nth k (nt_threads s)) (fun t => twgt_mono s s' t M)) as Q.
      pose proof (wgt_mono degree _ _ (unset_mono s s' M)) as U. cbn [twgt] in R. nia.
Qed.

Lemma nmeasure_run l : forall s s', ninv s -> nrun true peers s l = Some s' -> length l + nmeasure s' <= nmeasure s.
Proof.
  induction l as [|a l IH]; cbn [nrun length]; intros s s' I R; [injection R as <-; lia|].
  destruct (nact true peers s a) as [s1|] eqn:E; [|discriminate].
  pose proof (nmeasure_step s a s1 I E). pose proof (IH s1 s' (ninv_step s a s1 I E) R). lia.
Qed.

(** *** Each link carries the message at most once when Handle calls do not overlap *)
Definition is_pass (i : nat) (t : nthread) : bool := match t with NPass a => a =? i | _ => false end.
Definition pending (i j : nat) (t : nthread) : bool := match t with NCheck a b | NSend a b => (a =? i) && (b =? j) | _ => false end.
Definition is_link (i j : nat) (x : nat * nat) : bool := (fst x =? i) && (snd x =? j).
Definition is_node (i a : nat) : bool := a =? i.
Definition sinv (s : net) : Prop :=
  (forall i, cntb (is_pass i) (nt_threads s) + cntb (is_node i) (nt_received s) <= 1) /\
  (forall i, nseen s i i = true -> cntb (is_pass i) (nt_threads s) = 0) /\
  (forall i, nseen s i i = false -> cntb (is_node i) (nt_received s) = 0) /\
  (forall i j, nseen s i i = false -> cntb (is_link i j) (nt_sent s) = 0) /\
  (forall i j, cntb (pending i j) (nt_threads s) + cntb (is_link i j) (nt_sent s) <= 1).

Definition idle (s : net) (a : naction) : Prop :=
  match a with NDeliver m => forall i j, nth_error (nt_wire s) m = Some (i, j) -> ~ In (NPass j) (nt_threads s) | _ => True end.

Lemma cntb_zero_inv {A} (p : A -> bool) l x : cntb p l = 0 -> In x l -> p x = false.
Proof. intros Z H. destruct (p x) eqn:E; [|reflexivity]. pose proof (cntb_pos p l x H E). lia. Qed.
Lemma cntb_set {A} (p : A -> bool) l i x y : nth_error l i = Some x -> cntb p (set_nth i y l) + Nat.b2n (p x) = cntb p l + Nat.b2n (p y).
Proof. apply (sumf_set (fun z => Nat.b2n (p z))). Qed.
Lemma cntb_remove {A} (p : A -> bool) l i x : nth_error l i = Some x -> cntb p (remove_nth i l) + Nat.b2n (p x) = cntb p l.
Proof. apply (sumf_remove (fun z => Nat.b2n (p z))). Qed.

Hypothesis Hnd : forall i, NoDup (nth i peers []).

Lemma pending_map i a b l : NoDup l -> cntb (pending a b) (map (NCheck i) l) <= Nat.b2n (i =? a).
Proof.
  induction l as [|x l IH]; [cbn; lia|]. intros ND. inversion ND as [|? ? Nx Nl]; subst. specialize (IH Nl).
  unfold cntb in *. cbn [map sumf pending]. destruct (Nat.eqb_spec i a) as [->|D]; cbn [andb Nat.b2n] in *; [|lia].
  destruct (Nat.eqb_spec x b) as [->|D]; cbn [Nat.b2n]; [|lia].
  assert (Z : sumf (fun x => Nat.b2n (pending a b x)) (map (NCheck a) l) = 0); [|lia].
  apply sumf_zero. intros y Hy. apply in_map_iff in Hy as (c & <- & Hc). cbn [pending]. rewrite Nat.eqb_refl. cbn.
  destruct (Nat.eqb_spec c b) as [->|]; [contradiction|reflexivity].
Qed.
Lemma pass_map i a l : cntb (is_pass a) (map (NCheck i) l) = 0.
Proof. apply cntb_zero. intros x Hx. apply in_map_iff in Hx as (y & <- & _). reflexivity. Qed.

Lemma sinv_start : sinv (net_start true peers o).
Proof.
  unfold sinv. split; [|split; [|split; [|split]]].
  - intros i. cbn. fold (cntb (is_pass i) (map (NCheck o) (nth o peers []))). rewrite pass_map. lia.
  - intros i _. apply pass_map.
  - reflexivity.
  - reflexivity.
  - intros i j. change (nt_sent (net_start true peers o)) with (@nil (nat * nat)). change (nt_threads (net_start true peers o)) with (map (NCheck o) (nth o peers [])).
    pose proof (pending_map o i j _ (Hnd o)). destruct (o =? i); cbn [Nat.b2n] in *; unfold cntb at 2; cbn [sumf]; lia.
Qed.

Lemma sinv_step s a s' : ninv s -> sinv s -> idle s a -> nact true peers s a = Some s' -> sinv s'.
Proof.
  intros [L T W Se Pu Re [Oo Or]] (S1 & S2 & S3 & S4 & S5) Id H.
  assert (Pz : forall i j, nseen s i i = false -> cntb (pending i j) (nt_threads s) = 0).
  { intros i j Z. apply cntb_zero. intros t Ht. destruct (pending i j t) eqn:P; [|reflexivity].
    specialize (T t Ht). destruct t as [a'|a' b'|a' b'|a' b']; cbn in P; try discriminate; apply andb_prop in P as [P _];
      apply Nat.eqb_eq in P as ->; cbn in T; destruct T as (_ & _ & T); congruence. }
  destruct a as [m|k]; cbn [nact] in H.
  - destruct (nth_error (nt_wire s) m) as [[i j]|] eqn:N; [|discriminate]. cbn in Id. specialize (Id i j N).
    assert (Hw : In (i, j) (nt_wire s)) by (apply nth_error_In in N; exact N). destruct (W i j Hw) as (Hi & Hj & Hs).
    set (s1 := mkNet (nmark true s j i) (nt_threads s) (remove_nth m (nt_wire s)) (nt_received s) (nt_sent s)) in H.
    assert (E1 : forall a b, nseen s1 a b = nseen s a b || ((a =? j) && (b =? i))) by (intros; apply nseen_mark; assumption).
    assert (s' = mkNet (nt_seen s1) (if nseen s1 j j then nt_threads s1 else nt_threads s1 ++ [NPass j]) (nt_wire s1) (nt_received s1) (nt_sent s1)) as -> by congruence.
    set (s' := mkNet _ _ _ _ _).
    assert (E : forall a, nseen s' a a = nseen s a a).
    { intros a. transitivity (nseen s1 a a); [reflexivity|]. rewrite E1. destruct (Nat.eqb_spec a j) as [->|]; [|rewrite orb_false_r; reflexivity].
      destruct (Nat.eqb_spec j i) as [->|]; [rewrite Hs; reflexivity|rewrite orb_false_r; reflexivity]. }
    assert (Ej : nseen s1 j j = nseen s j j) by (apply E).
    unfold sinv. cbn [nt_threads nt_received nt_sent s' s1]. fold s1. rewrite Ej.
    assert (Zj : cntb (is_pass j) (nt_threads s) = 0).
    { apply cntb_zero. intros t Ht. destruct t; cbn; try reflexivity. destruct (Nat.eqb_spec i0 j) as [->|]; [contradiction|reflexivity]. }
    split; [|split; [|split; [|split]]].
    + intros a. destruct (nseen s j j) eqn:Q; [apply S1|]. rewrite cntb_app. change (cntb (is_pass a) [NPass j]) with (Nat.b2n (j =? a) + 0).
      destruct (Nat.eqb_spec j a) as [<-|]; cbn [Nat.b2n]; [rewrite Zj, (S3 j Q); lia|]. specialize (S1 a). lia.
    + intros a Ha. rewrite E in Ha. destruct (nseen s j j) eqn:Q; [apply S2, Ha|]. rewrite cntb_app. change (cntb (is_pass a) [NPass j]) with (Nat.b2n (j =? a) + 0).
      destruct (Nat.eqb_spec j a) as [<-|]; [congruence|]. rewrite (S2 a Ha). reflexivity.
    + intros a Ha. rewrite E in Ha. apply S3, Ha.
    + intros a b Ha. rewrite E in Ha. apply S4, Ha.
    + intros a b. destruct (nseen s j j); [apply S5|]. rewrite cntb_app. change (cntb (pending a b) [NPass j]) with 0. specialize (S5 a b). lia.
  - destruct (nth_error (nt_threads s) k) as [t|] eqn:N; [|discriminate].
    assert (Ht : In t (nt_threads s)) by (apply nth_error_In in N; exact N). pose proof (T t Ht) as Tt.
    destruct t as [i|i j|i j|i j]; cbn [tok] in Tt.
    + destruct Tt as (Hi & Hio).
      assert (s' = mkNet (nmark true s i i) (remove_nth k (nt_threads s) ++ map (NCheck i) (nth i peers [])) (nt_wire s) (i :: nt_received s) (nt_sent s)) as -> by congruence.
      set (s' := mkNet _ _ _ _ _).
      assert (E : forall a b, nseen s' a b = nseen s a b || ((a =? i) && (b =? i))) by (intros; apply nseen_mark; assumption).
      assert (Us : nseen s i i = false).
      { destruct (nseen s i i) eqn:Q; [|reflexivity]. pose proof (cntb_zero_inv _ _ _ (S2 i Q) Ht) as X. cbn in X. rewrite Nat.eqb_refl in X. discriminate. }
      unfold sinv. cbn [nt_threads nt_received nt_sent s'].
      assert (R : forall p : nthread -> bool, cntb p (remove_nth k (nt_threads s)) + Nat.b2n (p (NPass i)) = cntb p (nt_threads s)) by (intros; apply cntb_remove; exact N).
      split; [|split; [|split; [|split]]].
      * intros a. rewrite cntb_app, pass_map. specialize (R (is_pass a)). specialize (S1 a). cbn [is_pass] in R.
        change (cntb (is_node a) (i :: nt_received s)) with (Nat.b2n (i =? a) + cntb (is_node a) (nt_received s)). lia.
      * intros a Ha. rewrite cntb_app, pass_map. specialize (R (is_pass a)). cbn [is_pass] in R. rewrite E in Ha.
        destruct (Nat.eq_dec i a) as [Eq|D].
        -- specialize (S1 a). rewrite Eq, Nat.eqb_refl in R. cbn [Nat.b2n] in R. lia.
        -- destruct (Nat.eqb_spec a i); [congruence|]. rewrite orb_false_r in Ha. specialize (S2 a Ha). lia.
      * intros a Ha. rewrite E in Ha. apply orb_false_iff in Ha as [Ha Hb].
        change (cntb (is_node a) (i :: nt_received s)) with (Nat.b2n (i =? a) + cntb (is_node a) (nt_received s)).
        destruct (Nat.eqb_spec i a) as [<-|D]; [rewrite Nat.eqb_refl in Hb; discriminate|]. rewrite (S3 a Ha). reflexivity.
      * intros a b Ha. rewrite E in Ha. apply orb_false_iff in Ha as [Ha Hb]. apply S4, Ha.
      * intros a b. rewrite cntb_app. pose proof (pending_map i a b _ (Hnd i)) as Q. specialize (R (pending a b)). cbn [pending Nat.b2n] in R.
        destruct (Nat.eqb_spec i a) as [<-|D]; cbn [Nat.b2n] in Q.
        -- rewrite (S4 i b Us). rewrite (Pz i b Us) in R. lia.
        -- specialize (S5 a b). lia.
    + assert (s' = mkNet (nt_seen s) (if nseen s i j then remove_nth k (nt_threads s) else set_nth k (NSend i j) (nt_threads s)) (nt_wire s) (nt_received s) (nt_sent s)) as -> by congruence.
      assert (R : forall p : nthread -> bool, p (NCheck i j) = p (NSend i j) ->
                cntb p (if nseen s i j then remove_nth k (nt_threads s) else set_nth k (NSend i j) (nt_threads s)) <= cntb p (nt_threads s)).
      { intros p Hpe. destruct (nseen s i j).
        - pose proof (cntb_remove p _ _ _ N). lia.
        - pose proof (cntb_set p _ _ _ (NSend i j) N) as X. rewrite Hpe in X. lia. }
      unfold sinv. cbn [nt_threads nt_received nt_sent]. change (nseen (mkNet (nt_seen s) _ _ _ _)) with (nseen s).
      split; [|split; [|split; [|split]]].
      * intros a. specialize (R (is_pass a) eq_refl). specialize (S1 a). lia.
      * intros a Ha. specialize (R (is_pass a) eq_refl). specialize (S2 a Ha). lia.
      * exact S3.
      * exact S4.
      * intros a b. specialize (R (pending a b) eq_refl). specialize (S5 a b). lia.
    + destruct Tt as (Hi & Hj & Hs).
      assert (s' = mkNet (nt_seen s) (set_nth k (NMark i j) (nt_threads s)) (nt_wire s ++ [(i, j)]) (nt_received s) ((i, j) :: nt_sent s)) as -> by congruence.
      assert (R : forall p : nthread -> bool, cntb p (set_nth k (NMark i j) (nt_threads s)) + Nat.b2n (p (NSend i j)) = cntb p (nt_threads s) + Nat.b2n (p (NMark i j))) by (intros; apply cntb_set; exact N).
      unfold sinv. cbn [nt_threads nt_received nt_sent]. change (nseen (mkNet (nt_seen s) _ _ _ _)) with (nseen s).
      split; [|split; [|split; [|split]]].
      * intros a. specialize (R (is_pass a)). cbn in R. specialize (S1 a). lia.
      * intros a Ha. specialize (R (is_pass a)). cbn in R. specialize (S2 a Ha). lia.
      * exact S3.
      * intros a b Ha. change (cntb (is_link a b) ((i, j) :: nt_sent s)) with (Nat.b2n ((i =? a) && (j =? b)) + cntb (is_link a b) (nt_sent s)).
        destruct (Nat.eqb_spec i a) as [<-|]; [congruence|]. cbn. apply S4, Ha.
      * intros a b. specialize (R (pending a b)). cbn [pending] in R. specialize (S5 a b).
        change (cntb (is_link a b) ((i, j) :: nt_sent s)) with (Nat.b2n ((i =? a) && (j =? b)) + cntb (is_link a b) (nt_sent s)).
        cbn [Nat.b2n] in R. lia.
    + destruct Tt as (Hi & Hj & Hs & _).
      assert (s' = mkNet (nmark true s i j) (remove_nth k (nt_threads s)) (nt_wire s) (nt_received s) (nt_sent s)) as -> by congruence.
      set (s' := mkNet _ _ _ _ _).
      assert (E : forall a, nseen s' a a = nseen s a a).
      { intros a. transitivity (nseen s a a || ((a =? i) && (a =? j))); [apply nseen_mark; assumption|].
        destruct (Nat.eqb_spec a i) as [->|]; [rewrite Hs; reflexivity|rewrite orb_false_r; reflexivity]. }
      assert (R : forall p : nthread -> bool, cntb p (remove_nth k (nt_threads s)) + Nat.b2n (p (NMark i j)) = cntb p (nt_threads s)) by (intros; apply cntb_remove; exact N).
      unfold sinv. cbn [nt_threads nt_received nt_sent s'].
      split; [|split; [|split; [|split]]].
      * intros a. specialize (R (is_pass a)). cbn in R. specialize (S1 a). lia.
      * intros a Ha. rewrite E in Ha. specialize (R (is_pass a)). cbn in R. specialize (S2 a Ha). lia.
      * intros a Ha. rewrite E in Ha. apply S3, Ha.
      * intros a b Ha. rewrite E in Ha. apply S4, Ha.
      * intros a b. specialize (R (pending a b)). cbn in R. specialize (S5 a b). lia.
Qed.
End Net.
