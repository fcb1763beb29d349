(** Proofs about aead.go and the reused write buffer. *)
From Verif Require Import Base M_Msg M_AEAD P_Wire.
From Coq Require Import Strings.Byte.
Local Open Scope nat_scope.

Lemma nth_error_ext {A} (l1 l2 : list A) : (forall i, nth_error l1 i = nth_error l2 i) -> l1 = l2.
Proof.
  revert l2. induction l1 as [|x l1 IH]; intros [|y l2] H; auto.
  - specialize (H 0). discriminate.
  - specialize (H 0). discriminate.
  - f_equal. + specialize (H 0). cbn in H. congruence. + apply IH. intros i. apply (H (S i)).
Qed.

Lemma nth_error_firstn {A} (l : list A) n i : nth_error (firstn n l) i = if i <? n then nth_error l i else None.
Proof.
  revert l i. induction n as [|n IH]; intros l i; cbn [firstn].
  - destruct i; reflexivity.
  - destruct l as [|x l].
    + destruct i; cbn [nth_error]; destruct (_ <? _); reflexivity.
    + destruct i as [|i]; [reflexivity|]. cbn [nth_error]. rewrite IH. reflexivity.
Qed.
Lemma nth_error_skipn {A} (l : list A) n i : nth_error (skipn n l) i = nth_error l (n + i).
Proof. revert l. induction n as [|n IH]; intros l; [reflexivity|]. destruct l; [destruct i; reflexivity | apply IH]. Qed.
Lemma nth_error_app {A} (l1 l2 : list A) i :
  nth_error (l1 ++ l2) i = if i <? length l1 then nth_error l1 i else nth_error l2 (i - length l1).
Proof.
  destruct (Nat.ltb_spec i (length l1)); [apply nth_error_app1 | apply nth_error_app2]; lia.
Qed.
Lemma nth_error_none {A} (l : list A) i : length l <= i -> nth_error l i = None.
Proof. apply nth_error_None. Qed.

Ltac lensimp := repeat (rewrite ?app_length, ?firstn_length, ?skipn_length, ?zeros_length in * ).
Ltac pointwise :=
  apply nth_error_ext; intros ?i;
  repeat (rewrite ?nth_error_app, ?nth_error_firstn, ?nth_error_skipn); lensimp;
  repeat match goal with
    | |- context [if ?a <? ?b then _ else _] => destruct (Nat.ltb_spec a b)
  end; try reflexivity; try lia; try (f_equal; lia);
  try (rewrite !nth_error_none; [reflexivity | lensimp; lia ..]);
  try (rewrite nth_error_none; [reflexivity | lensimp; lia]);
  try (symmetry; rewrite nth_error_none; [reflexivity | lensimp; lia]).

Definition valid (h : heap) (s : gslice) : Prop :=
  s_arr s < length h /\ s_off s + s_cap s <= length (arr h (s_arr s)) /\ s_len s <= s_cap s.

Lemma contents_length h s : valid h s -> length (contents h s) = s_len s.
Proof. intros (A & B & C). unfold contents. lensimp. lia. Qed.

Lemma splice_length l pos d : pos + length d <= length l -> length (splice l pos d) = length l.
Proof. intros H. unfold splice. lensimp. lia. Qed.

Lemma set_arr_length h : forall i a, length (set_arr h i a) = length h.
Proof. induction h as [|x h IH]; intros [|i] a; cbn; auto. Qed.
Lemma arr_set_same h : forall i a, i < length h -> arr (set_arr h i a) i = a.
Proof. induction h as [|x h IH]; intros [|i] a H; cbn in *; try lia; auto. apply IH. lia. Qed.
Lemma arr_set_other h : forall i j a, i <> j -> arr (set_arr h i a) j = arr h j.
Proof.
  induction h as [|x h IH]; intros [|i] [|j] a H; cbn; try lia; auto. apply (IH i j). lia.
Qed.
Lemma arr_app_old h a i : i < length h -> arr (h ++ a) i = arr h i.
Proof. intros H. unfold arr. apply app_nth1. exact H. Qed.
Lemma arr_app_new h a : arr (h ++ [a]) (length h) = a.
Proof. unfold arr. rewrite app_nth2, Nat.sub_diag by lia. reflexivity. Qed.

Lemma contents_app_old h a s : s_arr s < length h -> contents (h ++ a) s = contents h s.
Proof. intros H. unfold contents. rewrite arr_app_old by exact H. reflexivity. Qed.
Lemma valid_app_old h a s : valid h s -> valid (h ++ a) s.
Proof. intros (A & B & C). unfold valid. rewrite arr_app_old by exact A. lensimp. repeat split; lia. Qed.

Lemma store_valid h s pos d t :
  valid h s -> pos + length d <= s_cap s -> valid h t -> valid (store h s pos d) t.
Proof.
  intros (A & B & C) Hp (A' & B' & C'). unfold valid, store. rewrite set_arr_length. split; [exact A'|]. split; [|exact C'].
  destruct (Nat.eq_dec (s_arr s) (s_arr t)) as [E|E].
  - rewrite <- E, arr_set_same by exact A. rewrite splice_length by lia. rewrite E. exact B'.
  - rewrite arr_set_other by exact E. exact B'.
Qed.

Lemma store_other h s pos d t : s_arr s <> s_arr t -> contents (store h s pos d) t = contents h t.
Proof. intros E. unfold contents, store. rewrite arr_set_other by exact E. reflexivity. Qed.

Lemma store_length h s pos d : length (store h s pos d) = length h.
Proof. apply set_arr_length. Qed.

(** Contents of a slice of the same array that starts at or before the write. *)
Lemma store_contents h s pos d t :
  valid h s -> valid h t -> s_arr t = s_arr s ->
  pos + length d <= s_cap s ->
  s_off t <= s_off s + pos ->
  contents (store h s pos d) t =
  firstn (s_len t) (firstn (s_off s + pos - s_off t) (skipn (s_off t) (arr h (s_arr t)))
    ++ d ++ skipn (s_off s + pos + length d) (arr h (s_arr t))).
Proof.
  intros (A & B & C) (A' & B' & C') E Hp Ho. unfold contents, store. rewrite E, arr_set_same by exact A.
  rewrite E in B'. unfold splice. pointwise.
Qed.

Lemma reslice_ok s i j : i <= j -> j <= s_cap s ->
  reslice s i j = Ok (mkSl (s_arr s) (s_off s + i) (j - i) (s_cap s - i)).
Proof.
  intros H1 H2. unfold reslice.
  destruct (Nat.leb_spec i j); [|lia]. destruct (Nat.leb_spec j (s_cap s)); [reflexivity | lia].
Qed.

Section P.
Variable grow : nat -> nat -> nat.
Hypothesis grow_ok : forall c n, n <= grow c n.

Definition extends (h h' : heap) (own : nat) : Prop :=
  length h <= length h' /\ forall i, i < length h -> i <> own -> arr h' i = arr h i.

Lemma append_spec h s d h' s' :
  valid h s -> append grow h s d = (h', s') ->
  valid h' s' /\ contents h' s' = contents h s ++ d /\ s_len s' = s_len s + length d
  /\ extends h h' (s_arr s) /\ (s_arr s' = s_arr s \/ s_arr s' = length h).
Proof.
  intros V E. pose proof V as (A & B & C). unfold append in E. cbv zeta in E.
  destruct (Nat.leb_spec (s_len s + length d) (s_cap s)) as [H|H].
  - assert (h' = store h s (s_len s) d /\ s' = mkSl (s_arr s) (s_off s) (s_len s + length d) (s_cap s)) as [-> ->]
      by (split; congruence).
    assert (V' : valid h (mkSl (s_arr s) (s_off s) (s_len s + length d) (s_cap s))) by (unfold valid; cbn; repeat split; lia).
    split; [apply store_valid; assumption|]. split; [|split; [reflexivity|split; [|left; reflexivity]]].
    + rewrite store_contents; try assumption; cbn; try lia. unfold contents. pointwise.
    + split; [rewrite store_length; lia|]. intros i Hi Hn. unfold store. apply arr_set_other. auto.
  - assert (h' = h ++ [contents h s ++ d ++ zeros (grow (s_cap s) (s_len s + length d) - (s_len s + length d))] /\
            s' = mkSl (length h) 0 (s_len s + length d) (grow (s_cap s) (s_len s + length d))) as [-> ->]
      by (split; congruence).
    pose proof (grow_ok (s_cap s) (s_len s + length d)) as G.
    split; [|split; [|split; [reflexivity|split; [|right; reflexivity]]]].
    + unfold valid; cbn [s_arr s_off s_len s_cap]. rewrite arr_app_new. lensimp. rewrite contents_length by exact V.
      cbn [length]. repeat split; lia.
    + unfold contents at 1. cbn [s_arr s_off s_len s_cap]. rewrite arr_app_new. cbn [skipn].
      rewrite app_assoc, firstn_app_exact; [reflexivity|]. rewrite app_length, contents_length by exact V. reflexivity.
    + split; [lensimp; lia|]. intros i Hi Hn. apply arr_app_old. exact Hi.
Qed.

Lemma extends_refl h o : extends h h o.
Proof. split; auto. Qed.

Lemma extendFront_spec h buf n :
  valid h buf ->
  exists h' s' p, extendFront grow h buf n = Ok (h', s') /\ valid h' s' /\ length p = n
    /\ contents h' s' = p ++ contents h buf /\ s_len s' = n + s_len buf
    /\ extends h h' (s_arr buf) /\ (s_arr s' = s_arr buf \/ length h <= s_arr s').
Proof.
  intros V. pose proof V as (A & B & C). unfold extendFront. destruct (Nat.ltb_spec (s_len buf) n) as [H|H].
  - cbn [make]. rewrite reslice_ok by (cbn; lia). cbn [bind s_arr s_off s_len s_cap].
    replace (n + s_len buf - n) with (s_len buf) by lia.
    assert (EF : firstn (s_len buf) (contents h buf) = contents h buf)
      by (rewrite firstn_all2; [reflexivity | rewrite contents_length by exact V; lia]).
    rewrite EF.
    set (d := mkSl (length h) n (s_len buf) (s_len buf)).
    set (cl := mkSl (length h) 0 (n + s_len buf) (n + s_len buf)).
    assert (Vd : valid (h ++ [zeros (n + s_len buf)]) d).
    { unfold valid, d; cbn [s_arr s_off s_len s_cap]. rewrite arr_app_new. lensimp. cbn. lia. }
    assert (Vc : valid (h ++ [zeros (n + s_len buf)]) cl).
    { unfold valid, cl; cbn [s_arr s_off s_len s_cap]. rewrite arr_app_new. lensimp. cbn. lia. }
    assert (LB : length (contents h buf) = s_len buf) by (apply contents_length; exact V).
    eexists _, cl, (zeros n). split; [reflexivity|]. split; [|split; [apply zeros_length|]].
    + apply store_valid; auto. cbn. lia.
    + split; [|split; [reflexivity|split]].
      * rewrite store_contents; auto; [|cbn; lia ..]. cbn [cl d s_arr s_off s_len s_cap]. rewrite arr_app_new.
        cbn [skipn]. rewrite Nat.add_0_r, Nat.sub_0_r.
        rewrite skipn_all2 by (rewrite zeros_length; lia). rewrite app_nil_r.
        assert (Ez : firstn n (zeros (n + s_len buf)) = zeros n).
        { unfold zeros. rewrite repeat_app. apply firstn_app_exact. apply repeat_length. }
        cbn [plus]. rewrite Ez. apply firstn_all2. lensimp. lia.
      * split; [rewrite store_length; lensimp; lia|]. intros i Hi Hn. unfold store. cbn [d s_arr].
        rewrite arr_set_other by lia. apply arr_app_old. exact Hi.
      * right. cbn. lia.
  - rewrite reslice_ok by lia. cbn [bind]. rewrite Nat.add_0_r, !Nat.sub_0_r.
    set (f := mkSl (s_arr buf) (s_off buf) n (s_cap buf)).
    assert (Vf : valid h f) by (unfold valid, f; cbn; repeat split; lia).
    destruct (append grow h f (contents h buf)) as [h' s'] eqn:E.
    destruct (append_spec h f _ h' s' Vf E) as (V' & Cn & Ln & Ex & Ar).
    exists h', s', (contents h f). split; [reflexivity|]. split; [exact V'|].
    split; [rewrite contents_length by exact Vf; reflexivity|]. split; [exact Cn|].
    split; [rewrite Ln, contents_length by exact V; cbn; lia|]. split; [exact Ex|].
    destruct Ar as [-> | ->]; [left; reflexivity | right; lia].
Qed.

Lemma extends_trans h1 h2 h3 o1 o2 :
  extends h1 h2 o1 -> extends h2 h3 o2 -> (o2 = o1 \/ length h1 <= o2) -> extends h1 h3 o1.
Proof.
  intros [L1 E1] [L2 E2] Ho. split; [lia|]. intros i Hi Hn. rewrite E2, E1; auto; lia.
Qed.

Lemma extendBack_spec h buf n :
  valid h buf ->
  exists h' s' q, extendBack grow h buf n = Ok (h', s') /\ valid h' s' /\ length q = n
    /\ contents h' s' = contents h buf ++ q /\ s_len s' = s_len buf + n
    /\ extends h h' (s_arr buf) /\ (s_arr s' = s_arr buf \/ length h <= s_arr s').
Proof.
  intros V. pose proof V as (A & B & C). unfold extendBack. cbv zeta.
  destruct (Nat.ltb_spec (s_cap buf) (n + s_len buf)) as [H|H].
  - rewrite reslice_ok by lia. cbn [bind]. rewrite Nat.add_0_r, !Nat.sub_0_r.
    set (full := mkSl (s_arr buf) (s_off buf) (s_cap buf) (s_cap buf)).
    assert (Vf : valid h full) by (unfold valid, full; cbn; repeat split; lia).
    destruct (append grow h full (zeros (n + s_len buf - s_cap buf))) as [h' s'] eqn:E.
    destruct (append_spec h full _ h' s' Vf E) as (V' & Cn & Ln & Ex & Ar).
    rewrite zeros_length in Ln. cbn [full s_len] in Ln.
    pose proof V' as (A' & B' & C').
    rewrite reslice_ok by lia. cbn [bind]. rewrite Nat.add_0_r, !Nat.sub_0_r.
    eexists h', _, (firstn n (skipn (s_len buf) (contents h' s'))). split; [reflexivity|].
    assert (Lc : length (contents h' s') = n + s_len buf) by (rewrite contents_length by exact V'; lia).
    split; [unfold valid; cbn; repeat split; lia|]. split; [lensimp; lia|]. split; [|split; [cbn; lia|split; [exact Ex|]]].
    + replace (contents h' _) with (contents h' s') by (unfold contents; cbn [s_arr s_off s_len]; f_equal; lia).
      transitivity (firstn (s_len buf) (contents h' s') ++ skipn (s_len buf) (contents h' s')); [symmetry; apply firstn_skipn|].
      f_equal.
      * rewrite Cn. unfold contents, full. cbn [s_arr s_off s_len]. pointwise.
      * symmetry. apply firstn_all2. lensimp. lia.
    + destruct Ar as [X|X]; cbn [s_arr]; [left; exact X | right; lia].
  - rewrite reslice_ok by lia. cbn [bind]. rewrite Nat.add_0_r, !Nat.sub_0_r.
    eexists h, _, (firstn n (skipn (s_off buf + s_len buf) (arr h (s_arr buf)))). split; [reflexivity|].
    split; [unfold valid; cbn; repeat split; lia|]. split; [lensimp; lia|].
    split; [|split; [cbn; lia|split; [apply extends_refl | left; reflexivity]]].
    unfold contents; cbn [s_arr s_off s_len]. pointwise.
Qed.

Definition seal_ok (A : aead) : Prop := forall n p, length n = nonce_size A -> length (seal A n p) = length p + overhead A.

Lemma app_split3 (l p c q : bytes) : l = p ++ c ++ q ->
  firstn (length p) l = p /\ firstn (length c) (skipn (length p) l) = c.
Proof. intros ->. rewrite firstn_app_exact, skipn_app_exact, firstn_app_exact by reflexivity. auto. Qed.

Theorem encryptAEAD_spec A rnd h buf :
  seal_ok A -> length rnd = nonce_size A -> valid h buf ->
  exists h' s', encryptAEAD grow A rnd h buf = Ok (h', s')
    /\ valid h' s' /\ contents h' s' = encrypt_val A rnd (contents h buf)
    /\ extends h h' (s_arr buf) /\ (s_arr s' = s_arr buf \/ length h <= s_arr s').
Proof.
  intros SO HR V. unfold encryptAEAD. set (a := nonce_size A) in *. set (b := s_len buf). cbv zeta.
  destruct (extendFront_spec h buf a V) as (h1 & s1 & p & E1 & V1 & Lp & C1 & L1 & X1 & Ar1).
  rewrite E1. cbn [bind].
  destruct (extendBack_spec h1 s1 b V1) as (h2 & s2 & q & E2 & V2 & Lq & C2 & L2 & X2 & Ar2).
  rewrite E2. cbn [bind].
  assert (Lb : length (contents h buf) = b) by (apply contents_length; exact V).
  pose proof V2 as (A2 & B2 & C2').
  assert (Len2 : s_len s2 = a + b + b) by (fold b in L1; lia).
  rewrite (reslice_ok s2 0 a) by lia. cbn [bind]. rewrite Nat.add_0_r, !Nat.sub_0_r.
  set (front := mkSl (s_arr s2) (s_off s2) a (s_cap s2)).
  rewrite (reslice_ok s2 a a) by lia. cbn [bind]. rewrite Nat.sub_diag.
  set (dst := mkSl (s_arr s2) (s_off s2 + a) 0 (s_cap s2 - a)).
  rewrite (reslice_ok s2 a (a + b)) by lia. cbn [bind]. replace (a + b - a) with b by lia.
  set (plain := mkSl (s_arr s2) (s_off s2 + a) b (s_cap s2 - a)).
  assert (Vf : valid h2 front) by (unfold valid, front; cbn; repeat split; lia).
  assert (Vp : valid h2 plain) by (unfold valid, plain; cbn; repeat split; lia).
  assert (Vd : valid h2 dst) by (unfold valid, dst; cbn; repeat split; lia).
  assert (RF : firstn a rnd = rnd) by (apply firstn_all2; lia). rewrite RF.
  set (h3 := store h2 front 0 rnd).
  assert (V3 : forall t, valid h2 t -> valid h3 t) by (intros t Vt; apply store_valid; auto; cbn; lia).
  assert (Cf : contents h3 front = rnd).
  { unfold h3. rewrite store_contents; auto; [|cbn; lia ..]. cbn [front s_arr s_off s_len].
    rewrite Nat.add_0_r, Nat.sub_diag. cbn [firstn app]. rewrite firstn_app_exact by exact HR. reflexivity. }
  assert (Cp : contents h3 plain = contents h buf).
  { assert (C2s : contents h2 s2 = p ++ contents h buf ++ q) by (rewrite C2, C1, app_assoc; reflexivity).
    apply app_split3 in C2s as [_ C2s]. rewrite Lp, Lb in C2s. rewrite <- C2s.
    unfold contents, h3, store. cbn [plain front s_arr s_off s_len]. rewrite arr_set_same by exact A2.
    unfold splice. rewrite Nat.add_0_r, HR. pointwise. }
  assert (Seal : exists h4 r, aead_Seal A h3 dst front plain = Ok (h4, r)
     /\ contents h4 r = seal A rnd (contents h buf)
     /\ valid h4 front /\ contents h4 front = rnd /\ extends h3 h4 (s_arr s2)).
  { unfold aead_Seal. cbn [front s_len]. fold a. rewrite Nat.eqb_refl. cbn [negb].
    rewrite Cf, Cp.
    assert (LS : length (seal A rnd (contents h buf)) = b + overhead A) by (rewrite SO by exact HR; lia).
    unfold slice_for_append. cbn [dst plain s_arr s_off s_len s_cap]. cbn [plus].
    destruct (Nat.leb_spec (b + overhead A) (s_cap s2 - a)) as [H|H].
    - cbn [s_len]. rewrite Nat.add_0_r, Nat.sub_0_r.
      set (out := mkSl (s_arr s2) (s_off s2 + a) (b + overhead A) (s_cap s2 - a)).
      match goal with |- context [inexact_overlap ?x ?y] =>
        assert (IO : inexact_overlap x y = false);
        [ unfold inexact_overlap; cbn [s_arr s_off s_len plain out]; rewrite !Nat.eqb_refl; destruct (_ || _); reflexivity |]
      end.
      rewrite IO. eexists _, _. split; [reflexivity|].
      change (s_len out) with (b + overhead A).
      rewrite (firstn_all2 (n := b + overhead A)) by lia.
      assert (Vo : valid h3 out).
      { apply V3. unfold valid, out; cbn; repeat split; lia. }
      split; [|split; [|split]].
      + rewrite store_contents; auto; [|cbn; lia ..]. cbn [out s_arr s_off s_len].
        rewrite Nat.add_0_r, Nat.sub_diag. cbn [firstn app]. rewrite firstn_app_exact by exact LS. reflexivity.
      + apply store_valid; auto. cbn. lia.
      + rewrite store_contents; auto; [|cbn; lia ..]. cbn [out front s_arr s_off s_len].
        replace (s_off s2 + a + 0 - s_off s2) with a by lia.
        assert (X : firstn a (skipn (s_off s2) (arr h3 (s_arr s2))) = rnd) by exact Cf.
        rewrite X, firstn_app_exact by exact HR. reflexivity.
      + split; [rewrite store_length; lia|]. intros i Hi Hn. unfold store. apply arr_set_other. cbn. auto.
    - cbn [s_len].
      assert (IO : forall y, s_arr y = s_arr s2 -> inexact_overlap (mkSl (length h3) 0 (b + overhead A) (b + overhead A)) y = false).
      { intros y Hy. unfold inexact_overlap. cbn [s_arr s_off s_len]. rewrite Hy.
        assert (length h3 =? s_arr s2 = false) as -> by (apply Nat.eqb_neq; unfold h3; rewrite store_length; lia).
        cbn. destruct (_ || _); reflexivity. }
      rewrite IO by reflexivity. eexists _, _. split; [reflexivity|].
      rewrite (firstn_all2 (n := b + overhead A)) by lia.
      unfold contents at 2. cbn [s_arr s_off s_len firstn app].
      set (out := mkSl (length h3) 0 (b + overhead A) (b + overhead A)).
      set (h3' := h3 ++ [zeros (b + overhead A)]).
      assert (Vo : valid h3' out).
      { unfold valid, out, h3'; cbn [s_arr s_off s_len s_cap]. rewrite arr_app_new. lensimp. cbn. lia. }
      split; [|split; [|split]].
      + rewrite store_contents; auto; [|cbn; lia ..]. cbn [out s_arr s_off s_len plus].
        cbn [firstn app Nat.sub]. rewrite firstn_app_exact by exact LS. reflexivity.
      + apply store_valid; auto; [cbn; lia|]. apply valid_app_old. auto.
      + rewrite store_other.
        * unfold h3'. rewrite contents_app_old; [exact Cf|]. unfold h3. rewrite store_length. exact A2.
        * cbn. unfold h3. rewrite store_length. lia.
      + split; [rewrite store_length; unfold h3'; lensimp; lia|]. intros i Hi Hn. unfold store. rewrite arr_set_other by (cbn; lia).
        unfold h3'. apply arr_app_old. exact Hi. }
  destruct Seal as (h4 & r & E4 & Cr & V4 & Cf4 & X4). rewrite E4. cbn [bind].
  destruct (append grow h4 front (contents h4 r)) as [h5 s5] eqn:E5.
  destruct (append_spec h4 front _ h5 s5 V4 E5) as (V5 & C5 & L5 & X5 & Ar5).
  exists h5, s5. split; [reflexivity|]. split; [exact V5|]. split; [|split].
  - rewrite C5, Cf4, Cr. reflexivity.
  - assert (X23 : extends h2 h3 (s_arr s2)).
    { split; [unfold h3; rewrite store_length; lia|]. intros i Hi Hn. unfold h3, store. apply arr_set_other. cbn. auto. }
    cbn [front s_arr] in X5.
    assert (X12 : extends h1 h5 (s_arr s1)).
    { eapply extends_trans; [exact X2| |exact Ar2].
      eapply extends_trans; [exact X23| |left; reflexivity].
      eapply extends_trans; [exact X4| exact X5| left; reflexivity]. }
    eapply extends_trans; [exact X1 | exact X12 | exact Ar1].
  - cbn [front s_arr] in Ar5. destruct X1 as [LL1 _], X2 as [LL2 _], X4 as [LL4 _]. unfold h3 in LL4. rewrite store_length in LL4.
    destruct Ar5 as [->| ->]; [|right; lia].
    destruct Ar2 as [->|?]; [|right; lia]. destruct Ar1 as [->|?]; [left; reflexivity | right; lia].
Qed.

Lemma marshal_slice_spec h dst m :
  valid h dst -> s_len dst = 0 ->
  exists h' s', marshal_slice grow h dst m = Ok (h', s') /\ valid h' s' /\ contents h' s' = msg_marshal m
    /\ extends h h' (s_arr dst) /\ (s_arr s' = s_arr dst \/ length h <= s_arr s').
Proof.
  intros V L0. unfold marshal_slice.
  destruct (append grow h dst (zeros 8)) as [h1 s1] eqn:E1.
  destruct (append_spec h dst _ h1 s1 V E1) as (V1 & C1 & L1 & X1 & Ar1).
  rewrite zeros_length, L0 in L1. pose proof V1 as (A1 & B1 & C1').
  rewrite reslice_ok by lia. cbn [bind]. rewrite Nat.add_0_r, !Nat.sub_0_r. cbv zeta.
  set (d8 := mkSl (s_arr s1) (s_off s1) 8 (s_cap s1)).
  assert (V8 : valid h1 d8) by (unfold valid, d8; cbn; repeat split; lia).
  set (h2 := store h1 d8 0 (be_encode 8 (m_nonce m))).
  assert (LE : length (be_encode 8 (m_nonce m)) = 8) by apply be_encode_length.
  assert (V2 : valid h2 s1) by (apply store_valid; auto; rewrite LE; unfold d8; cbn [s_cap]; lia).
  assert (C2 : contents h2 s1 = be_encode 8 (m_nonce m)).
  { unfold h2. rewrite store_contents; auto; rewrite ?LE; [|unfold d8; cbn [s_cap s_off]; lia ..]. cbn [d8 s_arr s_off s_len].
    rewrite Nat.add_0_r, Nat.sub_diag. cbn [firstn app]. rewrite L1. cbn [plus]. rewrite firstn_app_exact by exact LE. reflexivity. }
  destruct (append grow h2 s1 (m_data m)) as [h3 s3] eqn:E3.
  destruct (append_spec h2 s1 _ h3 s3 V2 E3) as (V3 & C3 & L3 & X3 & Ar3).
  exists h3, s3. split; [reflexivity|]. split; [exact V3|]. split; [rewrite C3, C2, msg_marshal_eq; reflexivity|].
  assert (L21 : length h2 = length h1) by (unfold h2; apply store_length).
  split.
  - assert (X12 : extends h1 h2 (s_arr s1)).
    { split; [lia|]. intros i Hi Hn. unfold h2, store. apply arr_set_other. cbn. auto. }
    apply (extends_trans h h1 h3 _ (s_arr s1)); [exact X1| |destruct Ar1 as [->| ->]; [left; reflexivity | right; lia]].
    eapply extends_trans; [exact X12 | exact X3 | left; reflexivity].
  - destruct X1 as [LL _]. destruct Ar3 as [->| ->]; [|right; lia].
    destruct Ar1 as [->| ->]; [left; reflexivity | right; lia].
Qed.

Theorem write_batch_spec A ms : forall rnds h buf,
  match A with Some a => seal_ok a /\ length rnds = length ms /\ Forall (fun r => length r = nonce_size a) rnds | None => True end ->
  valid h buf ->
  exists h' buf', write_batch grow A rnds h buf ms = Ok (h', buf', frames A rnds ms)
    /\ valid h' buf' /\ extends h h' (s_arr buf) /\ (s_arr buf' = s_arr buf \/ length h <= s_arr buf').
Proof.
  induction ms as [|m ms IH]; intros rnds h buf HA V.
  - exists h, buf. cbn. split; [reflexivity|]. split; [exact V|]. split; [apply extends_refl | left; reflexivity].
  - cbn [write_batch frames]. rewrite reslice_ok by (destruct V as (?&?&?); lia). cbn [bind]. rewrite Nat.add_0_r, !Nat.sub_0_r.
    set (b0 := mkSl (s_arr buf) (s_off buf) 0 (s_cap buf)).
    assert (V0 : valid h b0) by (destruct V as (?&?&?); unfold valid, b0; cbn; repeat split; lia).
    destruct (marshal_slice_spec h b0 m V0 eq_refl) as (h1 & s1 & E1 & V1 & C1 & X1 & Ar1).
    rewrite E1. cbn [bind].
    assert (Enc : exists h2 s2,
      match A with Some a => encryptAEAD grow a (hd [] rnds) h1 s1 | None => Ok (h1, s1) end = Ok (h2, s2)
      /\ valid h2 s2
      /\ contents h2 s2 = match A with None => msg_marshal m | Some a => encrypt_val a (hd [] rnds) (msg_marshal m) end
      /\ extends h1 h2 (s_arr s1) /\ (s_arr s2 = s_arr s1 \/ length h1 <= s_arr s2)).
    { destruct A as [a|].
      - destruct HA as (SO & LR & FR). destruct rnds as [|r rnds]; [discriminate|]. inversion FR; subst.
        destruct (encryptAEAD_spec a r h1 s1 SO) as (h2 & s2 & E2 & V2 & C2 & X2 & Ar2); auto.
        exists h2, s2. rewrite C1 in C2. auto.
      - exists h1, s1. split; [reflexivity|]. split; [exact V1|]. split; [exact C1|]. split; [apply extends_refl | auto]. }
    destruct Enc as (h2 & s2 & E2 & V2 & C2 & X2 & Ar2). rewrite E2. cbn [bind].
    assert (HA' : match A with Some a => seal_ok a /\ length (tl rnds) = length ms /\ Forall (fun r => length r = nonce_size a) (tl rnds) | None => True end).
    { destruct A as [a|]; auto. destruct HA as (SO & LR & FR). destruct rnds as [|r rnds]; [discriminate|].
      inversion FR; subst. cbn in *. auto. }
    destruct (IH (tl rnds) h2 s2 HA' V2) as (h3 & s3 & E3 & V3 & X3 & Ar3).
    rewrite E3. cbn [bind]. exists h3, s3. split; [|split; [exact V3|]].
    + unfold frame_bytes. cbv zeta. rewrite <- C2. rewrite (contents_length h2 s2 V2). reflexivity.
    + cbn [b0 s_arr] in X1, Ar1. destruct X1 as [LL1 XX1], X2 as [LL2 XX2]. split.
      * eapply extends_trans; [split; [exact LL1 | exact XX1]| |exact Ar1].
        eapply extends_trans; [split; [exact LL2 | exact XX2]| |exact Ar2]. exact X3.
      * destruct Ar3 as [->|?]; [|right; lia]. destruct Ar2 as [->|?]; [|right; lia].
        destruct Ar1 as [->|?]; [left; reflexivity | right; lia].
Qed.
End P.

Definition open_ok (A : aead) : Prop :=
  (forall n p, length n = nonce_size A -> open A n (seal A n p) = Some p) /\
  (forall n c, length c < overhead A -> open A n c = None) /\
  (forall n c p, open A n c = Some p -> length c = length p + overhead A).

(** decryptAEAD on slices is decrypt_val on contents, in place. *)
Theorem decryptAEAD_spec A h buf :
  open_ok A -> valid h buf ->
  exists h' r, decryptAEAD A h buf = (h', r)
    /\ match decrypt_val A (contents h buf) with
       | Ok p => exists s', r = Ok s' /\ contents h' s' = p
       | Err e => r = Err e
       | Panic => False
       end
    /\ length h' = length h /\ (forall i, i <> s_arr buf -> arr h' i = arr h i).
Proof.
  intros (_ & OS & OL) V. pose proof V as (A1 & B1 & C1). unfold decryptAEAD, decrypt_val.
  rewrite contents_length by exact V. set (a := nonce_size A) in *.
  destruct (Nat.ltb_spec (s_len buf) a) as [H|H].
  - exists h, (Err ErrUnexpectedEOF). auto.
  - rewrite !reslice_ok by (cbn [s_cap]; lia). rewrite !Nat.add_0_r, !Nat.sub_0_r.
    set (nonce := mkSl (s_arr buf) (s_off buf) a (s_cap buf)).
    set (text := mkSl (s_arr buf) (s_off buf + a) (s_len buf - a) (s_cap buf - a)).
    cbn [s_arr s_off s_len s_cap text].
    set (dst := mkSl (s_arr buf) (s_off buf + a) 0 (s_cap buf - a)).
    unfold aead_Open. cbn [nonce text s_len]. fold a. rewrite Nat.eqb_refl. cbn [negb].
    assert (Cn : contents h nonce = firstn a (contents h buf)).
    { unfold contents, nonce. cbn [s_arr s_off s_len]. pointwise. }
    assert (Ct : contents h text = skipn a (contents h buf)).
    { unfold contents, text. cbn [s_arr s_off s_len]. pointwise. }
    fold nonce text. rewrite Cn, Ct.
    set (n := firstn a (contents h buf)) in *. set (c := skipn a (contents h buf)) in *.
    assert (Lc : length c = s_len buf - a) by (unfold c; rewrite skipn_length, contents_length by exact V; reflexivity).
    destruct (Nat.ltb_spec (s_len buf - a) (overhead A)) as [H2|H2].
    + rewrite OS by lia. exists h, (Err ErrAuth). auto.
    + unfold slice_for_append. cbn [dst s_arr s_off s_len s_cap plus].
      destruct (Nat.leb_spec (s_len buf - a - overhead A) (s_cap buf - a)) as [H3|H3]; [|lia].
      rewrite Nat.add_0_r, Nat.sub_0_r.
      set (out := mkSl (s_arr buf) (s_off buf + a) (s_len buf - a - overhead A) (s_cap buf - a)).
      assert (IO : inexact_overlap out text = false).
      { unfold inexact_overlap, out, text. cbn [s_arr s_off s_len]. rewrite !Nat.eqb_refl. destruct (_ || _); reflexivity. }
      rewrite IO.
      assert (Vo : valid h out) by (unfold valid, out; cbn; repeat split; lia).
      assert (Fr : forall d, length (store h out 0 d) = length h /\ (forall i, i <> s_arr buf -> arr (store h out 0 d) i = arr h i)).
      { intros d. split; [apply store_length|]. intros i Hi. unfold store. apply arr_set_other. cbn. auto. }
      destruct (open A n c) as [p|] eqn:Eo.
      * apply OL in Eo as Lp. eexists _, _. split; [reflexivity|]. split; [|apply Fr].
        eexists. split; [reflexivity|].
        change (s_len out) with (s_len buf - a - overhead A).
        rewrite (firstn_all2 (n := s_len buf - a - overhead A)) by lia.
        rewrite store_contents; auto; [|cbn; lia ..]. cbn [out s_arr s_off s_len].
        rewrite Nat.add_0_r, Nat.sub_diag. cbn [firstn app]. rewrite firstn_app_exact by lia. reflexivity.
      * eexists _, _. split; [reflexivity|]. split; [reflexivity | apply Fr].
Qed.

Lemma decrypt_encrypt A rnd p :
  open_ok A -> length rnd = nonce_size A -> decrypt_val A (encrypt_val A rnd p) = Ok p.
Proof.
  intros (O1 & _ & _) HR. unfold decrypt_val, encrypt_val. rewrite app_length.
  destruct (Nat.ltb_spec (length rnd + length (seal A rnd p)) (nonce_size A)) as [H|H]; [lia|].
  rewrite firstn_app_exact, skipn_app_exact by exact HR. rewrite O1 by exact HR. reflexivity.
Qed.
