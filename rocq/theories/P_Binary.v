(** * Proofs about M_Binary. *)
From Verif Require Import Base Spec M_ID M_Binary.
From Coq Require Import Strings.Byte Sorting.Permutation.
Local Open Scope nat_scope.

(** ** Integers *)

Lemma testbit_split m x a i : (a < 2 ^ m)%N ->
  N.testbit (x * 2 ^ m + a) i = if (i <? m)%N then N.testbit a i else N.testbit x (i - m).
Proof.
  intros Ha. assert (Hp : (2 ^ m <> 0)%N) by (apply N.pow_nonzero; lia).
  destruct (N.ltb_spec i m).
  - rewrite <- (N.mod_pow2_bits_low (x * 2 ^ m + a) m i) by lia.
    rewrite N.add_comm, N.mod_add by lia. rewrite N.mod_small by lia. reflexivity.
  - replace i with ((i - m) + m)%N at 1 by lia.
    rewrite <- N.div_pow2_bits. rewrite N.div_add_l by lia. rewrite N.div_small by lia.
    rewrite N.add_0_r. reflexivity.
Qed.

Lemma lxor_bound a b m : (a < 2 ^ m)%N -> (b < 2 ^ m)%N -> (N.lxor a b < 2 ^ m)%N.
Proof.
  intros Ha Hb.
  assert (E : (N.lxor a b = N.lxor a b mod 2 ^ m)%N).
  { apply N.bits_inj. intros i. destruct (N.ltb_spec i m).
    - rewrite N.mod_pow2_bits_low by lia. reflexivity.
    - rewrite N.mod_pow2_bits_high by lia. rewrite N.lxor_spec.
      rewrite <- (N.mod_small a (2 ^ m)), <- (N.mod_small b (2 ^ m)) by lia.
      rewrite !N.mod_pow2_bits_high by lia. reflexivity. }
  rewrite E. apply N.mod_upper_bound. apply N.pow_nonzero. lia.
Qed.

Lemma lxor_split m x a y b : (a < 2 ^ m)%N -> (b < 2 ^ m)%N ->
  N.lxor (x * 2 ^ m + a) (y * 2 ^ m + b) = (N.lxor x y * 2 ^ m + N.lxor a b)%N.
Proof.
  intros Ha Hb. apply N.bits_inj. intros i.
  rewrite N.lxor_spec, !testbit_split by (auto using lxor_bound).
  destruct (i <? m)%N; rewrite N.lxor_spec; reflexivity.
Qed.

Lemma lxor_le_add x y : (N.lxor x y <= x + y)%N.
Proof.
  assert (H : forall a b, (N.ldiff a b <= a)%N).
  { intros a b. assert (E : (N.ldiff a b + N.land a b = a)%N).
    { rewrite N.add_nocarry_lxor.
      - apply N.bits_inj. intros i. rewrite N.lxor_spec, N.ldiff_spec, N.land_spec.
        destruct (N.testbit a i), (N.testbit b i); reflexivity.
      - apply N.bits_inj. intros i. rewrite N.land_spec, N.ldiff_spec, N.land_spec, N.bits_0.
        destruct (N.testbit a i), (N.testbit b i); reflexivity. }
    lia. }
  assert (E : (N.lxor x y = N.ldiff x y + N.ldiff y x)%N).
  { rewrite N.add_nocarry_lxor.
    - apply N.bits_inj. intros i. rewrite !N.lxor_spec, !N.ldiff_spec.
      destruct (N.testbit x i), (N.testbit y i); reflexivity.
    - apply N.bits_inj. intros i. rewrite N.land_spec, !N.ldiff_spec, N.bits_0.
      destruct (N.testbit x i), (N.testbit y i); reflexivity. }
  pose proof (H x y). pose proof (H y x). lia.
Qed.

Lemma pow256 k : (256 ^ N.of_nat k = 2 ^ (8 * N.of_nat k))%N.
Proof. change 256%N with (2 ^ 8)%N. rewrite N.pow_mul_r. reflexivity. Qed.

(** ** XOR *)

Lemma b2n_xor a b : b2n (xor_byte a b) = N.lxor (b2n a) (b2n b).
Proof.
  unfold xor_byte. rewrite b2n_n2b. apply N.mod_small.
  pose proof (b2n_bound a). pose proof (b2n_bound b).
  change 256%N with (2 ^ 8)%N. apply lxor_bound; assumption.
Qed.

Lemma xor_bytes_length a : forall b, length a = length b -> length (xor_bytes a b) = length a.
Proof.
  induction a as [|x a IH]; intros [|y b] H; try discriminate; [reflexivity|].
  cbn [xor_bytes length] in *. rewrite IH; lia.
Qed.

Lemma XOR_eq a b : length a = length b -> XOR a b = xor_bytes a b.
Proof. intros H. unfold XOR. rewrite H, Nat.eqb_refl. reflexivity. Qed.

Lemma XOR_length a b : length a = length b -> length (XOR a b) = length a.
Proof. intros H. rewrite XOR_eq by exact H. apply xor_bytes_length. exact H. Qed.

Lemma be_decode_xor_bytes a : forall b, length a = length b ->
  be_decode (xor_bytes a b) = N.lxor (be_decode a) (be_decode b).
Proof.
  induction a as [|x a IH]; intros [|y b] H; try discriminate; [reflexivity|].
  cbn [length] in H. cbn [xor_bytes].
  assert (HL : length a = length b) by lia.
  rewrite !be_decode_cons, b2n_xor, IH by exact HL.
  rewrite xor_bytes_length by exact HL. rewrite <- HL. rewrite pow256.
  symmetry. apply lxor_split; rewrite <- pow256.
  - apply be_decode_bound.
  - rewrite HL. apply be_decode_bound.
Qed.

Lemma be_decode_XOR a b : length a = length b -> be_decode (XOR a b) = dist a b.
Proof. intros H. rewrite XOR_eq by exact H. apply be_decode_xor_bytes. exact H. Qed.

(** ** bytes.Compare is the order of big-endian integers *)

Lemma bytes_compare_decode a : forall b, length a = length b ->
  bytes_compare a b = N.compare (be_decode a) (be_decode b).
Proof.
  induction a as [|x a IH]; intros [|y b] H; try discriminate; [reflexivity|].
  cbn [length] in H. assert (HL : length a = length b) by lia.
  cbn [bytes_compare]. rewrite !be_decode_cons, IH by exact HL. rewrite <- HL.
  pose proof (be_decode_bound a) as Ba. pose proof (be_decode_bound b) as Bb. rewrite <- HL in Bb.
  set (P := (256 ^ N.of_nat (length a))%N) in *.
  destruct (N.compare_spec (b2n x) (b2n y)) as [E|E|E].
  - rewrite E. destruct (N.compare_spec (be_decode a) (be_decode b)); symmetry;
      [apply N.compare_eq_iff | apply N.compare_lt_iff | apply N.compare_gt_iff]; lia.
  - symmetry. apply N.compare_lt_iff. nia.
  - symmetry. apply N.compare_gt_iff. nia.
Qed.

(** ** The metric *)

Lemma dist_sym a b : dist a b = dist b a.
Proof. apply N.lxor_comm. Qed.

Lemma dist_zero a b : length a = length b -> (dist a b = 0%N <-> a = b).
Proof.
  intros H. unfold dist. rewrite N.lxor_eq_0_iff. split.
  - apply be_decode_inj. exact H.
  - intros ->. reflexivity.
Qed.

Lemma dist_triangle a b c : (dist a c <= dist a b + dist b c)%N.
Proof.
  unfold dist.
  replace (N.lxor (be_decode a) (be_decode c))
    with (N.lxor (N.lxor (be_decode a) (be_decode b)) (N.lxor (be_decode b) (be_decode c))).
  - apply lxor_le_add.
  - rewrite N.lxor_assoc, <- (N.lxor_assoc (be_decode b)), N.lxor_nilpotent, N.lxor_0_l. reflexivity.
Qed.

Lemma dist_inj a b t : length a = length b -> dist a t = dist b t -> a = b.
Proof.
  intros HL H. apply be_decode_inj; [exact HL|]. unfold dist in H.
  rewrite <- (N.lxor_0_r (be_decode a)), <- (N.lxor_nilpotent (be_decode t)), <- N.lxor_assoc, H,
    N.lxor_assoc, N.lxor_nilpotent, N.lxor_0_r. reflexivity.
Qed.

Lemma dist_unidirectional a d : (d < 256 ^ N.of_nat (length a))%N ->
  exists b, length b = length a /\ dist a b = d /\ forall b', length b' = length a -> dist a b' = d -> b' = b.
Proof.
  intros Hd. pose proof (be_decode_bound a) as Ba.
  set (n := N.lxor (be_decode a) d).
  assert (Hn : (n < 256 ^ N.of_nat (length a))%N).
  { unfold n. rewrite pow256 in *. apply lxor_bound; assumption. }
  exists (be_encode (length a) n). split; [apply be_encode_length|]. split.
  - unfold dist. rewrite be_decode_encode_small by exact Hn. unfold n.
    rewrite <- N.lxor_assoc, N.lxor_nilpotent, N.lxor_0_l. reflexivity.
  - intros b' HL HD. apply be_decode_inj; [rewrite be_encode_length; exact HL|].
    rewrite be_decode_encode_small by exact Hn. unfold n. unfold dist in HD. rewrite <- HD.
    rewrite <- N.lxor_assoc, N.lxor_nilpotent, N.lxor_0_l. reflexivity.
Qed.

(** ** Bits *)

Lemma bits_of_byte_length b : length (bits_of_byte b) = 8.
Proof. reflexivity. Qed.

Lemma bits_length l : length (bits l) = 8 * length l.
Proof. induction l as [|b l IH]; [reflexivity|]. unfold bits in *. cbn [flat_map]. rewrite app_length, IH. cbn [length]. rewrite bits_of_byte_length. lia. Qed.

Fixpoint zip_xor (a b : list bool) : list bool :=
  match a, b with x :: a', y :: b' => xorb x y :: zip_xor a' b' | _, _ => [] end.

Fixpoint lead_false (l : list bool) : nat :=
  match l with false :: l' => S (lead_false l') | _ => 0 end.
Definition count_true (l : list bool) : nat := length (filter (fun b : bool => b) l).

Lemma lcp_zip a : forall b, length a = length b -> lcp a b = lead_false (zip_xor a b).
Proof.
  induction a as [|x a IH]; intros [|y b] H; try discriminate; [reflexivity|].
  cbn [length] in H. cbn [lcp zip_xor]. destruct x, y; cbn [Bool.eqb xorb lead_false]; auto; rewrite IH; auto.
Qed.

Lemma hamming_zip a : forall b, length a = length b -> hamming a b = count_true (zip_xor a b).
Proof.
  induction a as [|x a IH]; intros [|y b] H; try discriminate; [reflexivity|].
  cbn [length] in H. cbn [hamming zip_xor]. rewrite IH by lia.
  unfold count_true. destruct x, y; cbn; lia.
Qed.

Lemma zip_xor_app a1 : forall b1 a2 b2, length a1 = length b1 ->
  zip_xor (a1 ++ a2) (b1 ++ b2) = zip_xor a1 b1 ++ zip_xor a2 b2.
Proof.
  induction a1 as [|x a IH]; intros [|y b] a2 b2 H; try discriminate; [reflexivity|].
  cbn [length] in H. cbn [app zip_xor]. rewrite IH by lia. reflexivity.
Qed.

Lemma zip_xor_firstn n : forall a b, zip_xor (firstn n a) (firstn n b) = firstn n (zip_xor a b).
Proof.
  induction n as [|n IH]; intros [|x a] [|y b]; try reflexivity.
  cbn [firstn zip_xor]. rewrite IH. reflexivity.
Qed.

Lemma bits_xor_byte x y : bits_of_byte (xor_byte x y) = zip_xor (bits_of_byte x) (bits_of_byte y).
Proof.
  unfold bits_of_byte. rewrite b2n_xor. cbn [map zip_xor]. rewrite !N.lxor_spec. reflexivity.
Qed.

Lemma bits_xor a : forall b, length a = length b -> bits (xor_bytes a b) = zip_xor (bits a) (bits b).
Proof.
  unfold bits. induction a as [|x a IH]; intros [|y b] H; try discriminate; [reflexivity|].
  cbn [length] in H. cbn [xor_bytes flat_map]. rewrite zip_xor_app by reflexivity.
  rewrite IH by lia. rewrite bits_xor_byte. reflexivity.
Qed.

(** Facts about a single byte, by going through all 256 of them. *)
Lemma leadingzeros8_bits b : b <> Byte.x00 ->
  forall tl, leadingzeros8 b = lead_false (bits_of_byte b ++ tl) /\ (bits_of_byte b) <> repeat false 8.
Proof. intros H tl. destruct b; (congruence || (split; [reflexivity | discriminate])). Qed.

Definition top_ones (n : nat) (b : byte) : nat := onescount8 (N.shiftr (b2n b) (8 - N.of_nat n)).

Lemma top_ones_bits b n : n <= 8 -> top_ones n b = count_true (firstn n (bits_of_byte b)).
Proof. intros H. do 9 (destruct n as [|n]; [destruct b; reflexivity|]). lia. Qed.

Lemma onescount8_bits b : onescount8 (b2n b) = count_true (bits_of_byte b).
Proof. destruct b; reflexivity. Qed.

Lemma bits_zero : bits_of_byte Byte.x00 = repeat false 8.
Proof. reflexivity. Qed.

Lemma prefix_len_from_bits a : forall i, prefix_len_from i a = i * 8 + lead_false (bits a).
Proof.
  unfold bits. induction a as [|b a IH]; intros i; [cbn; lia|].
  cbn [prefix_len_from flat_map]. destruct (byte_eqb b Byte.x00) eqn:E.
  - apply byte_eqb_eq in E. subst b. rewrite IH, bits_zero. cbn [repeat app lead_false]. lia.
  - assert (Hb : b <> Byte.x00) by (intros ->; discriminate).
    destruct (leadingzeros8_bits b Hb (flat_map bits_of_byte a)) as [-> _]. reflexivity.
Qed.

Lemma PrefixLen_XOR a b : length a = length b -> PrefixLen (XOR a b) = common_prefix a b.
Proof.
  intros H. unfold PrefixLen, common_prefix. rewrite prefix_len_from_bits, XOR_eq by exact H.
  rewrite bits_xor by exact H. rewrite lcp_zip; [lia|]. rewrite !bits_length, H. reflexivity.
Qed.

Lemma count_true_app a b : count_true (a ++ b) = count_true a + count_true b.
Proof. unfold count_true. rewrite filter_app, app_length. reflexivity. Qed.

Lemma prefix_diff_loop_bits buf : forall i n, (0 <= i)%Z ->
  prefix_diff_loop i buf n = count_true (firstn (Z.to_nat (n - 8 * i)) (bits buf)).
Proof.
  unfold bits. induction buf as [|b buf IH]; intros i n Hi.
  - cbn. rewrite firstn_nil. reflexivity.
  - cbn [prefix_diff_loop flat_map]. destruct (Z.leb_spec n (8 * i)).
    + replace (Z.to_nat (n - 8 * i)) with 0 by lia. reflexivity.
    + rewrite IH by lia. rewrite firstn_app, count_true_app, bits_of_byte_length.
      replace (Z.to_nat (n - 8 * i) - 8) with (Z.to_nat (n - 8 * (i + 1))) by lia.
      f_equal.
      destruct ((8 * i <? n) && (n <? 8 * (i + 1)))%Z eqn:E.
      * apply andb_true_iff in E as [E1 E2].
        assert (Hm : (n mod 8 = n - 8 * i)%Z).
        { symmetry. apply Z.mod_unique with i; lia. }
        rewrite Hm.
        replace (Z.to_N (n - 8 * i)) with (N.of_nat (Z.to_nat (n - 8 * i))) by lia.
        apply top_ones_bits. lia.
      * rewrite (firstn_all2 (bits_of_byte b)) by (rewrite bits_of_byte_length; lia). apply onescount8_bits.
Qed.

Lemma PrefixDiff_hamming a b n : length a = length b ->
  PrefixDiff a b n = hamming (firstn (Z.to_nat n) (bits a)) (firstn (Z.to_nat n) (bits b)).
Proof.
  intros H. unfold PrefixDiff. rewrite prefix_diff_loop_bits by lia. rewrite XOR_eq, bits_xor by exact H.
  rewrite hamming_zip by (rewrite !firstn_length, !bits_length, H; reflexivity).
  rewrite zip_xor_firstn. f_equal. f_equal. lia.
Qed.

(** ** Common prefixes and distances *)

(** The integer value of a bit string. *)
Lemma lead_false_decode l : forall n, lead_false (bits l) = n -> n < 8 * length l ->
  (2 ^ (8 * N.of_nat (length l) - 1 - N.of_nat n) <= be_decode l
  /\ be_decode l < 2 ^ (8 * N.of_nat (length l) - N.of_nat n))%N.
Proof.
  induction l as [|b l IH]; intros n H Hn; [cbn [length] in Hn; lia|].
  unfold bits in *. cbn [flat_map] in H. cbn [length] in *.
  rewrite be_decode_cons. pose proof (be_decode_bound l) as Bl. rewrite pow256 in *.
  set (m := (8 * N.of_nat (length l))%N) in *.
  destruct (byte_eqb b Byte.x00) eqn:E.
  - apply byte_eqb_eq in E. subst b. rewrite bits_zero in H. cbn [repeat app lead_false] in H.
    assert (Hn' : lead_false (flat_map bits_of_byte l) = n - 8) by lia.
    specialize (IH (n - 8) Hn' ltac:(lia)).
    change (b2n Byte.x00) with 0%N. rewrite N.mul_0_l, N.add_0_l.
    replace (8 * N.of_nat (S (length l)) - 1 - N.of_nat n)%N with (m - 1 - N.of_nat (n - 8))%N by lia.
    replace (8 * N.of_nat (S (length l)) - N.of_nat n)%N with (m - N.of_nat (n - 8))%N by lia.
    exact IH.
  - assert (Hb : b <> Byte.x00) by (intros ->; discriminate).
    destruct (leadingzeros8_bits b Hb (flat_map bits_of_byte l)) as [Hl _].
    rewrite H in Hl.
    assert (Hbb : (2 ^ (7 - N.of_nat (leadingzeros8 b)) <= b2n b /\ b2n b < 2 ^ (8 - N.of_nat (leadingzeros8 b)))%N
                  /\ leadingzeros8 b <= 7).
    { clear - Hb. destruct b; try congruence; vm_compute; repeat split; (discriminate || lia). }
    rewrite Hl in Hbb. destruct Hbb as [[B1 B2] B3].
    replace (8 * N.of_nat (S (length l)) - 1 - N.of_nat n)%N with (7 - N.of_nat n + m)%N by lia.
    replace (8 * N.of_nat (S (length l)) - N.of_nat n)%N with (8 - N.of_nat n + m)%N by lia.
    rewrite !N.pow_add_r. nia.
Qed.

Lemma lead_false_le l : lead_false l <= length l.
Proof. induction l as [|[] l IH]; cbn; lia. Qed.

Lemma common_prefix_lead a b : length a = length b -> common_prefix a b = lead_false (bits (xor_bytes a b)).
Proof.
  intros H. unfold common_prefix. rewrite bits_xor by exact H. apply lcp_zip. rewrite !bits_length, H. reflexivity.
Qed.

Lemma common_prefix_le a b : length a = length b -> common_prefix a b <= 8 * length a.
Proof.
  intros H. rewrite common_prefix_lead by exact H.
  pose proof (lead_false_le (bits (xor_bytes a b))) as L. rewrite bits_length, xor_bytes_length in L by exact H. exact L.
Qed.

Lemma common_prefix_dist a b : length a = length b -> common_prefix a b < 8 * length a ->
  (2 ^ (8 * N.of_nat (length a) - 1 - N.of_nat (common_prefix a b)) <= dist a b
   /\ dist a b < 2 ^ (8 * N.of_nat (length a) - N.of_nat (common_prefix a b)))%N.
Proof.
  intros H Hc. rewrite common_prefix_lead in Hc |- * by exact H.
  rewrite <- be_decode_XOR, XOR_eq by exact H.
  pose proof (lead_false_decode (xor_bytes a b) _ eq_refl) as D.
  rewrite xor_bytes_length in D by exact H. apply D. exact Hc.
Qed.

Lemma bits_inj a : forall b, length a = length b -> bits a = bits b -> a = b.
Proof.
  unfold bits. induction a as [|x a IH]; intros [|y b] HL H; try discriminate; [reflexivity|].
  cbn [length] in HL. cbn [flat_map] in H.
  assert (Hx : bits_of_byte x = bits_of_byte y).
  { apply (f_equal (firstn 8)) in H. rewrite !firstn_app_exact in H by reflexivity. exact H. }
  rewrite Hx in H. apply app_inv_head in H.
  assert (x = y) as ->.
  { clear - Hx. apply b2n_inj. apply N.bits_inj. intros i.
    destruct (N.ltb_spec i 8).
    - assert (C : (i = 0 \/ i = 1 \/ i = 2 \/ i = 3 \/ i = 4 \/ i = 5 \/ i = 6 \/ i = 7)%N) by (clear Hx; lia).
      unfold bits_of_byte in Hx. cbn [map] in Hx. injection Hx as H7 H6 H5 H4 H3 H2 H1 H0.
      decompose [or] C; subst i; assumption.
    - pose proof (b2n_bound x). pose proof (b2n_bound y).
      rewrite <- (N.mod_small (b2n x) (2 ^ 8)), <- (N.mod_small (b2n y) (2 ^ 8)) by assumption.
      rewrite !N.mod_pow2_bits_high by (clear Hx; lia). reflexivity. }
  f_equal. apply IH; [lia | exact H].
Qed.

Lemma lcp_full a : forall b, length a = length b -> lcp a b = length a -> a = b.
Proof.
  induction a as [|x a IH]; intros [|y b] HL H; try discriminate; [reflexivity|].
  cbn [length lcp] in *. destruct (Bool.eqb x y) eqn:E; [|discriminate].
  apply eqb_prop in E. subst y. f_equal. apply IH; lia.
Qed.

Lemma lcp_refl a : lcp a a = length a.
Proof. induction a as [|x a IH]; [reflexivity|]. cbn. rewrite eqb_reflx, IH. reflexivity. Qed.

Lemma common_prefix_full a b : length a = length b -> (common_prefix a b = 8 * length a <-> a = b).
Proof.
  intros H. unfold common_prefix. split.
  - intros E. apply bits_inj; [exact H|]. apply lcp_full; rewrite !bits_length; lia.
  - intros ->. rewrite lcp_refl, bits_length. reflexivity.
Qed.

Lemma lcp_sym a : forall b, lcp a b = lcp b a.
Proof.
  induction a as [|x a IH]; intros [|y b]; try reflexivity. cbn [lcp]. rewrite IH.
  destruct x, y; reflexivity.
Qed.

Lemma common_prefix_sym a b : common_prefix a b = common_prefix b a.
Proof. apply lcp_sym. Qed.

(** Ultrametric facts: with different prefix lengths to [s], the smaller one decides. *)
Lemma lcp_lt a : forall b s, lcp a s < lcp b s -> lcp a b = lcp a s.
Proof.
  induction a as [|x a IH]; intros [|y b] [|z s]; cbn [lcp]; try lia.
  destruct (Bool.eqb y z) eqn:E2; [|destruct (Bool.eqb x z); lia].
  apply eqb_prop in E2. subst z.
  destruct (Bool.eqb x y) eqn:E1; [|reflexivity]. intros H. f_equal. apply IH. lia.
Qed.

Lemma lcp_eq_lt a : forall b s, length a = length s -> length b = length s ->
  lcp a s = lcp b s -> lcp a s < length s -> lcp a s < lcp a b.
Proof.
  induction a as [|x a IH]; intros [|y b] [|z s]; cbn [lcp length]; try lia. intros L1 L2.
  destruct (Bool.eqb x z) eqn:E1, (Bool.eqb y z) eqn:E2; try discriminate; intros H1 H2.
  - apply eqb_prop in E1, E2. subst. rewrite eqb_reflx. apply -> Nat.succ_lt_mono. apply IH; lia.
  - destruct x, y, z; try discriminate; cbn; lia.
Qed.

(** ** Sorting *)

Section Sorting.
  Context {A : Type} (f : A -> N) (less : A -> A -> bool).

  Lemma insert_perm x l : Permutation (x :: l) (insert_by less x l).
  Proof.
    induction l as [|y l IH]; cbn; [reflexivity|]. destruct (less y x); [|reflexivity].
    rewrite perm_swap. constructor. exact IH.
  Qed.

  Lemma sort_perm l : Permutation l (sort_by less l).
  Proof.
    induction l as [|x l IH]; cbn; [reflexivity|]. rewrite <- insert_perm. constructor. exact IH.
  Qed.

  Lemma insert_in x l y : In y (insert_by less x l) <-> y = x \/ In y l.
  Proof.
    pose proof (insert_perm x l) as P. split; intros H.
    - apply (Permutation_in _ (Permutation_sym P)) in H. destruct H as [<-|H]; auto.
    - apply (Permutation_in _ P). destruct H as [->|H]; [left|right]; auto.
  Qed.

  Lemma insert_sorted_in x l : (forall a b, In a (x :: l) -> In b (x :: l) -> less a b = (f a <? f b)%N) ->
    sorted_by f l -> sorted_by f (insert_by less x l).
  Proof.
    intros HL. induction 1 as [|y l Hy Hs IH]; cbn.
    - constructor; [|constructor]. intros ? [].
    - rewrite HL by (cbn; auto). destruct (N.ltb_spec (f y) (f x)).
      + constructor.
        * intros z Hz. apply insert_in in Hz as [->|Hz]; [lia|auto].
        * apply IH. intros a b Ha Hb. apply HL; cbn in *; tauto.
      + constructor; [|constructor; assumption].
        intros z [<-|Hz]; [assumption|]. specialize (Hy z Hz). lia.
  Qed.

  Lemma sort_sorted l : (forall a b, In a l -> In b l -> less a b = (f a <? f b)%N) -> sorted_by f (sort_by less l).
  Proof.
    induction l as [|x l IH]; intros HL; cbn; [constructor|].
    apply insert_sorted_in.
    - intros a b Ha Hb. pose proof (sort_perm l) as P. apply HL.
      + destruct Ha as [->|Ha]; [left; auto|right]. apply (Permutation_in _ (Permutation_sym P)). exact Ha.
      + destruct Hb as [->|Hb]; [left; auto|right]. apply (Permutation_in _ (Permutation_sym P)). exact Hb.
    - apply IH. intros a b Ha Hb. apply HL; right; assumption.
  Qed.

  Lemma sorted_unique l : forall l', Permutation l l' -> sorted_by f l -> sorted_by f l' ->
    (forall a b, In a l -> In b l -> f a = f b -> a = b) -> l = l'.
  Proof.
    induction l as [|x l IH]; intros l' P S1 S2 Inj.
    - apply Permutation_nil in P. auto.
    - destruct l' as [|y l'].
      { symmetry in P. apply Permutation_nil in P. discriminate. }
      inversion S1 as [|? ? Hx S1']; subst. inversion S2 as [|? ? Hy S2']; subst.
      assert (Iy : In y (x :: l)) by (apply (Permutation_in _ (Permutation_sym P)); left; auto).
      assert (Ix : In x (y :: l')) by (apply (Permutation_in _ P); left; auto).
      assert (f x <= f y)%N by (destruct Iy as [->|Iy]; [lia|auto]).
      assert (f y <= f x)%N by (destruct Ix as [->|Ix]; [lia|auto]).
      assert (x = y) as <- by (apply Inj; [left; auto | exact Iy | lia]).
      f_equal. apply IH; auto.
      + apply Permutation_cons_inv in P. exact P.
      + intros a b Ha Hb. apply Inj; right; assumption.
  Qed.

  Lemma sorted_app_le l1 l2 : sorted_by f (l1 ++ l2) -> forall x y, In x l1 -> In y l2 -> (f x <= f y)%N.
  Proof.
    induction l1 as [|a l1 IH]; cbn; intros HS x y Hx Hy; [contradiction|].
    inversion HS as [|? ? Ha HS']; subst. destruct Hx as [<-|Hx].
    - apply Ha. apply in_or_app. auto.
    - apply IH; auto.
  Qed.

  Lemma sorted_firstn k l : sorted_by f l -> sorted_by f (firstn k l).
  Proof.
    intros HS. revert k. induction HS as [|x l Hx HS IH]; intros [|k]; cbn; try constructor.
    - intros y Hy. apply Hx. rewrite <- (firstn_skipn k l). apply in_or_app. auto.
    - apply IH.
  Qed.
End Sorting.

Lemma dist_less_spec t x y : length (id_key x) = length t -> length (id_key y) = length t ->
  dist_less t x y = (dist (id_key x) t <? dist (id_key y) t)%N.
Proof.
  intros Hx Hy. unfold dist_less.
  rewrite bytes_compare_decode by (rewrite !XOR_length by assumption; congruence).
  rewrite !be_decode_XOR by assumption. unfold N.ltb.
  destruct (N.compare (dist (id_key x) t) (dist (id_key y) t)); reflexivity.
Qed.

Lemma SortByDistance_perm t l : Permutation l (SortByDistance t l).
Proof. apply sort_perm. Qed.

Lemma SortByDistance_sorted t l : (forall x, In x l -> length (id_key x) = length t) ->
  sorted_by (fun x => dist (id_key x) t) (SortByDistance t l).
Proof.
  intros H. apply sort_sorted. intros a b Ha Hb. apply dist_less_spec; apply H; assumption.
Qed.

(** ** Longer common prefix means closer *)

Lemma lcp_min a : forall b s, length a = length s -> length b = length s -> Nat.min (lcp a s) (lcp b s) <= lcp a b.
Proof.
  induction a as [|x a IH]; intros [|y b] [|z s] L1 L2; try discriminate; [cbn; lia|].
  cbn [lcp length] in *. destruct (Bool.eqb x z) eqn:E1; [|lia]. destruct (Bool.eqb y z) eqn:E2; [|lia].
  apply eqb_prop in E1, E2. subst. rewrite eqb_reflx.
  specialize (IH b s ltac:(lia) ltac:(lia)). lia.
Qed.

Lemma longer_prefix_closer x y t : length x = length t -> length y = length t ->
  common_prefix y t < common_prefix x t -> (dist x t < dist y t)%N.
Proof.
  intros Lx Ly H. pose proof (common_prefix_le x t Lx) as Bx.
  destruct (common_prefix_dist y t Ly ltac:(lia)) as [Dy _].
  eapply N.lt_le_trans; [|exact Dy].
  destruct (Nat.eq_dec (common_prefix x t) (8 * length x)) as [E|E].
  - apply common_prefix_full in E; auto. subst x. unfold dist. rewrite N.lxor_nilpotent.
    assert (2 ^ (8 * N.of_nat (length y) - 1 - N.of_nat (common_prefix y t)) <> 0)%N by (apply N.pow_nonzero; lia). lia.
  - destruct (common_prefix_dist x t Lx ltac:(lia)) as [_ Dx].
    eapply N.lt_le_trans; [exact Dx|]. apply N.pow_le_mono_r; lia.
Qed.
