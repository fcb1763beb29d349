(** * The key conversion of ecdh.go: C56. *)
From Verif Require Import Base Spec M_ID M_Ecdh P_Prime.
From Coq Require Import Strings.Byte Znumtheory.
Local Open Scope nat_scope.

(** The y-coordinate a 32-byte Ed25519 key denotes: little-endian, without the top bit. *)
Definition key_y (pk : bytes) : Z := (Z.of_N (be_decode (rev pk)) mod 2 ^ 255)%Z.
(** The number a Curve25519 point denotes: little-endian. *)
Definition point_u (out : bytes) : Z := Z.of_N (be_decode (rev out)).

Lemma put_mid {A} (a : list A) x b y : put (a ++ x :: b) (length a) y = Ok (a ++ y :: b).
Proof.
  unfold put. rewrite app_length. cbn [length]. destruct (Nat.ltb_spec (length a) (length a + S (length b))); [|lia].
  rewrite firstn_app, Nat.sub_diag, firstn_all, app_nil_r. cbn [firstn].
  rewrite skipn_app. replace (S (length a) - length a) with 1 by lia. rewrite (skipn_all2 a) by lia. reflexivity.
Qed.

Lemma reverse_into_gen (src : bytes) : forall n i (mid post : bytes), n = i + length src -> length mid = length src ->
  reverse_into n (mid ++ post) i src = Ok (rev src ++ post).
Proof.
  induction src as [|b src IH]; intros n i mid post Hn Hm; cbn [reverse_into length rev] in *.
  - destruct mid; [reflexivity | discriminate].
  - destruct (Nat.ltb_spec i n); [|lia].
    destruct (exists_last (l := mid)) as (m & x & ->); [intros ->; discriminate|]. rewrite app_length in Hm. cbn in Hm.
    rewrite <- app_assoc. cbn [app]. replace (n - i - 1) with (length m) by lia. rewrite put_mid. cbn [bind].
    rewrite (IH n (S i) m (b :: post)); [|lia|lia]. rewrite <- app_assoc. reflexivity.
Qed.

Lemma zeros_split k n : k <= n -> zeros n = zeros k ++ zeros (n - k).
Proof. intros H. unfold zeros. rewrite <- repeat_app. f_equal. lia. Qed.

Lemma reverse_into_32 (src : bytes) : length src <= 32 ->
  reverse_into (length src) (zeros 32) 0 src = Ok (rev src ++ zeros (32 - length src)).
Proof.
  intros H. rewrite (zeros_split (length src) 32 H) at 1. apply (reverse_into_gen src (length src) 0); auto.
  apply repeat_length.
Qed.

Lemma be_decode_acc_spec l : forall acc, be_decode_acc acc l = (acc * 256 ^ N.of_nat (length l) + be_decode_acc 0 l)%N.
Proof.
  induction l as [|b l IH]; intros acc; cbn [be_decode_acc length]; [cbn; lia|].
  rewrite (IH (acc * 256 + b2n b)%N), (IH (0 * 256 + b2n b)%N). rewrite Nat2N.inj_succ, N.pow_succ_r'. ring.
Qed.

Lemma be_decode_zeros k l : be_decode (zeros k ++ l) = be_decode l.
Proof. unfold be_decode. induction k as [|k IH]; [reflexivity|]. cbn. exact IH. Qed.

Lemma bytes_of_int_small z : (0 <= z < 2 ^ 256)%Z -> length (bytes_of_int z) <= 32 /\ Z.of_N (be_decode (bytes_of_int z)) = z.
Proof.
  intros H. unfold bytes_of_int. set (n := Z.abs_N z). assert (En : Z.of_N n = z) by (unfold n; lia).
  assert (Hn : (n < 2 ^ 256)%N) by (apply N2Z.inj_lt; rewrite En; exact (proj2 H)).
  assert (Hs : (N.size n <= 256)%N).
  { destruct (N.eq_dec n 0) as [-> |N0]; [cbn; lia|]. rewrite N.size_log2 by exact N0. assert (N.log2 n < 256)%N by (apply N.log2_lt_pow2; lia). lia. }
  rewrite be_encode_length. split.
  - pose proof (N.div_le_mono (N.size n + 7) (256 + 7) 8 ltac:(lia) ltac:(lia)) as D. change ((256 + 7) / 8)%N with 32%N in D. lia.
  - rewrite be_decode_encode_small; [exact En|]. rewrite N2Nat.id.
    pose proof (N.size_gt n) as G. eapply N.lt_le_trans; [exact G|].
    replace 256%N with (2 ^ 8)%N by reflexivity. rewrite <- N.pow_mul_r. apply N.pow_le_mono_r; [lia|].
    pose proof (N.div_mod (N.size n + 7) 8 ltac:(lia)). pose proof (N.mod_lt (N.size n + 7) 8 ltac:(lia)). lia.
Qed.

Lemma mask_first b r : length r = 31 ->
  Z.of_N (be_decode (n2b (N.land (b2n b) 127) :: r)) = (Z.of_N (be_decode (b :: r)) mod 2 ^ 255)%Z.
Proof.
  intros H.
  assert (E : forall x, be_decode (x :: r) = (b2n x * 256 ^ 31 + be_decode r)%N).
  { intros x. unfold be_decode. cbn [be_decode_acc]. rewrite be_decode_acc_spec, H. rewrite N.mul_0_l, N.add_0_l. reflexivity. }
  rewrite !E. rewrite b2n_n2b.
  change 127%N with (N.ones 7). rewrite N.land_ones. rewrite (N.mod_small (b2n b mod 2 ^ 7) 256).
  2: { pose proof (N.mod_lt (b2n b) (2 ^ 7) ltac:(discriminate)). change (2 ^ 7)%N with 128%N in *. lia. }
  change (2 ^ 255)%Z with (Z.of_N (2 ^ 255)). rewrite <- N2Z.inj_mod. f_equal.
  pose proof (be_decode_bound r) as B. rewrite H in B. change (256 ^ N.of_nat 31)%N with (2 ^ 248)%N in B. change (256 ^ 31)%N with (2 ^ 248)%N.
  rewrite (N.div_mod (b2n b) (2 ^ 7)) at 2 by discriminate.
  replace ((2 ^ 7 * (b2n b / 2 ^ 7) + b2n b mod 2 ^ 7) * 2 ^ 248 + be_decode r)%N
    with (b2n b mod 2 ^ 7 * 2 ^ 248 + be_decode r + (b2n b / 2 ^ 7) * 2 ^ 255)%N.
  2: { change (2 ^ 255)%N with (2 ^ 7 * 2 ^ 248)%N. ring. }
  rewrite N.mod_add by discriminate. symmetry. apply N.mod_small.
  pose proof (N.mod_lt (b2n b) (2 ^ 7) ltac:(discriminate)). change (2 ^ 255)%N with (2 ^ 7 * 2 ^ 248)%N. nia.
Qed.

(** The conversion, unfolded. *)
Lemma convert_eq inv pk : key32 pk -> mod_inverse_contract inv ->
  exists out, ed25519PublicKeyToCurve25519 inv pk = Ok out /\ length out = 32 /\
    point_u out = (((key_y pk + 1) * match inv (1 - key_y pk) curve25519P with Some d => d | None => 1 - key_y pk end) mod curve25519P)%Z.
Proof.
  intros Hk HC. unfold ed25519PublicKeyToCurve25519.
  assert (R : reverse_into 32 (zeros 32) 0 pk = Ok (rev pk)).
  { pose proof (reverse_into_32 pk ltac:(rewrite Hk; lia)) as R. rewrite Hk, Nat.sub_diag in R. unfold zeros at 2 in R. cbn [repeat] in R.
    rewrite app_nil_r in R. exact R. }
  rewrite R. cbn [bind].
  assert (Hr : length (rev pk) = 32) by (rewrite rev_length; exact Hk).
  destruct (rev pk) as [|b r] eqn:Er; [discriminate|]. cbn [bind]. cbv zeta.
  assert (Ey : int_of_bytes (n2b (N.land (b2n b) 127) :: r) = key_y pk).
  { unfold int_of_bytes, key_y. rewrite Er. apply mask_first. cbn in Hr. lia. }
  rewrite Ey. set (u := (_ mod curve25519P)%Z).
  assert (Hu : (0 <= u < 2 ^ 256)%Z).
  { unfold u. assert (0 < curve25519P)%Z as HP by reflexivity. pose proof (Z.mod_pos_bound ((key_y pk + 1) * match inv (1 - key_y pk) curve25519P with Some d => d | None => 1 - key_y pk end)%Z _ HP) as B.
    assert (curve25519P < 2 ^ 256)%Z by reflexivity. lia. }
  destruct (bytes_of_int_small u Hu) as [L E]. rewrite reverse_into_32 by exact L.
  eexists. split; [reflexivity|]. split.
  - rewrite app_length, rev_length. unfold zeros. rewrite repeat_length. lia.
  - unfold point_u. rewrite rev_app_distr, rev_involutive. replace (rev (zeros (32 - length (bytes_of_int u)))) with (zeros (32 - length (bytes_of_int u))).
    + rewrite be_decode_zeros. exact E.
    + unfold zeros. induction (32 - length (bytes_of_int u)) as [|k IH]; [reflexivity|]. cbn [repeat rev]. rewrite <- IH. clear.
      induction k as [|k IH]; [reflexivity|]. cbn. rewrite <- IH. reflexivity.
Qed.

Lemma invertible y : (0 <= y)%Z -> (y mod curve25519P <> 1)%Z -> Z.gcd (1 - y) curve25519P = 1%Z.
Proof.
  intros Hy N. apply Zgcd_1_rel_prime. apply rel_prime_sym. apply prime_rel_prime; [exact prime_25519|].
  intros [k D]. apply N. replace y with (1 + (- k) * curve25519P)%Z by lia. rewrite Z.mod_add by discriminate. reflexivity.
Qed.

Lemma not_invertible y : (y mod curve25519P = 1)%Z -> Z.gcd (1 - y) curve25519P <> 1%Z.
Proof.
  intros E C. assert (D : (curve25519P | 1 - y)%Z).
  { exists (- (y / curve25519P))%Z. rewrite (Z.div_mod y curve25519P) at 1 by discriminate. rewrite E. ring. }
  pose proof (Z.gcd_greatest _ _ curve25519P D (Z.divide_refl _)) as G. rewrite C in G. apply Z.divide_1_r_nonneg in G; discriminate.
Qed.

(** ** C56 *)

(** For every key: 32 bytes, denoting u < p with u (1 - y) = 1 + y (mod p) unless y = 1 (mod p), when u = 0. *)
Theorem C56_conversion : forall inv pk, mod_inverse_contract inv -> key32 pk ->
  exists out, ed25519PublicKeyToCurve25519 inv pk = Ok out /\ length out = 32 /\
    (0 <= point_u out < 2 ^ 255 - 19)%Z /\
    if (key_y pk mod (2 ^ 255 - 19) =? 1)%Z then point_u out = 0%Z
    else ((point_u out * (1 - key_y pk)) mod (2 ^ 255 - 19) = (1 + key_y pk) mod (2 ^ 255 - 19))%Z.
Proof.
  intros inv pk HC Hk. destruct (convert_eq inv pk Hk HC) as (out & E & L & U). exists out. split; [exact E|]. split; [exact L|].
  change (2 ^ 255 - 19)%Z with curve25519P. assert (HP : (0 < curve25519P)%Z) by reflexivity.
  split; [rewrite U; apply Z.mod_pos_bound; exact HP|].
  assert (Hy : (0 <= key_y pk)%Z) by (unfold key_y; apply Z.mod_pos_bound; reflexivity).
  pose proof (HC (1 - key_y pk)%Z) as C. destruct (Z.eqb_spec (key_y pk mod curve25519P) 1) as [Y|Y].
  - pose proof (not_invertible _ Y) as NI. destruct (inv (1 - key_y pk)%Z curve25519P) as [x|].
    + exfalso. destruct C as [_ C]. apply NI. apply Zgcd_1_rel_prime.
      apply bezout_rel_prime. apply (Bezout_intro _ _ _ x (- ((1 - key_y pk) * x / curve25519P))%Z).
      rewrite (Z.mul_comm x). rewrite (Z.div_mod ((1 - key_y pk) * x) curve25519P) at 1 by discriminate. rewrite C. ring.
    + rewrite U. apply Z.mod_divide; [discriminate|].
      exists ((key_y pk + 1) * (- (key_y pk / curve25519P)))%Z. rewrite (Z.div_mod (key_y pk) curve25519P) at 2 by discriminate. rewrite Y. ring.
  - pose proof (invertible _ Hy Y) as GI. destruct (inv (1 - key_y pk)%Z curve25519P) as [x|]; [|contradiction]. destruct C as [_ C].
    rewrite U. rewrite Z.mul_mod_idemp_l by discriminate. replace ((key_y pk + 1) * x * (1 - key_y pk))%Z with ((key_y pk + 1) * ((1 - key_y pk) * x))%Z by ring.
    rewrite <- Z.mul_mod_idemp_r by discriminate. rewrite C. f_equal. ring.
Qed.
Print Assumptions C56_conversion.

(** The sign bit is irrelevant: keys with the same y give the same point. *)
Theorem C56_sign_bit : forall inv pk pk', mod_inverse_contract inv -> key32 pk -> key32 pk' -> key_y pk = key_y pk' ->
  ed25519PublicKeyToCurve25519 inv pk = ed25519PublicKeyToCurve25519 inv pk'.
Proof.
  intros inv pk pk' HC H H' E. destruct (convert_eq inv pk H HC) as (o & Eo & L & U). destruct (convert_eq inv pk' H' HC) as (o' & Eo' & L' & U').
  rewrite Eo, Eo'. f_equal. rewrite E, <- U' in U. unfold point_u in U. apply N2Z.inj in U.
  rewrite <- (rev_involutive o), <- (rev_involutive o'). f_equal.
  pose proof (be_encode_decode (rev o)) as A. pose proof (be_encode_decode (rev o')) as B. rewrite rev_length, L in A. rewrite rev_length, L' in B.
  rewrite <- A, <- B, U. reflexivity.
Qed.
Print Assumptions C56_sign_bit.

(** Distinct canonical coordinates other than 1 give distinct points. *)
Theorem C56_injective : forall inv pk pk' out, mod_inverse_contract inv -> key32 pk -> key32 pk' ->
  (key_y pk < 2 ^ 255 - 19)%Z -> (key_y pk' < 2 ^ 255 - 19)%Z -> key_y pk <> 1%Z -> key_y pk' <> 1%Z ->
  ed25519PublicKeyToCurve25519 inv pk = Ok out -> ed25519PublicKeyToCurve25519 inv pk' = Ok out -> key_y pk = key_y pk'.
Proof.
  intros inv pk pk' out HC H H' B B' N N' E E'.
  destruct (C56_conversion inv pk HC H) as (o & Eo & _ & _ & U). destruct (C56_conversion inv pk' HC H') as (o' & Eo' & _ & _ & U').
  assert (o = out) as -> by congruence. assert (o' = out) as -> by congruence.
  change (2 ^ 255 - 19)%Z with curve25519P in *.
  assert (Hy : (0 <= key_y pk)%Z) by (unfold key_y; apply Z.mod_pos_bound; reflexivity).
  assert (Hy' : (0 <= key_y pk')%Z) by (unfold key_y; apply Z.mod_pos_bound; reflexivity).
  rewrite (Z.mod_small (key_y pk)) in U by lia. rewrite (Z.mod_small (key_y pk')) in U' by lia.
  destruct (Z.eqb_spec (key_y pk) 1); [contradiction|]. destruct (Z.eqb_spec (key_y pk') 1); [contradiction|].
  apply cong_eq in U; [|reflexivity]. apply cong_eq in U'; [|reflexivity].
  set (u := point_u out) in *. set (y := key_y pk) in *. set (y' := key_y pk') in *.
  assert (D : (curve25519P | 2 * (y - y'))%Z).
  { destruct U as [k U], U' as [k' U']. 
    exists (k' * (1 - y) - k * (1 - y'))%Z.
    replace ((k' * (1 - y) - k * (1 - y')) * curve25519P)%Z with ((k' * curve25519P) * (1 - y) - (k * curve25519P) * (1 - y'))%Z by ring.
    rewrite <- U, <- U'. ring. }
  apply Gauss in D.
  - destruct D as [k D]. assert (k = 0)%Z by nia. lia.
  - apply prime_rel_prime; [exact prime_25519|]. intros D2. apply Z.divide_pos_le in D2; [discriminate D2 | reflexivity] || (apply Z.divide_pos_le in D2; [|lia]; vm_compute in D2; congruence).
Qed.
Print Assumptions C56_injective.

(** An inverse function as documented exists (Fermat's little theorem), and the conversion computes with it: the
    Ed25519 base point y = 4/5 becomes the Curve25519 base point u = 9. *)
Definition fermat_inverse (g n : Z) : option Z :=
  if (g mod n =? 0)%Z then None else Some (powmod n (g mod n) (Z.to_pos (n - 2))).

Example C56_nonvacuous : mod_inverse_contract fermat_inverse /\
  ed25519PublicKeyToCurve25519 fermat_inverse (x58 :: repeat x66 31) = Ok (x09 :: zeros 31) /\
  ed25519PublicKeyToCurve25519 fermat_inverse (x01 :: zeros 31) = Ok (zeros 32).
Proof.
  split; [|split; vm_compute; reflexivity]. intros g. unfold fermat_inverse.
  assert (HP : (0 < curve25519P)%Z) by reflexivity.
  destruct (Z.eqb_spec (g mod curve25519P) 0) as [E|E].
  - intros C. apply Z.mod_divide in E; [|discriminate]. pose proof (Z.gcd_greatest _ _ curve25519P E (Z.divide_refl _)) as G.
    rewrite C in G. apply Z.divide_1_r_nonneg in G; discriminate.
  - set (h := (g mod curve25519P)%Z) in *.
    pose proof (powmod_ok curve25519P h (Z.to_pos (curve25519P - 2)) HP) as C.
    assert (B : forall m a e, (0 < m)%Z -> (0 <= powmod m a e < m)%Z).
    { intros m a e Hm. destruct e; cbn [powmod]; apply Z.mod_pos_bound; exact Hm. }
    split; [apply B; exact HP|]. set (x := powmod curve25519P h (Z.to_pos (curve25519P - 2))) in *. clearbody x.
    assert (Q : cong curve25519P (g * x) 1).
    { eapply cong_trans; [apply cong_mul; [apply cong_sym, (cong_mod _ g HP) | exact C]|]. fold h.
      change (Z.pos (Z.to_pos (curve25519P - 2))) with (curve25519P - 2)%Z.
      replace (h * h ^ (curve25519P - 2))%Z with (h ^ (curve25519P - 1))%Z.
      - apply fermat; [exact prime_25519|]. intros D. apply E. unfold h in D |- *. apply Z.mod_divide in D; [|discriminate].
        rewrite Z.mod_mod in D by discriminate. exact D.
      - rewrite <- Z.pow_succ_r by discriminate. f_equal. }
    apply cong_eq in Q; [|exact HP]. exact Q.
Qed.

(** ** C69: both parties derive the same key *)

(** [p] is the Curve25519 point that the Ed25519 key [pk] corresponds to. *)
Definition montgomery_of (pk p : bytes) : Prop :=
  length p = 32 /\ (0 <= point_u p < 2 ^ 255 - 19)%Z /\
  if (key_y pk mod (2 ^ 255 - 19) =? 1)%Z then point_u p = 0%Z
  else ((point_u p * (1 - key_y pk)) mod (2 ^ 255 - 19) = (1 + key_y pk) mod (2 ^ 255 - 19))%Z.

(** What the curve, SHA-512 and crypto/ed25519 guarantee: the public key of a seed is the Edwards point of the scalar in the
    first half of the seed's hash, and multiplication by scalars commutes. *)
Definition dh_contract (sha512 : bytes -> bytes) (x25519 : bytes -> bytes -> res bytes) (pub : bytes -> pubkey) : Prop :=
  (forall seed, length (sha512 seed) = 64) /\ (forall seed, length seed = 32 -> key32 (pub seed)) /\
  forall seed seed' p p', length seed = 32 -> length seed' = 32 -> montgomery_of (pub seed) p -> montgomery_of (pub seed') p' ->
    x25519 (firstn 32 (sha512 seed)) p' = x25519 (firstn 32 (sha512 seed')) p.

(** The private key of crypto/ed25519 is the seed followed by the public key. *)
Theorem C69_scalar : forall sha512 seed pk, (forall x, length (sha512 x) = 64) -> length seed = 32 ->
  ed25519PrivateKeyToCurve25519 sha512 (seed ++ pk) = Ok (firstn 32 (sha512 seed)).
Proof.
  intros h seed pk Hh L. unfold ed25519PrivateKeyToCurve25519. rewrite slice_to_ok by (rewrite app_length; lia). cbn [bind].
  rewrite firstn_app, L, Nat.sub_diag, firstn_O, app_nil_r, firstn_all2 by lia. apply slice_to_ok. rewrite Hh. lia.
Qed.
Theorem C69_agreement : forall inv sha512 x25519 pub seed seed', mod_inverse_contract inv -> dh_contract sha512 x25519 pub ->
  length seed = 32 -> length seed' = 32 ->
  ECDH inv sha512 x25519 (seed ++ pub seed) (pub seed') = ECDH inv sha512 x25519 (seed' ++ pub seed') (pub seed).
Proof.
  intros inv h x pub seed seed' HC (H1 & H2 & H3) L L'. unfold ECDH. rewrite !C69_scalar by assumption. cbn [bind].
  destruct (C56_conversion inv (pub seed) HC (H2 seed L)) as (p & -> & M). destruct (C56_conversion inv (pub seed') HC (H2 seed' L')) as (p' & -> & M'). cbn [bind].
  apply H3; assumption.
Qed.

Lemma montgomery_unique pk p p' : montgomery_of pk p -> montgomery_of pk p' -> p = p'.
Proof.
  intros (L & B & M) (L' & B' & M'). change (2 ^ 255 - 19)%Z with curve25519P in *.
  assert (Hy : (0 <= key_y pk)%Z) by (unfold key_y; apply Z.mod_pos_bound; reflexivity).
  assert (E : point_u p = point_u p').
  { destruct (Z.eqb_spec (key_y pk mod curve25519P) 1) as [Y|Y]; [congruence|].
    rewrite <- M' in M. apply cong_eq in M; [|reflexivity].
    assert (D : (curve25519P | (1 - key_y pk) * (point_u p - point_u p'))%Z) by (destruct M as [k M]; exists k; rewrite <- M; ring).
    apply Gauss in D.
    - destruct D as [k D]. assert (k = 0)%Z by nia. lia.
    - apply rel_prime_sym. apply Zgcd_1_rel_prime. apply invertible; assumption. }
  unfold point_u in E. apply N2Z.inj in E. rewrite <- (rev_involutive p), <- (rev_involutive p'). f_equal.
  pose proof (be_encode_decode (rev p)) as A. pose proof (be_encode_decode (rev p')) as C. rewrite rev_length, L in A. rewrite rev_length, L' in C.
  rewrite <- A, <- C, E. reflexivity.
Qed.
(** A toy instance that tells keys apart: two public keys, by the parity of the seed's first byte. *)
Definition toy_bit (seed : bytes) : bool := match seed with b :: _ => N.odd (b2n b) | [] => false end.
Definition toy_pub (seed : bytes) : pubkey := if toy_bit seed then x58 :: repeat x66 31 else zeros 32.
Definition toy_hash (seed : bytes) : bytes := firstn 64 (seed ++ zeros 64).
Definition toy_mul (a p : bytes) : res bytes := Ok [n2b (N.b2n (toy_bit a) + N.b2n (bytes_eqb p (x09 :: zeros 31)))].
Example C69_nonvacuous : mod_inverse_contract fermat_inverse /\ dh_contract toy_hash toy_mul toy_pub /\
  let s1 := x01 :: zeros 31 in let s2 := x02 :: zeros 31 in
  ECDH fermat_inverse toy_hash toy_mul (s1 ++ toy_pub s1) (toy_pub s2) = Ok [x01] /\
  ECDH fermat_inverse toy_hash toy_mul (s1 ++ toy_pub s1) (toy_pub s1) = Ok [x02].
Proof.
  assert (HC : mod_inverse_contract fermat_inverse) by apply C56_nonvacuous. split; [exact HC|]. split; [|split; vm_compute; reflexivity].
  assert (K : forall seed, key32 (toy_pub seed)) by (intros seed; unfold toy_pub; destruct (toy_bit seed); reflexivity).
  split; [intros seed; unfold toy_hash; rewrite firstn_length, app_length, (repeat_length _ 64 : length (zeros 64) = 64); lia|]. split; [intros; apply K|].
  intros seed seed' p p' L L' M M'.
  assert (P : forall sd q, montgomery_of (toy_pub sd) q -> bytes_eqb q (x09 :: zeros 31) = toy_bit sd).
  { intros sd q Mq. destruct (C56_conversion fermat_inverse (toy_pub sd) HC (K sd)) as (o & Eo & Mo). rewrite (montgomery_unique _ _ _ Mq Mo). unfold toy_pub in Eo. destruct (toy_bit sd).
    - assert (Ok o = Ok (x09 :: zeros 31)) as X by (rewrite <- Eo; vm_compute; reflexivity). injection X as ->. apply bytes_eqb_refl.
    - assert (Ok o = Ok (x01 :: zeros 31)) as X by (rewrite <- Eo; vm_compute; reflexivity). injection X as ->. reflexivity. }
  assert (Q : forall sd, length sd = 32 -> toy_bit (firstn 32 (toy_hash sd)) = toy_bit sd) by (intros [|b sd] Hl; [discriminate|reflexivity]).
  unfold toy_mul. rewrite (P _ _ M), (P _ _ M'), !Q by assumption. rewrite N.add_comm. reflexivity.
Qed.
Print Assumptions C69_scalar.
Print Assumptions C69_agreement.
