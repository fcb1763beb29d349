(** Proofs about keys.go and ID.String. *)
From Verif Require Import Base Spec M_Addr M_ID P_Wire.
From Coq Require Import Strings.Byte.
Local Open Scope nat_scope.

Lemma hex_digit_inv n : (n < 16)%N -> from_hex_char (hex_digit n) = Some n.
Proof.
  intros H.
  assert (A : forall k, k < 16 -> from_hex_char (hex_digit (N.of_nat k)) = Some (N.of_nat k)).
  { intros k Hk. do 16 (destruct k as [|k]; [reflexivity|]). lia. }
  specialize (A (N.to_nat n)). rewrite N2Nat.id in A. apply A. lia.
Qed.

Lemma hex_digit_inj a b : (a < 16)%N -> (b < 16)%N -> hex_digit a = hex_digit b -> a = b.
Proof.
  intros Ha Hb E. pose proof (hex_digit_inv a Ha) as A. rewrite E, hex_digit_inv in A by exact Hb. congruence.
Qed.

Lemma b2n_split b : (b2n b / 16 < 16)%N /\ (b2n b mod 16 < 16)%N /\ (b2n b / 16 * 16 + b2n b mod 16 = b2n b)%N.
Proof.
  pose proof (b2n_bound b). repeat split.
  - apply N.div_lt_upper_bound; lia.
  - apply N.mod_upper_bound. lia.
  - pose proof (N.div_mod (b2n b) 16). lia.
Qed.

Lemma hex_encode_length l : length (hex_encode l) = 2 * length l.
Proof. induction l as [|b l IH]; cbn [hex_encode length]; lia. Qed.

Lemma hex_decode_encode l : hex_decode (hex_encode l) = Ok l.
Proof.
  induction l as [|b l IH]; [reflexivity|]. cbn [hex_encode hex_decode].
  destruct (b2n_split b) as (A & B & C).
  rewrite !hex_digit_inv by assumption. rewrite IH. cbn [bind]. rewrite C, n2b_b2n. reflexivity.
Qed.

Lemma hex_encode_inj a b : hex_encode a = hex_encode b -> a = b.
Proof.
  intros E. pose proof (hex_decode_encode a) as A. rewrite E, hex_decode_encode in A. congruence.
Qed.

(** A byte is a hexadecimal digit (either case). *)
Definition hexdigits : bytes := any_hex.

Lemma from_hex_char_iff c : from_hex_char c <> None <-> In c hexdigits.
Proof.
  assert (A : forall c, (match from_hex_char c with Some _ => true | None => false end)
                        = existsb (Byte.eqb c) hexdigits) by (intros []; reflexivity).
  specialize (A c). split; intros H.
  - destruct (from_hex_char c); [|contradiction]. symmetry in A. apply existsb_exists in A as (x & Hx & E).
    apply Byte.byte_dec_bl in E. subst. exact Hx.
  - intros N0. rewrite N0 in A.
    assert (existsb (Byte.eqb c) hexdigits = true).
    { apply existsb_exists. exists c. split; [exact H|]. apply Byte.byte_dec_lb. reflexivity. }
    congruence.
Qed.

Lemma from_hex_char_lt c n : from_hex_char c = Some n -> (n < 16)%N.
Proof. destruct c; vm_compute; intros H; inversion H; reflexivity. Qed.

Definition all_hex (s : bytes) : Prop := Forall (fun c => In c hexdigits) s.

Lemma list_pair_ind {A} (P : list A -> Prop) :
  P [] -> (forall a, P [a]) -> (forall a b l, P l -> P (a :: b :: l)) -> forall l, P l.
Proof.
  intros H0 H1 H2 l.
  assert (G : forall n l, length l <= n -> P l).
  { induction n as [|n IH]; intros [|a [|b l']] Hl; cbn in Hl; auto; try lia.
    apply H2. apply IH. lia. }
  apply (G (length l)). lia.
Qed.

Lemma hex_decode_spec s :
  (all_hex s -> Nat.Even (length s) -> exists k, hex_decode s = Ok k /\ 2 * length k = length s) /\
  (all_hex s -> Nat.Odd (length s) -> hex_decode s = Err ErrHexLength) /\
  (~ all_hex s -> hex_decode s = Err ErrHexInvalid).
Proof.
  unfold all_hex. induction s as [|a|a b s IH] using list_pair_ind.
  - split; [|split].
    + intros _ _. exists []. auto.
    + intros _ [k H]. cbn in H. lia.
    + intros H. exfalso. apply H. constructor.
  - split; [|split].
    + intros _ [k H]. cbn in H. lia.
    + intros H _. inversion H as [|? ? Ha _]; subst. cbn [hex_decode].
      apply from_hex_char_iff in Ha. destruct (from_hex_char a); [reflexivity | contradiction].
    + intros H. cbn [hex_decode]. destruct (from_hex_char a) eqn:E; [|reflexivity].
      exfalso. apply H. constructor; [|constructor]. apply from_hex_char_iff. rewrite E. discriminate.
  - destruct IH as (I1 & I2 & I3). cbn [hex_decode length].
    destruct (from_hex_char a) eqn:Ea.
    2:{ assert (Na : ~ In a hexdigits) by (rewrite <- from_hex_char_iff, Ea; auto).
        split; [|split]; [intros H; inversion H; contradiction .. | reflexivity]. }
    destruct (from_hex_char b) eqn:Eb.
    2:{ assert (Nb : ~ In b hexdigits) by (rewrite <- from_hex_char_iff, Eb; auto).
        split; [|split]; [intros H; inversion H as [|? ? _ H']; inversion H'; contradiction .. | reflexivity]. }
    assert (Ia : In a hexdigits) by (apply from_hex_char_iff; rewrite Ea; discriminate).
    assert (Ib : In b hexdigits) by (apply from_hex_char_iff; rewrite Eb; discriminate).
    split; [|split].
    + intros H He. inversion H as [|? ? _ H']; subst. inversion H' as [|? ? _ H'']; subst.
      destruct I1 as (k & -> & Hl); [exact H''| |].
      { destruct He as [m Hm]. exists (m - 1). lia. }
      cbn [bind]. eexists. split; [reflexivity|]. cbn [length]. lia.
    + intros H Ho. inversion H as [|? ? _ H']; subst. inversion H' as [|? ? _ H'']; subst.
      rewrite I2; [reflexivity | exact H'' |].
      destruct Ho as [m Hm]. exists (m - 1). lia.
    + intros H. rewrite I3; [reflexivity|]. intros H'. apply H. auto.
Qed.

Lemma all_hex_dec s : {all_hex s} + {~ all_hex s}.
Proof. apply Forall_dec. intros c. apply in_dec. apply byte_eq_dec. Qed.

Lemma load_roundtrip k : length k = 64 -> LoadKeysFromHex (key_string k) = Ok k.
Proof.
  intros H. unfold LoadKeysFromHex, key_string. rewrite hex_decode_encode, H. cbn [SizePrivateKey Nat.eqb negb].
  rewrite go_copy_full; [reflexivity|]. exact H.
Qed.

Lemma load_spec s :
  (all_hex s /\ length s = 128 ->
     exists k, LoadKeysFromHex s = Ok k /\ length k = 64) /\
  (all_hex s -> Nat.Even (length s) -> length s <> 128 -> LoadKeysFromHex s = Err ErrUnexpectedEOF) /\
  (all_hex s -> Nat.Odd (length s) -> LoadKeysFromHex s = Err ErrHexLength) /\
  (~ all_hex s -> LoadKeysFromHex s = Err ErrHexInvalid).
Proof.
  destruct (hex_decode_spec s) as (A & B & C). unfold LoadKeysFromHex. split; [|split; [|split]].
  - intros [H1 H2]. destruct A as (k & -> & Hk); [exact H1 | exists 64; lia |].
    replace (length k) with 64 by lia. cbn [SizePrivateKey Nat.eqb negb].
    eexists. split; [reflexivity|]. rewrite go_copy_length. reflexivity.
  - intros H1 H2 H3. destruct (A H1 H2) as (k & -> & Hk).
    destruct (Nat.eqb_spec (length k) SizePrivateKey) as [E|E]; [unfold SizePrivateKey in E; lia | reflexivity].
  - intros H1 H2. rewrite B by assumption. reflexivity.
  - intros H. rewrite C by assumption. reflexivity.
Qed.

Lemma load_iff s :
  (exists k, LoadKeysFromHex s = Ok k) <-> (length s = 128 /\ all_hex s).
Proof.
  destruct (load_spec s) as (A & B & C & D). split.
  - intros [k Hk]. destruct (all_hex_dec s) as [H|H]; [|rewrite D in Hk by exact H; discriminate].
    split; [|exact H]. destruct (Nat.eq_dec (length s) 128) as [E|E]; [exact E|].
    destruct (Nat.Even_or_Odd (length s)) as [V|O].
    + rewrite B in Hk by assumption. discriminate.
    + rewrite C in Hk by assumption. discriminate.
  - intros [H1 H2]. destruct A as (k & Hk & _); eauto.
Qed.

Lemma load_never_panics s : LoadKeysFromHex s <> Panic.
Proof.
  destruct (load_spec s) as (A & B & C & D). destruct (all_hex_dec s) as [H|H]; [|rewrite D by exact H; discriminate].
  destruct (Nat.Even_or_Odd (length s)) as [V|O]; [|rewrite C by assumption; discriminate].
  destruct (Nat.eq_dec (length s) 128) as [E|E].
  - destruct A as (k & -> & _); [auto | discriminate].
  - rewrite B by assumption. discriminate.
Qed.

(** Loading a key accepted from any-case hex gives a key whose text is the lower-cased input. *)
Definition lower (c : byte) : byte :=
  if ((65 <=? b2n c) && (b2n c <=? 70))%N then n2b (b2n c + 32) else c.

Lemma hex_digit_from c n : from_hex_char c = Some n -> hex_digit n = lower c.
Proof. destruct c; vm_compute; intros H; inversion H; reflexivity. Qed.

Lemma hex_decode_lower s k : hex_decode s = Ok k -> hex_encode k = map lower s.
Proof.
  revert k. induction s as [|a|a b s IH] using list_pair_ind; intros k H.
  - injection H as <-. reflexivity.
  - cbn [hex_decode] in H. destruct (from_hex_char a); discriminate.
  - cbn [hex_decode] in H. destruct (from_hex_char a) as [x|] eqn:Ea; [|discriminate].
    destruct (from_hex_char b) as [y|] eqn:Eb; [|discriminate].
    destruct (hex_decode s) as [r|e|] eqn:Er; try discriminate.
    assert (k = n2b (x * 16 + y) :: r) as -> by (cbn [bind] in H; congruence).
    cbn [hex_encode map]. rewrite (IH r eq_refl).
    pose proof (from_hex_char_lt _ _ Ea). pose proof (from_hex_char_lt _ _ Eb).
    rewrite b2n_n2b, N.mod_small by lia.
    rewrite N.div_add_l by lia. rewrite N.div_small by lia. rewrite N.add_0_r.
    rewrite N.add_comm, N.mod_add by lia. rewrite N.mod_small by lia.
    rewrite (hex_digit_from a x Ea), (hex_digit_from b y Eb). reflexivity.
Qed.

Lemma load_lower s k : LoadKeysFromHex s = Ok k -> key_string k = map lower s.
Proof.
  unfold LoadKeysFromHex. destruct (hex_decode s) as [r|e|] eqn:E; try discriminate.
  destruct (Nat.eqb_spec (length r) SizePrivateKey) as [L|L]; cbn [negb]; [|discriminate].
  rewrite go_copy_full by exact L. intros H. assert (r = k) as <- by congruence.
  apply hex_decode_lower. exact E.
Qed.

(** *** Textual forms *)

Lemma key_json_inj a b : key_json a = key_json b -> a = b.
Proof.
  unfold key_json, key_string. intros E. injection E as E. apply app_inj_tail in E as [E _].
  apply hex_encode_inj. exact E.
Qed.

Lemma key_string_digits k : Forall (fun c => In c (firstn 16 hexdigits)) (key_string k).
Proof.
  assert (A : forall n, (n < 16)%N -> In (hex_digit n) (firstn 16 hexdigits)).
  { intros n Hn.
    assert (B : forall k, k < 16 -> In (hex_digit (N.of_nat k)) (firstn 16 hexdigits)).
    { intros j Hj. do 16 (destruct j as [|j]; [vm_compute; tauto|]). lia. }
    specialize (B (N.to_nat n)). rewrite N2Nat.id in B. apply B. lia. }
  unfold key_string. induction k as [|b k IH]; [constructor|]. cbn [hex_encode].
  destruct (b2n_split b) as (X & Y & _). constructor; [apply A, X|]. constructor; [apply A, Y|]. exact IH.
Qed.

Lemma app_inv_length {A} (a b c d : list A) : length a = length c -> a ++ b = c ++ d -> a = c /\ b = d.
Proof.
  revert c. induction a as [|x a IH]; intros [|y c] HL E; try discriminate; [split; auto|].
  cbn in E. injection E as -> E. injection HL as HL. destruct (IH c HL E) as [-> ->]. auto.
Qed.

Lemma ID_string_inj e1 e2 :
  length (id_key e1) = length (id_key e2) -> ID_string e1 = ID_string e2 ->
  id_key e1 = id_key e2 /\ id_addr e1 = id_addr e2.
Proof.
  intros HL E. unfold ID_string in E. apply app_inv_head in E.
  apply app_inv_length in E as [E1 E2]; [|rewrite !hex_encode_length; lia].
  apply hex_encode_inj in E1. apply app_inv_head in E2. apply app_inv_tail in E2. auto.
Qed.

Lemma nibble_hex n : (n < 16)%N -> hex_digit n = nibble n.
Proof.
  intros H.
  assert (A : forall k, k < 16 -> hex_digit (N.of_nat k) = nibble (N.of_nat k)).
  { intros k Hk. do 16 (destruct k as [|k]; [reflexivity|]). lia. }
  specialize (A (N.to_nat n)). rewrite N2Nat.id in A. apply A. lia.
Qed.

Lemma hex_encode_text l : hex_encode l = hex_text l.
Proof.
  induction l as [|b l IH]; [reflexivity|]. cbn [hex_encode hex_text flat_map app].
  destruct (b2n_split b) as (X & Y & _). rewrite !nibble_hex by assumption. f_equal. f_equal. exact IH.
Qed.

Lemma lower_ascii_lower c : In c any_hex -> lower c = ascii_lower c.
Proof.
  intros H. assert (A : forallb (fun c => byte_eqb (lower c) (ascii_lower c)) any_hex = true) by reflexivity.
  rewrite forallb_forall in A. apply byte_eqb_eq. apply A. exact H.
Qed.

Lemma load_text s k : LoadKeysFromHex s = Ok k -> hex_text k = map ascii_lower s.
Proof.
  intros H. pose proof (load_lower s k H) as E. unfold key_string in E. rewrite hex_encode_text in E. rewrite E.
  assert (L : exists k, LoadKeysFromHex s = Ok k) by eauto. apply load_iff in L as [_ L].
  apply map_ext_in. intros c Hc. apply lower_ascii_lower. unfold all_hex in L. rewrite Forall_forall in L. exact (L c Hc).
Qed.
