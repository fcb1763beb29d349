(** * UTF-8 and lines: what M_Chat's text functions compute. *)
From Verif Require Import Base M_Chat.
From Coq Require Import Strings.Byte.
Local Open Scope nat_scope.

(** ** Specification: UTF-8 (RFC 3629) *)

(** Unicode scalar values, and the bytes that encode one. *)
Definition scalar (c : N) : Prop := (c < 55296 \/ 57344 <= c < 1114112)%N.
Definition utf8 (c : N) : bytes :=
  (if c <? 128 then [n2b c]
   else if c <? 2048 then [n2b (192 + c / 64); n2b (128 + c mod 64)]
   else if c <? 65536 then [n2b (224 + c / 4096); n2b (128 + c / 64 mod 64); n2b (128 + c mod 64)]
   else [n2b (240 + c / 262144); n2b (128 + c / 4096 mod 64); n2b (128 + c / 64 mod 64); n2b (128 + c mod 64)])%N.
Definition text_of (cs : list N) : bytes := flat_map utf8 cs.
Definition valid_text (s : bytes) : Prop := exists cs, Forall scalar cs /\ s = text_of cs.

(** [s] without the bytes that belong to no character. *)
Inductive cleaned : bytes -> bytes -> Prop :=
| cl_nil : cleaned [] []
| cl_char c s out : scalar c -> cleaned s out -> cleaned (utf8 c ++ s) (utf8 c ++ out)
| cl_junk b s out : (forall c r, scalar c -> b :: s <> utf8 c ++ r) -> cleaned s out -> cleaned (b :: s) out.

(** ** The decoder *)

Lemma within_spec lo hi b : within lo hi b = true <-> (lo <= b2n b <= hi)%N.
Proof. unfold within. rewrite andb_true_iff, !N.leb_le. tauto. Qed.
Lemma within_no lo hi b : within lo hi b = false <-> (b2n b < lo \/ hi < b2n b)%N.
Proof. unfold within. rewrite andb_false_iff, !N.leb_gt. tauto. Qed.
Lemma b2n_small v : (v < 256)%N -> b2n (n2b v) = v.
Proof. intros H. rewrite b2n_n2b. apply N.mod_small. exact H. Qed.

Ltac wt := match goal with
  | |- context [within ?l ?h ?b] =>
      first [ rewrite (proj2 (within_spec l h b)) by lia | rewrite (proj2 (within_no l h b)) by lia ]
  end.

Lemma digits64 c : (c mod 64 < 64 /\ c / 64 mod 64 < 64 /\ c / 4096 mod 64 < 64 /\
  c = 64 * (c / 64) + c mod 64 /\ c / 64 = 64 * (c / 4096) + c / 64 mod 64 /\ c / 4096 = 64 * (c / 262144) + c / 4096 mod 64)%N.
Proof.
  repeat split; try (apply N.mod_lt; discriminate).
  - apply N.div_mod. discriminate.
  - change 4096%N with (64 * 64)%N. rewrite <- N.div_div by discriminate. apply N.div_mod. discriminate.
  - change 262144%N with (4096 * 64)%N. rewrite <- N.div_div by discriminate. apply N.div_mod. discriminate.
Qed.

Lemma rune_len_utf8 c rest : scalar c -> rune_len (utf8 c ++ rest) = length (utf8 c).
Proof.
  intros H. unfold scalar in H. pose proof (digits64 c) as D. unfold utf8.
  destruct (N.ltb_spec c 128).
  { cbn [app length rune_len]. pose proof (b2n_small c ltac:(lia)). wt. reflexivity. }
  set (q1 := (c / 64)%N) in *. set (r0 := (c mod 64)%N) in *. set (q2 := (c / 4096)%N) in *. set (r1 := (q1 mod 64)%N) in *.
  set (q3 := (c / 262144)%N) in *. set (r2 := (q2 mod 64)%N) in *. clearbody q1 r0 q2 r1 q3 r2.
  pose proof (b2n_small (128 + r0) ltac:(lia)). pose proof (b2n_small (128 + r1) ltac:(lia)). pose proof (b2n_small (128 + r2) ltac:(lia)).
  destruct (N.ltb_spec c 2048); [|destruct (N.ltb_spec c 65536)]; cbn [app length rune_len].
  - pose proof (b2n_small (192 + q1) ltac:(lia)). repeat wt. reflexivity.
  - pose proof (b2n_small (224 + q2) ltac:(lia)) as E0. do 3 wt. rewrite E0.
    destruct (N.eqb_spec (224 + q2) 224); [|destruct (N.eqb_spec (224 + q2) 237)]; repeat wt; reflexivity.
  - pose proof (b2n_small (240 + q3) ltac:(lia)) as E0. do 4 wt. rewrite E0.
    destruct (N.eqb_spec (240 + q3) 240); [|destruct (N.eqb_spec (240 + q3) 244)]; repeat wt; reflexivity.
Qed.

Lemma n2b_of b v : b2n b = v -> n2b v = b.
Proof. intros <-. apply n2b_b2n. Qed.

Lemma rune_len_inv s k : rune_len s = S k -> exists c rest, scalar c /\ s = utf8 c ++ rest /\ length (utf8 c) = S k.
Proof.
  unfold rune_len. destruct s as [|b0 s]; [discriminate|]. pose proof (b2n_bound b0) as B0.
  assert (U : forall x y : N, (y < 64)%N -> ((64 * x + y) / 64 = x /\ (64 * x + y) mod 64 = y)%N).
  { intros x y Hy. split; [symmetry; apply (N.div_unique _ 64 x y); lia | symmetry; apply (N.mod_unique _ 64 x y); lia]. }
  destruct (within 0 127 b0) eqn:W0.
  { apply within_spec in W0. intros E. exists (b2n b0), s. split; [unfold scalar; lia|]. unfold utf8.
    destruct (N.ltb_spec (b2n b0) 128); [|lia]. rewrite n2b_b2n. auto. }
  apply within_no in W0.
  destruct (within 194 223 b0) eqn:W1.
  { apply within_spec in W1. destruct s as [|b1 s]; [discriminate|]. destruct (within 128 191 b1) eqn:X1; [|discriminate]. apply within_spec in X1.
    intros E. set (x0 := (b2n b0 - 192)%N). set (x1 := (b2n b1 - 128)%N). destruct (U x0 x1 ltac:(lia)) as [D1 D2].
    exists (64 * x0 + x1)%N, s. split; [unfold scalar; lia|]. unfold utf8.
    destruct (N.ltb_spec (64 * x0 + x1) 128); [lia|]. destruct (N.ltb_spec (64 * x0 + x1) 2048); [|lia]. rewrite D1, D2.
    rewrite (n2b_of b0), (n2b_of b1) by lia. auto. }
  destruct (within 224 239 b0) eqn:W2.
  { apply within_spec in W2. apply within_no in W1. 
    destruct s as [|b1 [|b2 s]]; try (destruct (if (_ =? _)%N then _ else _); discriminate).
    destruct (if (_ =? _)%N then _ else _) as [lo hi] eqn:LH.
    destruct (within lo hi b1) eqn:X1; [|discriminate]. destruct (within 128 191 b2) eqn:X2; [|discriminate]. apply within_spec in X1, X2. intros E.
    assert (R : (128 <= b2n b1 <= 191 /\ (b2n b0 = 224 -> 160 <= b2n b1) /\ (b2n b0 = 237 -> b2n b1 <= 159))%N).
    { destruct (N.eqb_spec (b2n b0) 224); [injection LH as <- <-; lia|]. destruct (N.eqb_spec (b2n b0) 237); injection LH as <- <-; lia. }
    set (x0 := (b2n b0 - 224)%N). set (x1 := (b2n b1 - 128)%N). set (x2 := (b2n b2 - 128)%N).
    destruct (U (64 * x0 + x1)%N x2 ltac:(lia)) as [D1 D2]. destruct (U x0 x1 ltac:(lia)) as [D3 D4].
    set (c := (64 * (64 * x0 + x1) + x2)%N) in *.
    assert (D5 : (c / 4096 = x0)%N) by (change 4096%N with (64 * 64)%N; rewrite <- N.div_div, D1 by discriminate; exact D3).
    exists c, s. assert (2048 <= c < 65536)%N by lia. split; [unfold scalar; lia|]. unfold utf8.
    destruct (N.ltb_spec c 128); [lia|]. destruct (N.ltb_spec c 2048); [lia|]. destruct (N.ltb_spec c 65536); [|lia]. rewrite D5, D1, D2, D4.
    rewrite (n2b_of b0), (n2b_of b1), (n2b_of b2) by lia. auto. }
  destruct (within 240 244 b0) eqn:W3; [|discriminate].
  apply within_spec in W3.
  destruct s as [|b1 [|b2 [|b3 s]]]; try (destruct (if (_ =? _)%N then _ else _); discriminate).
  destruct (if (_ =? _)%N then _ else _) as [lo hi] eqn:LH.
  destruct (within lo hi b1) eqn:X1; [|discriminate]. destruct (within 128 191 b2) eqn:X2; [|discriminate]. destruct (within 128 191 b3) eqn:X3; [|discriminate].
  apply within_spec in X1, X2, X3. intros E.
  assert (R : (128 <= b2n b1 <= 191 /\ (b2n b0 = 240 -> 144 <= b2n b1) /\ (b2n b0 = 244 -> b2n b1 <= 143))%N).
  { destruct (N.eqb_spec (b2n b0) 240); [injection LH as <- <-; lia|]. destruct (N.eqb_spec (b2n b0) 244); injection LH as <- <-; lia. }
  set (x0 := (b2n b0 - 240)%N). set (x1 := (b2n b1 - 128)%N). set (x2 := (b2n b2 - 128)%N). set (x3 := (b2n b3 - 128)%N).
  destruct (U (64 * (64 * x0 + x1) + x2)%N x3 ltac:(lia)) as [D1 D2]. destruct (U (64 * x0 + x1)%N x2 ltac:(lia)) as [D3 D4].
  destruct (U x0 x1 ltac:(lia)) as [D5 D6].
  set (c := (64 * (64 * (64 * x0 + x1) + x2) + x3)%N) in *.
  assert (D7 : (c / 4096 = 64 * x0 + x1)%N) by (change 4096%N with (64 * 64)%N; rewrite <- N.div_div, D1 by discriminate; exact D3).
  assert (D8 : (c / 262144 = x0)%N) by (change 262144%N with (4096 * 64)%N; rewrite <- N.div_div, D7 by discriminate; exact D5).
  exists c, s. assert (65536 <= c < 1114112)%N by lia. split; [unfold scalar; lia|]. unfold utf8.
  destruct (N.ltb_spec c 128); [lia|]. destruct (N.ltb_spec c 2048); [lia|]. destruct (N.ltb_spec c 65536); [lia|]. rewrite D8, D7, D1, D2, D4, D6.
  rewrite (n2b_of b0), (n2b_of b1), (n2b_of b2), (n2b_of b3) by lia. auto.
Qed.

Lemma to_valid_keep k : forall s, k <= length s -> to_valid k s = firstn k s ++ to_valid 0 (skipn k s).
Proof.
  induction k as [|k IH]; intros s H; [reflexivity|]. destruct s as [|b s]; [cbn in H; lia|].
  cbn [to_valid firstn skipn app]. rewrite IH by (cbn in H; lia). reflexivity.
Qed.

Lemma utf8_ne c : exists b l, utf8 c = b :: l.
Proof. unfold utf8. destruct (c <? 128)%N; [|destruct (c <? 2048)%N; [|destruct (c <? 65536)%N]]; eexists; eexists; reflexivity. Qed.

Lemma to_valid_char c s : scalar c -> ToValidUTF8 (utf8 c ++ s) = utf8 c ++ ToValidUTF8 s.
Proof.
  intros H. pose proof (rune_len_utf8 c s H) as R. destruct (utf8_ne c) as (b & l & E). rewrite E in *. unfold ToValidUTF8.
  cbn [app to_valid]. change (b :: l ++ s) with ((b :: l) ++ s). rewrite R. cbn [length]. rewrite to_valid_keep by (rewrite app_length; lia).
  rewrite (firstn_app_exact _ _ _ eq_refl), (skipn_app_exact _ _ _ eq_refl). reflexivity.
Qed.

Lemma no_char b s : rune_len (b :: s) = 0 <-> (forall c r, scalar c -> b :: s <> utf8 c ++ r).
Proof.
  split.
  - intros R c r H E. rewrite E, rune_len_utf8 in R by exact H. destruct (utf8_ne c) as (x & l & Q). rewrite Q in R. discriminate.
  - intros H. destruct (rune_len (b :: s)) as [|k] eqn:R; [reflexivity|]. apply rune_len_inv in R as (c & r & Hc & E & _). exfalso. exact (H c r Hc E).
Qed.

Lemma to_valid_cleaned s : cleaned s (ToValidUTF8 s).
Proof.
  remember (length s) as n eqn:Hn. revert s Hn. induction n as [n IH] using lt_wf_ind. intros s Hn.
  destruct s as [|b s]; [constructor|]. destruct (rune_len (b :: s)) as [|k] eqn:R.
  - assert (E : ToValidUTF8 (b :: s) = ToValidUTF8 s) by (unfold ToValidUTF8; cbn [to_valid]; rewrite R; reflexivity). rewrite E.
    apply cl_junk; [apply no_char, R | apply (IH (length s)); [cbn in Hn; lia | reflexivity]].
  - apply rune_len_inv in R as (c & r & Hc & E & L). rewrite E, to_valid_char by exact Hc. apply cl_char; [exact Hc|].
    apply (IH (length r)); [|reflexivity]. rewrite Hn, E, app_length. lia.
Qed.

Lemma cleaned_det s o : cleaned s o -> o = ToValidUTF8 s.
Proof.
  induction 1 as [|c s out Hc _ IH|b s out Hn _ IH]; [reflexivity| |].
  - rewrite to_valid_char by exact Hc. congruence.
  - unfold ToValidUTF8. cbn [to_valid]. apply no_char in Hn. rewrite Hn. exact IH.
Qed.

Lemma cleaned_valid s o : cleaned s o -> valid_text o.
Proof.
  induction 1 as [|c s out Hc _ (cs & F & ->)|b s out Hn _ IH]; [|exists (c :: cs); split; [constructor; assumption | reflexivity] | exact IH].
  exists []. split; [constructor | reflexivity].
Qed.

Lemma to_valid_text cs s : Forall scalar cs -> ToValidUTF8 (text_of cs ++ s) = text_of cs ++ ToValidUTF8 s.
Proof.
  induction 1 as [|c cs Hc _ IH]; [reflexivity|]. unfold text_of. cbn [flat_map]. rewrite <- !app_assoc, to_valid_char by exact Hc. f_equal. exact IH.
Qed.

(** Every encoding has a length of 1 to 4 bytes, and no encoding of a character begins with another one's. *)
Lemma utf8_prefix_free c c' r r' : scalar c -> scalar c' -> utf8 c ++ r = utf8 c' ++ r' -> utf8 c = utf8 c' /\ r = r'.
Proof.
  intros H H' E. assert (L : length (utf8 c) = length (utf8 c')) by (rewrite <- (rune_len_utf8 c r H), E; apply rune_len_utf8, H').
  split.
  - rewrite <- (firstn_app_exact (utf8 c) r _ eq_refl), E, L. apply firstn_app_exact. reflexivity.
  - rewrite <- (skipn_app_exact (utf8 c) r _ eq_refl), E, L. apply skipn_app_exact. reflexivity.
Qed.
