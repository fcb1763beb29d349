(** * Go values used by every part of the model.

    Nothing in this file models code of /repo directly: it fixes how Go's own notions
    (results with an error, run-time panics, bytes, fixed-width big-endian integers,
    bounds-checked slicing, [copy]) are represented. *)
From Coq Require Export List Arith NArith ZArith Lia Bool.
From Coq Require Export ZifyBool ZifyNat ZifyN.
From Coq Require Import Strings.Byte.
Export ListNotations.

Notation byte := Init.Byte.byte.
Notation bytes := (list byte).

(** Errors distinguished by the model.  Go errors are opaque values; the model keeps apart the
    ones a caller can tell apart with [errors.Is] or that name a distinct failing branch. *)
Inductive goerr :=
| ErrUnexpectedEOF      (* io.ErrUnexpectedEOF *)
| ErrEOF                (* io.EOF *)
| ErrMessageTooLarge    (* /repo/error.go:8 *)
| ErrBucketFull         (* /repo/kademlia/protocol.go:18 *)
| ErrHexInvalid         (* encoding/hex: InvalidByteError *)
| ErrHexLength          (* encoding/hex: ErrLength *)
| ErrNotRegistered      (* codec.go:70,92 *)
| ErrDecoder            (* error returned by a user-supplied decoder *)
| ErrAuth               (* AEAD open failure *)
| ErrOther.             (* any other error value *)

(** Result of a Go call: a value, an error, or a run-time panic. *)
Inductive res (A : Type) :=
| Ok (a : A)
| Err (e : goerr)
| Panic.
Arguments Ok {A} a.
Arguments Err {A} e.
Arguments Panic {A}.

Definition bind {A B} (r : res A) (f : A -> res B) : res B :=
  match r with Ok a => f a | Err e => Err e | Panic => Panic end.
Notation "'let!' x ':=' r 'in' k" := (bind r (fun x => k))
  (at level 200, x pattern, r at level 100, k at level 200).

(** Bytes as numbers. *)
Definition b2n (b : byte) : N := Byte.to_N b.
Definition n2b (n : N) : byte :=
  match Byte.of_N (n mod 256) with Some b => b | None => Byte.x00 end.
Definition byte_eqb (a b : byte) : bool := Byte.eqb a b.

Fixpoint bytes_eqb (a b : bytes) : bool :=
  match a, b with
  | [], [] => true
  | x :: a', y :: b' => byte_eqb x y && bytes_eqb a' b'
  | _, _ => false
  end.

Definition zeros (n : nat) : bytes := repeat Byte.x00 n.

(** Big-endian encoding of [n] on [k] bytes ([binary.BigEndian.PutUint16/32/64]); the value is
    taken modulo [256^k] as the Go conversion to the fixed-width type does. *)
Fixpoint be_encode (k : nat) (n : N) : bytes :=
  match k with
  | O => []
  | S k' => be_encode k' (n / 256) ++ [n2b n]
  end.

(** Big-endian decoding ([binary.BigEndian.Uint16/32/64]). *)
Fixpoint be_decode_acc (acc : N) (l : bytes) : N :=
  match l with
  | [] => acc
  | b :: l' => be_decode_acc (acc * 256 + b2n b) l'
  end.
Definition be_decode (l : bytes) : N := be_decode_acc 0 l.

(** Slicing with the bounds check of Go ([l[i:j]]), relative to the length. *)
Definition slice {A} (i j : nat) (l : list A) : res (list A) :=
  if (i <=? j) && (j <=? length l) then Ok (firstn (j - i) (skipn i l)) else Panic.
Definition slice_from {A} (i : nat) (l : list A) : res (list A) := slice i (length l) l.
Definition slice_to {A} (j : nat) (l : list A) : res (list A) := slice 0 j l.

(** [copy(dst, src)]: overwrites the first [min (len dst) (len src)] elements of [dst]. *)
Definition go_copy {A} (dst src : list A) : list A :=
  firstn (length dst) src ++ skipn (length src) dst.

(** ** Facts *)

Lemma b2n_bound b : (b2n b < 256)%N.
Proof. unfold b2n. pose proof (Byte.to_N_bounded b). lia. Qed.

Lemma n2b_b2n b : n2b (b2n b) = b.
Proof.
  unfold n2b. rewrite N.mod_small by apply b2n_bound.
  unfold b2n. rewrite Byte.of_to_N. reflexivity.
Qed.

Lemma b2n_n2b n : b2n (n2b n) = (n mod 256)%N.
Proof.
  unfold n2b, b2n.
  destruct (Byte.of_N (n mod 256)) eqn:E.
  - apply Byte.to_of_N in E. exact E.
  - apply Byte.of_N_None_iff in E.
    pose proof (N.mod_upper_bound n 256). lia.
Qed.

Lemma b2n_inj a b : b2n a = b2n b -> a = b.
Proof. intros H. rewrite <- (n2b_b2n a), <- (n2b_b2n b), H. reflexivity. Qed.

Lemma byte_eqb_eq a b : byte_eqb a b = true <-> a = b.
Proof.
  split.
  - apply Byte.byte_dec_bl.
  - apply Byte.byte_dec_lb.
Qed.

Lemma byte_eqb_refl a : byte_eqb a a = true.
Proof. apply byte_eqb_eq. reflexivity. Qed.

Lemma byte_eq_dec (a b : byte) : {a = b} + {a <> b}.
Proof.
  destruct (byte_eqb a b) eqn:E.
  - left. apply byte_eqb_eq. exact E.
  - right. intros ->. rewrite byte_eqb_refl in E. discriminate.
Defined.

Lemma bytes_eqb_eq a : forall b, bytes_eqb a b = true <-> a = b.
Proof.
  induction a as [|x a IH]; intros [|y b]; cbn; split; intros H; try discriminate; auto.
  - apply andb_true_iff in H as [H1 H2]. apply byte_eqb_eq in H1. apply IH in H2. congruence.
  - injection H as -> ->. rewrite byte_eqb_refl. apply IH. reflexivity.
Qed.

Lemma bytes_eqb_refl a : bytes_eqb a a = true.
Proof. apply bytes_eqb_eq. reflexivity. Qed.

Lemma bytes_eqb_neq a b : bytes_eqb a b = false <-> a <> b.
Proof.
  destruct (bytes_eqb a b) eqn:E.
  - apply bytes_eqb_eq in E. split; [discriminate | contradiction].
  - split; auto. intros _ ->. rewrite bytes_eqb_refl in E. discriminate.
Qed.

Lemma bytes_eqb_spec a b : reflect (a = b) (bytes_eqb a b).
Proof. apply iff_reflect. symmetry. apply bytes_eqb_eq. Qed.

Lemma bytes_eq_dec (a b : bytes) : {a = b} + {a <> b}.
Proof. apply list_eq_dec. exact byte_eq_dec. Defined.

Lemma zeros_length n : length (zeros n) = n.
Proof. apply repeat_length. Qed.

Lemma be_encode_length k : forall n, length (be_encode k n) = k.
Proof.
  induction k as [|k IH]; intros n; cbn; [reflexivity|].
  rewrite app_length, IH. cbn. lia.
Qed.

Lemma be_decode_acc_app l1 : forall acc l2,
  be_decode_acc acc (l1 ++ l2) = be_decode_acc (be_decode_acc acc l1) l2.
Proof. induction l1 as [|b l1 IH]; intros acc l2; cbn; [reflexivity | apply IH]. Qed.

Lemma be_decode_encode k : forall n, be_decode (be_encode k n) = (n mod 256 ^ N.of_nat k)%N.
Proof.
  unfold be_decode.
  induction k as [|k IH]; intros n.
  - cbn. rewrite N.mod_1_r. reflexivity.
  - cbn [be_encode]. rewrite be_decode_acc_app, IH. cbn [be_decode_acc].
    rewrite b2n_n2b.
    replace (N.of_nat (S k)) with (N.succ (N.of_nat k)) by lia.
    rewrite N.pow_succ_r'.
    rewrite (N.mod_mul_r n 256 (256 ^ N.of_nat k)) by lia.
    lia.
Qed.

Lemma be_decode_encode_small k n :
  (n < 256 ^ N.of_nat k)%N -> be_decode (be_encode k n) = n.
Proof. intros H. rewrite be_decode_encode, N.mod_small; auto. Qed.

Lemma be_decode_acc_bound l : forall acc,
  (be_decode_acc acc l < (acc + 1) * 256 ^ N.of_nat (length l))%N.
Proof.
  induction l as [|b l IH]; intros acc.
  - cbn. lia.
  - cbn [be_decode_acc]. specialize (IH (acc * 256 + b2n b)%N).
    pose proof (b2n_bound b).
    replace (N.of_nat (length (b :: l))) with (N.succ (N.of_nat (length l))) by (cbn [length]; lia).
    rewrite N.pow_succ_r'. nia.
Qed.

Lemma be_decode_bound l : (be_decode l < 256 ^ N.of_nat (length l))%N.
Proof. pose proof (be_decode_acc_bound l 0). unfold be_decode. lia. Qed.

Lemma be_decode_snoc l b : be_decode (l ++ [b]) = (be_decode l * 256 + b2n b)%N.
Proof. unfold be_decode. rewrite be_decode_acc_app. reflexivity. Qed.

Lemma be_decode_acc_lin l : forall acc,
  be_decode_acc acc l = (acc * 256 ^ N.of_nat (length l) + be_decode l)%N.
Proof.
  induction l as [|b l IH]; intros acc.
  - cbn. lia.
  - unfold be_decode. cbn [be_decode_acc]. rewrite (IH (acc * 256 + b2n b)%N), (IH (0 * 256 + b2n b)%N).
    replace (N.of_nat (length (b :: l))) with (N.succ (N.of_nat (length l))) by (cbn [length]; lia).
    rewrite N.pow_succ_r'. nia.
Qed.

Lemma be_decode_cons b l :
  be_decode (b :: l) = (b2n b * 256 ^ N.of_nat (length l) + be_decode l)%N.
Proof. unfold be_decode at 1. cbn [be_decode_acc]. rewrite be_decode_acc_lin. lia. Qed.

Lemma be_encode_decode l : be_encode (length l) (be_decode l) = l.
Proof.
  induction l as [|b l IH] using rev_ind; [reflexivity|].
  rewrite app_length. cbn [length]. rewrite Nat.add_1_r. cbn [be_encode].
  rewrite be_decode_snoc.
  pose proof (b2n_bound b).
  rewrite N.div_add_l by lia. rewrite N.div_small by lia. rewrite N.add_0_r, IH.
  f_equal. f_equal. unfold n2b.
  rewrite N.add_comm, N.mod_add by lia.
  rewrite N.mod_small by lia. unfold b2n. rewrite Byte.of_to_N. reflexivity.
Qed.

Lemma be_decode_inj l1 l2 :
  length l1 = length l2 -> be_decode l1 = be_decode l2 -> l1 = l2.
Proof.
  intros HL HD. rewrite <- (be_encode_decode l1), <- (be_encode_decode l2), HL, HD. reflexivity.
Qed.

Lemma slice_ok {A} i j (l : list A) :
  i <= j -> j <= length l -> slice i j l = Ok (firstn (j - i) (skipn i l)).
Proof.
  intros H1 H2. unfold slice.
  destruct (Nat.leb_spec i j); [|lia]. destruct (Nat.leb_spec j (length l)); [|lia]. reflexivity.
Qed.

Lemma slice_to_ok {A} j (l : list A) : j <= length l -> slice_to j l = Ok (firstn j l).
Proof. intros H. unfold slice_to. rewrite slice_ok by lia. rewrite Nat.sub_0_r. reflexivity. Qed.

Lemma slice_from_ok {A} i (l : list A) : i <= length l -> slice_from i l = Ok (skipn i l).
Proof.
  intros H. unfold slice_from. rewrite slice_ok by lia. f_equal.
  apply firstn_all2. rewrite skipn_length. lia.
Qed.

Lemma go_copy_length {A} (d s : list A) : length (go_copy d s) = length d.
Proof. unfold go_copy. rewrite app_length, firstn_length, skipn_length. lia. Qed.

Lemma go_copy_full {A} (d s : list A) : length s = length d -> go_copy d s = s.
Proof.
  intros H. unfold go_copy. rewrite firstn_all2 by lia. rewrite skipn_all2 by lia. apply app_nil_r.
Qed.

Lemma go_copy_short {A} (d s : list A) :
  length s <= length d -> go_copy d s = s ++ skipn (length s) d.
Proof. intros H. unfold go_copy. rewrite firstn_all2 by lia. reflexivity. Qed.

Lemma skipn_app_exact {A} (l1 l2 : list A) n : length l1 = n -> skipn n (l1 ++ l2) = l2.
Proof. intros <-. rewrite skipn_app, skipn_all, Nat.sub_diag. reflexivity. Qed.

Lemma firstn_app_exact {A} (l1 l2 : list A) n : length l1 = n -> firstn n (l1 ++ l2) = l1.
Proof. intros <-. rewrite firstn_app, firstn_all, Nat.sub_diag. cbn. apply app_nil_r. Qed.

Lemma skipn_skipn {A} n m (l : list A) : skipn n (skipn m l) = skipn (n + m) l.
Proof.
  revert n l. induction m as [|m IH]; intros n l.
  - rewrite Nat.add_0_r. reflexivity.
  - rewrite Nat.add_succ_r. destruct l as [|x l]; [rewrite !skipn_nil; reflexivity|]. apply IH.
Qed.
