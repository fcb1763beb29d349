(** * Model of ecdh.go. *)
From Verif Require Import Base M_ID.
From Coq Require Import Strings.Byte.
Local Open Scope nat_scope.

(** ecdh.go:12. *)
Definition curve25519P : Z := 57896044618658097711785492504343953926634992332820282019728792003956564819949.

(** math/big: SetBytes reads big-endian, Bytes writes big-endian without leading zero bytes.  ecdh.go:28, 35. *)
Definition int_of_bytes (l : bytes) : Z := Z.of_N (be_decode l).
(** big.Int.Bytes, ecdh.go:35. *)
Definition bytes_of_int (z : Z) : bytes := let n := Z.abs_N z in be_encode (N.to_nat ((N.size n + 7) / 8)) n.

(** l[i] = b, with Go's bounds check.  ecdh.go:19, 37. *)
Definition put {A} (l : list A) (i : nat) (b : A) : res (list A) :=
  if i <? length l then Ok (firstn i l ++ b :: skipn (S i) l) else Panic.
(** for i, b := range src { dst[n-i-1] = b }; a negative index panics like one past the end.  ecdh.go:18-20, 36-38. *)
Fixpoint reverse_into {A} (n : nat) (dst : list A) (i : nat) (src : list A) : res (list A) :=
  match src with
  | [] => Ok dst
  | b :: r => if i <? n then let! dst' := put dst (n - i - 1) b in reverse_into n dst' (S i) r else Panic
  end.

Section Ecdh.
(** big.Int.ModInverse: [None] when there is no inverse (the receiver is then left unchanged). *)
Context (mod_inverse : Z -> Z -> option Z).

(** ecdh.go:14-41.  The receiver of ModInverse is the variable already holding 1 - y, so without an inverse that value
    is what line 31 multiplies by. *)
Definition ed25519PublicKeyToCurve25519 (pk : pubkey) : res bytes :=
  let! be := reverse_into 32 (zeros 32) 0 pk in
  let! be := match be with [] => Panic | b :: r => Ok (n2b (N.land (b2n b) 127) :: r) end in
  let y := int_of_bytes be in
  let denom := (1 - y)%Z in
  let denom := match mod_inverse denom curve25519P with Some d => d | None => denom end in
  let u := (((y + 1) * denom) mod curve25519P)%Z in
  let ub := bytes_of_int u in
  reverse_into (length ub) (zeros 32) 0 ub.

(** crypto/sha512 and oasislabs x25519.X25519. *)
Context (sha512 : bytes -> bytes) (x25519 : bytes -> bytes -> res bytes).

(** ecdh.go:43-48. *)
Definition ed25519PrivateKeyToCurve25519 (sk : privkey) : res bytes :=
  let! seed := slice_to 32 sk in slice_to 32 (sha512 seed).

(** ecdh.go:52-59. *)
Definition ECDH (sk : privkey) (pk : pubkey) : res bytes :=
  let! s := ed25519PrivateKeyToCurve25519 sk in
  let! p := ed25519PublicKeyToCurve25519 pk in
  x25519 s p.
End Ecdh.

(** What math/big documents about ModInverse, for the modulus used here.  ecdh.go:30. *)
Definition mod_inverse_contract (mod_inverse : Z -> Z -> option Z) : Prop := forall g,
  match mod_inverse g curve25519P with
  | Some x => (0 <= x < curve25519P /\ (g * x) mod curve25519P = 1)%Z
  | None => Z.gcd g curve25519P <> 1%Z
  end.
