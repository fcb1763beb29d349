(** * Independent specification vocabulary used in theorem statements.

    Nothing here mentions the model.  Bytes are read as numbers 0..255 and byte strings as big-endian
    integers or as bit strings, most significant bit first. *)
From Verif Require Import Base.
From Coq Require Import Strings.Byte Strings.String.
Local Open Scope nat_scope.

(** A Go string literal as bytes. *)
Definition text (s : string) : bytes := String.list_byte_of_string s.

(** The sixteen lower-case hexadecimal digits and all twenty-two accepted digits. *)
Definition lower_hex : bytes := text "0123456789abcdef".
Definition any_hex : bytes := text "0123456789abcdefABCDEF".

(** Lower-case hexadecimal text of a byte string: two digits per byte, high nibble first. *)
Definition nibble (n : N) : byte := nth (N.to_nat n) lower_hex Byte.x00.
Definition hex_text (l : bytes) : bytes :=
  flat_map (fun b => [nibble (b2n b / 16); nibble (b2n b mod 16)]) l.

(** ASCII upper-case letter to lower case. *)
Definition ascii_lower (c : byte) : byte :=
  if ((65 <=? b2n c) && (b2n c <=? 90))%N then n2b (b2n c + 32) else c.

(** ** Bit strings and the Kademlia metric *)

(** The eight bits of a byte, most significant first, and the bits of a byte string. *)
Definition bits_of_byte (b : byte) : list bool :=
  map (fun i => N.testbit (b2n b) (N.of_nat i)) [7; 6; 5; 4; 3; 2; 1; 0].
Definition bits (l : bytes) : list bool := flat_map bits_of_byte l.

(** Length of the longest common prefix of two bit strings. *)
Fixpoint lcp (a b : list bool) : nat :=
  match a, b with
  | x :: a', y :: b' => if Bool.eqb x y then S (lcp a' b') else 0
  | _, _ => 0
  end.

(** Number of positions at which two bit strings differ. *)
Fixpoint hamming (a b : list bool) : nat :=
  match a, b with
  | x :: a', y :: b' => (if Bool.eqb x y then 0 else 1) + hamming a' b'
  | _, _ => 0
  end.

(** XOR distance of two keys, as an integer. *)
Definition dist (a b : bytes) : N := N.lxor (be_decode a) (be_decode b).

(** Common-prefix length of two keys, in bits. *)
Definition common_prefix (a b : bytes) : nat := lcp (bits a) (bits b).

(** A public key's size, and the routing-table bucket of a key: its common-prefix length with self, self itself
    sharing the last bucket. *)
Definition key32 (k : bytes) : Prop := List.length k = 32.
Definition bucket_of (self k : bytes) : nat := Nat.min (common_prefix k self) 255.

(** [l] is sorted by distance to [t] (keys given by [key]), nearest first. *)
Inductive sorted_by {A} (f : A -> N) : list A -> Prop :=
| sorted_nil : sorted_by f []
| sorted_cons x l : (forall y, In y l -> (f x <= f y)%N) -> sorted_by f l -> sorted_by f (x :: l).

(** [l] is a choice of [k] elements of [pool] with smallest [f], sorted (all of them if fewer). *)
Definition k_smallest {A} (f : A -> N) (k : nat) (pool l : list A) : Prop :=
  List.length l = Nat.min k (List.length pool) /\ NoDup l /\ incl l pool /\ sorted_by f l /\
  (forall x y, In x l -> In y pool -> ~ In y l -> (f x <= f y)%N).

(** ** Lists of settings *)

(** The last value that [f] extracts from a list. *)
Fixpoint last_some {A B} (f : A -> option B) (l : list A) : option B :=
  match l with
  | [] => None
  | x :: l' => match last_some f l' with Some v => Some v | None => f x end
  end.
Definition or_default {A} (d : A) (o : option A) : A := match o with Some v => v | None => d end.

(** The 16-byte form of an IP address (IPv4 addresses are ::ffff:a.b.c.d). *)
Definition to16 (i : bytes) : bytes :=
  if Nat.eqb (List.length i) 4 then (repeat Byte.x00 10 ++ [Byte.xff; Byte.xff]) ++ i else i.
