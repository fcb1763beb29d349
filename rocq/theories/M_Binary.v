(** * Model of kademlia/binary.go. *)
From Verif Require Import Base M_ID.
From Coq Require Import Strings.Byte.
Local Open Scope nat_scope.

(** a[i] ^ b[i], binary.go:19. *)
Definition xor_byte (a b : byte) : byte := n2b (N.lxor (b2n a) (b2n b)).

(** The loop of XOR, kademlia/binary.go:16-22, for arguments of equal length. *)
Fixpoint xor_bytes (a b : bytes) : bytes :=
  match a, b with
  | x :: a', y :: b' => xor_byte x y :: xor_bytes a' b'
  | _, _ => []
  end.

(** binary.go:11-23 XOR: returns [a] unchanged when the lengths differ. *)
Definition XOR (a b : bytes) : bytes := if length a =? length b then xor_bytes a b else a.

(** math/bits.OnesCount8, called at binary.go:39. *)
Fixpoint pos_ones (p : positive) : nat :=
  match p with xH => 1 | xO p' => pos_ones p' | xI p' => S (pos_ones p') end.
(** math/bits OnesCount8, kademlia/binary.go:39 (PrefixDiff). *)
Definition onescount8 (n : N) : nat := match n with N0 => 0 | Npos p => pos_ones p end.

(** math/bits.LeadingZeros8, called at binary.go:49. *)
Definition leadingzeros8 (b : byte) : nat := 8 - N.to_nat (N.size (b2n b)).

(** binary.go:29-40: the loop of PrefixDiff from index [i]; [n] is a Go int. *)
Fixpoint prefix_diff_loop (i : Z) (buf : bytes) (n : Z) : nat :=
  match buf with
  | [] => 0
  | b :: buf' =>
      if (n <=? 8 * i)%Z then 0
      else
        let v := if ((8 * i <? n) && (n <? 8 * (i + 1)))%Z
                 then N.shiftr (b2n b) (8 - Z.to_N (n mod 8)%Z)
                 else b2n b in
        onescount8 v + prefix_diff_loop (i + 1) buf' n
  end.

(** binary.go:26-43 PrefixDiff. *)
Definition PrefixDiff (a b : bytes) (n : Z) : nat := prefix_diff_loop 0 (XOR a b) n.

(** binary.go:46-54 PrefixLen, index [i] first. *)
Fixpoint prefix_len_from (i : nat) (a : bytes) : nat :=
  match a with
  | [] => i * 8
  | b :: a' => if byte_eqb b Byte.x00 then prefix_len_from (S i) a' else i * 8 + leadingzeros8 b
  end.
(** kademlia/binary.go:46-54 PrefixLen. *)
Definition PrefixLen (a : bytes) : nat := prefix_len_from 0 a.

(** bytes.Compare, called at binary.go:59: lexicographic; [Lt] is -1. *)
Fixpoint bytes_compare (a b : bytes) : comparison :=
  match a, b with
  | [], [] => Eq
  | [], _ => Lt
  | _, [] => Gt
  | x :: a', y :: b' => match N.compare (b2n x) (b2n y) with Eq => bytes_compare a' b' | c => c end
  end.

(** binary.go:58-60: the less function given to sort.Slice. *)
Definition dist_less (key : bytes) (x y : ID) : bool :=
  match bytes_compare (XOR (id_key x) key) (XOR (id_key y) key) with Lt => true | _ => false end.

(** sort.Slice, called at binary.go:58, modelled as insertion sort.  Go's sort is not stable; for pairwise distinct keys
    every correct sort gives the same list (Props_Kad.C14_any_sort). *)
Fixpoint insert_by {A} (less : A -> A -> bool) (x : A) (l : list A) : list A :=
  match l with
  | [] => [x]
  | y :: l' => if less y x then y :: insert_by less x l' else x :: l
  end.
(** Stands for sort.Slice, kademlia/binary.go:58-60, as insertion sort: one of the orders that sort.Slice may give. *)
Fixpoint sort_by {A} (less : A -> A -> bool) (l : list A) : list A :=
  match l with [] => [] | x :: l' => insert_by less x (sort_by less l') end.

(** binary.go:57-63 SortByDistance. *)
Definition SortByDistance (key : bytes) (ids : list ID) : list ID := sort_by (dist_less key) ids.
