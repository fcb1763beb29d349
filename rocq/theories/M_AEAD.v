(** * Model of aead.go and of the buffer reuse in writeLoop (client.go:563-631).

    Go slices are modelled with their backing arrays, so capacity, stale contents and aliasing are visible. *)
From Verif Require Import Base M_Msg.
From Coq Require Import Strings.Byte.
Local Open Scope nat_scope.

(** A heap of byte arrays, and slice headers (array, offset, length, capacity).  Go's memory, as far as aead.go:9-50 touches it. *)
Definition heap := list bytes.
(** The header of a []byte, as in aead.go:9-50. *)
Record gslice := mkSl { s_arr : nat; s_off : nat; s_len : nat; s_cap : nat }.

(** The array with number [i]; used for all of aead.go:9-50. *)
Definition arr (h : heap) (i : nat) : bytes := nth i h [].
(** The bytes of a slice, what ranging over a buf of aead.go:9-50 gives. *)
Definition contents (h : heap) (s : gslice) : bytes := firstn (s_len s) (skipn (s_off s) (arr h (s_arr s))).

(** Overwrite [length data] bytes of an array from position [pos].  What copy does at aead.go:12. *)
Definition splice (l : bytes) (pos : nat) (data : bytes) : bytes :=
  firstn pos l ++ data ++ skipn (pos + length data) l.
(** Replaces an array of the heap; no code of its own, for the writes of aead.go:9-50. *)
Fixpoint set_arr (h : heap) (i : nat) (a : bytes) : heap :=
  match h, i with
  | [], _ => []
  | _ :: h', O => a :: h'
  | x :: h', S i' => x :: set_arr h' i' a
  end.
(** Writes into a slice's array, as copy does at aead.go:12, rand.Read at 34, Seal at 38 and Open at 49. *)
Definition store (h : heap) (s : gslice) (pos : nat) (data : bytes) : heap :=
  set_arr h (s_arr s) (splice (arr h (s_arr s)) (s_off s + pos) data).

(** make([]byte, n): aead.go:11,23. *)
Definition make (h : heap) (n : nat) : heap * gslice :=
  (h ++ [zeros n], mkSl (length h) 0 n n).

(** Slice expression s[i:j], bounded by the capacity.  Used at aead.go:12, 17, 23, 25, 34, 38, 46-49. *)
Definition reslice (s : gslice) (i j : nat) : res gslice :=
  if (i <=? j) && (j <=? s_cap s) then Ok (mkSl (s_arr s) (s_off s + i) (j - i) (s_cap s - i)) else Panic.

(** append(s, data...).  [data] is read before the write (memmove semantics).  When the capacity does not suffice a
    new array is allocated; its capacity is chosen by the runtime: [grow oldcap needed], at least [needed].  Used at aead.go:17, 23, 38. *)
Definition append (grow : nat -> nat -> nat) (h : heap) (s : gslice) (data : bytes) : heap * gslice :=
  let n := s_len s + length data in
  if n <=? s_cap s then (store h s (s_len s) data, mkSl (s_arr s) (s_off s) n (s_cap s))
  else let c := grow (s_cap s) n in
       (h ++ [contents h s ++ data ++ zeros (c - n)], mkSl (length h) 0 n c).

(** A cipher.AEAD: nonce size, overhead, Seal and Open on values (fixed key; additional data is always nil,
    aead.go:38,49). *)
Record aead := mkAEAD {
  nonce_size : nat;
  overhead : nat;
  seal : bytes -> bytes -> bytes;
  open : bytes -> bytes -> option bytes
}.

Section WithGrow.
Variable grow : nat -> nat -> nat.

(** aead.go:9-18 extendFront. *)
Definition extendFront (h : heap) (buf : gslice) (n : nat) : res (heap * gslice) :=
  if s_len buf <? n then
    let (h1, clone) := make h (n + s_len buf) in
    let! d := reslice clone n (s_len clone) in
    Ok (store h1 d 0 (firstn (s_len d) (contents h buf)), clone)
  else
    let! f := reslice buf 0 n in
    Ok (append grow h f (contents h buf)).

(** aead.go:20-26 extendBack. *)
Definition extendBack (h : heap) (buf : gslice) (n : nat) : res (heap * gslice) :=
  let n := n + s_len buf in
  if s_cap buf <? n then
    let! full := reslice buf 0 (s_cap buf) in
    let (h1, buf1) := append grow h full (zeros (n - s_cap buf)) in
    let! r := reslice buf1 0 n in
    Ok (h1, r)
  else
    let! r := reslice buf 0 n in
    Ok (h, r).

(** crypto/internal/subtle.InexactOverlap, as used by AES-GCM's Seal and Open.  They are called at aead.go:38 and 49. *)
Definition inexact_overlap (x y : gslice) : bool :=
  if (s_len x =? 0) || (s_len y =? 0) then false
  else if (s_arr x =? s_arr y) && (s_off x =? s_off y) then false
  else (s_arr x =? s_arr y) && (s_off x <? s_off y + s_len y) && (s_off y <? s_off x + s_len x).

(** crypto/cipher sliceForAppend: the extended slice and its tail.  Seal and Open, called at aead.go:38 and 49, use it. *)
Definition slice_for_append (h : heap) (s : gslice) (n : nat) : heap * gslice * gslice :=
  let total := s_len s + n in
  if total <=? s_cap s then
    (h, mkSl (s_arr s) (s_off s) total (s_cap s), mkSl (s_arr s) (s_off s + s_len s) n (s_cap s - s_len s))
  else
    (h ++ [contents h s ++ zeros n], mkSl (length h) 0 total total, mkSl (length h) (s_len s) n n).

(** cipher.AEAD.Seal(dst, nonce, plaintext, nil) of AES-GCM, called at aead.go:38: panics on a nonce of the wrong size
    or on an inexact overlap of output and plaintext; otherwise appends the sealed bytes to dst.  The (2^32-2)*16 byte
    limit of GCM is not modelled. *)
Definition aead_Seal (A : aead) (h : heap) (dst nonce plain : gslice) : res (heap * gslice) :=
  if negb (s_len nonce =? nonce_size A) then Panic else
  let n := contents h nonce in
  let p := contents h plain in
  let '(h1, ret, out) := slice_for_append h dst (s_len plain + overhead A) in
  if inexact_overlap out plain then Panic else
  Ok (store h1 out 0 (firstn (s_len out) (seal A n p)), ret).

(** cipher.AEAD.Open(dst, nonce, ciphertext, nil), called at aead.go:49.  Short ciphertexts and authentication failures
    are errors (on failure the output window is zeroed). *)
Definition aead_Open (A : aead) (h : heap) (dst nonce cipher : gslice) : heap * res gslice :=
  if negb (s_len nonce =? nonce_size A) then (h, Panic) else
  if s_len cipher <? overhead A then (h, Err ErrAuth) else
  let r := open A (contents h nonce) (contents h cipher) in
  let '(h1, ret, out) := slice_for_append h dst (s_len cipher - overhead A) in
  if inexact_overlap out cipher then (h1, Panic) else
  match r with
  | None => (store h1 out 0 (zeros (s_len out)), Err ErrAuth)
  | Some p => (store h1 out 0 (firstn (s_len out) p), Ok ret)
  end.

(** aead.go:28-39 encryptAEAD; [rnd] is what rand.Read(buf[:a]) draws (line 34). *)
Definition encryptAEAD (A : aead) (rnd : bytes) (h : heap) (buf : gslice) : res (heap * gslice) :=
  let a := nonce_size A in
  let b := s_len buf in
  let! (h, buf) := extendFront h buf a in
  let! (h, buf) := extendBack h buf b in
  let! front := reslice buf 0 a in
  let h := store h front 0 (firstn a rnd) in
  let! dst := reslice buf a a in
  let! plain := reslice buf a (a + b) in
  let! (h, sealed) := aead_Seal A h dst front plain in
  Ok (append grow h front (contents h sealed)).

(** aead.go:41-50 decryptAEAD. *)
Definition decryptAEAD (A : aead) (h : heap) (buf : gslice) : heap * res gslice :=
  if s_len buf <? nonce_size A then (h, Err ErrUnexpectedEOF) else
  match reslice buf 0 (nonce_size A), reslice buf (nonce_size A) (s_len buf) with
  | Ok nonce, Ok text =>
      match reslice text 0 0 with
      | Ok dst => aead_Open A h dst nonce text
      | _ => (h, Panic)
      end
  | _, _ => (h, Panic)
  end.

(** msg.go:16-22 marshal(dst) on slices: append 8 zero bytes, overwrite dst[:8] with the nonce, append the data. *)
Definition marshal_slice (h : heap) (dst : gslice) (m : message) : res (heap * gslice) :=
  let (h, dst) := append grow h dst (zeros 8) in
  let! d8 := reslice dst 0 8 in
  let h := store h d8 0 (be_encode 8 (m_nonce m)) in
  Ok (append grow h dst (m_data m)).

(** client.go:599-631: the body of writeLoop over one batch, reusing [buf]; returns the bytes handed to the buffered
    writer.  [rnds] are the successive nonce draws (one per message when a suite is set). *)
Fixpoint write_batch (A : option aead) (rnds : list bytes) (h : heap) (buf : gslice) (ms : list message)
  : res (heap * gslice * bytes) :=
  match ms with
  | [] => Ok (h, buf, [])
  | m :: ms' =>
      let! buf0 := reslice buf 0 0 in
      let! (h1, buf1) := marshal_slice h buf0 m in
      let! (h2, buf2) := match A with
                         | None => Ok (h1, buf1)
                         | Some A => encryptAEAD A (hd [] rnds) h1 buf1
                         end in
      let header := be_encode 4 (N.of_nat (s_len buf2)) in
      let out := header ++ contents h2 buf2 in
      let! (r, rest) := write_batch A (tl rnds) h2 buf2 ms' in
      Ok (r, out ++ rest)
  end.
End WithGrow.

(** ** The same operations on values, used by the rest of the model. *)

(** aead.go:28-39, 41-50 as functions of values. *)
Definition encrypt_val (A : aead) (rnd plain : bytes) : bytes := rnd ++ seal A rnd plain.
(** aead.go:41-50 decryptAEAD on the bytes alone, without the memory they are in. *)
Definition decrypt_val (A : aead) (buf : bytes) : res bytes :=
  if length buf <? nonce_size A then Err ErrUnexpectedEOF
  else match open A (firstn (nonce_size A) buf) (skipn (nonce_size A) buf) with
       | Some p => Ok p
       | None => Err ErrAuth
       end.

(** One frame as written by write (client.go:322-333) and writeLoop (client.go:603-624): a 32-bit big-endian length
    (modulo 2^32) and the possibly encrypted payload. *)
Definition frame_bytes (A : option aead) (rnd payload : bytes) : bytes :=
  let body := match A with None => payload | Some A => encrypt_val A rnd payload end in
  be_encode 4 (N.of_nat (length body)) ++ body.

(** client.go:599-632 on values: the stream produced for a batch of messages. *)
Fixpoint frames (A : option aead) (rnds : list bytes) (ms : list message) : bytes :=
  match ms with
  | [] => []
  | m :: ms' => frame_bytes A (hd [] rnds) (msg_marshal m) ++ frames A (tl rnds) ms'
  end.

(** math/rand.Read (aead.go:34): the package-level source is never seeded by this repository, so every process starts it
    from the same default seed; [prng] is the byte stream it produces.  A process that has drawn [pos] bytes obtains the
    next [a] bytes. *)
Definition rand_read (prng : nat -> byte) (pos a : nat) : bytes := map prng (seq pos a).

(** The nonces of the first [n] messages a process encrypts (aead.go:34 called once per message), all on one
    connection, the process having drawn nothing else from math/rand. *)
Definition session_nonces (prng : nat -> byte) (a n : nat) : list bytes :=
  map (fun i => rand_read prng (i * a) a) (seq 0 n).
