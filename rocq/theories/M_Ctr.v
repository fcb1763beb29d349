(** * The cipher suite itself, as far as an eavesdropper is concerned: AES-GCM is a stream cipher (client.go:439-451, aead.go:28-50).

    cipher.NewGCM (client.go:445) gives GCM with 12-byte nonces and 16-byte tags: the text is combined by XOR with a key stream that depends on the
    key and the nonce only, and a tag of nonce and ciphertext is appended (NIST SP 800-38D; crypto/cipher/gcm.go).  The key stream of a connection's
    key is an arbitrary function [ks]; the tag is an arbitrary function too.  Simplification: the tag's own use of the key (GHASH's subkey
    and the block that masks it) is independent of the key stream, as it is for an ideal block cipher.  Additional data is nil (aead.go:38, 49). *)
From Verif Require Import Base M_Binary M_Msg M_AEAD.
Local Open Scope nat_scope.

(** The key stream of the suite that client.go:445 makes. *)
Definition stream := bytes -> nat -> byte.       (* by nonce and position *)
(** XOR with the key stream from position [i]; Seal and Open at aead.go:38 and 49 do that. *)
Fixpoint pad_from (g : nat -> byte) (i : nat) (p : bytes) : bytes :=
  match p with [] => [] | b :: r => xor_byte b (g i) :: pad_from g (S i) r end.
(** XOR with the key stream, aead.go:38, 49. *)
Definition pad (g : nat -> byte) (p : bytes) : bytes := pad_from g 0 p.

(** The length of the tag that Seal appends, aead.go:38. *)
Definition tag_size : nat := 16.
(** The suite of client.go:439-451 with that key stream. *)
Definition ctr (ks : stream) (tag : bytes -> bytes -> bytes) : aead :=
  mkAEAD 12 tag_size
    (fun n p => let c := pad (ks n) p in c ++ tag n c)
    (fun n c => if length c <? tag_size then None else
                let t := firstn (length c - tag_size) c in
                if bytes_eqb (skipn (length c - tag_size) c) (tag n t) then Some (pad (ks n) t) else None).

(** What a connection's writer puts on the wire for the payloads [ps] (client.go:322-333 in the handshake, 603-624 afterwards), with the nonces drawn. *)
Fixpoint wire (A : aead) (rnds : list bytes) (ps : list bytes) : bytes :=
  match ps with
  | [] => []
  | p :: r => frame_bytes (Some A) (hd [] rnds) p ++ wire A (tl rnds) r
  end.
