(** * The handshake against a network attacker, symbolically (client.go:380-495).

    Perfect-cryptography (Dolev-Yao) counterpart of M_Handshake: the byte strings of the protocol are terms, the network is
    the attacker, who sees every frame, and builds, recombines and injects whatever its knowledge allows.  Any number of
    sessions of any number of honest nodes run interleaved; nodes in [corrupt] have given the attacker their keys.
    Simplifications: X25519 is exponentiation in a commutative group whose elements reveal exponents to nobody, AES-GCM is a
    sealed box, Ed25519 signatures cannot be forged, framing, lengths and nonces are not modelled, and the node's key signs
    nothing but handshakes (Node.Sign is exported: applications that sign with it are in M_Sign). *)
From Verif Require Import Base.
Local Open Scope nat_scope.

(** Secret exponents: the ephemeral secret of honest session [s] (client.go:385), and those the attacker makes up. *)
Inductive expo := He (s : nat) | Ae (n : nat).
(** Orders exponents; no code of its own (client.go:385, 430). *)
Definition code (e : expo) : nat := match e with He s => 2 * s | Ae n => 2 * n + 1 end.
(** A group element, the base raised to a product of exponents, kept sorted so that equal products are equal lists.  client.go:385, 430. *)
Fixpoint ins (e : expo) (l : list expo) : list expo :=
  match l with [] => [e] | x :: r => if code e <=? code x then e :: l else x :: ins e r end.

(** Signing keys: a node's long-term key, or the key with the given secret exponents.  keys.go:97-99 Sign, called at client.go:393 and 456. *)
Inductive skey := KLong (a : nat) | KExp (l : list expo).
Inductive term :=
| TConst (n : nat)                      (* public data *)
| TKey (a : nat)                        (* public key of node [a] *)
| TG (l : list expo)                    (* group element; also the 32 bytes ECDH returns *)
| TData (s n : nat)                     (* the [n]-th piece of secret application data of session [s] *)
| TPair (x y : term)
| TSig (k : skey) (m : term)
| TEnc (k : list expo) (m : term).      (* AES-GCM keyed by a group element *)

(** client.go:393,422 ".__noise_handshake". *)
Definition tbanner : term := TConst 0.
(** id.go:36-60: the encoded ID of node [a]: its key and its address. *)
Definition tid (a addr : nat) : term := TPair (TKey a) (TConst addr).
(** client.go:393 and 455-457: the two handshake messages. *)
Definition thello (l : list expo) : term := TPair (TG l) (TSig (KExp l) tbanner).
(** The second message, client.go:453-462: the ID and its signature with the session key. *)
Definition toverlay (a addr : nat) (k : list expo) : term := TPair (tid a addr) (TSig (KLong a) (TPair (tid a addr) (TG k))).

(** What honest sessions did: session [s] of node [a] sent its first message; accepted the first message with key [l] and
    sent the second; completed with the peer ID ([p], [addr]); sent a message under the session key, chosen by the attacker
    or secret.  client.go:380-515. *)
Inductive event :=
| EStart (s a : nat)
| EKey (s a : nat) (l : list expo)
| EDone (s p addr : nat)
| ESend (s : nat) (l : list expo) (m : term)
| ESecret (s : nat) (l : list expo) (n : nat).

(** client.go:430: the session key of a session that received [l]. *)
Definition session_key (s : nat) (l : list expo) : list expo := ins (He s) l.

Section Network.
Context (corrupt : nat -> Prop) (addr_of : nat -> nat).

(** The frame an event puts on the network.  client.go:391-398, 453-462. *)
Definition frame_of (e : event) : option term :=
  match e with
  | EStart s a => Some (thello [He s])
  | EKey s a l => Some (TEnc (session_key s l) (toverlay a (addr_of a) (session_key s l)))
  | EDone _ _ _ => None
  | ESend s l m => Some (TEnc (session_key s l) m)
  | ESecret s l n => Some (TEnc (session_key s l) (TData s n))
  end.

(** What the attacker can compute after the events [T].  Generous: it can also divide by its own exponents and read the
    message out of a signature.  For the frames of client.go:380-515. *)
Inductive know (T : list event) : term -> Prop :=
| kn_frame e t : In e T -> frame_of e = Some t -> know T t
| kn_const n : know T (TConst n)
| kn_key a : know T (TKey a)
| kn_one : know T (TG [])
| kn_mul n l : know T (TG l) -> know T (TG (ins (Ae n) l))
| kn_div n l : know T (TG (ins (Ae n) l)) -> know T (TG l)
| kn_pair x y : know T x -> know T y -> know T (TPair x y)
| kn_fst x y : know T (TPair x y) -> know T x
| kn_snd x y : know T (TPair x y) -> know T y
| kn_sign a m : corrupt a -> know T m -> know T (TSig (KLong a) m)
| kn_signe l m : (forall e, In e l -> exists n, e = Ae n) -> know T m -> know T (TSig (KExp l) m)
| kn_msg k m : know T (TSig k m) -> know T m
| kn_enc k m : know T (TG k) -> know T m -> know T (TEnc k m)
| kn_dec k m : know T (TEnc k m) -> know T (TG k) -> know T m.

(** The runs: client.go:385-397 (start), 402-462 (key: a well-signed first message arrived; the reply is sent), 466-495
    (done: the box opens, the signature over ID and session key verifies), then traffic. *)
Inductive run : list event -> Prop :=
| run_nil : run []
| run_start T a : run T -> ~ corrupt a -> run (EStart (length T) a :: T)
| run_key T s a l : run T -> In (EStart s a) T -> (forall a' l', ~ In (EKey s a' l') T) ->
    know T (thello l) -> run (EKey s a l :: T)
| run_done T s a l p addr : run T -> In (EKey s a l) T -> (forall p' x, ~ In (EDone s p' x) T) ->
    know T (TEnc (session_key s l) (toverlay p addr (session_key s l))) -> run (EDone s p addr :: T)
| run_send T s a l p addr m : run T -> In (EKey s a l) T -> In (EDone s p addr) T -> know T m -> run (ESend s l m :: T)
| run_secret T s a l p addr n : run T -> In (EKey s a l) T -> In (EDone s p addr) T -> run (ESecret s l n :: T).
End Network.
