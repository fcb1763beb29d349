(** * Making and keeping a node's keys: keys.go. *)
From Verif Require Import Base M_ID.
Local Open Scope nat_scope.

(** ed25519.GenerateKey, called at keys.go:49 and node.go:79.  It reads 32 bytes with io.ReadFull ([drawn] is the outcome), and returns
    the public key belonging to them ([pub]) and the private key, which is those bytes followed by the public key. *)
Definition ed_generate (pub : bytes -> pubkey) (drawn : res bytes) : res (pubkey * privkey) :=
  let! seed := drawn in Ok (pub seed, seed ++ pub seed).

(** keys.go:48-58 GenerateKeys: both are copied to arrays. *)
Definition GenerateKeys (pub : bytes -> pubkey) (drawn : res bytes) : res (pubkey * privkey) :=
  let! (p, k) := ed_generate pub drawn in Ok (go_copy ZeroPublicKey p, go_copy ZeroPrivateKey k).

(** node.go:79: what NewNode takes of it (M_Node.NewNode does the copying of line 84). *)
Definition node_generate (pub : bytes -> pubkey) (drawn : res bytes) : res privkey :=
  let! (_, k) := ed_generate pub drawn in Ok k.
