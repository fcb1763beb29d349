(** * The handshake against a network attacker who learns secrets as time goes on (client.go:380-495).

    The runs of M_Sym, with the same perfect cryptography and the same simplifications, but no node is honest for good: at any
    time the attacker may be given the long-term key of a node (keys.go:24-28, Node.privateKey), the ephemeral secret of a session (client.go:385)
    or the session key of one (client.go:430; client.go:503 writes it to the log).  A node whose key is known goes on running its code, and
    the attacker may run anything in its name. *)
From Verif Require Import Base M_Sym.
Local Open Scope nat_scope.

(** A history: what honest sessions did (client.go:380-515) and what the attacker was given. *)
Inductive levent :=
| Ev (e : event)          (* what an honest session did *)
| LLong (a : nat)         (* the attacker is given the long-term key of node [a] *)
| LEph (s : nat)          (* the ephemeral secret of session [s] *)
| LKey (s : nat).         (* the session key of session [s] *)

(** Exponents the attacker has.  Ephemeral secrets are made at client.go:385. *)
Definition known_exp (T : list levent) (e : expo) : Prop := match e with Ae _ => True | He s => In (LEph s) T end.

Section Network.
Context (addr_of : nat -> nat).

(** What the attacker can compute after [T]; compare M_Sym.know.  For the messages of client.go:380-515. *)
Inductive lknow (T : list levent) : term -> Prop :=
| lk_frame e t : In (Ev e) T -> frame_of addr_of e = Some t -> lknow T t
| lk_const n : lknow T (TConst n)
| lk_key a : lknow T (TKey a)
| lk_one : lknow T (TG [])
| lk_mul e l : known_exp T e -> lknow T (TG l) -> lknow T (TG (ins e l))
| lk_div e l : known_exp T e -> lknow T (TG (ins e l)) -> lknow T (TG l)
| lk_pair x y : lknow T x -> lknow T y -> lknow T (TPair x y)
| lk_fst x y : lknow T (TPair x y) -> lknow T x
| lk_snd x y : lknow T (TPair x y) -> lknow T y
| lk_sign a m : In (LLong a) T -> lknow T m -> lknow T (TSig (KLong a) m)
| lk_signe l m : (forall e, In e l -> known_exp T e) -> lknow T m -> lknow T (TSig (KExp l) m)
| lk_msg k m : lknow T (TSig k m) -> lknow T m
| lk_enc k m : lknow T (TG k) -> lknow T m -> lknow T (TEnc k m)
| lk_dec k m : lknow T (TEnc k m) -> lknow T (TG k) -> lknow T m
| lk_leak s a l : In (LKey s) T -> In (Ev (EKey s a l)) T -> lknow T (TG (session_key s l)).

(** The runs: as M_Sym.run (client.go:385-397, 402-462, 466-495 and traffic), with leaks at any time. *)
Inductive lrun : list levent -> Prop :=
| lrun_nil : lrun []
| lrun_start T a : lrun T -> lrun (Ev (EStart (length T) a) :: T)
| lrun_key T s a l : lrun T -> In (Ev (EStart s a)) T -> (forall a' l', ~ In (Ev (EKey s a' l')) T) ->
    lknow T (thello l) -> lrun (Ev (EKey s a l) :: T)
| lrun_done T s a l p addr : lrun T -> In (Ev (EKey s a l)) T -> (forall p' x, ~ In (Ev (EDone s p' x)) T) ->
    lknow T (TEnc (session_key s l) (toverlay p addr (session_key s l))) -> lrun (Ev (EDone s p addr) :: T)
| lrun_send T s a l p addr m : lrun T -> In (Ev (EKey s a l)) T -> In (Ev (EDone s p addr)) T -> lknow T m -> lrun (Ev (ESend s l m) :: T)
| lrun_secret T s a l p addr n : lrun T -> In (Ev (EKey s a l)) T -> In (Ev (EDone s p addr)) T -> lrun (Ev (ESecret s l n) :: T)
| lrun_long T a : lrun T -> lrun (LLong a :: T)
| lrun_eph T s : lrun T -> lrun (LEph s :: T)
| lrun_skey T s : lrun T -> lrun (LKey s :: T).
End Network.
