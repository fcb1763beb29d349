(** * The handshake while applications sign with their nodes' keys (node.go:471-474 Sign, client.go:380-515).

    As M_Sym, but the long-term keys also sign for the applications: Node.Sign is exported, signs what it is given with the
    key that the handshake uses, and adds nothing to it (keys.go:97-99).  An application is given things to sign by anybody
    (a request for a signature, a challenge), and hands the signatures out; what it is willing to sign is a parameter.
    Simplifications as in M_Sym otherwise. *)
From Verif Require Import Base M_Sym.
Local Open Scope nat_scope.

(** What happened: something of the handshake or the traffic (client.go:380-515), or the application of node [a] handed out its signature of [m] (node.go:471-474). *)
Inductive use := UNet (e : event) | USign (a : nat) (m : term).

Section Network.
Context (corrupt : nat -> Prop) (addr_of : nat -> nat) (signs : nat -> term -> Prop).

(** What becomes public: the frames (client.go:391-398, 453-462), and the signatures handed out (node.go:471-474). *)
Definition shown (u : use) : option term :=
  match u with UNet e => frame_of addr_of e | USign a m => Some (TSig (KLong a) m) end.

(** What the attacker can compute, as [know] of M_Sym.  For the frames of client.go:380-515 and the signatures of node.go:471-474. *)
Inductive learn (T : list use) : term -> Prop :=
| le_shown u t : In u T -> shown u = Some t -> learn T t
| le_const n : learn T (TConst n)
| le_key a : learn T (TKey a)
| le_one : learn T (TG [])
| le_mul n l : learn T (TG l) -> learn T (TG (ins (Ae n) l))
| le_div n l : learn T (TG (ins (Ae n) l)) -> learn T (TG l)
| le_pair x y : learn T x -> learn T y -> learn T (TPair x y)
| le_fst x y : learn T (TPair x y) -> learn T x
| le_snd x y : learn T (TPair x y) -> learn T y
| le_sign a m : corrupt a -> learn T m -> learn T (TSig (KLong a) m)
| le_signe l m : (forall e, In e l -> exists n, e = Ae n) -> learn T m -> learn T (TSig (KExp l) m)
| le_msg k m : learn T (TSig k m) -> learn T m
| le_enc k m : learn T (TG k) -> learn T m -> learn T (TEnc k m)
| le_dec k m : learn T (TEnc k m) -> learn T (TG k) -> learn T m.

(** The runs: as [run] of M_Sym (client.go:385-515), and at any time the application of any node signs what it is asked to, if it is willing (node.go:471-474). *)
Inductive goes : list use -> Prop :=
| go_nil : goes []
| go_start T a : goes T -> ~ corrupt a -> goes (UNet (EStart (length T) a) :: T)
| go_key T s a l : goes T -> In (UNet (EStart s a)) T -> (forall a' l', ~ In (UNet (EKey s a' l')) T) ->
    learn T (thello l) -> goes (UNet (EKey s a l) :: T)
| go_done T s a l p addr : goes T -> In (UNet (EKey s a l)) T -> (forall p' x, ~ In (UNet (EDone s p' x)) T) ->
    learn T (TEnc (session_key s l) (toverlay p addr (session_key s l))) -> goes (UNet (EDone s p addr) :: T)
| go_send T s a l p addr m : goes T -> In (UNet (EKey s a l)) T -> In (UNet (EDone s p addr)) T -> learn T m -> goes (UNet (ESend s l m) :: T)
| go_secret T s a l p addr n : goes T -> In (UNet (EKey s a l)) T -> In (UNet (EDone s p addr)) T -> goes (UNet (ESecret s l n) :: T)
| go_sign T a m : goes T -> learn T m -> signs a m -> goes (USign a m :: T).
End Network.
