(** * C135: a recorded connection cannot be replayed as another one. *)
From Verif Require Import Base M_Sym M_Sign Props_Sym Props_Sign.
Local Open Scope nat_scope.

(** ** Specification *)

(** Session [t] sealed [m] under its key: its second message, or something it sent. *)
Definition sealed_by (addr_of : nat -> nat) (T : list use) (t : nat) (m : term) : Prop :=
  exists b l, In (UNet (EKey t b l)) T /\
    (m = toverlay b (addr_of b) (session_key t l) \/ In (UNet (ESend t l m)) T \/ exists n, m = TData t n /\ In (UNet (ESecret t l n)) T).

(** *** Theorems *)

(** Sessions that have accepted an honest node have different sessions of that node at their other ends, and different keys: no session of a node, recorded and played
    again, makes a second session accept it. *)
Theorem C135_other_session : forall (corrupt : nat -> Prop) (addr_of : nat -> nat) (signs : nat -> term -> Prop) T s a p addr k t b addr' k',
  (forall c m, ~ corrupt c -> signs c m -> ~ handshake_like c m) -> goes corrupt addr_of signs T -> ~ corrupt p ->
  accepted T s a p addr k -> p <> a -> accepted T t b p addr' k' -> p <> b -> s <> t ->
  k <> k' /\ exists s' t', s' <> t' /\ holds_key T s' p k /\ holds_key T t' p k'.
Proof.
  intros corrupt addr_of signs T s a p addr k t b addr' k' Safe R Np A Na A' Nb Ne.
  destruct (C133_matching_session corrupt addr_of signs Safe T s a p addr k R A Np Na) as (s' & Ns & Hs & U & _).
  destruct (C133_matching_session corrupt addr_of signs Safe T t b p addr' k' R A' Np Nb) as (t' & Nt & Ht & U' & _).
  assert (Nk : k <> k').
  { intros <-. destruct (U t b (proj1 A')) as [E|E]; [congruence|]. subst s'. destruct Hs as (l & I & _), A' as [(l' & I' & _) _].
    destruct (goes_key_unique _ _ _ _ _ _ _ _ _ R I I'). congruence. }
  split; [exact Nk|]. exists s', t'. split; [|auto]. intros <-. apply Nk. destruct Hs as (l & I & ->), Ht as (l' & I' & ->).
  destruct (goes_key_unique _ _ _ _ _ _ _ _ _ R I I') as [_ <-]. reflexivity.
Qed.

(** What a session with an honest node accepts was sealed by itself or by the one session at its other end; so nothing recorded on any other connection, old or new,
    of the same nodes or of others, is accepted on this one. *)
Theorem C135_recorded : forall (corrupt : nat -> Prop) (addr_of : nat -> nat) (signs : nat -> term -> Prop) T s a p addr k,
  (forall c m, ~ corrupt c -> signs c m -> ~ handshake_like c m) -> goes corrupt addr_of signs T -> ~ corrupt p -> accepted T s a p addr k -> p <> a ->
  exists s', s' <> s /\ holds_key T s' p k /\ (forall t b k', holds_key T t b k' -> t <> s -> t <> s' -> k' <> k) /\
    forall m, learn corrupt addr_of T (TEnc k m) -> sealed_by addr_of T s m \/ sealed_by addr_of T s' m.
Proof.
  intros corrupt addr_of signs T s a p addr k Safe R Np A Na.
  destruct (C133_matching_session corrupt addr_of signs Safe T s a p addr k R A Np Na) as (s' & Ns & Hs & U & _).
  exists s'. split; [exact Ns|]. split; [exact Hs|]. split.
  - intros t b k' Ht N1 N2 ->. destruct (U t b Ht); contradiction.
  - intros m Km. destruct (C133_data_origin corrupt addr_of signs Safe T s a p addr k m R A Np Na Km) as (t & b & Ht & _ & O).
    assert (Sb : sealed_by addr_of T t m).
    { destruct Ht as (l & I & ->). exists b, l. split; [exact I|]. destruct O as [O|[[l' O]|(n & l' & O1 & O2)]]; [auto | | ].
      - destruct (goes_send_key _ _ _ _ _ _ R (or_introl (ex_intro _ m O))) as [b' I']. destruct (goes_key_unique _ _ _ _ _ _ _ _ _ R I I') as [_ <-]. auto.
      - destruct (goes_send_key _ _ _ _ _ _ R (or_intror (ex_intro _ n O2))) as [b' I']. destruct (goes_key_unique _ _ _ _ _ _ _ _ _ R I I') as [_ <-]. eauto. }
    destruct (U t b Ht) as [-> | ->]; auto.
Qed.

(** Node 1 connects to node 2 twice; the second connection is carried through while everything of the first one is known. *)
Definition k78 : list expo := [He 7; He 8].
Definition twice : list use :=
  [UNet (ESecret 7 [He 8] 4); UNet (EDone 7 2 2); UNet (EKey 8 2 [He 7]); UNet (EKey 7 1 [He 8]); UNet (EStart 8 2); UNet (EStart 7 1)] ++ signing_run.
Example C135_nonvacuous :
  (forall b m, ~ nobody b -> challenge b m -> ~ handshake_like b m) /\ goes nobody self challenge twice /\ accepted twice 0 1 2 2 k01 /\ accepted twice 7 1 2 2 k78 /\
  learn nobody self twice (TEnc k78 (TData 7 4)).
Proof.
  assert (K : forall u t T, In u T -> shown self u = Some t -> learn nobody self T t) by (intros; eapply le_shown; eauto).
  destruct C133_nonvacuous as (Safe & G & _). split; [exact Safe|].
  split; [|split; [|split]; [| |apply (K (UNet (ESecret 7 [He 8] 4))); [left; reflexivity | reflexivity]]; (split; [eexists; split; [cbn; auto 20 | reflexivity] | cbn; auto 20])].
  unfold twice. cbn [app]. eapply (go_secret _ _ _ _ 7 1 [He 8] 2 2); [|cbn; auto 20|cbn; auto 20].
  eapply (go_done _ _ _ _ 7 1 [He 8] 2 2); [|cbn; auto 20| |].
  - apply (go_key _ _ _ _ 8 2 [He 7]); [|cbn; auto 20| |].
    + apply (go_key _ _ _ _ 7 1 [He 8]); [|cbn; auto 20| |].
      * apply (go_start _ _ _ (UNet (EStart 7 1) :: signing_run) 2); [|intros []]. apply (go_start _ _ _ signing_run 1); [exact G | intros []].
      * cbn. intros a l H. repeat (destruct H as [H|H]; [discriminate|]). destruct H.
      * apply (K (UNet (EStart 8 2))); [cbn; auto | reflexivity].
    + cbn. intros a l H. repeat (destruct H as [H|H]; [discriminate|]). destruct H.
    + apply (K (UNet (EStart 7 1))); [cbn; auto 6 | reflexivity].
  - cbn. intros p x H. repeat (destruct H as [H|H]; [discriminate|]). destruct H.
  - apply (K (UNet (EKey 8 2 [He 7]))); [cbn; auto | reflexivity].
Qed.

Print Assumptions C135_other_session.
Print Assumptions C135_recorded.
