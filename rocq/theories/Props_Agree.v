(** * C134: the two ends of a connection agree on who they are (refuted: one end can be led to take the other for itself). *)
From Verif Require Import Base M_Addr M_ID M_Msg M_AEAD M_Frame M_Sym M_Sign Props_Sym Props_Sign M_Handshake Props_Frame Props_Handshake.
Local Open Scope nat_scope.

(** ** Specification *)

(** Claimed: if a session of node [a] has accepted the identity of another node [p], then the session of [p] at the other end, which has the same key, has
    accepted nobody but [a], whatever the applications sign. *)
Definition C134_statement : Prop := forall (corrupt : nat -> Prop) (addr_of : nat -> nat) (signs : nat -> term -> Prop) T s a p addr s' q addr' k,
  goes corrupt addr_of signs T -> accepted T s a p addr k -> accepted T s' p q addr' k -> p <> a -> q = a.

(** *** Theorems *)

(** Proved: of two sessions with the same key, of nodes [a] and [p], whichever has accepted a peer has accepted one of these two nodes, at the address that node
    announces; no third node, honest or not, whatever the attacker does and the applications sign. *)
Theorem C134_partial : forall (corrupt : nat -> Prop) (addr_of : nat -> nat) (signs : nat -> term -> Prop) T s a s' p q addr' k,
  goes corrupt addr_of signs T -> holds_key T s a k -> accepted T s' p q addr' k -> s <> s' -> (q = a \/ q = p) /\ addr' = addr_of q.
Proof.
  intros corrupt addr_of signs T s a s' p q addr' k R Hk [Hk' Hd'] Hne.
  destruct (keys_two corrupt addr_of signs T s a k s' p k R Hk Hk' eq_refl Hne) as [B U].
  destruct (goes_done_learn corrupt addr_of signs T s' q addr' R Hd') as (b & l & Ik & K).
  destruct Hk' as (l' & I' & Ek). destruct (goes_key_unique _ _ _ _ _ _ _ _ _ R I' Ik) as [<- <-]. rewrite <- Ek in K.
  apply (learn_goes corrupt addr_of signs) in K; [|exact R]. cbn [okay] in K. destruct K as [[B2 O]|(s2 & l2 & E & [(c & Ic & M)|[Is|(n & M & _)]])]; [lia | | | discriminate].
  - injection M as M1 M2. subst c. split; [|congruence]. destruct (U s2 q (ex_intro _ l2 (conj Ic E))) as [-> | ->].
    + left. destruct Hk as (l3 & I3 & _). exact (proj1 (goes_key_unique _ _ _ _ _ _ _ _ _ R Ic I3)).
    + right. exact (proj1 (goes_key_unique _ _ _ _ _ _ _ _ _ R Ic I')).
  - exfalso. pose proof (proj1 (goes_sends corrupt addr_of signs T R) _ _ _ Is) as O. cbn in O. destruct O as [_ [[_ O] _]]. lia.
Qed.

(** So two sessions at the ends of one connection, neither of which has accepted its own node, agree on who they are. *)
Theorem C134_mutual : forall (corrupt : nat -> Prop) (addr_of : nat -> nat) (signs : nat -> term -> Prop) T s a p addr s' q addr' k,
  goes corrupt addr_of signs T -> accepted T s a p addr k -> accepted T s' p q addr' k -> p <> a -> q <> p -> q = a /\ addr = addr_of p /\ addr' = addr_of a.
Proof.
  intros corrupt addr_of signs T s a p addr s' q addr' k R A A' Ne Nq.
  assert (Hne : s <> s').
  { intros <-. destruct A as [(l & I & _) _], A' as [(l' & I' & _) _]. destruct (goes_key_unique _ _ _ _ _ _ _ _ _ R I I'). congruence. }
  destruct (C134_partial _ _ _ _ _ _ _ _ _ _ _ R (proj1 A) A' Hne) as [[-> | ->] E]; [|congruence].
  destruct (C134_partial _ _ _ _ _ _ _ _ _ _ _ R (proj1 A') A (not_eq_sym Hne)) as [_ E']. auto.
Qed.

(** The attack, with no key at all: node 1 and node 2 shake hands; the attacker carries everything but node 1's second message, instead of which it returns node 2's
    own to node 2.  Node 1 has accepted node 2, node 2 has accepted node 2, and what node 1 then sends reaches node 2 as its own. *)
Definition no_app : nat -> term -> Prop := fun _ _ => False.
Definition bounced : list use :=
  [UNet (ESecret 0 [He 1] 7); UNet (EDone 1 2 2); UNet (EDone 0 2 2); UNet (EKey 1 2 [He 0]); UNet (EKey 0 1 [He 1]); UNet (EStart 1 2); UNet (EStart 0 1)].

Theorem C134_attack : goes nobody self no_app bounced /\ accepted bounced 0 1 2 2 k01 /\ accepted bounced 1 2 2 2 k01 /\ learn nobody self bounced (TEnc k01 (TData 0 7)).
Proof.
  assert (K : forall u t T, In u T -> shown self u = Some t -> learn nobody self T t) by (intros; eapply le_shown; eauto).
  split; [|split; [|split]]; [|split; [eexists; split; [cbn; auto 8 | reflexivity] | cbn; auto 8]|split; [eexists; split; [cbn; auto 8 | reflexivity] | cbn; auto 8]|apply (K (UNet (ESecret 0 [He 1] 7))); [cbn; auto | reflexivity]].
  unfold bounced. eapply (go_secret _ _ _ _ 0 1 [He 1] 2 2); [|cbn; auto 8|cbn; auto 8].
  eapply (go_done _ _ _ _ 1 2 [He 0] 2 2); [|cbn; auto 8| |].
  - eapply (go_done _ _ _ _ 0 1 [He 1] 2 2); [|cbn; auto 8| |].
    + apply (go_key _ _ _ _ 1 2 [He 0]); [|cbn; auto 8| |].
      * apply (go_key _ _ _ _ 0 1 [He 1]); [|cbn; auto 8| |].
        -- apply (go_start _ _ _ [UNet (EStart 0 1)] 2); [|intros []]. apply (go_start _ _ _ [] 1); [constructor | intros []].
        -- cbn. intros a l H. repeat (destruct H as [H|H]; [discriminate|]). destruct H.
        -- apply (K (UNet (EStart 1 2))); [cbn; auto | reflexivity].
      * cbn. intros a l H. repeat (destruct H as [H|H]; [discriminate|]). destruct H.
      * apply (K (UNet (EStart 0 1))); [cbn; auto 6 | reflexivity].
    + cbn. intros p x H. repeat (destruct H as [H|H]; [discriminate|]). destruct H.
    + apply (K (UNet (EKey 1 2 [He 0]))); [cbn; auto | reflexivity].
  - cbn. intros p x H. repeat (destruct H as [H|H]; [discriminate|]). destruct H.
  - apply (K (UNet (EKey 1 2 [He 0]))); [cbn; auto | reflexivity].
Qed.

Theorem C134_refuted : ~ C134_statement.
Proof.
  intros H. destruct C134_attack as (R & A & A' & _). assert (2 = 1) as X; [|discriminate].
  apply (H nobody self no_app bounced 0 1 2 2 1 2 2 k01); auto.
Qed.

(** The same in bytes, for every cipher and signature scheme and all honest parties: [A] is given what [B] sends; [B] is given [A]'s first message, then its own
    second one, then anything.  Both complete, with the same cipher; [A] has [B]'s ID, and [B] has its own, for whatever follows. *)
Theorem C134_bounced : forall C L suite shared eA pubA secA eB pubB secB chA chB endA endB restA restB,
  party C suite eA pubA secA -> party C suite eB pubB secB ->
  ecdh C secA pubB = Ok shared -> ecdh C secB pubA = Ok shared -> gcm C shared = Ok suite -> aead_contract suite ->
  (N.max 96 (N.of_nat (114 + nonce_size suite + overhead suite)) <= L)%N -> (L + 4 < 2 ^ 32)%N ->
  concat chA = hello C pubB secB ++ overlay C suite eB shared ++ restA -> concat chB = hello C pubA secA ++ overlay C suite eB shared ++ restB ->
  let hA := handshake C L eA (new_rstate L (mkConn chA endA)) in
  let hB := handshake C L eB (new_rstate L (mkConn chB endB)) in
  hr_sent hB = hello C pubB secB ++ overlay C suite eB shared /\ hr_peer hA = Ok (he_id eB) /\ hr_peer hB = Ok (he_id eB) /\
  hr_suite hA = Some suite /\ hr_suite hB = Some suite /\ unread (hr_rd hA) = restA /\ unread (hr_rd hB) = restB.
Proof.
  intros C L suite shared eA pubA secA eB pubB secB chA chB endA endB restA restB PA PB EA EB HG HC HL1 HL2 HA HB hA hB.
  assert (BL : forall c, N.of_nat (length (rs_buf (new_rstate L c))) = (4 + L)%N).
  { intros c. cbn [rs_buf new_rstate]. rewrite zeros_length. unfold u32. rewrite N.mod_small by lia. lia. }
  set (eP := M_Handshake.mkEnv (he_id eB) (he_key eB) (Ok (pubA, secA)) (he_rnd eB) None None).
  assert (PP : party C suite eP pubA secA) by (destruct PA, PB; constructor; cbn; auto).
  destruct (hs_run C L suite shared eA pubA secA eB pubB secB (new_rstate L (mkConn chA endA)) restA PA PB EA HG HC) as (sA & RA & URA & _); auto; try lia.
  destruct (hs_run C L suite shared eB pubB secB eP pubA secA (new_rstate L (mkConn chB endB)) restB PB PP EB HG HC) as (sB & RB & URB & _); auto; try lia.
  unfold hA, hB. rewrite RA, RB. cbn. auto 8.
Qed.

(** Two nodes that agree, in a run in which an application signs (C134_partial, C134_mutual). *)
Definition agreeing : list use := UNet (EDone 1 1 1) :: signing_run.
Example C134_nonvacuous : goes nobody self challenge agreeing /\ accepted agreeing 0 1 2 2 k01 /\ accepted agreeing 1 2 1 1 k01.
Proof.
  destruct C133_nonvacuous as (_ & G & _).
  split; [|split; (split; [eexists; split; [cbn; auto 10 | reflexivity] | cbn; auto 10])].
  eapply (go_done _ _ _ _ 1 2 [He 0] 1 1); [exact G | cbn; auto 10 | |].
  - cbn. intros p x H. repeat (destruct H as [H|H]; [discriminate|]). destruct H.
  - eapply (le_shown _ _ _ (UNet (EKey 0 1 [He 1]))); [cbn; auto 10 | reflexivity].
Qed.
Example C134_bounced_nonvacuous :
  let chB := [hello toy_crypto eph_a (eph_a ++ eph_a) ++ overlay toy_crypto toy env_b ex_shared; frame_bytes (Some toy) [n2b 1; n2b 1] [n2b 5]] in
  hr_peer (handshake toy_crypto 200 env_a (new_rstate 200 (mkConn [stream_b] ErrEOF))) = Ok (he_id env_b) /\
  hr_peer (handshake toy_crypto 200 env_b (new_rstate 200 (mkConn chB ErrEOF))) = Ok (he_id env_b).
Proof. split; vm_compute; reflexivity. Qed.

Print Assumptions C134_partial.
Print Assumptions C134_mutual.
Print Assumptions C134_attack.
Print Assumptions C134_refuted.
Print Assumptions C134_bounced.
