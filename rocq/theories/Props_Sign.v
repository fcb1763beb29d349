(** * C133: applications may sign with their node's key (refuted for what looks like a handshake; proved for everything else). *)
From Verif Require Import Base M_Sym M_Sign Props_Sym M_ID M_Frame M_Handshake Props_Handshake.
From Coq Require Import Strings.Byte.
Local Open Scope nat_scope.

(** ** Specification *)

(** Session [s] of node [a] has agreed on key [k]: it has sent its signed ID under it. *)
Definition holds_key (T : list use) (s a : nat) (k : list expo) : Prop := exists l, In (UNet (EKey s a l)) T /\ k = session_key s l.
(** ... and has accepted a peer with the identity of node [p] at [addr]. *)
Definition accepted (T : list use) (s a p addr : nat) (k : list expo) : Prop := holds_key T s a k /\ In (UNet (EDone s p addr)) T.

(** What the handshake signs: an encoded ID with the signer's key, followed by a session key. *)
Definition handshake_like (a : nat) (m : term) : Prop := exists addr k, m = TPair (TPair (TKey a) (TConst addr)) (TG k).

(** Claimed: whatever the applications of honest nodes sign, a session that accepts the identity of another, honest node is with that node,
    and the attacker does not have its key. *)
Definition C133_statement : Prop := forall (corrupt : nat -> Prop) (addr_of : nat -> nat) (signs : nat -> term -> Prop) T s a p addr k,
  goes corrupt addr_of signs T -> accepted T s a p addr k -> ~ corrupt p -> p <> a -> (exists s', s' <> s /\ holds_key T s' p k) /\ ~ learn corrupt addr_of T (TG k).

(** *** Lemmas *)

Section Proofs.
Context (corrupt : nat -> Prop) (addr_of : nat -> nat) (signs : nat -> term -> Prop).
Notation learn := (learn corrupt addr_of).
Notation goes := (goes corrupt addr_of signs).

(** The plaintexts session [s] boxed' under its key. *)
Definition boxed' (T : list use) (k : list expo) (m : term) : Prop :=
  exists s l, k = session_key s l /\
    ((exists a, In (UNet (EKey s a l)) T /\ m = toverlay a (addr_of a) k) \/ In (UNet (ESend s l m)) T \/ (exists n, m = TData s n /\ In (UNet (ESecret s l n)) T)).

Fixpoint okay (T : list use) (t : term) : Prop :=
  match t with
  | TConst _ | TKey _ => True
  | TG l => hcount l <= 1
  | TData s n => exists l, In (UNet (ESecret s l n)) T /\ hcount (session_key s l) <= 1
  | TPair x y => okay T x /\ okay T y
  | TSig (KLong a) m => okay T m /\ (corrupt a \/ In (USign a m) T \/ exists s l, In (UNet (EKey s a l)) T /\ m = TPair (tid a (addr_of a)) (TG (session_key s l)))
  | TSig (KExp l) m => okay T m /\ ((forall e, In e l -> exists n, e = Ae n) \/ exists s, l = [He s] /\ m = tbanner)
  | TEnc k m => (hcount k <= 1 /\ okay T m) \/ boxed' T k m
  end.

Lemma boxed'_mono e T k m : boxed' T k m -> boxed' (e :: T) k m.
Proof. intros (s & l & E & H). exists s, l. split; [exact E|]. cbn [In]. destruct H as [(a & H & M)|[H|(n & M & H)]]; [left; eauto | auto | right; right; eauto]. Qed.

Lemma okay_mono e T t : okay T t -> okay (e :: T) t.
Proof.
  induction t as [n|a|l|s n|x IHx y IHy|k m IH|k m IH]; cbn [okay].
  - auto.
  - auto.
  - auto.
  - intros (l & H & B). exists l. split; [right; exact H | exact B].
  - intros [A B]. auto.
  - destruct k as [a|l].
    + intros [A [B|[B|(s & l & B & C)]]]; split; auto; [right; left; right; exact B|]. right. right. exists s, l. split; [right; exact B | exact C].
    + intros [A B]. auto.
  - intros [[A B]|B]; [left; auto | right; apply boxed'_mono, B].
Qed.

(** What honest sessions sent to be boxed was known then, or secret data. *)
Definition sends_okay (T : list use) : Prop := forall s l m, In (UNet (ESend s l m)) T -> okay T m.
Definition signs_okay (T : list use) : Prop := forall a m, In (USign a m) T -> okay T m.

Lemma boxed'_okay T k m : sends_okay T -> boxed' T k m -> hcount k <= 1 -> okay T m.
Proof.
  intros SO (s & l & -> & [(a & H & ->)|[H|(n & -> & H)]]) B.
  - cbn. repeat split; auto. right. right. exists s, l. auto.
  - exact (SO _ _ _ H).
  - cbn. exists l. auto.
Qed.

Lemma learn_okay T t : sends_okay T -> signs_okay T -> learn T t -> okay T t.
Proof.
  intros SO GO K. induction K as [e t He Hf|n|a| |n l K IH|n l K IH|x y K1 IH1 K2 IH2|x y K IH|x y K IH|a m C K IH|l m C K IH|k m K IH|k m K1 IH1 K2 IH2|k m K1 IH1 K2 IH2].
  - destruct e as [[s a|s a l|s p x|s l m|s l n]|a m]; cbn in Hf; try discriminate; injection Hf as <-.
    + cbn. repeat split; auto. right. exists s. auto.
    + right. exists s, l. split; [reflexivity|]. left. exists a. auto.
    + right. exists s, l. split; [reflexivity|]. auto.
    + right. exists s, l. split; [reflexivity|]. right. right. exists n. auto.
    + cbn. split; [exact (GO _ _ He) | auto].
  - exact I.
  - exact I.
  - cbn. lia.
  - cbn in *. rewrite hcount_ins. exact IH.
  - cbn in *. rewrite hcount_ins in IH. exact IH.
  - cbn. auto.
  - apply IH.
  - apply IH.
  - cbn. auto.
  - cbn. auto.
  - destruct k; apply IH.
  - left. auto.
  - cbn in IH1, IH2. destruct IH1 as [[_ B]|B]; [exact B|]. exact (boxed'_okay T k m SO B IH2).
Qed.

Lemma goes_sends T : goes T -> sends_okay T /\ signs_okay T.
Proof.
  induction 1 as [|T a R [IH IG] N|T s a l R [IH IG] I N K|T s a l p x R [IH IG] I N K|T s a l p x m R [IH IG] I D K|T s a l p x n R [IH IG] I D|T a m R [IH IG] K G];
    (split; [intros s' l' m' | intros a' m']; cbn [In]; try (intros []; fail); (intros [H|H]; [try discriminate | apply okay_mono; eauto])).
  - injection H as -> -> ->. apply okay_mono, learn_okay; assumption.
  - injection H as -> ->. apply okay_mono, learn_okay; assumption.
Qed.

Lemma learn_goes T t : goes T -> learn T t -> okay T t.
Proof. intros R. apply learn_okay; apply goes_sends, R. Qed.

(** Only what the applications are willing to sign is signed. *)
Lemma goes_signs T a m : goes T -> In (USign a m) T -> signs a m.
Proof. induction 1; cbn [In]; [intros [] | ..]; (intros [E|I]; [try discriminate; try (injection E as <- <-; assumption) | auto]). Qed.

Lemma learn_mono e T t : learn T t -> learn (e :: T) t.
Proof.
  intros K. induction K; [eapply le_shown; [right; eassumption | assumption] | ..]; try (econstructor; eassumption).
Qed.

(** ** Bookkeeping of sessions *)

Lemma goes_start_unique T s a a' : goes T -> In (UNet (EStart s a)) T -> In (UNet (EStart s a')) T -> a = a'.
Proof.
  intros R. assert (B : forall T, goes T -> forall s a, In (UNet (EStart s a)) T -> s < length T).
  { clear. induction 1; intros s' a'; cbn [In length]; try (intros [E|H']; [try discriminate|apply IHgoes in H'; lia]).
    - intros [].
    - injection E as <- <-. lia. }
  induction R as [|T0 a0 R IH N|T0 s0 a0 l0 R IH I N K|T0 s0 a0 l0 p x R IH I N K|T0 s0 a0 l0 p x m R IH I D K|T0 s0 a0 l0 p x n R IH I D|T0 b0 q0 R IH K G]; cbn [In].
  - intros [].
  - intros [E|I1] [E'|I2].
    + congruence.
    + exfalso. injection E as <- <-. apply (B T0 R) in I2. lia.
    + exfalso. injection E' as <- <-. apply (B T0 R) in I1. lia.
    + auto.
  - intros [E|I1] [E'|I2]; try discriminate; auto.
  - intros [E|I1] [E'|I2]; try discriminate; auto.
  - intros [E|I1] [E'|I2]; try discriminate; auto.
  - intros [E|I1] [E'|I2]; try discriminate; auto.
  - intros [E|I1] [E'|I2]; try discriminate; auto.
Qed.
Lemma goes_key_start T s a l : goes T -> In (UNet (EKey s a l)) T -> In (UNet (EStart s a)) T.
Proof.
  induction 1; cbn [In].
  - intros [].
  - intros [E|I]; [discriminate | auto].
  - intros [E|I]; [injection E as <- <- <-; auto | auto].
  - intros [E|I]; [discriminate | auto].
  - intros [E|I]; [discriminate | auto].
  - intros [E|I]; [discriminate | auto].
  - intros [E|I]; [discriminate | auto].
Qed.
Lemma goes_key_unique T s a l a' l' : goes T -> In (UNet (EKey s a l)) T -> In (UNet (EKey s a' l')) T -> a = a' /\ l = l'.
Proof.
  induction 1 as [|T0 a0 R IH N|T0 s0 a0 l0 R IH I N K|T0 s0 a0 l0 p x R IH I N K|T0 s0 a0 l0 p x m R IH I D K|T0 s0 a0 l0 p x n R IH I D|T0 b0 q0 R IH K G]; cbn [In].
  - intros [].
  - intros [E|I1] [E'|I2]; try discriminate; auto.
  - intros [E|I1] [E'|I2].
    + split; congruence.
    + exfalso. injection E as -> -> ->. exact (N _ _ I2).
    + exfalso. injection E' as -> -> ->. exact (N _ _ I1).
    + auto.
  - intros [E|I1] [E'|I2]; try discriminate; auto.
  - intros [E|I1] [E'|I2]; try discriminate; auto.
  - intros [E|I1] [E'|I2]; try discriminate; auto.
  - intros [E|I1] [E'|I2]; try discriminate; auto.
Qed.
(** The first message a session accepted was known to the attacker, so its key has at most one honest exponent. *)
Lemma goes_key_hcount T s a l : goes T -> In (UNet (EKey s a l)) T -> hcount l <= 1.
Proof.
  induction 1 as [|T0 a0 R IH N|T0 s0 a0 l0 R IH I N K|T0 s0 a0 l0 p x R IH I N K|T0 s0 a0 l0 p x m R IH I D K|T0 s0 a0 l0 p x n R IH I D|T0 b0 q0 R IH K G]; cbn [In].
  - intros [].
  - intros [E|I1]; [discriminate | auto].
  - intros [E|I1]; [|auto]. injection E as -> -> ->. apply (learn_goes _ _ R) in K. exact (proj1 K).
  - intros [E|I1]; [discriminate | auto].
  - intros [E|I1]; [discriminate | auto].
  - intros [E|I1]; [discriminate | auto].
  - intros [E|I1]; [discriminate | auto].
Qed.
Lemma goes_send_key T s l : goes T -> (exists m, In (UNet (ESend s l m)) T) \/ (exists n, In (UNet (ESecret s l n)) T) -> exists a, In (UNet (EKey s a l)) T.
Proof.
  induction 1 as [|T0 a0 R IH N|T0 s0 a0 l0 R IH I N K|T0 s0 a0 l0 p x R IH I N K|T0 s0 a0 l0 p x m R IH I D K|T0 s0 a0 l0 p x n R IH I D|T0 b0 q0 R IH K G];
    intros [[m0 H]|[n0 H]]; cbn [In] in H; try destruct H as [E|H]; try discriminate; try (destruct H; fail);
    try (destruct IH as [a IH]; [eauto|exists a; right; exact IH]; fail).
  - injection E as -> -> ->. exists a0. right. exact I.
  - injection E as -> -> ->. exists a0. right. exact I.
Qed.

(** [T] continued: what was done stays done. *)
Lemma goes_done_learn T s p x : goes T -> In (UNet (EDone s p x)) T ->
  exists a l, In (UNet (EKey s a l)) T /\ learn T (TEnc (session_key s l) (toverlay p x (session_key s l))).
Proof.
  induction 1 as [|T0 a0 R IH N|T0 s0 a0 l0 R IH I N K|T0 s0 a0 l0 p0 x0 R IH I N K|T0 s0 a0 l0 p0 x0 m R IH I D K|T0 s0 a0 l0 p0 x0 n R IH I D|T0 b0 q0 R IH K G]; cbn [In].
  - intros [].
  - intros [E|I1]; [discriminate|]. destruct (IH I1) as (a & l & A & B). exists a, l. auto using learn_mono.
  - intros [E|I1]; [discriminate|]. destruct (IH I1) as (a & l & A & B). exists a, l. auto using learn_mono.
  - intros [E|I1].
    + injection E as -> -> ->. exists a0, l0. auto using learn_mono.
    + destruct (IH I1) as (a & l & A & B). exists a, l. auto using learn_mono.
  - intros [E|I1]; [discriminate|]. destruct (IH I1) as (a & l & A & B). exists a, l. auto using learn_mono.
  - intros [E|I1]; [discriminate|]. destruct (IH I1) as (a & l & A & B). exists a, l. auto using learn_mono.
  - intros [E|I1]; [discriminate|]. destruct (IH I1) as (a & l & A & B). exists a, l. auto using learn_mono.
Qed.

(** ** C49 *)

(** Two sessions sharing a key: no third session has it, and it contains two honest exponents. *)
Lemma keys_two T s a k s' a' k' : goes T -> holds_key T s a k -> holds_key T s' a' k' -> k = k' -> s <> s' ->
  2 <= hcount k /\ forall s'' a'', holds_key T s'' a'' k -> s'' = s \/ s'' = s'.
Proof.
  intros R (l & I & ->) (l' & I' & ->) E N.
  pose proof (goes_key_hcount _ _ _ _ R I) as B. pose proof (goes_key_hcount _ _ _ _ R I') as B'.
  assert (In (He s') (session_key s l)) as Hin by (rewrite E; apply in_ins; auto).
  apply in_ins in Hin as [Hin|Hin]; [injection Hin as ->; congruence|].
  assert (C : forall l e, In (He e) l -> 1 <= hcount l) by (clear; induction l as [|x r IH]; intros e H; [destruct H|]; destruct H as [-> |H]; cbn; [lia|]; apply IH in H; lia).
  split; [unfold session_key; rewrite hcount_ins; cbn; apply C in Hin; lia|].
  intros s'' a'' (l'' & I'' & E''). assert (In (He s'') (session_key s l)) as H2 by (rewrite E''; apply in_ins; auto).
  apply in_ins in H2 as [H2|H2]; [left; congruence|]. right.
  clear - B Hin H2. induction l as [|x r IH]; [destruct Hin|]. cbn in B.
  assert (C : forall l e, In (He e) l -> 1 <= hcount l) by (clear; induction l as [|x r IH]; intros e H; [destruct H|]; destruct H as [-> |H]; cbn; [lia|]; apply IH in H; lia).
  destruct Hin as [-> |Hin], H2 as [E|H2].
  - congruence.
  - apply C in H2. cbn in B. lia.
  - subst x. apply C in Hin. cbn in B. lia.
  - apply IH; auto. lia.
Qed.

(** In every run, with any number of sessions and any attacker behaviour: if session [s] completes with the identity of an
    honest node [p], then [p] itself has, in some session with the very same session key, sent its signed ID; and the
    address accepted is the one [p] announces. *)
Hypothesis safe : forall a m, ~ corrupt a -> signs a m -> ~ handshake_like a m.

Theorem C133_authentication : forall T s a p addr k, goes T -> accepted T s a p addr k -> ~ corrupt p ->
  addr = addr_of p /\ exists s', holds_key T s' p k.
Proof.
  intros T s a p addr k R [[l [Hk ->]] Hd] Np.
  destruct (goes_done_learn T s p addr R Hd) as (a2 & l2 & Hk2 & K). destruct (goes_key_unique _ _ _ _ _ _ R Hk Hk2) as [<- <-].
  set (k := session_key s l) in *.
  assert (S : forall m, okay T m -> m = toverlay p addr k -> addr = addr_of p /\ exists s', holds_key T s' p k).
  { intros m O ->. cbn in O. destruct O as [_ [_ [C|[G|(s' & l' & I' & E)]]]]; [contradiction | exfalso; apply (safe _ _ Np (goes_signs _ _ _ R G)); unfold handshake_like, tid; eauto|]. injection E as E1 E2.
    split; [exact E1|]. exists s', l'. auto. }
  apply (learn_goes _ _ R) in K. cbn [okay] in K. destruct K as [[B O]|(s' & l' & E & [(a' & I' & M)|[I'|(n & M & _)]])].
  - exact (S _ O eq_refl).
  - injection M as M1 M2. subst a'. split; [congruence|]. exists s', l'. auto.
  - exact (S _ (proj1 (goes_sends T R) _ _ _ I') eq_refl).
  - discriminate.
Qed.

(** Peer identities other than one's own: the session is with exactly one session of that node, nobody else has the key,
    and the attacker never learns it nor any secret sent under it. *)
Theorem C133_matching_session : forall T s a p addr k, goes T -> accepted T s a p addr k -> ~ corrupt p -> p <> a ->
  exists s', s' <> s /\ holds_key T s' p k /\ (forall s'' a'', holds_key T s'' a'' k -> s'' = s \/ s'' = s') /\
    ~ learn T (TG k) /\ forall n, ~ learn T (TData s n).
Proof.
  intros T s a p addr k R C Np Ne. destruct (C133_authentication T s a p addr k R C Np) as [_ [s' Hs']].
  assert (Hne : s <> s').
  { intros <-. destruct C as [(l & I & _) _], Hs' as (l' & I' & _). destruct (goes_key_unique _ _ _ _ _ _ R I I'). congruence. }
  destruct (keys_two T s a k s' p k R (proj1 C) Hs' eq_refl Hne) as [B U].
  exists s'. split; [auto|]. split; [exact Hs'|]. split; [exact U|].
  assert (NK : ~ learn T (TG k)) by (intros K; apply (learn_goes _ _ R) in K; cbn in K; lia).
  split; [exact NK|]. intros n K. apply (learn_goes _ _ R) in K. cbn in K. destruct K as (l & I & B2).
  destruct (goes_send_key T s l R (or_intror (ex_intro _ n I))) as [a2 I2]. destruct C as [(l0 & I0 & ->) _].
  destruct (goes_key_unique _ _ _ _ _ _ R I0 I2) as [_ <-]. lia.
Qed.

(** Data accepted in such a session was boxed' by one of its two ends. *)
Theorem C133_data_origin : forall T s a p addr k m, goes T -> accepted T s a p addr k -> ~ corrupt p -> p <> a ->
  learn T (TEnc k m) -> exists s' a', holds_key T s' a' k /\ (s' = s \/ a' = p) /\
    (m = toverlay a' (addr_of a') k \/ (exists l, In (UNet (ESend s' l m)) T) \/ exists n l, m = TData s' n /\ In (UNet (ESecret s' l n)) T).
Proof.
  intros T s a p addr k m R C Np Ne K. destruct (C133_matching_session T s a p addr k R C Np Ne) as (s1 & Hne & Hs1 & U & NK & _).
  destruct C as [Hk _].
  assert (B : 2 <= hcount k) by (apply (keys_two T s a k s1 p k R Hk Hs1 eq_refl); auto).
  apply (learn_goes _ _ R) in K. cbn [okay] in K. destruct K as [[B2 _]|(s' & l & E & H)]; [lia|].
  assert (I : exists a', In (UNet (EKey s' a' l)) T).
  { destruct H as [(a' & I & _)|[I|(n & _ & I)]]; [eauto | eapply goes_send_key; eauto | eapply goes_send_key; eauto]. }
  destruct I as [a' I]. assert (Hk' : holds_key T s' a' k) by (exists l; auto).
  exists s', a'. split; [exact Hk'|]. split.
  - destruct (U s' a' Hk') as [-> | ->]; [auto|]. right. destruct Hs1 as (l1 & I1 & _). destruct (goes_key_unique _ _ _ _ _ _ R I I1). congruence.
  - destruct H as [(a2 & I2 & M)|[I2|(n & M & I2)]].
    + left. destruct (goes_key_unique _ _ _ _ _ _ R I I2) as [<- _]. exact M.
    + right. left. eauto.
    + right. right. eauto.
Qed.
End Proofs.

(** *** Theorems *)

(** Proved: if what the applications of honest nodes sign does not look like what the handshake signs (their own encoded ID and a session key), then a session
    that accepts the identity of another, honest node is with exactly one session of that node, at the address it announces; nobody else has the key, and
    the attacker learns neither the key nor what is sent under it, although it may have anything else signed. *)
Theorem C133_partial : forall (corrupt : nat -> Prop) (addr_of : nat -> nat) (signs : nat -> term -> Prop) T s a p addr k,
  (forall b m, ~ corrupt b -> signs b m -> ~ handshake_like b m) -> goes corrupt addr_of signs T -> accepted T s a p addr k -> ~ corrupt p -> p <> a ->
  addr = addr_of p /\ exists s', s' <> s /\ holds_key T s' p k /\ (forall s'' a'', holds_key T s'' a'' k -> s'' = s \/ s'' = s') /\
    ~ learn corrupt addr_of T (TG k) /\ forall n, ~ learn corrupt addr_of T (TData s n).
Proof.
  intros corrupt addr_of signs T s a p addr k Safe R A Np Ne. split; [exact (proj1 (C133_authentication corrupt addr_of signs Safe T s a p addr k R A Np))|].
  exact (C133_matching_session corrupt addr_of signs Safe T s a p addr k R A Np Ne).
Qed.

(** The attack: node 1 dials the attacker, whose exponent is 5.  The attacker has the application of node 2, which signs whatever it is asked to, sign
    node 2's encoded ID followed by the session key, and sends this to node 1: node 1 accepts it as node 2, and the attacker reads what it sends. *)
Definition k05 : list expo := session_key 0 [Ae 5].
Definition sign_attack : list use :=
  [UNet (ESecret 0 [Ae 5] 9); UNet (EDone 0 2 2); USign 2 (TPair (tid 2 2) (TG k05)); UNet (EKey 0 1 [Ae 5]); UNet (EStart 0 1)].
Definition anything : nat -> term -> Prop := fun _ _ => True.

Theorem C133_attack : goes nobody self anything sign_attack /\ accepted sign_attack 0 1 2 2 k05 /\ (forall s', ~ holds_key sign_attack s' 2 k05) /\
  learn nobody self sign_attack (TG k05) /\ learn nobody self sign_attack (TData 0 9).
Proof.
  assert (K : forall u t T, In u T -> shown self u = Some t -> learn nobody self T t) by (intros; eapply le_shown; eauto).
  assert (KK : forall T, In (UNet (EStart 0 1)) T -> learn nobody self T (TG k05)).
  { intros T H. change k05 with (ins (Ae 5) [He 0]). apply le_mul. eapply le_fst. apply (K (UNet (EStart 0 1))); [exact H | reflexivity]. }
  assert (Id : forall T, learn nobody self T (tid 2 2)) by (intros; apply le_pair; [apply le_key | apply le_const]).
  split; [|split; [split; [eexists; split; [cbn; auto 8 | reflexivity] | cbn; auto 8]|split; [|split]]].
  - unfold sign_attack. eapply (go_secret _ _ _ _ 0 1 [Ae 5] 2 2); [|cbn; auto 8|cbn; auto 8].
    eapply (go_done _ _ _ _ 0 1 [Ae 5] 2 2); [|cbn; auto| |].
    + apply go_sign; [|apply le_pair; [apply Id | apply KK; cbn; auto] | exact I].
      apply (go_key _ _ _ _ 0 1 [Ae 5]); [apply (go_start _ _ _ [] 1); [constructor | intros []] | cbn; auto | |].
      * cbn. intros a l [H|[]]; discriminate.
      * apply le_pair; [change [Ae 5] with (ins (Ae 5) []); apply le_mul, le_one|]. apply le_signe; [|apply le_const]. intros e [<- |[]]. eauto.
    + cbn. intros p x [H|[H|[H|[]]]]; discriminate.
    + apply le_enc; [apply KK; cbn; auto|]. apply le_pair; [apply Id|]. apply (K (USign 2 (TPair (tid 2 2) (TG k05)))); [cbn; auto | reflexivity].
  - intros s' (l & I & _). cbn in I. repeat (destruct I as [I|I]; [discriminate|]). destruct I.
  - apply KK. cbn. auto 6.
  - eapply le_dec; [apply (K (UNet (ESecret 0 [Ae 5] 9))); [cbn; auto | reflexivity]|]. apply KK. cbn. auto 6.
Qed.

Theorem C133_refuted : ~ C133_statement.
Proof.
  intros H. destruct C133_attack as (R & A & N & _). destruct (H nobody self anything sign_attack 0 1 2 2 k05 R A (fun x => x) ltac:(discriminate)) as [(s' & _ & Hk) _]. exact (N s' Hk).
Qed.

(** In bytes: an application is safe if nothing it signs begins with the bytes of its node's public key.  [by_app] and [by_node] are the things signed with a
    key by the application and by the handshake; that nothing else verifies is what the signature scheme is for. *)
Theorem C133_prefix : forall C (by_app by_node : bytes -> bytes -> Prop) L e st id pub sec,
  (forall key m sg, verify C key m sg = true -> by_app key m \/ by_node key m) -> (forall key m, by_app key m -> ~ exists r, m = key ++ r) ->
  he_eph e = Ok (pub, sec) -> hr_peer (handshake C L e st) = Ok id ->
  exists pk shared, ecdh C sec pk = Ok shared /\ by_node (id_key id) (ID_marshal id ++ shared).
Proof.
  intros C by_app by_node L e st id pub sec V P E H.
  destruct (C49_session C L e st id pub sec E H) as (pk & sg1 & st1 & shared & suite & st2 & sg2 & _ & _ & _ & Ec & _ & _ & _ & _ & Vf).
  exists pk, shared. split; [exact Ec|]. destruct (V _ _ _ Vf) as [B|B]; [|exact B]. exfalso. apply (P _ _ B).
  unfold ID_marshal. rewrite go_copy_full by (rewrite zeros_length; reflexivity). rewrite <- !app_assoc. eauto.
Qed.

(** Two nodes complete with each other while the application of node 2 signs a challenge and its own encoded ID without a session key. *)
Definition challenge : nat -> term -> Prop := fun a m => (exists n, m = TConst n) \/ m = tid a (self a).
Definition signing_run : list use :=
  [UNet (EDone 0 2 2); USign 2 (tid 2 2); UNet (EKey 1 2 [He 0]); UNet (EKey 0 1 [He 1]); USign 2 (TConst 3); UNet (EStart 1 2); UNet (EStart 0 1)].
Example C133_nonvacuous :
  (forall b m, ~ nobody b -> challenge b m -> ~ handshake_like b m) /\ goes nobody self challenge signing_run /\ accepted signing_run 0 1 2 2 k01.
Proof.
  assert (K : forall u t T, In u T -> shown self u = Some t -> learn nobody self T t) by (intros; eapply le_shown; eauto).
  split; [|split; [|split; [eexists; split; [cbn; auto 8 | reflexivity] | cbn; auto 8]]].
  - intros b m _ [[n ->]| ->] (x & k & E); discriminate.
  - unfold signing_run. eapply (go_done _ _ _ _ 0 1 [He 1] 2 2); [|cbn; auto 8| |].
    + apply go_sign; [|apply le_pair; [apply le_key | apply le_const] | right; reflexivity].
      apply (go_key _ _ _ _ 1 2 [He 0]); [|cbn; auto 8| |].
      * apply (go_key _ _ _ _ 0 1 [He 1]); [|cbn; auto 8| |].
        -- apply go_sign; [|apply le_const | left; eauto]. apply (go_start _ _ _ [UNet (EStart 0 1)] 2); [|intros []]. apply (go_start _ _ _ [] 1); [constructor | intros []].
        -- cbn. intros a l H. repeat (destruct H as [H|H]; [discriminate|]). destruct H.
        -- apply (K (UNet (EStart 1 2))); [cbn; auto | reflexivity].
      * cbn. intros a l H. repeat (destruct H as [H|H]; [discriminate|]). destruct H.
      * apply (K (UNet (EStart 0 1))); [cbn; auto 6 | reflexivity].
    + cbn. intros p x H. repeat (destruct H as [H|H]; [discriminate|]). destruct H.
    + apply (K (UNet (EKey 1 2 [He 0]))); [cbn; auto | reflexivity].
Qed.

Example C133_prefix_nonvacuous :
  let by_app := fun key m : bytes => firstn (length key) m <> key in let by_node := fun key m : bytes => exists r, m = key ++ r in
  (forall key m sg, verify toy_crypto key m sg = true -> by_app key m \/ by_node key m) /\ (forall key m, by_app key m -> ~ exists r, m = key ++ r) /\
  by_app key_b [n2b 1; n2b 2] /\ hr_peer (handshake toy_crypto 200 env_a (new_rstate 200 (mkConn [stream_b; [n2b 5]] ErrEOF))) = Ok (he_id env_b).
Proof.
  split; [|split; [|split]].
  - intros key m sg _. destruct (list_eq_dec Byte.byte_eq_dec (firstn (length key) m) key) as [E|E]; [right | left; exact E]. exists (skipn (length key) m). rewrite <- E at 1. symmetry. apply firstn_skipn.
  - intros key m N [r ->]. apply N. rewrite firstn_app, Nat.sub_diag, firstn_O, app_nil_r. apply firstn_all.
  - discriminate.
  - vm_compute. reflexivity.
Qed.

Print Assumptions C133_partial.
Print Assumptions C133_attack.
Print Assumptions C133_refuted.
Print Assumptions C133_prefix.
Print Assumptions C133_data_origin.
