(** * C49 (authentication and secrecy against a network attacker) and C50 (refuted: self-impersonation). *)
From Verif Require Import Base M_Sym.
Local Open Scope nat_scope.

(** ** Products of exponents *)

Lemma code_inj a b : code a = code b -> a = b.
Proof. destruct a, b; cbn; intros H; f_equal; lia. Qed.
Lemma ins_comm a b l : ins a (ins b l) = ins b (ins a l).
Proof.
  induction l as [|x r IH]; cbn.
  - destruct (Nat.leb_spec (code a) (code b)), (Nat.leb_spec (code b) (code a)); cbn; try lia; auto.
    assert (a = b) as -> by (apply code_inj; lia). reflexivity.
  - destruct (Nat.leb_spec (code b) (code x)), (Nat.leb_spec (code a) (code x)); cbn;
    repeat (match goal with |- context [?u <=? ?v] => destruct (Nat.leb_spec u v) end; cbn); try lia; auto.
    + assert (a = b) as -> by (apply code_inj; lia). reflexivity.
    + rewrite IH. reflexivity.
Qed.
Lemma in_ins e a l : In e (ins a l) <-> e = a \/ In e l.
Proof.
  induction l as [|x r IH]; cbn; [intuition|]. destruct (code a <=? code x); cbn; [intuition|]. rewrite IH. intuition.
Qed.

Definition is_he (e : expo) : nat := match e with He _ => 1 | Ae _ => 0 end.
Fixpoint hcount (l : list expo) : nat := match l with [] => 0 | e :: r => is_he e + hcount r end.
Lemma hcount_ins e l : hcount (ins e l) = is_he e + hcount l.
Proof. induction l as [|x r IH]; cbn; [lia|]. destruct (_ <=? _); cbn; [lia|]. rewrite IH. lia. Qed.

(** ** What the attacker can ever know *)

Section Proofs.
Context (corrupt : nat -> Prop) (addr_of : nat -> nat).
Notation know := (know corrupt addr_of).
Notation run := (run corrupt addr_of).

(** The plaintexts session [s] boxed under its key. *)
Definition boxed (T : list event) (k : list expo) (m : term) : Prop :=
  exists s l, k = session_key s l /\
    ((exists a, In (EKey s a l) T /\ m = toverlay a (addr_of a) k) \/ In (ESend s l m) T \/ (exists n, m = TData s n /\ In (ESecret s l n) T)).

Fixpoint ok (T : list event) (t : term) : Prop :=
  match t with
  | TConst _ | TKey _ => True
  | TG l => hcount l <= 1
  | TData s n => exists l, In (ESecret s l n) T /\ hcount (session_key s l) <= 1
  | TPair x y => ok T x /\ ok T y
  | TSig (KLong a) m => ok T m /\ (corrupt a \/ exists s l, In (EKey s a l) T /\ m = TPair (tid a (addr_of a)) (TG (session_key s l)))
  | TSig (KExp l) m => ok T m /\ ((forall e, In e l -> exists n, e = Ae n) \/ exists s, l = [He s] /\ m = tbanner)
  | TEnc k m => (hcount k <= 1 /\ ok T m) \/ boxed T k m
  end.

Lemma boxed_mono e T k m : boxed T k m -> boxed (e :: T) k m.
Proof. intros (s & l & E & H). exists s, l. split; [exact E|]. cbn [In]. destruct H as [(a & H & M)|[H|(n & M & H)]]; [left; eauto | auto | right; right; eauto]. Qed.

Lemma ok_mono e T t : ok T t -> ok (e :: T) t.
Proof.
  induction t as [n|a|l|s n|x IHx y IHy|k m IH|k m IH]; cbn [ok].
  - auto.
  - auto.
  - auto.
  - intros (l & H & B). exists l. split; [right; exact H | exact B].
  - intros [A B]. auto.
  - destruct k as [a|l].
    + intros [A [B|(s & l & B & C)]]; split; auto. right. exists s, l. split; [right; exact B | exact C].
    + intros [A B]. auto.
  - intros [[A B]|B]; [left; auto | right; apply boxed_mono, B].
Qed.

(** What honest sessions sent to be boxed was known then, or secret data. *)
Definition sends_ok (T : list event) : Prop := forall s l m, In (ESend s l m) T -> ok T m.

Lemma boxed_ok T k m : sends_ok T -> boxed T k m -> hcount k <= 1 -> ok T m.
Proof.
  intros SO (s & l & -> & [(a & H & ->)|[H|(n & -> & H)]]) B.
  - cbn. repeat split; auto. right. exists s, l. auto.
  - exact (SO _ _ _ H).
  - cbn. exists l. auto.
Qed.

Lemma know_ok T t : sends_ok T -> know T t -> ok T t.
Proof.
  intros SO K. induction K as [e t He Hf|n|a| |n l K IH|n l K IH|x y K1 IH1 K2 IH2|x y K IH|x y K IH|a m C K IH|l m C K IH|k m K IH|k m K1 IH1 K2 IH2|k m K1 IH1 K2 IH2].
  - destruct e as [s a|s a l|s p x|s l m|s l n]; cbn in Hf; try discriminate; injection Hf as <-.
    + cbn. repeat split; auto. right. exists s. auto.
    + right. exists s, l. split; [reflexivity|]. left. exists a. auto.
    + right. exists s, l. split; [reflexivity|]. auto.
    + right. exists s, l. split; [reflexivity|]. right. right. exists n. auto.
  - exact I.
  - exact I.
  - cbn. lia.
  - cbn in *. rewrite hcount_ins. exact IH.
  - cbn in *. rewrite hcount_ins in IH. exact IH.
  - cbn. auto.
  - apply IH.
  - apply IH.
  - cbn. auto.
  - cbn. auto.
  - destruct k; apply IH.
  - left. auto.
  - cbn in IH1, IH2. destruct IH1 as [[_ B]|B]; [exact B|]. exact (boxed_ok T k m SO B IH2).
Qed.

Lemma run_sends T : run T -> sends_ok T.
Proof.
  induction 1 as [|T a R IH N|T s a l R IH I N K|T s a l p x R IH I N K|T s a l p x m R IH I D K|T s a l p x n R IH I D];
    intros s' l' m'; cbn [In].
  - intros [].
  - intros [H|H]; [discriminate | apply ok_mono; exact (IH _ _ _ H)].
  - intros [H|H]; [discriminate | apply ok_mono; exact (IH _ _ _ H)].
  - intros [H|H]; [discriminate | apply ok_mono; exact (IH _ _ _ H)].
  - intros [H|H]; [|apply ok_mono; exact (IH _ _ _ H)]. injection H as -> -> ->. apply ok_mono. apply (know_ok T m' IH K).
  - intros [H|H]; [discriminate | apply ok_mono; exact (IH _ _ _ H)].
Qed.

Lemma know_run T t : run T -> know T t -> ok T t.
Proof. intros R. apply know_ok, run_sends, R. Qed.

Lemma know_mono e T t : know T t -> know (e :: T) t.
Proof.
  intros K. induction K; [eapply kn_frame; [right; eassumption | assumption] | ..]; try (econstructor; eassumption).
Qed.

(** ** Bookkeeping of sessions *)

Lemma run_start_unique T s a a' : run T -> In (EStart s a) T -> In (EStart s a') T -> a = a'.
Proof.
  intros R. assert (B : forall T, run T -> forall s a, In (EStart s a) T -> s < length T).
  { clear. induction 1; intros s' a'; cbn [In length]; try (intros [E|H']; [try discriminate|apply IHrun in H'; lia]).
    - intros [].
    - injection E as <- <-. lia. }
  induction R as [|T0 a0 R IH N|T0 s0 a0 l0 R IH I N K|T0 s0 a0 l0 p x R IH I N K|T0 s0 a0 l0 p x m R IH I D K|T0 s0 a0 l0 p x n R IH I D]; cbn [In].
  - intros [].
  - intros [E|I1] [E'|I2].
    + congruence.
    + exfalso. injection E as <- <-. apply (B T0 R) in I2. lia.
    + exfalso. injection E' as <- <-. apply (B T0 R) in I1. lia.
    + auto.
  - intros [E|I1] [E'|I2]; try discriminate; auto.
  - intros [E|I1] [E'|I2]; try discriminate; auto.
  - intros [E|I1] [E'|I2]; try discriminate; auto.
  - intros [E|I1] [E'|I2]; try discriminate; auto.
Qed.
Lemma run_key_start T s a l : run T -> In (EKey s a l) T -> In (EStart s a) T.
Proof.
  induction 1; cbn [In].
  - intros [].
  - intros [E|I]; [discriminate | auto].
  - intros [E|I]; [injection E as <- <- <-; auto | auto].
  - intros [E|I]; [discriminate | auto].
  - intros [E|I]; [discriminate | auto].
  - intros [E|I]; [discriminate | auto].
Qed.
Lemma run_key_unique T s a l a' l' : run T -> In (EKey s a l) T -> In (EKey s a' l') T -> a = a' /\ l = l'.
Proof.
  induction 1 as [|T0 a0 R IH N|T0 s0 a0 l0 R IH I N K|T0 s0 a0 l0 p x R IH I N K|T0 s0 a0 l0 p x m R IH I D K|T0 s0 a0 l0 p x n R IH I D]; cbn [In].
  - intros [].
  - intros [E|I1] [E'|I2]; try discriminate; auto.
  - intros [E|I1] [E'|I2].
    + split; congruence.
    + exfalso. injection E as -> -> ->. exact (N _ _ I2).
    + exfalso. injection E' as -> -> ->. exact (N _ _ I1).
    + auto.
  - intros [E|I1] [E'|I2]; try discriminate; auto.
  - intros [E|I1] [E'|I2]; try discriminate; auto.
  - intros [E|I1] [E'|I2]; try discriminate; auto.
Qed.
(** The first message a session accepted was known to the attacker, so its key has at most one honest exponent. *)
Lemma run_key_hcount T s a l : run T -> In (EKey s a l) T -> hcount l <= 1.
Proof.
  induction 1 as [|T0 a0 R IH N|T0 s0 a0 l0 R IH I N K|T0 s0 a0 l0 p x R IH I N K|T0 s0 a0 l0 p x m R IH I D K|T0 s0 a0 l0 p x n R IH I D]; cbn [In].
  - intros [].
  - intros [E|I1]; [discriminate | auto].
  - intros [E|I1]; [|auto]. injection E as -> -> ->. apply (know_run _ _ R) in K. exact (proj1 K).
  - intros [E|I1]; [discriminate | auto].
  - intros [E|I1]; [discriminate | auto].
  - intros [E|I1]; [discriminate | auto].
Qed.
Lemma run_send_key T s l : run T -> (exists m, In (ESend s l m) T) \/ (exists n, In (ESecret s l n) T) -> exists a, In (EKey s a l) T.
Proof.
  induction 1 as [|T0 a0 R IH N|T0 s0 a0 l0 R IH I N K|T0 s0 a0 l0 p x R IH I N K|T0 s0 a0 l0 p x m R IH I D K|T0 s0 a0 l0 p x n R IH I D];
    intros [[m0 H]|[n0 H]]; cbn [In] in H; try destruct H as [E|H]; try discriminate; try (destruct H; fail);
    try (destruct IH as [a IH]; [eauto|exists a; right; exact IH]; fail).
  - injection E as -> -> ->. exists a0. right. exact I.
  - injection E as -> -> ->. exists a0. right. exact I.
Qed.

(** [T] continued: what was done stays done. *)
Lemma run_done_know T s p x : run T -> In (EDone s p x) T ->
  exists a l, In (EKey s a l) T /\ know T (TEnc (session_key s l) (toverlay p x (session_key s l))).
Proof.
  induction 1 as [|T0 a0 R IH N|T0 s0 a0 l0 R IH I N K|T0 s0 a0 l0 p0 x0 R IH I N K|T0 s0 a0 l0 p0 x0 m R IH I D K|T0 s0 a0 l0 p0 x0 n R IH I D]; cbn [In].
  - intros [].
  - intros [E|I1]; [discriminate|]. destruct (IH I1) as (a & l & A & B). exists a, l. auto using know_mono.
  - intros [E|I1]; [discriminate|]. destruct (IH I1) as (a & l & A & B). exists a, l. auto using know_mono.
  - intros [E|I1].
    + injection E as -> -> ->. exists a0, l0. auto using know_mono.
    + destruct (IH I1) as (a & l & A & B). exists a, l. auto using know_mono.
  - intros [E|I1]; [discriminate|]. destruct (IH I1) as (a & l & A & B). exists a, l. auto using know_mono.
  - intros [E|I1]; [discriminate|]. destruct (IH I1) as (a & l & A & B). exists a, l. auto using know_mono.
Qed.

(** ** C49 *)

(** Session [s] of node [a] has agreed on key [k] (it has sent its signed ID under it). *)
Definition has_key (T : list event) (s a : nat) (k : list expo) : Prop := exists l, In (EKey s a l) T /\ k = session_key s l.
Definition completed (T : list event) (s a p addr : nat) (k : list expo) : Prop := has_key T s a k /\ In (EDone s p addr) T.

(** In every run, with any number of sessions and any attacker behaviour: if session [s] completes with the identity of an
    honest node [p], then [p] itself has, in some session with the very same session key, sent its signed ID; and the
    address accepted is the one [p] announces. *)
Theorem C49_authentication : forall T s a p addr k, run T -> completed T s a p addr k -> ~ corrupt p ->
  addr = addr_of p /\ exists s', has_key T s' p k.
Proof.
  intros T s a p addr k R [[l [Hk ->]] Hd] Np.
  destruct (run_done_know T s p addr R Hd) as (a2 & l2 & Hk2 & K). destruct (run_key_unique _ _ _ _ _ _ R Hk Hk2) as [<- <-].
  set (k := session_key s l) in *.
  assert (S : forall m, ok T m -> m = toverlay p addr k -> addr = addr_of p /\ exists s', has_key T s' p k).
  { intros m O ->. cbn in O. destruct O as [_ [_ [C|(s' & l' & I' & E)]]]; [contradiction|]. injection E as E1 E2.
    split; [exact E1|]. exists s', l'. auto. }
  apply (know_run _ _ R) in K. cbn [ok] in K. destruct K as [[B O]|(s' & l' & E & [(a' & I' & M)|[I'|(n & M & _)]])].
  - exact (S _ O eq_refl).
  - injection M as M1 M2. subst a'. split; [congruence|]. exists s', l'. auto.
  - exact (S _ (run_sends T R _ _ _ I') eq_refl).
  - discriminate.
Qed.

(** Two sessions sharing a key: no third session has it, and it contains two honest exponents. *)
Lemma key_two T s a k s' a' k' : run T -> has_key T s a k -> has_key T s' a' k' -> k = k' -> s <> s' ->
  2 <= hcount k /\ forall s'' a'', has_key T s'' a'' k -> s'' = s \/ s'' = s'.
Proof.
  intros R (l & I & ->) (l' & I' & ->) E N.
  pose proof (run_key_hcount _ _ _ _ R I) as B. pose proof (run_key_hcount _ _ _ _ R I') as B'.
  assert (In (He s') (session_key s l)) as Hin by (rewrite E; apply in_ins; auto).
  apply in_ins in Hin as [Hin|Hin]; [injection Hin as ->; congruence|].
  assert (C : forall l e, In (He e) l -> 1 <= hcount l) by (clear; induction l as [|x r IH]; intros e H; [destruct H|]; destruct H as [-> |H]; cbn; [lia|]; apply IH in H; lia).
  split; [unfold session_key; rewrite hcount_ins; cbn; apply C in Hin; lia|].
  intros s'' a'' (l'' & I'' & E''). assert (In (He s'') (session_key s l)) as H2 by (rewrite E''; apply in_ins; auto).
  apply in_ins in H2 as [H2|H2]; [left; congruence|]. right.
  clear - B Hin H2. induction l as [|x r IH]; [destruct Hin|]. cbn in B.
  assert (C : forall l e, In (He e) l -> 1 <= hcount l) by (clear; induction l as [|x r IH]; intros e H; [destruct H|]; destruct H as [-> |H]; cbn; [lia|]; apply IH in H; lia).
  destruct Hin as [-> |Hin], H2 as [E|H2].
  - congruence.
  - apply C in H2. cbn in B. lia.
  - subst x. apply C in Hin. cbn in B. lia.
  - apply IH; auto. lia.
Qed.

(** Peer identities other than one's own: the session is with exactly one session of that node, nobody else has the key,
    and the attacker never learns it nor any secret sent under it. *)
Theorem C49_matching_session : forall T s a p addr k, run T -> completed T s a p addr k -> ~ corrupt p -> p <> a ->
  exists s', s' <> s /\ has_key T s' p k /\ (forall s'' a'', has_key T s'' a'' k -> s'' = s \/ s'' = s') /\
    ~ know T (TG k) /\ forall n, ~ know T (TData s n).
Proof.
  intros T s a p addr k R C Np Ne. destruct (C49_authentication T s a p addr k R C Np) as [_ [s' Hs']].
  assert (Hne : s <> s').
  { intros <-. destruct C as [(l & I & _) _], Hs' as (l' & I' & _). destruct (run_key_unique _ _ _ _ _ _ R I I'). congruence. }
  destruct (key_two T s a k s' p k R (proj1 C) Hs' eq_refl Hne) as [B U].
  exists s'. split; [auto|]. split; [exact Hs'|]. split; [exact U|].
  assert (NK : ~ know T (TG k)) by (intros K; apply (know_run _ _ R) in K; cbn in K; lia).
  split; [exact NK|]. intros n K. apply (know_run _ _ R) in K. cbn in K. destruct K as (l & I & B2).
  destruct (run_send_key T s l R (or_intror (ex_intro _ n I))) as [a2 I2]. destruct C as [(l0 & I0 & ->) _].
  destruct (run_key_unique _ _ _ _ _ _ R I0 I2) as [_ <-]. lia.
Qed.

(** Data accepted in such a session was boxed by one of its two ends. *)
Theorem C49_data_origin : forall T s a p addr k m, run T -> completed T s a p addr k -> ~ corrupt p -> p <> a ->
  know T (TEnc k m) -> exists s' a', has_key T s' a' k /\ (s' = s \/ a' = p) /\
    (m = toverlay a' (addr_of a') k \/ (exists l, In (ESend s' l m) T) \/ exists n l, m = TData s' n /\ In (ESecret s' l n) T).
Proof.
  intros T s a p addr k m R C Np Ne K. destruct (C49_matching_session T s a p addr k R C Np Ne) as (s1 & Hne & Hs1 & U & NK & _).
  destruct C as [Hk _].
  assert (B : 2 <= hcount k) by (apply (key_two T s a k s1 p k R Hk Hs1 eq_refl); auto).
  apply (know_run _ _ R) in K. cbn [ok] in K. destruct K as [[B2 _]|(s' & l & E & H)]; [lia|].
  assert (I : exists a', In (EKey s' a' l) T).
  { destruct H as [(a' & I & _)|[I|(n & _ & I)]]; [eauto | eapply run_send_key; eauto | eapply run_send_key; eauto]. }
  destruct I as [a' I]. assert (Hk' : has_key T s' a' k) by (exists l; auto).
  exists s', a'. split; [exact Hk'|]. split.
  - destruct (U s' a' Hk') as [-> | ->]; [auto|]. right. destruct Hs1 as (l1 & I1 & _). destruct (run_key_unique _ _ _ _ _ _ R I I1). congruence.
  - destruct H as [(a2 & I2 & M)|[I2|(n & M & I2)]].
    + left. destruct (run_key_unique _ _ _ _ _ _ R I I2) as [<- _]. exact M.
    + right. left. eauto.
    + right. right. eauto.
Qed.
End Proofs.
Print Assumptions C49_authentication.
Print Assumptions C49_matching_session.
Print Assumptions C49_data_origin.

(** A run in which nodes 1 and 2 complete with each other and a secret is sent. *)
Definition nobody : nat -> Prop := fun _ => False.
Definition self (a : nat) : nat := a.
Definition k01 : list expo := [He 0; He 1].
Definition honest_run : list event :=
  [ESecret 0 [He 1] 7; EDone 1 1 1; EDone 0 2 2; EKey 1 2 [He 0]; EKey 0 1 [He 1]; EStart 1 2; EStart 0 1].

Example C49_nonvacuous : run nobody self honest_run /\ completed honest_run 0 1 2 2 k01 /\ completed honest_run 1 2 1 1 k01.
Proof.
  assert (K : forall e t T, In e T -> frame_of self e = Some t -> know nobody self T t) by (intros; eapply kn_frame; eauto).
  split; [|split; (split; [eexists; split; [cbn; auto 8 | reflexivity] | cbn; auto 8])].
  unfold honest_run.
  eapply (run_secret _ _ _ 0 1 [He 1] 2 2); [|cbn; auto 8|cbn; auto 8].
  eapply (run_done _ _ _ 1 2 [He 0] 1 1); [|cbn; auto 8| |].
  - eapply (run_done _ _ _ 0 1 [He 1] 2 2); [|cbn; auto 8| |].
    + apply (run_key _ _ _ 1 2 [He 0]); [|cbn; auto 8| |].
      * apply (run_key _ _ _ 0 1 [He 1]); [|cbn; auto 8| |].
        -- apply (run_start _ _ [EStart 0 1] 2); [|intros []]. apply (run_start _ _ [] 1); [constructor | intros []].
        -- cbn. intros a l [H|[H|[]]]; discriminate.
        -- apply (K (EStart 1 2)); [cbn; auto | reflexivity].
      * cbn. intros a l [H|[H|[H|[]]]]; discriminate.
      * apply (K (EStart 0 1)); [cbn; auto | reflexivity].
    + cbn. intros p x H. repeat (destruct H as [H|H]; [discriminate|]). destruct H.
    + apply (K (EKey 1 2 [He 0])); [cbn; auto | reflexivity].
  - cbn. intros p x H. repeat (destruct H as [H|H]; [discriminate|]). destruct H.
  - apply (K (EKey 0 1 [He 1])); [cbn; auto | reflexivity].
Qed.

(** ** C50 *)

(** Claimed: a completed handshake under an honest identity means that node is at the other end: another session, which
    that node is running, has the key. *)
Definition C50_statement : Prop := forall corrupt addr_of T s a p addr k, run corrupt addr_of T ->
  completed T s a p addr k -> ~ corrupt p -> exists s', s' <> s /\ has_key T s' p k.

(** The attack: an attacker with no node key at all answers node 1's dial with an exponent of its own, opens node 1's signed ID
    and returns it unchanged.  Node 1 completes with the identity of node 1, and the attacker holds the session key. *)
Definition attack : list event := [ESecret 0 [Ae 5] 9; EDone 0 1 1; EKey 0 1 [Ae 5]; EStart 0 1].

Theorem C50_self_impersonation : run nobody self attack /\ completed attack 0 1 1 1 (session_key 0 [Ae 5]) /\
  know nobody self attack (TG (session_key 0 [Ae 5])) /\ know nobody self attack (TData 0 9).
Proof.
  assert (K : forall e t T, In e T -> frame_of self e = Some t -> know nobody self T t) by (intros; eapply kn_frame; eauto).
  assert (KK : forall T, In (EStart 0 1) T -> know nobody self T (TG (session_key 0 [Ae 5]))).
  { intros T H. change (session_key 0 [Ae 5]) with (ins (Ae 5) [He 0]). apply kn_mul. eapply kn_fst. apply (K (EStart 0 1)); [exact H | reflexivity]. }
  split; [|split; [split; [eexists; split; [cbn; auto 8 | reflexivity] | cbn; auto 8]|split]].
  - unfold attack. eapply (run_secret _ _ _ 0 1 [Ae 5] 1 1); [|cbn; auto 8|cbn; auto 8].
    eapply (run_done _ _ _ 0 1 [Ae 5] 1 1); [|cbn; auto| |].
    + apply (run_key _ _ _ 0 1 [Ae 5]); [apply (run_start _ _ [] 1); [constructor | intros []] | cbn; auto | |].
      * cbn. intros a l [H|[]]; discriminate.
      * apply kn_pair; [change [Ae 5] with (ins (Ae 5) []); apply kn_mul, kn_one|]. apply kn_signe; [|apply kn_const]. intros e [<- |[]]. eauto.
    + cbn. intros p x [H|[H|[]]]; discriminate.
    + apply (K (EKey 0 1 [Ae 5])); [cbn; auto | reflexivity].
  - apply KK. cbn. auto.
  - eapply kn_dec; [apply (K (ESecret 0 [Ae 5] 9)); [cbn; auto | reflexivity]|]. apply KK. cbn. auto.
Qed.
Print Assumptions C50_self_impersonation.

Theorem C50_refuted : ~ C50_statement.
Proof.
  intros H. destruct C50_self_impersonation as (R & C & _).
  destruct (H nobody self attack 0 1 1 1 (session_key 0 [Ae 5]) R C (fun x => x)) as (s' & Ne & l & I & _).
  cbn in I. repeat (destruct I as [I|I]; [try discriminate; injection I as <- ; congruence|]). destruct I.
Qed.
Print Assumptions C50_refuted.

(** Every identity but one's own is at the other end of the session. *)
Theorem C50_partial : forall corrupt addr_of T s a p addr k, run corrupt addr_of T ->
  completed T s a p addr k -> ~ corrupt p -> p <> a -> exists s', s' <> s /\ has_key T s' p k.
Proof.
  intros corrupt addr_of T s a p addr k R C Np Ne. destruct (C49_matching_session corrupt addr_of T s a p addr k R C Np Ne) as (s' & A & B & _). eauto.
Qed.
Print Assumptions C50_partial.
