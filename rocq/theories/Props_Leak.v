(** * C106: secrets that leak later, or elsewhere, do not open or spoil a connection. *)
From Verif Require Import Base M_Sym Props_Sym M_Leak.
Local Open Scope nat_scope.

(** ** Spec *)

(** Session [s] of node [a] has agreed on key [k]; it has completed with the identity of [p]. *)
Definition lhas_key (T : list levent) (s a : nat) (k : list expo) : Prop := exists l, In (Ev (EKey s a l)) T /\ k = session_key s l.
Definition lcompleted (T : list levent) (s a p addr : nat) (k : list expo) : Prop := lhas_key T s a k /\ In (Ev (EDone s p addr)) T.
(** Nothing of the session itself has leaked. *)
Definition intact (T : list levent) (s : nat) : Prop := ~ In (LEph s) T /\ ~ In (LKey s) T.

(** ** Counting the exponents that have not leaked *)

Definition lkd (T : list levent) (e : expo) : bool :=
  match e with Ae _ => true | He s => existsb (fun x => match x with LEph s' => s =? s' | _ => false end) T end.
Lemma lkd_ok T e : lkd T e = true <-> known_exp T e.
Proof.
  destruct e as [s|n]; cbn; [|tauto]. rewrite existsb_exists. split.
  - intros ([| |s'|] & H & E); try discriminate. apply Nat.eqb_eq in E as ->. exact H.
  - intros H. exists (LEph s). split; [exact H | apply Nat.eqb_refl].
Qed.
Lemma known_mono x T e : known_exp T e -> known_exp (x :: T) e.
Proof. destruct e; cbn; auto. Qed.
Fixpoint hid (T : list levent) (l : list expo) : nat := match l with [] => 0 | e :: r => (if lkd T e then 0 else 1) + hid T r end.
Lemma hid_ins T e l : hid T (ins e l) = (if lkd T e then 0 else 1) + hid T l.
Proof. induction l as [|x r IH]; cbn [ins hid]; [lia|]. destruct (_ <=? _); cbn [hid]; [lia|]. rewrite IH. lia. Qed.
Lemma hid_mono x T l : hid (x :: T) l <= hid T l.
Proof.
  induction l as [|e r IH]; cbn [hid]; [lia|]. destruct (lkd T e) eqn:E; [|destruct (lkd (x :: T) e); lia].
  assert (lkd (x :: T) e = true) as -> by (apply lkd_ok, known_mono, lkd_ok, E). lia.
Qed.
Lemma hid_all T l : (forall e, In e l -> known_exp T e) -> hid T l = 0.
Proof. induction l as [|e r IH]; intros H; [reflexivity|]. cbn [hid]. rewrite (proj2 (lkd_ok T e)) by (apply H; left; reflexivity). apply IH. intros; apply H; right; assumption. Qed.
Lemma hid_in T l : forall s, In (He s) l -> ~ In (LEph s) T -> 1 <= hid T l.
Proof.
  induction l as [|e r IH]; intros s H N; [destruct H|]. cbn [hid]. destruct H as [-> |H]; [|specialize (IH s H N); lia].
  destruct (lkd T (He s)) eqn:E; [apply lkd_ok in E; contradiction | lia].
Qed.
Lemma hid_two T l s s' : In (He s) l -> In (He s') l -> s <> s' -> ~ In (LEph s) T -> ~ In (LEph s') T -> 2 <= hid T l.
Proof.
  induction l as [|e r IH]; intros H H' Ne N N'; [destruct H|]. cbn [hid]. destruct H as [-> |H], H' as [E|H'].
  - congruence.
  - destruct (lkd T (He s)) eqn:E; [apply lkd_ok in E; contradiction|]. pose proof (hid_in T r s' H' N'). lia.
  - subst e. destruct (lkd T (He s')) eqn:E; [apply lkd_ok in E; contradiction|]. pose proof (hid_in T r s H N). lia.
  - specialize (IH H H' Ne N N'). lia.
Qed.
(** Two products with the same hidden exponents. *)
Definition same (T : list levent) (l l' : list expo) : Prop := forall s, ~ In (LEph s) T -> (In (He s) l <-> In (He s) l').

(** ** What the attacker can ever know *)

Section Proofs.
Context (addr_of : nat -> nat).
Notation know := (lknow addr_of).
Notation run := (lrun addr_of).

Definition lboxed (T : list levent) (k : list expo) (m : term) : Prop :=
  exists s l, k = session_key s l /\
    ((exists a, In (Ev (EKey s a l)) T /\ m = toverlay a (addr_of a) k) \/ In (Ev (ESend s l m)) T \/ (exists n, m = TData s n /\ In (Ev (ESecret s l n)) T)).
(** Products that may be known: with one hidden exponent at most, or those of a session key that has leaked. *)
Definition opened (T : list levent) (l : list expo) : Prop :=
  hid T l <= 1 \/ exists s a l', In (LKey s) T /\ In (Ev (EKey s a l')) T /\ same T l (session_key s l').
Fixpoint lok (T : list levent) (t : term) : Prop :=
  match t with
  | TConst _ | TKey _ => True
  | TG l => opened T l
  | TData s n => exists l, In (Ev (ESecret s l n)) T /\ opened T (session_key s l)
  | TPair x y => lok T x /\ lok T y
  | TSig (KLong a) m => lok T m /\ (In (LLong a) T \/ exists s l, In (Ev (EKey s a l)) T /\ m = TPair (tid a (addr_of a)) (TG (session_key s l)))
  | TSig (KExp l) m => lok T m /\ ((forall e, In e l -> known_exp T e) \/ exists s, l = [He s] /\ m = tbanner)
  | TEnc k m => (opened T k /\ lok T m) \/ lboxed T k m
  end.

Lemma opened_mono e T l : opened T l -> opened (e :: T) l.
Proof.
  intros [H|(s & a & l' & H & H' & Sm)]; [left; pose proof (hid_mono e T l); lia|]. right. exists s, a, l'. split; [right; exact H|]. split; [right; exact H'|].
  intros s0 N. apply Sm. intros C. apply N. right. exact C.
Qed.
Lemma opened_ins e T l : known_exp T e -> opened T l <-> opened T (ins e l).
Proof.
  intros K. assert (Sm : forall k, same T l k <-> same T (ins e l) k).
  { intros k. unfold same. assert (X : forall s, ~ In (LEph s) T -> (In (He s) (ins e l) <-> In (He s) l)).
    { intros s N. rewrite in_ins. split; [intros [<- |H]; [contradiction | exact H] | auto]. }
    split; intros H s N; specialize (H s N); specialize (X s N); tauto. }
  unfold opened. rewrite hid_ins, (proj2 (lkd_ok T e) K). cbn [Nat.add].
  split; (intros [H|(s & a & l' & H & H' & H2)]; [left; exact H | right; exists s, a, l'; split; [exact H|]; split; [exact H'|]; apply Sm; exact H2]).
Qed.
Lemma lboxed_mono e T k m : lboxed T k m -> lboxed (e :: T) k m.
Proof. intros (s & l & E & H). exists s, l. split; [exact E|]. cbn [In]. destruct H as [(a & H & M)|[H|(n & M & H)]]; [left; eauto | auto | right; right; eauto]. Qed.
Lemma lok_mono e T t : lok T t -> lok (e :: T) t.
Proof.
  induction t as [n|a|l|s n|x IHx y IHy|k m IH|k m IH]; cbn [lok].
  - auto.
  - auto.
  - apply opened_mono.
  - intros (l & H & B). exists l. split; [right; exact H | apply opened_mono, B].
  - intros [A B]. auto.
  - destruct k as [a|l].
    + intros [A [B|(s & l & B & C)]]; split; auto; [left; right; exact B|]. right. exists s, l. split; [right; exact B | exact C].
    + intros [A [B|B]]; split; auto. left. intros x Hx. apply known_mono, B, Hx.
  - intros [[A B]|B]; [left; auto using opened_mono | right; apply lboxed_mono, B].
Qed.

Definition lsends_ok (T : list levent) : Prop := forall s l m, In (Ev (ESend s l m)) T -> lok T m.
Lemma lboxed_ok T k m : lsends_ok T -> lboxed T k m -> opened T k -> lok T m.
Proof.
  intros SO (s & l & -> & [(a & H & ->)|[H|(n & -> & H)]]) B.
  - cbn [lok toverlay tid]. repeat split; auto. right. exists s, l. auto.
  - exact (SO _ _ _ H).
  - cbn [lok]. exists l. auto.
Qed.
Lemma lknow_ok T t : lsends_ok T -> know T t -> lok T t.
Proof.
  intros SO K. induction K as [e t He Hf|n|a| |e l Ke K IH|e l Ke K IH|x y K1 IH1 K2 IH2|x y K IH|x y K IH|a m C K IH|l m C K IH|k m K IH|k m K1 IH1 K2 IH2|k m K1 IH1 K2 IH2|s a l H H'].
  - destruct e as [s a|s a l|s p x|s l m|s l n]; cbn in Hf; try discriminate; injection Hf as <-.
    + cbn [lok thello tbanner]. repeat split; auto; [|right; exists s; auto]. left. cbn. destruct (existsb _ _); lia.
    + right. exists s, l. split; [reflexivity|]. left. exists a. auto.
    + right. exists s, l. split; [reflexivity|]. auto.
    + right. exists s, l. split; [reflexivity|]. right. right. exists n. auto.
  - exact I.
  - exact I.
  - left. cbn. lia.
  - cbn [lok] in *. apply opened_ins; assumption.
  - cbn [lok] in *. apply opened_ins in IH; assumption.
  - cbn. auto.
  - apply IH.
  - apply IH.
  - cbn. auto.
  - cbn. auto.
  - destruct k; apply IH.
  - left. auto.
  - cbn in IH1, IH2. destruct IH1 as [[_ B]|B]; [exact B|]. exact (lboxed_ok T k m SO B IH2).
  - right. exists s, a, l. split; [exact H|]. split; [exact H'|]. intros s0 _. tauto.
Qed.
Lemma lrun_sends T : run T -> lsends_ok T.
Proof.
  induction 1 as [|T a R IH|T s a l R IH I N K|T s a l p x R IH I N K|T s a l p x m R IH I D K|T s a l p x n R IH I D|T a R IH|T s R IH|T s R IH];
    intros s' l' m'; cbn [In]; [intros [] | ..]; (intros [H|H]; [try discriminate | apply lok_mono; exact (IH _ _ _ H)]).
  injection H as -> -> ->. apply lok_mono. apply (lknow_ok T m' IH K).
Qed.
Lemma lknow_run T t : run T -> know T t -> lok T t.
Proof. intros R. apply lknow_ok, lrun_sends, R. Qed.
Lemma lknow_mono e T t : know T t -> know (e :: T) t.
Proof.
  intros K. induction K; [eapply lk_frame; [right; eassumption | assumption] | ..].
  all: try (econstructor; eauto using known_mono; fail).
  - apply lk_sign; [right; assumption | assumption].
  - eapply lk_leak; right; eassumption.
Qed.

(** ** Bookkeeping of sessions *)

Lemma lrun_key_unique T s a l a' l' : run T -> In (Ev (EKey s a l)) T -> In (Ev (EKey s a' l')) T -> a = a' /\ l = l'.
Proof.
  induction 1 as [|T0 a0 R IH|T0 s0 a0 l0 R IH I N K|T0 s0 a0 l0 p x R IH I N K|T0 s0 a0 l0 p x m R IH I D K|T0 s0 a0 l0 p x n R IH I D|T0 a0 R IH|T0 s0 R IH|T0 s0 R IH]; cbn [In]; [intros [] | ..];
    intros [E|I1] [E'|I2]; try discriminate; auto.
  - split; congruence.
  - exfalso. injection E as -> -> ->. exact (N _ _ I2).
  - exfalso. injection E' as -> -> ->. exact (N _ _ I1).
Qed.
(** The first message that a session accepted has one hidden exponent at most: who sent it has signed with it. *)
Lemma lrun_key_hid T s a l : run T -> In (Ev (EKey s a l)) T -> hid T l <= 1.
Proof.
  induction 1 as [|T0 a0 R IH|T0 s0 a0 l0 R IH I N K|T0 s0 a0 l0 p x R IH I N K|T0 s0 a0 l0 p x m R IH I D K|T0 s0 a0 l0 p x n R IH I D|T0 a0 R IH|T0 s0 R IH|T0 s0 R IH]; cbn [In]; [intros [] | ..];
    (intros [E|I1]; [try discriminate | specialize (IH I1); match goal with |- hid (?x :: ?T) ?k <= 1 => pose proof (hid_mono x T k) end; lia]).
  injection E as -> -> ->. apply (lknow_run _ _ R) in K. destruct K as [_ [_ [Kn|(s1 & -> & _)]]].
  - rewrite hid_all; [lia|]. intros e He. apply known_mono, Kn, He.
  - cbn [hid]. destruct (lkd _ _); lia.
Qed.
Lemma lrun_send_key T s l : run T -> (exists m, In (Ev (ESend s l m)) T) \/ (exists n, In (Ev (ESecret s l n)) T) -> exists a, In (Ev (EKey s a l)) T.
Proof.
  induction 1 as [|T0 a0 R IH|T0 s0 a0 l0 R IH I N K|T0 s0 a0 l0 p x R IH I N K|T0 s0 a0 l0 p x m R IH I D K|T0 s0 a0 l0 p x n R IH I D|T0 a0 R IH|T0 s0 R IH|T0 s0 R IH];
    intros [[m0 H]|[n0 H]]; cbn [In] in H; try destruct H as [E|H]; try discriminate; try (destruct H; fail);
    try (destruct IH as [a IH]; [eauto|exists a; right; exact IH]; fail).
  - injection E as -> -> ->. exists a0. right. exact I.
  - injection E as -> -> ->. exists a0. right. exact I.
Qed.
Lemma lrun_done_know T s p x : run T -> In (Ev (EDone s p x)) T ->
  exists a l, In (Ev (EKey s a l)) T /\ know T (TEnc (session_key s l) (toverlay p x (session_key s l))).
Proof.
  induction 1 as [|T0 a0 R IH|T0 s0 a0 l0 R IH I N K|T0 s0 a0 l0 p0 x0 R IH I N K|T0 s0 a0 l0 p0 x0 m R IH I D K|T0 s0 a0 l0 p0 x0 n R IH I D|T0 a0 R IH|T0 s0 R IH|T0 s0 R IH]; cbn [In]; [intros [] | ..];
    (intros [E|I1]; [try discriminate | destruct (IH I1) as (a & l & A & B); exists a, l; auto using lknow_mono]).
  injection E as -> -> ->. exists a0, l0. auto using lknow_mono.
Qed.
Lemma run_tail T2 : forall T1, run (T2 ++ T1) -> run T1.
Proof. induction T2 as [|e T2 IH]; intros T1 H; [exact H|]. cbn in H. apply IH. inversion H; subst; assumption. Qed.

(** ** C106 *)

(** A session that completes with the identity of [p] while only [p] has [p]'s key has a session of [p] itself at the other end; that the node's own
    key, or any secret of other sessions, is known to the attacker does not matter. *)
Theorem C106_authentication : forall T s a p addr k, run T -> lcompleted T s a p addr k -> ~ In (LLong p) T ->
  addr = addr_of p /\ exists s', lhas_key T s' p k.
Proof.
  intros T s a p addr k R [[l [Hk ->]] Hd] Np.
  destruct (lrun_done_know T s p addr R Hd) as (a2 & l2 & Hk2 & K). destruct (lrun_key_unique _ _ _ _ _ _ R Hk Hk2) as [<- <-].
  set (k := session_key s l) in *.
  assert (X : forall m, lok T m -> m = toverlay p addr k -> addr = addr_of p /\ exists s', lhas_key T s' p k).
  { intros m O ->. destruct O as [_ [_ [C|(s' & l' & I' & E)]]]; [contradiction|]. injection E as E1 E2. split; [exact E1|]. exists s', l'. auto. }
  apply (lknow_run _ _ R) in K. cbn [lok] in K. destruct K as [[B O]|(s' & l' & E & [(a' & I' & M)|[I'|(n & M & _)]])].
  - exact (X _ O eq_refl).
  - injection M as M1 M2. subst a'. split; [congruence|]. exists s', l'. auto.
  - exact (X _ (lrun_sends T R _ _ _ I') eq_refl).
  - discriminate.
Qed.

Lemma closed_key T s a s' a' k : run T -> lhas_key T s a k -> lhas_key T s' a' k -> s <> s' -> intact T s -> intact T s' ->
  ~ opened T k /\ forall s'' a'', lhas_key T s'' a'' k -> s'' = s \/ s'' = s'.
Proof.
  intros R (l & I & ->) (l' & I' & E) N [U1 U2] [V1 V2]. pose proof (lrun_key_hid _ _ _ _ R I) as B.
  assert (H1 : In (He s) (session_key s l)) by (apply in_ins; auto). assert (H2 : In (He s') (session_key s l)) by (rewrite E; apply in_ins; auto). split.
  - intros [O|(s0 & a0 & l0 & L & K & Sm)]; [pose proof (hid_two T _ s s' H1 H2 N U1 V1); lia|].
    apply (Sm s U1) in H1. apply (Sm s' V1) in H2. apply in_ins in H1 as [H1|H1]; [injection H1 as ->; contradiction|]. apply in_ins in H2 as [H2|H2]; [injection H2 as ->; contradiction|].
    pose proof (hid_two T _ s s' H1 H2 N U1 V1). pose proof (lrun_key_hid _ _ _ _ R K). lia.
  - intros s'' a'' (l'' & I'' & E''). destruct (Nat.eq_dec s'' s); [auto|]. destruct (Nat.eq_dec s'' s'); [auto|]. exfalso.
    rewrite E'' in H1, H2. apply in_ins in H1 as [H1|H1]; [congruence|]. apply in_ins in H2 as [H2|H2]; [congruence|].
    pose proof (hid_two T _ s s' H1 H2 N U1 V1). pose proof (lrun_key_hid _ _ _ _ R I''). lia.
Qed.

(** Forward secrecy: what is said on such a connection stays secret, though afterwards the long-term keys of both nodes and of all others become
    known, and though all secrets of other sessions do, at any time. *)
Theorem C106_forward_secrecy : forall T2 T1 s a p addr k, run (T2 ++ T1) -> lcompleted T1 s a p addr k -> ~ In (LLong p) T1 -> p <> a ->
  exists s', s' <> s /\ lhas_key T1 s' p k /\ (intact (T2 ++ T1) s -> intact (T2 ++ T1) s' ->
    ~ know (T2 ++ T1) (TG k) /\ forall n, ~ know (T2 ++ T1) (TData s n) /\ ~ know (T2 ++ T1) (TData s' n)).
Proof.
  intros T2 T1 s a p addr k R C Np Ne. pose proof (run_tail _ _ R) as R1. destruct (C106_authentication T1 s a p addr k R1 C Np) as [_ [s' Hs']].
  assert (Hne : s <> s').
  { intros <-. destruct C as [(l & I & _) _], Hs' as (l' & I' & _). destruct (lrun_key_unique _ _ _ _ _ _ R1 I I'). congruence. }
  exists s'. split; [auto|]. split; [exact Hs'|]. intros U V.
  assert (Up : forall s0 a0, lhas_key T1 s0 a0 k -> lhas_key (T2 ++ T1) s0 a0 k) by (intros s0 a0 (l0 & I0 & E0); exists l0; split; [apply in_or_app; auto | exact E0]).
  pose proof (Up _ _ (proj1 C)) as K1. pose proof (Up _ _ Hs') as K2. destruct (closed_key _ s a s' p k R K1 K2 Hne U V) as [NO _].
  split; [intros K; apply (lknow_run _ _ R) in K; exact (NO K)|].
  assert (D : forall s0 a0 n, lhas_key (T2 ++ T1) s0 a0 k -> ~ know (T2 ++ T1) (TData s0 n)).
  { intros s0 a0 n (l0 & I0 & E0) K. apply (lknow_run _ _ R) in K. destruct K as (l & I & O). destruct (lrun_send_key _ s0 l R (or_intror (ex_intro _ n I))) as [a2 I2].
    destruct (lrun_key_unique _ _ _ _ _ _ R I0 I2) as [_ <-]. rewrite <- E0 in O. exact (NO O). }
  intros n. split; eapply D; eassumption.
Qed.

(** And it stays the two's: whatever the node is made to accept on it was put there by one of its ends. *)
Theorem C106_later_data : forall T2 T1 s a p addr k m, run (T2 ++ T1) -> lcompleted T1 s a p addr k -> ~ In (LLong p) T1 -> p <> a ->
  exists s', s' <> s /\ lhas_key T1 s' p k /\ (intact (T2 ++ T1) s -> intact (T2 ++ T1) s' -> know (T2 ++ T1) (TEnc k m) ->
    exists s0 l0, (s0 = s \/ s0 = s') /\ k = session_key s0 l0 /\
      ((exists a0, In (Ev (EKey s0 a0 l0)) (T2 ++ T1) /\ m = toverlay a0 (addr_of a0) k) \/ In (Ev (ESend s0 l0 m)) (T2 ++ T1) \/ exists n, m = TData s0 n /\ In (Ev (ESecret s0 l0 n)) (T2 ++ T1))).
Proof.
  intros T2 T1 s a p addr k m R C Np Ne. destruct (C106_forward_secrecy T2 T1 s a p addr k R C Np Ne) as (s' & Hne & Hs' & _). exists s'. split; [exact Hne|]. split; [exact Hs'|]. intros U V K.
  assert (Up : forall s0 a0, lhas_key T1 s0 a0 k -> lhas_key (T2 ++ T1) s0 a0 k) by (intros s0 a0 (l0 & I0 & E0); exists l0; split; [apply in_or_app; auto | exact E0]).
  destruct (closed_key _ s a s' p k R (Up _ _ (proj1 C)) (Up _ _ Hs') (not_eq_sym Hne) U V) as [NO Q].
  apply (lknow_run _ _ R) in K. destruct K as [[O _]|(s0 & l0 & E & H)]; [contradiction|]. exists s0, l0. split; [|split; [exact E | exact H]].
  assert (I : exists a', In (Ev (EKey s0 a' l0)) (T2 ++ T1)) by (destruct H as [(a' & I & _)|[I|(n & _ & I)]]; [eauto | eapply lrun_send_key; eauto | eapply lrun_send_key; eauto]).
  destruct I as [a' I]. apply (Q s0 a'). exists l0. auto.
Qed.
End Proofs.
Print Assumptions C106_authentication.
Print Assumptions C106_forward_secrecy.
Print Assumptions C106_later_data.

(** ** Cases *)

(** Nodes 1 and 2 complete with each other, though node 1's key is known from the start, and node 1 sends a secret.  Then everything else leaks: node
    2's key, and the secrets of another session of node 1. *)
Definition lk_before : list levent :=
  [Ev (ESecret 1 [He 2] 7); Ev (EDone 2 1 1); Ev (EDone 1 2 2); Ev (EKey 2 2 [He 1]); Ev (EKey 1 1 [He 2]); Ev (EStart 2 2); Ev (EStart 1 1); LLong 1].
Definition lk_after : list levent := [LKey 9; LEph 9; Ev (EStart 9 1); LLong 2].
Example C106_nonvacuous : lrun self (lk_after ++ lk_before) /\ lcompleted lk_before 1 1 2 2 [He 1; He 2] /\ ~ In (LLong 2) lk_before /\ In (LLong 2) lk_after /\
  lhas_key lk_before 2 2 [He 1; He 2] /\ intact (lk_after ++ lk_before) 1 /\ intact (lk_after ++ lk_before) 2 /\ In (Ev (ESecret 1 [He 2] 7)) lk_before.
Proof.
  assert (K : forall e t T, In (Ev e) T -> frame_of self e = Some t -> lknow self T t) by (intros; eapply lk_frame; eauto).
  split; [|split; [split; [exists [He 2]; split; [cbn; tauto | reflexivity] | cbn; tauto]|]].
  - apply lrun_skey, lrun_eph. apply (lrun_start self (LLong 2 :: lk_before) 1). apply lrun_long.
    eapply (lrun_secret self (tl lk_before) 1 1 [He 2] 2 2 7); [|cbn; tauto | cbn; tauto].
    eapply (lrun_done self (tl (tl lk_before)) 2 2 [He 1] 1 1); [|cbn; tauto | cbn; intros p x H; repeat (destruct H as [H|H]; try discriminate); exact H | apply (K (EKey 1 1 [He 2])); [cbn; tauto | reflexivity]].
    eapply (lrun_done self (tl (tl (tl lk_before))) 1 1 [He 2] 2 2); [|cbn; tauto | cbn; intros p x H; repeat (destruct H as [H|H]; try discriminate); exact H | apply (K (EKey 2 2 [He 1])); [cbn; tauto | reflexivity]].
    apply (lrun_key self _ 2 2 [He 1]); [|cbn; tauto | cbn; intros p x H; repeat (destruct H as [H|H]; try discriminate); exact H | apply (K (EStart 1 1)); [cbn; tauto | reflexivity]].
    apply (lrun_key self _ 1 1 [He 2]); [|cbn; tauto | cbn; intros p x H; repeat (destruct H as [H|H]; try discriminate); exact H | apply (K (EStart 2 2)); [cbn; tauto | reflexivity]].
    apply (lrun_start self [Ev (EStart 1 1); LLong 1] 2). apply (lrun_start self [LLong 1] 1). apply lrun_long, lrun_nil.
  - split; [intros H; cbn in H; repeat (destruct H as [H|H]; try discriminate); exact H|]. split; [cbn; tauto|]. split; [exists [He 1]; split; [cbn; tauto | reflexivity]|].
    split; [|split; [|cbn; tauto]]; split; intros H; cbn in H; repeat (destruct H as [H|H]; try discriminate); exact H.
Qed.

(** The conditions are needed.  With node 2's key, the attacker completes in its name and reads what it is told. *)
Definition lk_early : list levent := [Ev (ESecret 1 [Ae 5] 7); Ev (EDone 1 2 2); Ev (EKey 1 1 [Ae 5]); Ev (EStart 1 1); LLong 2].
Theorem C106_key_known_before : lrun self lk_early /\ lcompleted lk_early 1 1 2 2 (session_key 1 [Ae 5]) /\ (forall s', ~ lhas_key lk_early s' 2 (session_key 1 [Ae 5])) /\ lknow self lk_early (TData 1 7).
Proof.
  assert (K : forall e t T, In (Ev e) T -> frame_of self e = Some t -> lknow self T t) by (intros; eapply lk_frame; eauto).
  assert (G : forall T, In (Ev (EStart 1 1)) T -> lknow self T (TG (session_key 1 [Ae 5]))).
  { intros T H. change (session_key 1 [Ae 5]) with (ins (Ae 5) [He 1]). apply lk_mul; [exact Logic.I|]. eapply lk_fst. apply (K (EStart 1 1)); [exact H | reflexivity]. }
  split; [|split; [split; [exists [Ae 5]; split; [cbn; tauto | reflexivity] | cbn; tauto]|]].
  - eapply (lrun_secret self (tl lk_early) 1 1 [Ae 5] 2 2 7); [|cbn; tauto | cbn; tauto].
    eapply (lrun_done self (tl (tl lk_early)) 1 1 [Ae 5] 2 2); [|cbn; tauto | cbn; intros p x H; repeat (destruct H as [H|H]; try discriminate); exact H |].
    + apply (lrun_key self _ 1 1 [Ae 5]); [|cbn; tauto | cbn; intros p x H; repeat (destruct H as [H|H]; try discriminate); exact H |].
      * apply (lrun_start self [LLong 2] 1). apply lrun_long, lrun_nil.
      * apply lk_pair; [change [Ae 5] with (ins (Ae 5) []); apply lk_mul; [exact Logic.I | apply lk_one]|]. apply lk_signe; [intros e [<- |[]]; exact Logic.I | apply lk_const].
    + apply lk_enc; [apply G; cbn; tauto|]. assert (Q : lknow self (tl (tl lk_early)) (tid 2 2)) by (apply lk_pair; [apply lk_key | apply lk_const]).
      apply lk_pair; [exact Q|]. apply lk_sign; [cbn; tauto|]. apply lk_pair; [exact Q | apply G; cbn; tauto].
  - split; [intros s' (l & H & _); cbn in H; repeat (destruct H as [H|H]; try discriminate); exact H|].
    eapply lk_dec; [apply (K (ESecret 1 [Ae 5] 7)); [cbn; tauto | reflexivity] | apply G; cbn; tauto].
Qed.
Print Assumptions C106_key_known_before.

(** With the ephemeral secret of either end, or its session key, everything of the connection is open. *)
Theorem C106_session_leaks : forall addr_of T s a s' a' k n l, lhas_key T s a k -> lhas_key T s' a' k -> s <> s' -> k = [He s; He s'] \/ k = [He s'; He s] -> In (Ev (EStart s' a')) T ->
  In (LEph s) T \/ In (LKey s) T \/ In (LKey s') T -> In (Ev (ESecret s l n)) T -> session_key s l = k -> lknow addr_of T (TG k) /\ lknow addr_of T (TData s n).
Proof.
  intros addr_of T s a s' a' k n l (l1 & I1 & E1) (l2 & I2 & E2) Ne Ek St L Sec El.
  assert (G : lknow addr_of T (TG k)).
  { destruct L as [L|[L|L]]; [|rewrite E1; eapply lk_leak; eassumption | rewrite E2; eapply lk_leak; eassumption].
    assert (F : lknow addr_of T (TG [He s'])) by (eapply lk_fst; eapply lk_frame; [exact St | reflexivity]).
    assert (M : lknow addr_of T (TG (ins (He s) [He s']))) by (apply lk_mul; [exact L | exact F]).
    assert (In (He s) k /\ In (He s') k) as [A B] by (destruct Ek as [-> | ->]; cbn; auto).
    destruct Ek as [Ek|Ek]; cbn [ins] in M; destruct (Nat.leb_spec (code (He s)) (code (He s'))) as [C|C]; try (rewrite Ek; exact M); exfalso; cbn in C; rewrite E1 in Ek; unfold session_key in Ek;
      assert (Z : hcount l1 = 1) by (pose proof (hcount_ins (He s) l1) as Hc; rewrite Ek in Hc; cbn in Hc; lia);
      destruct l1 as [|x r]; try discriminate; cbn [ins] in Ek; destruct (Nat.leb_spec (code (He s)) (code x)) as [D|D]; injection Ek as Q1 Q2; subst; cbn in *; try lia; try congruence; destruct r; discriminate. }
  split; [exact G|]. eapply lk_dec; [eapply lk_frame; [exact Sec | reflexivity]|]. rewrite El. exact G.
Qed.
Print Assumptions C106_session_leaks.
