(** * Requests on one connection (C31, C33): every schedule of calls, handlers, deliveries and cancellations. *)
From Verif Require Import Base M_Table P_Table M_Maps P_Iter M_Gossip P_Gossip P_GossipNet M_Conn P_Conn.
Local Open Scope nat_scope.

Definition k_reaches (l : list kact) (s : kstate) : Prop := krun k_start l = Some s.
(** Where call [i] of request is. *)
Definition call_at (s : kstate) (i : nat) (p : rqpc) : Prop := exists r, nth_error (k_reqs s) i = Some r /\ rq_pc r = p.

Lemma k_reaches_inv l s : k_reaches l s -> kinv s.
Proof. intros R. exact (krun_inv kinv kinv_step l k_start s kinv_start R). Qed.
Lemma answers_unique i (l : list (nat * nat)) d d' : cntb (tga i) l <= 1 -> In (i, d) l -> In (i, d') l -> d = d'.
Proof.
  induction l as [|[j e] l IH]; [intros _ []|]. rewrite cntb_cons. intros C [A|A] [B|B].
  - congruence.
  - injection A as -> ->. unfold tga at 1 in C. cbn [fst] in C. rewrite Nat.eqb_refl in C. cbn [Nat.b2n] in C. assert (0 < cntb (tga i) l) by (apply (cntb_pos _ _ (i, d') B); apply Nat.eqb_refl). lia.
  - injection B as -> ->. unfold tga at 1 in C. cbn [fst] in C. rewrite Nat.eqb_refl in C. cbn [Nat.b2n] in C. assert (0 < cntb (tga i) l) by (apply (cntb_pos _ _ (i, d) A); apply Nat.eqb_refl). lia.
  - apply IH; auto. lia.
Qed.

(** ** C31 *)

(** Data returned by a call is what the peer's handler answered to that very call, its only answer. *)
Theorem C31_own_response : forall l s i d, k_reaches l s -> call_at s i (RqDone (RData d)) ->
  In (i, d) (k_answers s) /\ forall d', In (i, d') (k_answers s) -> d' = d.
Proof.
  intros l s i d R (r & H & Pc). pose proof (k_reaches_inv l s R) as (Ri & _). specialize (Ri i r H). unfold rinv in Ri.
  destruct (rq_slot r) as [[ch n]|]; [|destruct Ri as ([X|X] & _); congruence]. destruct Ri as (_ & _ & _ & _ & b & c & _ & _ & _ & _ & _ & _ & T6 & T7).
  split; [apply T7, Pc|]. intros d' Hd. apply (answers_unique i (k_answers s)); [lia|exact Hd|apply T7, Pc].
Qed.
(** A call never ends with io.EOF, no channel is closed twice or sent to after being closed, and no response is handed to the handlers. *)
Theorem C31_clean : forall l s, k_reaches l s ->
  (forall i, ~ call_at s i (RqDone REof)) /\ k_panic s = false /\ forall m, In m (k_work s) -> km_tag m = None.
Proof.
  intros l s R. pose proof (k_reaches_inv l s R) as (Ri & _ & _ & _ & _ & P & W & _). split; [|auto].
  intros i (r & H & Pc). specialize (Ri i r H). unfold rinv in Ri. destruct (rq_slot r) as [[ch n]|]; [destruct Ri as (_ & _ & X & _)|destruct Ri as ([X|X] & _)]; congruence.
Qed.
(** A response in flight or read by the reader is the answer to the call it will be delivered to, and it is delivered: while
    the reader runs, the reader's steps followed by the call's receive make an answered call return its answer. *)
Lemma settle s : kinv s -> k_reader s <> KStopped -> exists l s', (forall a, In a l -> a = KStep) /\ krun s l = Some s' /\ k_reader s' = KRead /\
  k_in s' = k_in s /\ k_reqs s' = k_reqs s /\ k_answers s' = k_answers s.
Proof.
  intros I N.
  assert (Cl : forall s ch, kinv s -> k_reader s = KClose ch -> exists s', kstep s KStep = Some s' /\ k_reader s' = KRead /\ k_in s' = k_in s /\ k_reqs s' = k_reqs s /\ k_answers s' = k_answers s).
  { clear. intros s ch (R & (_ & _ & M3) & _) Kr. rewrite Kr in M3. destruct M3 as (i0 & q0 & n0 & Hq0 & Sq0). pose proof (R i0 q0 Hq0) as R0. unfold rinv in R0. rewrite Sq0 in R0.
    destruct R0 as (_ & _ & _ & _ & b & c & Hc & _). eexists. split; [cbn [kstep]; rewrite Kr, Hc; reflexivity|]. auto. }
  destruct (k_reader s) as [|ch m|ch|m|] eqn:Kr; [| | | |contradiction].
  - exists [], s. split; [intros a []|]. repeat split; auto.
  - pose proof I as (R & (_ & _ & M3) & _). rewrite Kr in M3. destruct M3 as (i0 & T0 & (q0 & Hq0 & Sq0 & _) & _). pose proof (R i0 q0 Hq0) as R0. unfold rinv in R0. rewrite Sq0, Kr in R0. cbn [given closing] in R0.
    rewrite (tg_refl i0 m T0) in R0. cbn [Nat.b2n] in R0. destruct R0 as (_ & _ & _ & _ & b & c & Hc & T1 & _ & T3 & _). assert (b = None) as -> by (apply T3; lia).
    assert (c = false) as -> by (destruct c; [cbn in T1; lia|reflexivity]).
    assert (exists s1, kstep s KStep = Some s1 /\ k_reader s1 = KClose ch /\ k_in s1 = k_in s /\ k_reqs s1 = k_reqs s /\ k_answers s1 = k_answers s) as (s1 & E1 & K1 & A1 & A2 & A3).
    { eexists. split; [cbn [kstep]; rewrite Kr, Hc; reflexivity|]. auto. }
    destruct (Cl s1 ch (kinv_step s KStep s1 I E1) K1) as (s2 & E2 & K2 & B1 & B2 & B3). exists [KStep; KStep], s2.
    split; [intros a [<-|[<-|[]]]; reflexivity|]. split; [cbn [krun]; rewrite E1, E2; reflexivity|]. repeat split; congruence.
  - destruct (Cl s ch I Kr) as (s2 & E2 & K2 & B1 & B2 & B3). exists [KStep], s2. split; [intros a [<-|[]]; reflexivity|]. split; [cbn [krun]; rewrite E2; reflexivity|]. auto.
  - eexists [KStep], _. split; [intros a [<-|[]]; reflexivity|]. split; [cbn [krun kstep]; rewrite Kr; reflexivity|]. auto.
Qed.
Lemma drain n : forall s, kinv s -> k_reader s <> KStopped -> length (k_in s) = n -> exists l s', (forall a, In a l -> a = KStep \/ a = KRecv) /\ krun s l = Some s' /\
  k_reader s' = KRead /\ k_in s' = [] /\ k_reqs s' = k_reqs s /\ k_answers s' = k_answers s.
Proof.
  induction n as [|n IH]; intros s I N Ln; destruct (settle s I N) as (l1 & s1 & L1 & E1 & K1 & A1 & A2 & A3).
  - exists l1, s1. rewrite A1. repeat split; auto. destruct (k_in s); [reflexivity|discriminate].
  - assert (I1 : kinv s1) by exact (krun_inv kinv kinv_step l1 s s1 I E1).
    destruct (k_in s1) as [|m rest] eqn:Ei; [rewrite <- A1 in Ln; discriminate|].
    assert (exists s2, kstep s1 KRecv = Some s2 /\ k_reader s2 <> KStopped /\ k_in s2 = rest /\ k_reqs s2 = k_reqs s1 /\ k_answers s2 = k_answers s1) as (s2 & E2 & K2 & B1 & B2 & B3).
    { cbn [kstep]. rewrite K1, Ei. destruct (findRequest (k_map s1) (km_nonce m)) as [mp o]. eexists. split; [reflexivity|]. cbn. repeat split; auto. destruct o; discriminate. }
    destruct (IH s2) as (l3 & s3 & L3 & E3 & K3 & C1 & C2 & C3); [exact (kinv_step s1 KRecv s2 I1 E2)|exact K2|rewrite B1; rewrite <- A1 in Ln; cbn in Ln; lia|].
    exists (l1 ++ KRecv :: l3), s3. split.
    + intros a Ha. apply in_app_or in Ha as [Ha|[<-|Ha]]; auto.
    + split; [rewrite krun_app, E1; cbn [krun]; rewrite E2; exact E3|]. repeat split; auto; congruence.
Qed.
Theorem C31_delivers : forall l s i d, k_reaches l s -> k_reader s <> KStopped -> call_at s i RqWait -> In (i, d) (k_answers s) ->
  exists l' s', (forall a, In a l' -> a = KStep \/ a = KRecv) /\ krun s (l' ++ [KReceive i]) = Some s' /\ call_at s' i (RqDone (RData d)).
Proof.
  intros l s i d R N (r & H & Pc) A. pose proof (k_reaches_inv l s R) as I.
  destruct (drain _ s I N eq_refl) as (l1 & s1 & L1 & E1 & K1 & A1 & A2 & A3). exists l1.
  assert (I1 : kinv s1) by exact (krun_inv kinv kinv_step l1 s s1 I E1). pose proof I1 as (R1 & _). rewrite <- A2 in H. pose proof (R1 i r H) as Ri. unfold rinv in Ri. rewrite Pc, K1, A1 in Ri.
  destruct r as [rd rp [[ch n]|]]; cbn [rq_slot rq_pc] in *; [|destruct Ri as ([X|X] & _); discriminate]. subst rp. cbn [pcn given closing] in Ri. change (cntb (tg i) []) with 0 in Ri.
  destruct Ri as (Nz & _ & _ & _ & b & c & Hc & T1 & T2 & T3 & T4 & T5 & T6 & T7). rewrite A3 in *.
  assert (0 < cntb (tga i) (k_answers s)) by (apply (cntb_pos _ _ (i, d) A); apply Nat.eqb_refl).
  destruct b as [m|]; [|exfalso; apply T5; [reflexivity|lia|reflexivity]]. destruct (T4 m eq_refl) as (Tm & Nm & Am).
  assert (km_data m = d) as Ed by (apply (answers_unique i (k_answers s)); [lia|exact Am|exact A]).
  eexists. split; [exact L1|]. rewrite krun_app, E1. cbn [krun kstep]. rewrite H, Hc. assert (N.eqb (km_nonce m) 0 = false) as -> by (apply N.eqb_neq; congruence). split; [reflexivity|].
  eexists. cbn [k_reqs]. unfold set_rq. rewrite (nth_error_set _ _ _ _ i H), Nat.eqb_refl. split; [reflexivity|]. cbn. congruence.
Qed.

(** Three calls, answered out of order; one cancelled. *)
Definition ex_conn : list kact :=
  [KCall 10; KCall 11; KNonce 1; KNonce 0; KSendReq 0; KCall 12; KSendReq 1; KNonce 2; KDeliver; KDeliver; KSendReq 2; KSendMsg 99; KDeliver; KDeliver;
   KAnswer 1 111; KPeerSend 55; KAnswer 1 112; KCancel 1; KRecv; KStep; KStep; KRecv; KStep; KRecv; KStep; KReceive 2; KAnswer 0 110].
Example C31_nonvacuous : exists s, k_reaches ex_conn s /\ call_at s 2 (RqDone (RData 112)) /\ call_at s 1 (RqDone RCancelled) /\ call_at s 0 RqWait /\
  In (0, 110) (k_answers s) /\ k_reader s <> KStopped /\ length (k_work s) = 1.
Proof.
  eexists. split; [unfold k_reaches; vm_compute; reflexivity|]. split; [|split; [|split; [|split; [|split]]]].
  - eexists. split; reflexivity.
  - eexists. split; reflexivity.
  - eexists. split; reflexivity.
  - cbn. auto.
  - discriminate.
  - reflexivity.
Qed.

(** ** C33 *)

(** When the connection has dropped, a pending call returns without being cancelled. *)
Definition C33_statement : Prop := forall l s i, k_reaches l s -> k_reader s = KStopped -> call_at s i RqWait ->
  exists l' s' r, ~ In (KCancel i) l' /\ krun s l' = Some s' /\ call_at s' i (RqDone r).

(** A call whose response was not read before the connection dropped waits for ever. *)
Definition buffered (s : kstate) (i : nat) : Prop :=
  exists r ch n m c, nth_error (k_reqs s) i = Some r /\ rq_slot r = Some (ch, n) /\ nth_error (k_chans s) ch = Some (mkChan (Some m) c).
Theorem C33_hangs : forall l s i, k_reaches l s -> k_reader s = KStopped -> call_at s i RqWait -> ~ buffered s i ->
  forall l' s', ~ In (KCancel i) l' -> krun s l' = Some s' -> call_at s' i RqWait.
Proof.
  intros l s i R Kr (r & H & Pc) Nb. pose proof (k_reaches_inv l s R) as I.
  destruct r as [rd rp sl]. cbn in Pc. subst rp. pose proof I as (Ri & _). specialize (Ri i _ H). unfold rinv in Ri. cbn [rq_slot rq_pc] in Ri.
  destruct sl as [[ch n]|]; [|destruct Ri as ([X|X] & _); discriminate]. destruct Ri as (_ & _ & _ & _ & b & c & Hc & T1 & T2 & T3 & T4 & T5 & _).
  destruct b as [m|]; [exfalso; apply Nb; exists (mkRq rd RqWait (Some (ch, n))), ch, n, m, c; auto|].
  assert (Hc0 : nth_error (k_chans s) ch = Some (mkChan None false)).
  { destruct c; [|exact Hc]. exfalso. cbn [Nat.b2n] in T1. apply T5; [reflexivity|lia|reflexivity]. }
  clear T1 T2 T3 T4 T5 Hc R Nb. intros l'. revert s I Kr H Hc0. induction l' as [|a l' IH]; intros s I Kr H Hc s' Nc E; cbn [krun] in E.
  - injection E as <-. eexists. split; [exact H|reflexivity].
  - destruct (kstep s a) as [s1|] eqn:E1; [|discriminate]. assert (I1 : kinv s1) by exact (kinv_step s a s1 I E1).
    assert (X : k_reader s1 = KStopped /\ nth_error (k_reqs s1) i = Some (mkRq rd RqWait (Some (ch, n))) /\ nth_error (k_chans s1) ch = Some (mkChan None false)).
    { clear IH E I1. assert (Ni : a <> KCancel i) by (intros ->; apply Nc; left; reflexivity). pose proof I as (_ & _ & U & _).
      destruct a as [d|j|j|d| |j d|d| | |j|j| ]; cbn [kstep] in E1.
      - injection E1 as <-. cbn. split; [exact Kr|]. split; [apply nth_error_keep, H|exact Hc].
      - destruct (nth_error (k_reqs s) j) as [q|] eqn:Hj; [|discriminate]. destruct (rq_pc q) eqn:Pq; try discriminate. assert (j <> i) as Nj by (intros ->; rewrite H in Hj; injection Hj as <-; discriminate).
        destruct (nextNonce (k_map s)) as [mp [[c0 n0]|]]; injection E1 as <-; cbn [k_reader k_reqs k_chans]; unfold set_rq; rewrite (nth_error_set _ _ _ _ i Hj);
          (assert ((i =? j) = false) as -> by (apply Nat.eqb_neq; auto)); repeat split; auto. apply nth_error_keep, Hc.
      - destruct (nth_error (k_reqs s) j) as [[qd [] [[cj nj]|]]|] eqn:Hj; try discriminate. assert (j <> i) as Nj by (intros ->; rewrite H in Hj; discriminate).
        injection E1 as <-; cbn [k_reader k_reqs k_chans]; unfold set_rq; rewrite (nth_error_set _ _ _ _ i Hj). assert ((i =? j) = false) as -> by (apply Nat.eqb_neq; auto). auto.
      - injection E1 as <-. auto.
      - destruct (k_out s); [discriminate|]. injection E1 as <-. auto.
      - destruct (nth_error (k_pend s) j); [|discriminate]. injection E1 as <-. auto.
      - injection E1 as <-. auto.
      - rewrite Kr in E1. discriminate.
      - rewrite Kr in E1. discriminate.
      - destruct (nth_error (k_reqs s) j) as [[qd [] [[cj nj]|]]|] eqn:Hj; try discriminate. destruct (Nat.eq_dec j i) as [->|Nj].
        + rewrite H in Hj. injection Hj as <- <- <-. rewrite Hc in E1. discriminate.
        + assert (Nch : ch <> cj) by (intros <-; apply Nj; exact (U j i _ _ ch nj n Hj H eq_refl eq_refl)).
          destruct (nth_error (k_chans s) cj) as [[[m|] [|]]|] eqn:Hcj; try discriminate; injection E1 as <-; cbn [k_reader k_reqs k_chans]; unfold set_rq; rewrite (nth_error_set _ _ _ _ i Hj);
            (assert ((i =? j) = false) as -> by (apply Nat.eqb_neq; auto)); rewrite ?(nth_error_set _ _ _ _ ch Hcj); (assert ((ch =? cj) = false) as Ec by (apply Nat.eqb_neq; auto)); rewrite ?Ec; auto.
      - destruct (nth_error (k_reqs s) j) as [[qd [] [[cj nj]|]]|] eqn:Hj; try discriminate. assert (j <> i) as Nj by congruence.
        injection E1 as <-; cbn [k_reader k_reqs k_chans]; unfold set_rq; rewrite (nth_error_set _ _ _ _ i Hj). assert ((i =? j) = false) as -> by (apply Nat.eqb_neq; auto). auto.
      - rewrite Kr in E1. discriminate. }
    destruct X as (X1 & X2 & X3). apply (IH s1 I1 X1 X2 X3 s'); [intros J; apply Nc; right; exact J|exact E].
Qed.
Definition ex_drop : list kact := [KCall 5; KNonce 0; KSendReq 0; KDeliver; KAnswer 0 6; KDrop].
Lemma ex_drop_reaches : exists s, k_reaches ex_drop s /\ k_reader s = KStopped /\ call_at s 0 RqWait /\ ~ buffered s 0.
Proof.
  eexists. split; [unfold k_reaches; vm_compute; reflexivity|]. split; [reflexivity|]. split; [eexists; split; reflexivity|].
  intros (r & ch & n & m & c & H & Sl & Hc). cbn in H. injection H as <-. cbn in Sl. injection Sl as <- <-. cbn in Hc. discriminate.
Qed.
Theorem C33_refuted : ~ C33_statement.
Proof.
  intros S0. destruct ex_drop_reaches as (s & R & K & C & B). destruct (S0 ex_drop s 0 R K C) as (l' & s' & r & Nc & E & (q & Hq & Pq)).
  destruct (C33_hangs ex_drop s 0 R K C B l' s' Nc E) as (q' & Hq' & Pq'). congruence.
Qed.
(** After the connection dropped, exactly the calls whose response had been read return without being cancelled; a cancelled one returns at once. *)
Theorem C33_partial : forall l s i, k_reaches l s -> k_reader s = KStopped -> call_at s i RqWait ->
  ((exists l' s' r, ~ In (KCancel i) l' /\ krun s l' = Some s' /\ call_at s' i (RqDone r)) <-> buffered s i) /\
  exists s', kstep s (KCancel i) = Some s' /\ call_at s' i (RqDone RCancelled).
Proof.
  intros l s i R K C. pose proof (k_reaches_inv l s R) as I. pose proof C as (r & H & Pc). pose proof I as (Ri & _). specialize (Ri i r H). unfold rinv in Ri. destruct r as [rd rp sl]. cbn in Pc. subst rp. cbn [rq_slot rq_pc] in Ri.
  destruct sl as [[ch n]|]; [|destruct Ri as ([X|X] & _); discriminate]. destruct Ri as (_ & _ & _ & _ & b & c & Hc & _).
  split; [split|].
  - intros (l' & s' & r' & Nc & E & (q & Hq & Pq)). destruct b as [m|]; [exists (mkRq rd RqWait (Some (ch, n))), ch, n, m, c; auto|]. exfalso.
    assert (Nb : ~ buffered s i).
    { intros (r0 & c0 & n0 & m0 & cl & H0 & S0 & Hc0). rewrite H in H0. injection H0 as <-. cbn in S0. injection S0 as <- <-. congruence. }
    destruct (C33_hangs l s i R K C Nb l' s' Nc E) as (q' & Hq' & Pq'). congruence.
  - intros (r0 & c0 & n0 & m0 & cl & H0 & S0 & Hc0). rewrite H in H0. injection H0 as <-. cbn in S0. injection S0 as <- <-.
    eexists [KReceive i], _, _. split; [intros [X|[]]; discriminate|]. split; [cbn [krun kstep]; rewrite H, Hc0; reflexivity|].
    eexists. cbn [k_reqs]. unfold set_rq. rewrite (nth_error_set _ _ _ _ i H), Nat.eqb_refl. split; [reflexivity|]. cbn. reflexivity.
  - eexists. split; [cbn [kstep]; rewrite H; reflexivity|]. eexists. cbn [k_reqs]. unfold set_rq. rewrite (nth_error_set _ _ _ _ i H), Nat.eqb_refl. split; reflexivity.
Qed.
Example C33_nonvacuous : exists s, k_reaches [KCall 5; KNonce 0; KSendReq 0; KDeliver; KAnswer 0 6; KRecv; KStep; KStep; KDrop] s /\ k_reader s = KStopped /\ call_at s 0 RqWait /\ buffered s 0.
Proof.
  eexists. split; [unfold k_reaches; vm_compute; reflexivity|]. split; [reflexivity|]. split; [eexists; split; reflexivity|]. do 5 eexists. repeat split; reflexivity.
Qed.

Print Assumptions C31_own_response.
Print Assumptions C31_clean.
Print Assumptions C31_delivers.
Print Assumptions C33_hangs.
Print Assumptions C33_refuted.
Print Assumptions C33_partial.
