(** * Connecting: eviction from a full pool, dial attempts, cancellation, and what Ping returns (C38, C51, C52, C70, C71) *)
From Verif Require Import Base Spec M_Table P_Table P_Iter P_Gossip P_Conn M_Maps M_Client P_Client Props_Maps M_Dial P_Dial.
Local Open Scope nat_scope.

(** ** Specification *)

(** What can happen on one pool of a node with limit [max], [att] dial attempts and [p] protocols that have an OnPingFailed callback.
    [sd] says which of the two pools it is. *)
Definition pool_does (sd : cside) (max att p idle : nat) (isctx : nat -> bool) (l : list dact) (s : dstate) : Prop := drun sd max att p idle isctx d_start l = Some s.
(** Call [i] is at program point [pc]. *)
Definition at_pc (s : dstate) (i : nat) (pc : dpc) : Prop := exists c, nth_error (ds_callers s) i = Some c /\ d_pc c = pc.
(** Call [i] has to wait for the client it evicts, which is [v]. *)
Definition evicts (s : dstate) (i v : nat) : Prop := exists n k m, at_pc s i (DEvict n k v m).
Definition returned (s : dstate) (i : nat) : Prop := exists c, nth_error (ds_callers s) i = Some c /\ match d_pc c with DOk _ _ | DErr _ => True | _ => False end.
Definition cancelled (s : dstate) (i : nat) : bool := match nth_error (ds_callers s) i with Some c => d_cancelled c | None => false end.
(** The goroutines of the client have ended (WaitUntilClosed returns). *)
Definition ended (s : dstate) (k : nat) : Prop := exists q, nth_error (ds_clients s) k = Some q /\ c_cdone (k_st q) = true.

Lemma reach_pinv sd max att p idle isctx l s : 0 < max -> pool_does sd max att p idle isctx l s -> pinv max s.
Proof. intros M. apply (drun_inv sd max att p idle isctx (pinv max)); [intros t a t' J E; exact (pinv_step _ _ _ _ _ _ M _ _ _ J E)|apply (pinv_start max)]. Qed.
Lemma run_pinv sd max att p idle isctx l s s' : 0 < max -> pinv max s -> drun sd max att p idle isctx s l = Some s' -> pinv max s'.
Proof. intros M I. apply (drun_inv sd max att p idle isctx (pinv max)); [intros t a t' J E; exact (pinv_step _ _ _ _ _ _ M _ _ _ J E)|exact I]. Qed.

Ltac dproj := cbn [ds_callers ds_clients ds_pool ds_lock ds_gets ds_failed ds_late set_pc] in *.
(** Case analysis on one step. *)
Ltac dcases H :=
  match type of H with dstep ?sd ?max ?att ?p ?idle ?isctx ?s ?a = Some ?s1 =>
    let n := fresh "nn" in let k := fresh "k" in let c := fresh "c" in let Hi := fresh "Hi" in let Pc := fresh "Pc" in let q := fresh "q" in let Hq := fresh "Hq" in
    destruct a as [ad|j|j|j|j b|j|j|j|kk aa]; cbn [dstep] in H;
    [ injection H as <-
    | destruct (nth_error (ds_callers s) j) as [c|] eqn:Hi; [|discriminate H]; injection H as <-
    | destruct (nth_error (ds_callers s) j) as [c|] eqn:Hi; [|discriminate H]; destruct (d_pc c) as [n| | | | | | |] eqn:Pc; try discriminate H;
      destruct (n <? att) eqn:Hn; [|discriminate H]; destruct (ds_lock s) eqn:Lk0; [discriminate H|];
      destruct (cm_fetch max (ds_pool s) (d_addr c) (length (ds_clients s))) as [[[[mm k] ex] [vv|]]|er|] eqn:Hf; try discriminate H; injection H as <-
    | destruct (nth_error (ds_callers s) j) as [c|] eqn:Hi; [|discriminate H]; destruct (d_pc c) as [|n k vv mm| | | | | |] eqn:Pc; try discriminate H;
      destruct (nth_error (ds_clients s) vv) as [q|] eqn:Hq; [|discriminate H]; destruct ((c_once (k_st q) =? 2) && c_cdone (k_st q)) eqn:Hd; [|discriminate H]; injection H as <-
    | destruct (nth_error (ds_callers s) j) as [c|] eqn:Hi; [|discriminate H]; destruct (d_pc c) as [| |n k| | | | |] eqn:Pc; try discriminate H;
      destruct (nth_error (ds_clients s) k) as [q|] eqn:Hq; [|discriminate H]; 
      destruct (match b with BCtx => d_cancelled c | BReady => c_ready (k_st q) | BReader => c_rdone (k_st q) | BWriter => c_wdone (k_st q) end) eqn:Hb; [|discriminate H]; injection H as <-
    | destruct (nth_error (ds_callers s) j) as [c|] eqn:Hi; [|discriminate H]; destruct (d_pc c) as [| | |n k e| | | |] eqn:Pc; try discriminate H;
      destruct (nth_error (ds_clients s) k) as [q|] eqn:Hq; [|discriminate H]; destruct (c_once (k_st q) =? 2) eqn:Ho; [|discriminate H]; injection H as <-
    | destruct (nth_error (ds_callers s) j) as [c|] eqn:Hi; [|discriminate H]; destruct (d_pc c) as [| | | |n k e| | |] eqn:Pc; try discriminate H;
      destruct (nth_error (ds_clients s) k) as [q|] eqn:Hq; [|discriminate H]; destruct (c_cdone (k_st q)) eqn:Hd; [|discriminate H]; injection H as <-
    | destruct (nth_error (ds_callers s) j) as [c|] eqn:Hi; [|discriminate H]; destruct (d_pc c) as [| | | | |e jj| |] eqn:Pc; try discriminate H;
      destruct (jj <? p) eqn:Hj; injection H as <-
    | destruct (nth_error (ds_clients s) kk) as [q|] eqn:Hq; [|discriminate H]; destruct (cact idle (k_st q) aa) as [st|] eqn:Ha; [|discriminate H] ];
    dproj
  end.
(** What a client's step changes. *)
Lemma client_shape sd max att p idle isctx s k a s' q st : dstep sd max att p idle isctx s (DaClient k a) = Some s' -> nth_error (ds_clients s) k = Some q -> cact idle (k_st q) a = Some st ->
  ds_callers s' = ds_callers s /\ ds_clients s' = set_nth k (mkK (k_addr q) (k_ctx q) st) (ds_clients s) /\ ds_lock s' = ds_lock s /\ ds_gets s' = ds_gets s /\ ds_failed s' = ds_failed s /\ ds_late s' = ds_late s.
Proof.
  intros E Hq Ha. cbn [dstep] in E. rewrite Hq, Ha in E.
  destruct (c_main (k_st q)); try (injection E as <-; repeat split; reflexivity). destruct a; try (injection E as <-; repeat split; reflexivity). destruct (ds_lock s) eqn:Lk; [discriminate|]. injection E as <-. dproj. auto 6.
Qed.

(** ** C38 *)

(** A call that finds the pool full proceeds once the tail is evicted. *)
Definition C38_statement : Prop := forall sd max att p idle isctx l s i v, 0 < max -> pool_does sd max att p idle isctx l s -> evicts s i v ->
  exists l' s', drun sd max att p idle isctx s l' = Some s' /\ ~ evicts s' i v.

(** Every eviction, in every schedule, waits forever: the evicted client needs the pool's lock to end, and the call holds it until the
    client has ended.  From then on no call obtains a client from the pool and none of its clients ever ends. *)
Theorem C38_deadlock sd max att p idle isctx l s i v l' s' : 0 < max -> pool_does sd max att p idle isctx l s -> evicts s i v -> drun sd max att p idle isctx s l' = Some s' ->
  evicts s' i v /\ ds_gets s' = ds_gets s /\ (forall k, ~ ended s k -> ended s' k -> exists q, nth_error (ds_clients s) k = Some q /\ c_main (k_st q) = MDone).
Proof.
  intros M H (n & k0 & m & c0 & Hc & Pc0) R. pose proof (reach_pinv _ _ _ _ _ _ _ _ M H) as I.
  assert (Lk : ds_lock s = Some i) by (apply (pi_lock _ _ I i c0 Hc); unfold evicting; rewrite Pc0; reflexivity).
  pose (J := fun t => pinv max t /\ ds_lock t = Some i /\ at_pc t i (DEvict n k0 v m) /\ ds_gets t = ds_gets s /\
     (forall k q', nth_error (ds_clients t) k = Some q' -> exists q, nth_error (ds_clients s) k = Some q /\ past (k_st q') = past (k_st q))).
  assert (K : J s') .
  { revert R. apply (drun_inv sd max att p idle isctx J).
    - clear l H. intros t a t' (T1 & T2 & (c1 & T3 & T3') & T4 & T5) E. pose proof (pinv_step _ _ _ _ _ _ M _ _ _ T1 E) as T1'. unfold J. split; [exact T1'|]. clear T1'.
      assert (Ni : forall j c, nth_error (ds_callers t) j = Some c -> d_pc c <> DEvict n k0 v m -> (i =? j) = false) by (intros j c Hj N; apply Nat.eqb_neq; intros ->; congruence).
      dcases E; try congruence.
      + split; [exact T2|]. split; [exists c1; split; [apply nth_error_keep, T3|exact T3']|auto].
      + split; [exact T2|]. split; [|auto]. destruct (Nat.eq_dec i j) as [->|N].
        * exists (mkD (d_addr c) (d_pc c) true). dproj. rewrite (nth_error_set _ _ _ _ j Hi), Nat.eqb_refl. split; [reflexivity|]. cbn. congruence.
        * exists c1. dproj. rewrite (nth_error_set _ _ _ _ i Hi). apply Nat.eqb_neq in N. rewrite N. auto.
      + exfalso. assert (Lj : ds_lock t = Some j) by (apply (pi_lock _ _ T1 j c Hi); unfold evicting; rewrite Pc; reflexivity). destruct (pi_held _ _ T1 j Lj) as (c2 & n2 & k2 & v2 & m2 & q2 & X1 & X2 & X3 & X4).
        assert (c2 = c) as -> by congruence. rewrite Pc in X2. injection X2 as <- <- <- <-. assert (q2 = q) as -> by congruence.
        destruct (pi_sig _ _ T1 q (nth_error_In _ _ Hq)) as [(_ & _ & _ & _ & _ & _ & Sg) _]. apply andb_prop in Hd as [_ Hd]. rewrite Sg in Hd. unfold past in X4. destruct (c_main (k_st q)); discriminate.
      + split; [exact T2|]. split; [|auto]. exists c1. dproj. rewrite (nth_error_set _ _ _ _ i Hi), (Ni j c Hi) by congruence. auto.
      + split; [exact T2|]. split; [|auto]. exists c1. dproj. rewrite (nth_error_set _ _ _ _ i Hi), (Ni j c Hi) by congruence. auto.
      + split; [exact T2|]. split; [|auto]. exists c1. dproj. rewrite (nth_error_set _ _ _ _ i Hi), (Ni j c Hi) by congruence. auto.
      + split; [exact T2|]. split; [|auto]. exists c1. dproj. rewrite (nth_error_set _ _ _ _ i Hi), (Ni j c Hi) by congruence. auto.
      + split; [exact T2|]. split; [|auto]. exists c1. dproj. rewrite (nth_error_set _ _ _ _ i Hi), (Ni j c Hi) by congruence. auto.
      + assert (E0 : dstep sd max att p idle isctx t (DaClient kk aa) = Some t') by (cbn [dstep]; rewrite Hq, Ha; exact E). destruct (client_shape _ _ _ _ _ _ _ _ _ _ _ _ E0 Hq Ha) as (Q1 & Q2 & Q3 & Q4 & _ & _).
        split; [congruence|]. split; [exists c1; rewrite Q1; auto|]. split; [congruence|]. intros k q' Hk. rewrite Q2, (nth_error_set _ _ _ _ k Hq) in Hk.
        destruct (Nat.eqb_spec k kk) as [->|]; [|exact (T5 k q' Hk)]. injection Hk as <-. destruct (T5 kk q Hq) as (q0 & Hq0 & Pq). exists q0. split; [exact Hq0|]. cbn [k_st]. rewrite <- Pq.
        destruct (past_step _ _ _ _ Ha) as [(M1 & (o & ->) & _)|[M1 _]]; [|exact M1]. exfalso. rewrite M1, T2 in E. discriminate.
    - unfold J. split; [exact I|]. split; [exact Lk|]. split; [exists c0; auto|]. split; [reflexivity|]. eauto. }
  destruct K as (K1 & K2 & K3 & K4 & K5). split; [exists n, k0, m; exact K3|]. split; [exact K4|]. intros k Nk (q' & Hq' & Dq). destruct (K5 k q' Hq') as (q & Hq & Pq). exists q. split; [exact Hq|].
  destruct (pi_sig _ _ K1 q' (nth_error_In _ _ Hq')) as [(_ & _ & _ & _ & _ & _ & Sg') _]. destruct (pi_sig _ _ I q (nth_error_In _ _ Hq)) as [(_ & _ & _ & _ & _ & _ & Sg) _].
  unfold past in Pq. rewrite Sg' in Dq. destruct (c_main (k_st q')); try discriminate. destruct (c_main (k_st q)) eqn:Mq; try discriminate; [reflexivity|]. exfalso. apply Nk. exists q. auto.
Qed.

Definition adr (n : nat) : bytes := [n2b (N.of_nat n)].
Theorem C38_refuted : ~ C38_statement.
Proof.
  intros H. pose (l := [DaCall (adr 1); DaGet 0; DaCall (adr 2); DaGet 1]). destruct (drun SideOutbound 1 1 0 0 (fun _ => false) d_start l) as [s|] eqn:E; [|vm_compute in E; discriminate].
  assert (V : evicts s 1 0) by (vm_compute in E; injection E as <-; eexists _, _, _, _; split; reflexivity).
  destruct (H _ _ _ _ _ _ l s 1 0 (Nat.lt_0_succ 0) E V) as (l' & s' & R & N). apply N. exact (proj1 (C38_deadlock _ _ _ _ _ _ l s 1 0 l' s' (Nat.lt_0_succ 0) E V R)).
Qed.
(** The same when a connection is accepted with the inbound pool full. *)
Theorem C38_refuted_inbound : exists l s, pool_does SideInbound 2 1 0 0 (fun _ => false) l s /\ evicts s 2 0.
Proof.
  exists [DaCall (adr 1); DaGet 0; DaCall (adr 2); DaGet 1; DaClient 0 (AMain Fine); DaClient 0 (AMain Fine); DaCall (adr 3); DaGet 2].
  eexists. split; [vm_compute; reflexivity|]. eexists _, _, _, _. split; reflexivity.
Qed.

(** Pooled clients, as Inbound() or Outbound() would list them. *)
Definition listed (s : dstate) : list (option nat) := cm_slice (ds_pool s).

(** C38, while the pool is not full or the address is pooled: the call gets the pooled client, or a new one, at once. *)
Theorem C38_partial sd max att p idle isctx l s i c n : 0 < max -> pool_does sd max att p idle isctx l s -> ds_lock s = None ->
  nth_error (ds_callers s) i = Some c -> d_pc c = DLoop n -> n < att ->
  (length (listed s) < max \/ exists k q, nth_error (ds_clients s) k = Some q /\ k_addr q = d_addr c /\ c_main (k_st q) <> MDone /\ c_main (k_st q) <> MEnd) ->
  exists s' k, dstep sd max att p idle isctx s (DaGet i) = Some s' /\ ds_lock s' = None /\ (exists ex, at_pc s' i (got sd n k ex)) /\
    (exists q, nth_error (ds_clients s') k = Some q /\ k_addr q = d_addr c /\ past (k_st q) = false).
Proof.
  intros M H Lk Hi Pc Ln X. pose proof (reach_pinv _ _ _ _ _ _ _ _ M H) as I. destruct (fetch_ok sd max idle isctx M s (d_addr c) I) as (m & k & ex & ev & F & Y).
  cbn [dstep]. rewrite Hi, Pc, Lk, F. apply Nat.ltb_lt in Ln. rewrite Ln. destruct ev as [v|].
  - exfalso. destruct Y as (-> & -> & _ & No & (l0 & R & L & P)). destruct X as [X|(k & q & Hq & Aq & M1 & M2)].
    + unfold listed in X. rewrite (slice_repr _ _ R), map_length in X. lia.
    + specialize (No k q Hq Aq). unfold past in No. destruct (c_main (k_st q)); congruence.
  - destruct Y as [_ Y]. eexists _, k. split; [reflexivity|]. dproj. split; [reflexivity|]. split.
    + exists ex. eexists. dproj. rewrite (nth_error_set _ _ _ _ i Hi), Nat.eqb_refl. split; reflexivity.
    + destruct ex; [exact Y|]. destruct Y as [-> _]. eexists. split; [rewrite nth_error_app2, Nat.sub_diag by lia; reflexivity|]. split; [reflexivity|apply past_new].
Qed.

(** As long as no more addresses are used than the pool has room for, nothing is ever evicted. *)
Theorem C38_no_eviction sd max att p idle isctx l s A : 0 < max -> pool_does sd max att p idle isctx l s -> length A <= max -> (forall c, In c (ds_callers s) -> In (d_addr c) A) -> ds_lock s = None.
Proof.
  intros M H LA HA.
  assert (J : pinv max s /\ ((forall c, In c (ds_callers s) -> In (d_addr c) A) -> ds_lock s = None /\ forall q, In q (ds_clients s) -> In (k_addr q) A)).
  { clear HA. revert H. unfold pool_does. apply (drun_inv sd max att p idle isctx (fun s => pinv max s /\ ((forall c, In c (ds_callers s) -> In (d_addr c) A) -> ds_lock s = None /\ forall q, In q (ds_clients s) -> In (k_addr q) A))).
    - clear s. intros s a s' [I J] E. split; [exact (pinv_step _ _ _ _ _ _ M _ _ _ I E)|]. intros HA.
      assert (HA0 : forall c, In c (ds_callers s) -> In (d_addr c) A).
      { intros c0 Hc0. apply In_nth_error in Hc0 as (j0 & Hj0).
        assert (Q : exists c', nth_error (ds_callers s') j0 = Some c' /\ d_addr c' = d_addr c0).
        { clear J HA. pose proof E as E0. dcases E; try (exists c0; split; [apply nth_error_keep; exact Hj0|reflexivity]; fail);
          try (rewrite (nth_error_set _ _ _ _ j0 Hi); destruct (Nat.eqb_spec j0 j) as [->|]; [eexists; split; [reflexivity|]; cbn; congruence|eauto]; fail).
          destruct (client_shape _ _ _ _ _ _ _ _ _ _ _ _ E0 Hq Ha) as (Q1 & _). rewrite Q1. eauto. }
        destruct Q as (c' & Q1 & <-). apply HA, (nth_error_In _ _ Q1). }
      destruct (J HA0) as [J1 J2]. clear J HA. pose proof E as E0. dcases E; try (split; [congruence|assumption]; fail).
      + exfalso. destruct (fetch_ok sd max idle isctx M s (d_addr c) I) as (m1 & k1 & ex1 & ev1 & F & Y). rewrite Hf in F. injection F as -> -> -> <-. destruct Y as (_ & _ & _ & No & (l0 & R & L & P)).
        assert (Nd : NoDup (d_addr c :: map fst l0)).
        { constructor; [|apply (cr_nodup _ _ R)]. intros C. apply in_map_iff in C as ((a0 & k0) & Ea & C). cbn in Ea. subst a0. apply P in C as (q & Hq & Aq & Pq). specialize (No k0 q Hq Aq). congruence. }
        assert (Inc : incl (d_addr c :: map fst l0) A).
        { intros a [<-|Ha]; [apply HA0, (nth_error_In _ _ Hi)|]. apply in_map_iff in Ha as ((a0 & k0) & Ea & C). cbn in Ea. subst a0. apply P in C as (q & Hq & Aq & _). rewrite <- Aq. apply J2, (nth_error_In _ _ Hq). }
        pose proof (NoDup_incl_length Nd Inc) as X. cbn in X. rewrite map_length in X. lia.
      + split; [reflexivity|]. intros q Hq. destruct ex; [exact (J2 q Hq)|]. apply in_app_or in Hq as [Hq|[<-|[]]]; [exact (J2 q Hq)|]. cbn. apply HA0, (nth_error_In _ _ Hi).
      + split; [reflexivity|]. intros q0 Hq0. apply in_app_or in Hq0 as [Hq0|[<-|[]]]; [exact (J2 q0 Hq0)|]. cbn. apply HA0, (nth_error_In _ _ Hi).
      + destruct (client_shape _ _ _ _ _ _ _ _ _ _ _ _ E0 Hq Ha) as (Q1 & Q2 & Q3 & _). split; [congruence|]. intros q0 Hq0. rewrite Q2 in Hq0. apply in_set_nth in Hq0 as [->|Hq0]; [cbn; apply J2, (nth_error_In _ _ Hq)|exact (J2 q0 Hq0)].
    - split; [apply (pinv_start max)|]. intros _. split; [reflexivity|intros q []]. }
  destruct J as [_ J]. exact (proj1 (J HA)).
Qed.

Example C38_nonvacuous : exists s, pool_does SideOutbound 2 3 1 0 (fun _ => false) [DaCall (adr 1); DaGet 0; DaCall (adr 1); DaGet 1; DaCall (adr 2); DaGet 2; DaCall (adr 2)] s /\
  ds_lock s = None /\ length (listed s) = 2 /\ length (ds_clients s) = 2 /\ at_pc s 1 (DSelect 0 0) /\ at_pc s 3 (DLoop 0).
Proof. eexists. split; [vm_compute; reflexivity|]. repeat split; try reflexivity; eexists; split; reflexivity. Qed.

Print Assumptions C38_deadlock.
Print Assumptions C38_refuted.
Print Assumptions C38_partial.
Print Assumptions C38_no_eviction.

(** ** C71 *)

(** For an address there is never more than one client that has not yet left the pool, that is: that is being dialled, in the handshake,
    or whose disconnection is not yet announced. *)
Definition active (q : client) : Prop := c_main (k_st q) <> MRemove /\ c_main (k_st q) <> MDone /\ c_main (k_st q) <> MEnd.
Theorem C71_one_per_address sd max att p idle isctx l s k1 k2 q1 q2 : 0 < max -> pool_does sd max att p idle isctx l s ->
  nth_error (ds_clients s) k1 = Some q1 -> nth_error (ds_clients s) k2 = Some q2 -> k_addr q1 = k_addr q2 -> active q1 -> active q2 -> k1 = k2.
Proof.
  intros M H H1 H2 E A1 A2. pose proof (reach_pinv _ _ _ _ _ _ _ _ M H) as [(l0 & R & _ & P) _ _ _].
  assert (X : forall q, active q -> past (k_st q) = false) by (intros q (B1 & B2 & B3); unfold past; destruct (c_main (k_st q)); congruence).
  assert (I1 : In (k_addr q1, k1) l0) by (apply P; eauto). assert (I2 : In (k_addr q1, k2) l0) by (apply P; rewrite E; eauto).
  apply (in_find _ _ _ (cr_nodup _ _ R)) in I1. apply (in_find _ _ _ (cr_nodup _ _ R)) in I2. congruence.
Qed.
(** A call for an address that has such a client uses it. *)
Theorem C71_shared sd max att p idle isctx l s i c n k q : 0 < max -> pool_does sd max att p idle isctx l s -> ds_lock s = None ->
  nth_error (ds_callers s) i = Some c -> d_pc c = DLoop n -> n < att -> nth_error (ds_clients s) k = Some q -> k_addr q = d_addr c -> active q ->
  exists s', dstep sd max att p idle isctx s (DaGet i) = Some s' /\ at_pc s' i (got sd n k true) /\ ds_clients s' = ds_clients s.
Proof.
  intros M H Lk Hi Pc Ln Hk Ak Ac. pose proof (reach_pinv _ _ _ _ _ _ _ _ M H) as I. destruct (fetch_ok sd max idle isctx M s (d_addr c) I) as (m & k1 & ex & ev & F & Y).
  assert (Pk : past (k_st q) = false) by (destruct Ac as (B1 & B2 & B3); unfold past; destruct (c_main (k_st q)); congruence).
  cbn [dstep]. rewrite Hi, Pc, Lk, F. apply Nat.ltb_lt in Ln. rewrite Ln. destruct ev as [v|]; [destruct Y as (_ & _ & _ & No & _); specialize (No k q Hk Ak); congruence|].
  destruct Y as [_ Y]. destruct ex; [|destruct Y as [_ No]; specialize (No k q Hk Ak); congruence]. destruct Y as (q1 & H1 & A1 & P1).
  assert (k1 = k) as ->. { destruct I as [(l0 & R & _ & P) _ _ _]. assert (I1 : In (d_addr c, k1) l0) by (apply P; eauto). assert (I2 : In (d_addr c, k) l0) by (apply P; eauto).
    apply (in_find _ _ _ (cr_nodup _ _ R)) in I1. apply (in_find _ _ _ (cr_nodup _ _ R)) in I2. congruence. }
  eexists. split; [reflexivity|]. dproj. split; [|reflexivity]. eexists. dproj. rewrite (nth_error_set _ _ _ _ i Hi), Nat.eqb_refl. split; reflexivity.
Qed.
Example C71_nonvacuous : exists s q1 q2, pool_does SideOutbound 2 1 0 0 (fun _ => false) [DaCall (adr 1); DaGet 0; DaClient 0 (AMain (Fails 3)); DaClient 0 (AMain Fine); DaClient 0 (AMain Fine); DaClient 0 (AMain Fine);
    DaClient 0 (AMain Fine); DaCall (adr 1); DaGet 1] s /\ ds_clients s = [q1; q2] /\ k_addr q1 = k_addr q2 /\ c_main (k_st q1) = MDone /\ active q2.
Proof. eexists _, _, _. split; [vm_compute; reflexivity|]. split; [reflexivity|]. split; [reflexivity|]. split; [reflexivity|]. repeat split; discriminate. Qed.
Print Assumptions C71_one_per_address.
Print Assumptions C71_shared.

(** ** C51 *)

Definition attempts (s : dstate) (i : nat) : nat := length (filter (fun g => fst g =? i) (ds_gets s)).
(** Connections that call [i] started to dial. *)
Definition dials (s : dstate) (i : nat) : nat := length (filter (fun q => k_ctx q =? i) (ds_clients s)).
(** The protocols whose OnPingFailed call [i] has called, in order. *)
Definition notified (s : dstate) (i : nat) : list nat := map snd (filter (fun f => fst f =? i) (ds_failed s)).

Definition pc_ok (att p : nat) (pc : dpc) (g d : nat) (f : list nat) : Prop :=
  match pc with
  | DLoop n => g = n /\ n <= att /\ d <= g /\ f = []
  | DEvict n _ _ _ => g = S n /\ S n <= att /\ d <= n /\ f = []
  | DSelect n _ | DClose n _ _ | DWait n _ _ => g = S n /\ S n <= att /\ d <= g /\ f = []
  | DFail _ j => g <= att /\ d <= g /\ j <= p /\ f = seq 0 j
  | DErr _ => g <= att /\ d <= g /\ f = seq 0 p
  | DOk _ _ => g <= att /\ d <= g /\ f = []
  end.
Record ainv (att p : nat) (s : dstate) : Prop := {
  ai_pc : forall i c, nth_error (ds_callers s) i = Some c -> pc_ok att p (d_pc c) (attempts s i) (dials s i) (notified s i);
  ai_new : forall i, length (ds_callers s) <= i -> attempts s i = 0 /\ dials s i = 0 /\ notified s i = []
}.
Lemma filter_len_app {A} (f : A -> bool) l x : length (filter f (l ++ [x])) = length (filter f l) + (if f x then 1 else 0).
Proof. rewrite filter_app, app_length. cbn. destruct (f x); reflexivity. Qed.
Lemma notified_app (l : list (nat * nat)) i x : map snd (filter (fun f => fst f =? i) (l ++ [x])) = map snd (filter (fun f => fst f =? i) l) ++ (if fst x =? i then [snd x] else []).
Proof. rewrite filter_app, map_app. cbn. destruct (fst x =? i); reflexivity. Qed.
Lemma filter_set_len {A} (f : A -> bool) l i x y : nth_error l i = Some x -> f y = f x -> length (filter f (set_nth i y l)) = length (filter f l).
Proof. intros H E. rewrite !cntb_filter. pose proof (sumf_set (fun z => Nat.b2n (f z)) l i x y H) as Q. unfold cntb. cbn in Q. rewrite E in Q. lia. Qed.

(** One caller moves, its counts change; the others' do not. *)
Lemma ainv_move att p s s' j c c' : ainv att p s -> nth_error (ds_callers s) j = Some c -> ds_callers s' = set_nth j c' (ds_callers s) ->
  (forall i, i <> j -> attempts s' i = attempts s i /\ dials s' i = dials s i /\ notified s' i = notified s i) ->
  pc_ok att p (d_pc c') (attempts s' j) (dials s' j) (notified s' j) -> ainv att p s'.
Proof.
  intros [A B] Hj E O P. constructor; rewrite E.
  - intros i c1 Hi. rewrite (nth_error_set _ _ _ _ i Hj) in Hi. destruct (Nat.eqb_spec i j) as [->|N]; [injection Hi as <-; exact P|]. destruct (O i N) as (-> & -> & ->). exact (A i c1 Hi).
  - rewrite set_nth_length. intros i Li. assert (N : i <> j) by (intros ->; assert (j < length (ds_callers s)) by (apply nth_error_Some; congruence); lia). destruct (O i N) as (-> & -> & ->). exact (B i Li).
Qed.
Lemma ainv_step sd max att p idle isctx s a s' : ainv att p s -> dstep sd max att p idle isctx s a = Some s' -> ainv att p s'.
Proof.
  intros I E. pose proof I as [A B]. pose proof E as E0. dcases E.
  - constructor; dproj.
    + intros i c Hi. apply nth_error_snoc in Hi as [Hi|[-> ->]]; [exact (A i c Hi)|]. destruct (B (length (ds_callers s)) (Nat.le_refl _)) as (X & Y & Z). unfold attempts, dials, notified in *; dproj. rewrite X, Y, Z. cbn. repeat split; lia.
    + intros i Li. rewrite app_length in Li. cbn in Li. apply B. lia.
  - eapply (ainv_move att p s _ j c _ I Hi); [reflexivity|auto|exact (A j c Hi)].
  - pose proof (A j c Hi) as P. rewrite Pc in P. destruct P as (P1 & P2 & P3 & P4). apply Nat.ltb_lt in Hn. eapply (ainv_move att p s _ j c _ I Hi); [reflexivity|..].
    + intros i N. unfold attempts, dials, notified; dproj. rewrite filter_len_app. cbn [fst]. apply not_eq_sym, Nat.eqb_neq in N. rewrite N. auto.
    + cbn [d_pc pc_ok]. unfold attempts, dials, notified in *; dproj. rewrite filter_len_app. cbn [fst]. rewrite Nat.eqb_refl. repeat split; auto; lia.
  - pose proof (A j c Hi) as P. rewrite Pc in P. destruct P as (P1 & P2 & P3 & P4). apply Nat.ltb_lt in Hn. eapply (ainv_move att p s _ j c _ I Hi); [reflexivity|..].
    + intros i N. unfold attempts, dials, notified; dproj. rewrite filter_len_app. cbn [fst]. apply not_eq_sym, Nat.eqb_neq in N. rewrite N. destruct ex; [auto|]. rewrite filter_len_app. cbn [k_ctx]. rewrite N. auto.
    + cbn [d_pc]. unfold attempts, dials, notified in *; dproj. rewrite filter_len_app. cbn [fst]. rewrite Nat.eqb_refl.
      assert (D : length (filter (fun q => k_ctx q =? j) (if ex then ds_clients s else ds_clients s ++ [mkK (d_addr c) j (newClient sd)])) <= nn + 1).
      { destruct ex; [lia|]. rewrite filter_len_app. cbn [k_ctx]. rewrite Nat.eqb_refl. lia. }
      destruct sd; cbn [got pc_ok]; repeat split; auto; lia.
  - pose proof (A j c Hi) as P. rewrite Pc in P. destruct P as (P1 & P2 & P3 & P4). eapply (ainv_move att p s _ j c _ I Hi); [reflexivity|..].
    + intros i N. unfold attempts, dials, notified; dproj. apply not_eq_sym, Nat.eqb_neq in N. rewrite filter_len_app. cbn [k_ctx]. rewrite N. auto.
    + cbn [d_pc]. unfold attempts, dials, notified in *; dproj. rewrite filter_len_app. cbn [k_ctx]. rewrite Nat.eqb_refl. destruct sd; cbn [got pc_ok]; repeat split; auto; lia.
  - pose proof (A j c Hi) as P. rewrite Pc in P. eapply (ainv_move att p s _ j c _ I Hi); [reflexivity|auto|]. cbn [d_pc]. destruct P as (P1 & P2 & P3 & P4). unfold attempts, dials, notified in *; dproj.
    destruct b; try destruct (c_err (k_st q)); cbn [pc_ok]; repeat split; auto; lia.
  - pose proof (A j c Hi) as P. rewrite Pc in P. eapply (ainv_move att p s _ j c _ I Hi); [reflexivity|auto|]. cbn [d_pc pc_ok]. exact P.
  - pose proof (A j c Hi) as P. rewrite Pc in P. eapply (ainv_move att p s _ j c _ I Hi); [reflexivity|auto|]. cbn [d_pc]. destruct P as (P1 & P2 & P3 & P4). unfold attempts, dials, notified in *; dproj.
    destruct (match e with ECtx => _ | EClient _ => _ end); [cbn [pc_ok]; repeat split; auto; lia|]. destruct (Nat.ltb_spec (S nn) att); cbn [pc_ok]; repeat split; auto; lia.
  - pose proof (A j c Hi) as P. rewrite Pc in P. destruct P as (P1 & P2 & P3 & P4). apply Nat.ltb_lt in Hj. eapply (ainv_move att p s _ j c _ I Hi); [reflexivity|..].
    + intros i N. unfold attempts, dials, notified; dproj. apply not_eq_sym, Nat.eqb_neq in N. rewrite notified_app. cbn [fst]. rewrite N, app_nil_r. auto.
    + cbn [d_pc pc_ok]. unfold attempts, dials, notified in *; dproj. rewrite notified_app, P4. cbn [fst snd]. rewrite Nat.eqb_refl, seq_S. repeat split; auto; lia.
  - pose proof (A j c Hi) as P. rewrite Pc in P. destruct P as (P1 & P2 & P3 & P4). apply Nat.ltb_ge in Hj. assert (jj = p) as -> by lia. eapply (ainv_move att p s _ j c _ I Hi); [reflexivity|auto|]. cbn [d_pc pc_ok]. auto.
  - destruct (client_shape _ _ _ _ _ _ _ _ _ _ _ _ E0 Hq Ha) as (Q1 & Q2 & Q3 & Q4 & Q5 & _).
    assert (X : forall i, attempts s' i = attempts s i /\ dials s' i = dials s i /\ notified s' i = notified s i).
    { intros i. unfold attempts, dials, notified. rewrite Q2, Q4, Q5. split; [reflexivity|]. split; [|reflexivity]. apply (filter_set_len _ _ kk q); [exact Hq|reflexivity]. }
    constructor; rewrite Q1; intros i; destruct (X i) as (-> & -> & ->); [apply A|apply B].
Qed.
Lemma reach_ainv sd max att p idle isctx l s : pool_does sd max att p idle isctx l s -> ainv att p s.
Proof.
  apply (drun_inv sd max att p idle isctx (ainv att p)); [intros t a t'; apply ainv_step|]. constructor; cbn; [intros [|i] c Hc; discriminate|]. intros i _. unfold attempts, dials, notified. cbn. auto.
Qed.

(** C51: at most [att] attempts and dials per call. *)
Theorem C51_attempts sd max att p idle isctx l s i : pool_does sd max att p idle isctx l s -> attempts s i <= att /\ dials s i <= attempts s i.
Proof.
  intros H. apply reach_ainv in H as [A B]. destruct (nth_error (ds_callers s) i) as [c|] eqn:Hi.
  - pose proof (A i c Hi) as P. destruct (d_pc c); cbn in P; lia.
  - apply nth_error_None in Hi. destruct (B i Hi) as (-> & -> & _). lia.
Qed.
(** C51: a call that has returned an error has notified every protocol exactly once, in order; one that returned a client has notified none,
    and nobody is notified before the last attempt has failed. *)
Theorem C51_notified sd max att p idle isctx l s i c : pool_does sd max att p idle isctx l s -> nth_error (ds_callers s) i = Some c ->
  match d_pc c with
  | DErr _ => notified s i = seq 0 p
  | DFail _ _ => exists j, j <= p /\ notified s i = seq 0 j
  | _ => notified s i = []
  end.
Proof. intros H Hi. apply reach_ainv in H as [A B]. pose proof (A i c Hi) as P. destruct (d_pc c); cbn in P; try tauto. exists j. tauto. Qed.

(** No attempt is made once the context is cancelled. *)
Definition C51_statement : Prop := forall sd max att p idle isctx l s, 0 < max -> pool_does sd max att p idle isctx l s ->
  (forall i, attempts s i <= att /\ dials s i <= attempts s i) /\
  (forall i c e, nth_error (ds_callers s) i = Some c -> d_pc c = DErr e -> notified s i = seq 0 p) /\
  (forall i c k x, nth_error (ds_callers s) i = Some c -> d_pc c = DOk k x -> notified s i = []) /\
  ds_late s = [].
(** The select of node.go:399 may see the failed client although the context is cancelled as well. *)
Theorem C51_refuted : ~ C51_statement.
Proof.
  intros H. pose (l := [DaCall (adr 1); DaGet 0; DaClient 0 (AMain (Fails 3)); DaClient 0 (AMain Fine); DaCancel 0; DaSelect 0 BReady; DaClient 0 ACloseFlag; DaClient 0 ACloseConn; DaClose 0;
    DaClient 0 (AMain Fine); DaClient 0 (AMain Fine); DaClient 0 (AMain Fine); DaClient 0 (AMain Fine); DaWait 0; DaGet 0]).
  destruct (drun SideOutbound 1 2 0 0 (fun _ => false) d_start l) as [s|] eqn:E; [|vm_compute in E; discriminate].
  destruct (H _ _ _ _ _ _ l s (Nat.lt_0_succ 0) E) as (_ & _ & _ & X). vm_compute in E. injection E as <-. discriminate.
Qed.
(** A call that has seen its context's end, or a client's error that is a context's, makes no further attempt. *)
Definition stops (isctx : nat -> bool) (e : derr) : bool := match e with ECtx => true | EClient x => isctx x end.
Definition stopping (isctx : nat -> bool) (pc : dpc) : bool := match pc with DClose _ _ e | DWait _ _ e => stops isctx e | DFail _ _ | DErr _ => true | _ => false end.
Theorem C51_ctx_stops_partial sd max att p idle isctx s i ci l' s' : nth_error (ds_callers s) i = Some ci -> stopping isctx (d_pc ci) = true -> drun sd max att p idle isctx s l' = Some s' ->
  attempts s' i = attempts s i /\ dials s' i <= dials s i /\ exists c', nth_error (ds_callers s') i = Some c' /\ stopping isctx (d_pc c') = true.
Proof.
  intros Hc Hs. pose (J := fun t => attempts t i = attempts s i /\ dials t i <= dials s i /\ exists c', nth_error (ds_callers t) i = Some c' /\ stopping isctx (d_pc c') = true).
  apply (drun_inv sd max att p idle isctx J); [|unfold J; eauto]. intros t a t' (J1 & J2 & c1 & J3 & J4) E. unfold J. pose proof E as E0.
  assert (Sel : forall j c0 x, nth_error (ds_callers t) j = Some c0 -> (j = i -> stopping isctx (d_pc x) = true) -> exists c', nth_error (set_nth j x (ds_callers t)) i = Some c' /\ stopping isctx (d_pc c') = true).
  { intros j c0 x Hj Hx. rewrite (nth_error_set _ _ _ _ i Hj). destruct (Nat.eqb_spec i j) as [->|]; eauto. }
  dcases E; unfold attempts, dials in *; dproj.
  - split; [exact J1|]. split; [exact J2|]. exists c1. split; [apply nth_error_keep, J3|exact J4].
  - split; [exact J1|]. split; [exact J2|]. apply (Sel j c); auto. intros ->. cbn. congruence.
  - assert (N : (j =? i) = false) by (apply Nat.eqb_neq; intros ->; assert (c1 = c) as -> by congruence; rewrite Pc in J4; discriminate). rewrite filter_len_app. cbn [fst]. rewrite N, Nat.add_0_r.
    split; [exact J1|]. split; [exact J2|]. apply (Sel j c); auto. apply Nat.eqb_neq in N. congruence.
  - assert (N : (j =? i) = false) by (apply Nat.eqb_neq; intros ->; assert (c1 = c) as -> by congruence; rewrite Pc in J4; discriminate). rewrite filter_len_app. cbn [fst]. rewrite N, Nat.add_0_r.
    split; [exact J1|]. split; [destruct ex; [exact J2|]; rewrite filter_len_app; cbn [k_ctx]; rewrite N; lia|]. apply (Sel j c); auto. apply Nat.eqb_neq in N. congruence.
  - assert (N : (j =? i) = false) by (apply Nat.eqb_neq; intros ->; assert (c1 = c) as -> by congruence; rewrite Pc in J4; discriminate).
    split; [exact J1|]. split; [rewrite filter_len_app; cbn [k_ctx]; rewrite N; lia|]. apply (Sel j c); auto. apply Nat.eqb_neq in N. congruence.
  - split; [exact J1|]. split; [exact J2|]. apply (Sel j c); auto. intros ->. assert (c1 = c) as -> by congruence. rewrite Pc in J4. discriminate.
  - split; [exact J1|]. split; [exact J2|]. apply (Sel j c); auto. intros ->. assert (c1 = c) as -> by congruence. rewrite Pc in J4. exact J4.
  - split; [exact J1|]. split; [exact J2|]. apply (Sel j c); auto. intros ->. assert (c1 = c) as -> by congruence. rewrite Pc in J4. cbn in J4. unfold stops in J4. cbn [d_pc]. rewrite J4. reflexivity.
  - split; [exact J1|]. split; [exact J2|]. apply (Sel j c); auto.
  - split; [exact J1|]. split; [exact J2|]. apply (Sel j c); auto.
  - destruct (client_shape _ _ _ _ _ _ _ _ _ _ _ _ E0 Hq Ha) as (Q1 & Q2 & Q3 & Q4 & Q5 & _). rewrite Q1, Q2, Q4. split; [exact J1|]. split; [|eauto]. rewrite (filter_set_len _ _ kk q); [exact J2|exact Hq|reflexivity].
Qed.
Example C51_nonvacuous : exists s, pool_does SideOutbound 1 2 2 0 (fun _ => false) [DaCall (adr 1); DaGet 0; DaClient 0 (AMain (Fails 3)); DaClient 0 (AMain Fine); DaSelect 0 BReady; DaClient 0 ACloseFlag; DaClient 0 ACloseConn; DaClose 0;
    DaClient 0 (AMain Fine); DaClient 0 (AMain Fine); DaClient 0 (AMain Fine); DaClient 0 (AMain Fine); DaWait 0; DaGet 0; DaCancel 0; DaSelect 0 BCtx; DaClient 1 ACloseFlag; DaClient 1 ACloseConn; DaClose 0;
    DaClient 1 (AMain (Fails 4)); DaClient 1 (AMain Fine); DaClient 1 (AMain Fine); DaClient 1 (AMain Fine); DaClient 1 (AMain Fine); DaClient 1 (AMain Fine); DaWait 0; DaFail 0; DaFail 0; DaFail 0] s /\
  attempts s 0 = 2 /\ dials s 0 = 2 /\ notified s 0 = [0; 1] /\ at_pc s 0 (DErr ECtx) /\ ds_late s = [].
Proof. eexists. split; [vm_compute; reflexivity|]. repeat split; try reflexivity. eexists. split; reflexivity. Qed.
Print Assumptions C51_attempts.
Print Assumptions C51_notified.
Print Assumptions C51_refuted.
Print Assumptions C51_ctx_stops_partial.

(** ** C70 *)

(** What Ping returns: a client that has finished its handshake without error and has not been closed before the call. *)
Definition C70_statement : Prop := forall sd max att p idle isctx l s i b s' k, 0 < max -> pool_does sd max att p idle isctx l s -> dstep sd max att p idle isctx s (DaSelect i b) = Some s' -> at_pc s' i (DOk k false) ->
  exists q, nth_error (ds_clients s) k = Some q /\ c_ready (k_st q) = true /\ c_err (k_st q) = None /\ c_once (k_st q) = 0.
Theorem C70_refuted : ~ C70_statement.
Proof.
  intros H. pose (l := [DaCall (adr 1); DaGet 0; DaClient 0 (AMain Fine); DaClient 0 (AMain Fine); DaClient 0 (AMain Fine); DaSelect 0 BReady; DaClient 0 ACloseFlag; DaClient 0 ACloseConn; DaCall (adr 1); DaGet 1]).
  destruct (drun SideOutbound 1 1 0 0 (fun _ => false) d_start l) as [s|] eqn:E; [|vm_compute in E; discriminate].
  destruct (dstep SideOutbound 1 1 0 0 (fun _ => false) s (DaSelect 1 BReady)) as [s'|] eqn:E'.
  - destruct (H _ _ _ _ _ _ l s 1 BReady s' 0 (Nat.lt_0_succ 0) E E') as (q & Q1 & _ & _ & Q2).
    + vm_compute in E. injection E as <-. vm_compute in E'. injection E' as <-. eexists. split; reflexivity.
    + vm_compute in E. injection E as <-. cbn in Q1. injection Q1 as <-. cbn in Q2. discriminate.
  - vm_compute in E. injection E as <-. vm_compute in E'. discriminate.
Qed.
(** Without the last part. *)
Definition rinv (s : cstate) : Prop := (c_rdone s = true -> c_err s <> None) /\ (c_wdone s = true -> c_ready s = true) /\ (c_main s = MReaderDone -> c_err s <> None) /\
  (match c_main s with MFailReady | MFailWriter | MFailReader => c_err s <> None | _ => True end).
Lemma rinv_step idle s a s' : sig_inv s -> rinv s -> cact idle s a = Some s' -> rinv s'.
Proof.
  intros I J H. unfold sig_inv, rinv in *. ccases H; cproj; cbn [before_ready before_rdone before_spawn fail_path started P_Client.ended negb] in *;
    destruct I as (-> & E1 & I2 & I3 & I4 & I5 & E6); destruct J as (J1 & J2 & J3 & J4); subst; cbn [orb negb] in *;
    try (repeat split; auto; intros; try discriminate; auto; fail);
    repeat match goal with |- context [match ?x with _ => _ end] => destruct x end; cbn [c_main] in *;
    try (repeat split; auto; intros; try discriminate; auto; fail).
  all: specialize (I3 eq_refl); discriminate.
Qed.
Lemma reach_rinv sd max att p idle isctx l s q : 0 < max -> pool_does sd max att p idle isctx l s -> In q (ds_clients s) -> rinv (k_st q).
Proof.
  intros M H. enough (J : pinv max s /\ forall q, In q (ds_clients s) -> rinv (k_st q)) by (destruct J as [_ J]; apply J). revert H. unfold pool_does.
  apply (drun_inv sd max att p idle isctx (fun s => pinv max s /\ forall q, In q (ds_clients s) -> rinv (k_st q))).
  - clear s q. intros s a s' [I J] E. split; [exact (pinv_step _ _ _ _ _ _ M _ _ _ I E)|]. pose proof E as E0.
    assert (Rn : rinv (newClient sd)) by (destruct sd; repeat split; cbn; auto; discriminate).
    dcases E; auto.
    + destruct ex; [auto|]. intros q Hq. apply in_app_or in Hq as [Hq|[<-|[]]]; auto.
    + intros q0 Hq0. apply in_app_or in Hq0 as [Hq0|[<-|[]]]; auto.
    + destruct (client_shape _ _ _ _ _ _ _ _ _ _ _ _ E0 Hq Ha) as (Q1 & Q2 & _). rewrite Q2. intros q0 Hq0. apply in_set_nth in Hq0 as [->|Hq0]; [|auto]. cbn [k_st].
      apply (rinv_step idle (k_st q) aa st); [apply (pi_sig _ _ I q (nth_error_In _ _ Hq))|apply J, (nth_error_In _ _ Hq)|exact Ha].
  - split; [apply (pinv_start max)|intros q1 []].
Qed.
Theorem C70_partial sd max att p idle isctx l s i b s' k : 0 < max -> pool_does sd max att p idle isctx l s -> dstep sd max att p idle isctx s (DaSelect i b) = Some s' -> at_pc s' i (DOk k false) ->
  exists q, nth_error (ds_clients s) k = Some q /\ c_ready (k_st q) = true /\ c_err (k_st q) = None.
Proof.
  intros M H E (c' & Hc' & Pc'). cbn [dstep] in E. destruct (nth_error (ds_callers s) i) as [c|] eqn:Hi; [|discriminate]. destruct (d_pc c) as [| |n k1| | | | |] eqn:Pc; try discriminate.
  destruct (nth_error (ds_clients s) k1) as [q|] eqn:Hq; [|discriminate].
  destruct (match b with BCtx => d_cancelled c | BReady => c_ready (k_st q) | BReader => c_rdone (k_st q) | BWriter => c_wdone (k_st q) end) eqn:Hb; [|discriminate]. injection E as <-. dproj.
  rewrite (nth_error_set _ _ _ _ i Hi), Nat.eqb_refl in Hc'. injection Hc' as <-. cbn [d_pc] in Pc'. pose proof (reach_rinv _ _ _ _ _ _ _ _ q M H (nth_error_In _ _ Hq)) as (R1 & R2 & _).
  destruct b; try discriminate; destruct (c_err (k_st q)) eqn:Er; try discriminate; injection Pc' as <-; exists q; (split; [exact Hq|]); (split; [|exact Er]).
  - exact Hb.
  - exfalso. exact (R1 Hb eq_refl).
  - exact (R2 Hb).
Qed.
Example C70_nonvacuous : exists s s', pool_does SideOutbound 1 1 0 0 (fun _ => false) [DaCall (adr 1); DaGet 0; DaClient 0 (AMain Fine); DaClient 0 (AMain Fine); DaClient 0 (AMain Fine)] s /\
  dstep SideOutbound 1 1 0 0 (fun _ => false) s (DaSelect 0 BReady) = Some s' /\ at_pc s' 0 (DOk 0 false).
Proof. eexists _, _. split; [vm_compute; reflexivity|]. split; [vm_compute; reflexivity|]. eexists. split; reflexivity. Qed.
Print Assumptions C70_refuted.
Print Assumptions C70_partial.

(** ** C52 *)

(** The steps of a node that do not depend on a peer, the network or other callers: a dial whose context is cancelled fails, a read on a closed
    connection fails, and everything else but dials, handshakes and reads. *)
Definition own_step (s : dstate) (a : dact) : bool :=
  match a with
  | DaCall _ | DaCancel _ => false
  | DaClient k (AMain o) =>
      match nth_error (ds_clients s) k with
      | Some q => match c_main (k_st q), o with
                  | MDial, Fails _ => cancelled s (k_ctx q)
                  | MHandshake, Fails _ | MRead, Fails _ => c_cclosed (k_st q)
                  | MDial, Fine | MHandshake, Fine | MRead, Fine => false
                  | _, _ => true
                  end
      | None => false
      end
  | _ => true
  end.
Fixpoint own_run (sd : cside) (max att p idle : nat) (isctx : nat -> bool) (s : dstate) (l : list dact) : option dstate :=
  match l with [] => Some s | a :: l' => if own_step s a then match dstep sd max att p idle isctx s a with Some s' => own_run sd max att p idle isctx s' l' | None => None end else None end.

(** A call whose context is cancelled while it is connecting returns without waiting for anybody else. *)
Definition C52_statement : Prop := forall sd max att p idle isctx l s i, 0 < max -> pool_does sd max att p idle isctx l s -> cancelled s i = true ->
  exists l' s', own_run sd max att p idle isctx s l' = Some s' /\ returned s' i.

Lemma own_inv sd max att p idle isctx (P : dstate -> Prop) : (forall s a s', P s -> own_step s a = true -> dstep sd max att p idle isctx s a = Some s' -> P s') ->
  forall l s s', P s -> own_run sd max att p idle isctx s l = Some s' -> P s'.
Proof.
  intros St. induction l as [|a l IH]; cbn [own_run]; intros s s' H R; [injection R as <-; exact H|].
  destruct (own_step s a) eqn:O; [|discriminate]. destruct (dstep sd max att p idle isctx s a) as [s1|] eqn:E; [|discriminate]. apply (IH s1 s'); [apply (St s a s1 H O E)|exact R].
Qed.
Lemma own_app sd max att p idle isctx l1 l2 : forall s, own_run sd max att p idle isctx s (l1 ++ l2) = match own_run sd max att p idle isctx s l1 with Some s' => own_run sd max att p idle isctx s' l2 | None => None end.
Proof. induction l1 as [|a l1 IH]; intros s; cbn [own_run app]; [reflexivity|]. destruct (own_step s a); [|reflexivity]. destruct (dstep sd max att p idle isctx s a); [apply IH|reflexivity]. Qed.

(** A call that has closed its client and waits for it to end. *)
Definition waits (s : dstate) (i k : nat) : Prop := exists n e, at_pc s i (DWait n k e).
(** The client's connection came up after close had run: nobody will close it. *)
Definition orphan (s : dstate) (k : nat) : Prop := exists q, nth_error (ds_clients s) k = Some q /\ c_once (k_st q) = 2 /\ c_conn (k_st q) = true /\ c_cclosed (k_st q) = false /\
  (c_main (k_st q) = MHandshake \/ c_main (k_st q) = MRead).
(** The client is dialling with the context of a call that is not cancelled. *)
Definition elsewhere (s : dstate) (k : nat) : Prop := exists q, nth_error (ds_clients s) k = Some q /\ c_main (k_st q) = MDial /\ cancelled s (k_ctx q) = false.

Lemma own_client idle st a st' : cact idle st a = Some st' -> c_once st = 2 -> (match a with AMain _ => False | _ => True end) -> c_once st' = 2 /\ c_conn st' = c_conn st /\ c_cclosed st' = c_cclosed st /\ c_main st' = c_main st.
Proof.
  intros H O N. destruct a as [o|o sp|m| | |e|]; [destruct N|..]; cbn [cact] in H.
  - unfold writer_step in H. destruct (c_wr st) as [ | | | |[|m0 lw]| | | | ]; try discriminate; 
      repeat match type of H with context [match ?x with _ => _ end] => match x with context [match _ with _ => _ end] => fail 1 | _ => destruct x eqn:? end; try discriminate H end; injection H as <-; auto.
  - injection H as <-. auto.
  - rewrite O in H. cbn in H. injection H as <-. auto.
  - rewrite O in H. cbn in H. discriminate.
  - injection H as <-. auto.
  - injection H as <-. auto.
Qed.
Lemma waits_step sd max att p idle isctx s a s' i k q : dstep sd max att p idle isctx s a = Some s' -> waits s i k -> nth_error (ds_clients s) k = Some q -> c_cdone (k_st q) = false -> waits s' i k.
Proof.
  intros E (n & e0 & c1 & Hc & Pc1) Hk Dk. pose proof E as E0.
  assert (Sel : forall j c0 x, nth_error (ds_callers s) j = Some c0 -> d_addr x = d_addr c0 -> (j = i -> d_pc x = DWait n k e0) -> exists n' e', exists c', nth_error (set_nth j x (ds_callers s)) i = Some c' /\ d_pc c' = DWait n' k e').
  { intros j c0 x Hj _ Hx. exists n, e0. rewrite (nth_error_set _ _ _ _ i Hj). destruct (Nat.eqb_spec i j) as [->|]; eauto. }
  unfold waits, at_pc. dcases E.
  - exists n, e0, c1. split; [apply nth_error_keep, Hc|exact Pc1].
  - apply (Sel j c); auto. intros ->. cbn. congruence.
  - apply (Sel j c); auto. intros ->. congruence.
  - apply (Sel j c); auto. intros ->. congruence.
  - apply (Sel j c); auto. intros ->. congruence.
  - apply (Sel j c); auto. intros ->. congruence.
  - apply (Sel j c); auto. intros ->. congruence.
  - apply (Sel j c); auto. intros ->. exfalso. assert (c1 = c) as -> by congruence. rewrite Pc in Pc1. injection Pc1 as -> -> ->. congruence.
  - apply (Sel j c); auto. intros ->. congruence.
  - apply (Sel j c); auto. intros ->. congruence.
  - destruct (client_shape _ _ _ _ _ _ _ _ _ _ _ _ E0 Hq Ha) as (Q1 & _). rewrite Q1. exists n, e0, c1. auto.
Qed.
Lemma clients_step sd max att p idle isctx s a s' k q : dstep sd max att p idle isctx s a = Some s' -> nth_error (ds_clients s) k = Some q ->
  nth_error (ds_clients s') k = Some q \/ exists aa st, a = DaClient k aa /\ cact idle (k_st q) aa = Some st /\ nth_error (ds_clients s') k = Some (mkK (k_addr q) (k_ctx q) st).
Proof.
  intros E Hk. pose proof E as E0. dcases E; auto.
  - destruct ex; [auto|]. left. apply nth_error_keep, Hk.
  - left. apply nth_error_keep, Hk.
  - destruct (client_shape _ _ _ _ _ _ _ _ _ _ _ _ E0 Hq Ha) as (_ & Q2 & _). rewrite Q2, (nth_error_set _ _ _ _ k Hq). destruct (Nat.eqb_spec k kk) as [->|]; [|auto]. right. assert (q0 = q) as -> by congruence. eauto.
Qed.

(** Waiting for such a client takes as long as the peer, or the other caller, likes. *)
Theorem C52_hangs sd max att p idle isctx l s i k l' s' : 0 < max -> pool_does sd max att p idle isctx l s -> waits s i k -> orphan s k -> own_run sd max att p idle isctx s l' = Some s' -> waits s' i k /\ orphan s' k.
Proof.
  intros M H W O R. pose proof (reach_pinv _ _ _ _ _ _ _ _ M H) as I. cut (pinv max s' /\ waits s' i k /\ orphan s' k); [tauto|]. revert R.
  apply (own_inv sd max att p idle isctx (fun t => pinv max t /\ waits t i k /\ orphan t k)); [|auto]. clear s s' l l' H W O I.
  intros s a s' (I & W & (q & Hk & O1 & O2 & O3 & O4)) Ow E. split; [exact (pinv_step _ _ _ _ _ _ M _ _ _ I E)|].
  assert (Dk : c_cdone (k_st q) = false) by (destruct (pi_sig _ _ I q (nth_error_In _ _ Hk)) as [(_ & _ & _ & _ & _ & _ & ->) _]; destruct O4 as [-> | ->]; reflexivity).
  split; [exact (waits_step _ _ _ _ _ _ _ _ _ _ _ _ E W Hk Dk)|]. destruct (clients_step _ _ _ _ _ _ _ _ _ _ _ E Hk) as [X|(aa & st & -> & Ha & X)]; [exists q; auto|].
  exists (mkK (k_addr q) (k_ctx q) st). split; [exact X|]. cbn [k_st]. assert (Na : match aa with AMain _ => False | _ => True end).
  { destruct aa as [o| | | | | |]; auto. cbn [own_step] in Ow. rewrite Hk in Ow. destruct O4 as [O4|O4]; rewrite O4 in Ow; destruct o; congruence. }
  destruct (own_client _ _ _ _ Ha O1 Na) as (X1 & X2 & X3 & X4). rewrite X2, X3, X4. auto.
Qed.
Theorem C52_hangs_elsewhere sd max att p idle isctx l s i k l' s' : 0 < max -> pool_does sd max att p idle isctx l s -> waits s i k -> elsewhere s k -> own_run sd max att p idle isctx s l' = Some s' -> waits s' i k /\ elsewhere s' k.
Proof.
  intros M H W O R. pose proof (reach_pinv _ _ _ _ _ _ _ _ M H) as I. pose proof (reach_ainv _ _ _ _ _ _ _ _ H) as Ia.
  cut (pinv max s' /\ ainv att p s' /\ waits s' i k /\ elsewhere s' k); [tauto|]. revert R.
  apply (own_inv sd max att p idle isctx (fun t => pinv max t /\ ainv att p t /\ waits t i k /\ elsewhere t k)); [|auto]. clear s s' l l' H W O I Ia.
  intros s a s' (I & Ia & W & (q & Hk & O1 & O2)) Ow E. split; [exact (pinv_step _ _ _ _ _ _ M _ _ _ I E)|]. split; [exact (ainv_step _ _ _ _ _ _ _ _ _ Ia E)|].
  assert (Dk : c_cdone (k_st q) = false) by (destruct (pi_sig _ _ I q (nth_error_In _ _ Hk)) as [(_ & _ & _ & _ & _ & _ & ->) _]; rewrite O1; reflexivity).
  split; [exact (waits_step _ _ _ _ _ _ _ _ _ _ _ _ E W Hk Dk)|].
  assert (Cn : cancelled s' (k_ctx q) = false).
  { unfold cancelled in *. assert (Ex : exists c, nth_error (ds_callers s) (k_ctx q) = Some c).
    { destruct (nth_error (ds_callers s) (k_ctx q)) as [c|] eqn:N; [eauto|exfalso]. apply nth_error_None in N. destruct (ai_new _ _ _ Ia _ N) as (_ & Z & _). unfold dials in Z. rewrite cntb_filter in Z.
      pose proof (cntb_pos (fun q0 => k_ctx q0 =? k_ctx q) _ _ (nth_error_In _ _ Hk) (Nat.eqb_refl _)). lia. }
    destruct Ex as (c0 & Hc0). rewrite Hc0 in O2. pose proof E as E0. clear - E E0 Hc0 O2 Ow. dcases E; try discriminate Ow;
      try (rewrite (nth_error_set _ _ _ _ (k_ctx q) Hi); destruct (Nat.eqb_spec (k_ctx q) j) as [Ej|]; [cbn; rewrite Ej in Hc0; congruence|rewrite Hc0; exact O2]).
    destruct (client_shape _ _ _ _ _ _ _ _ _ _ _ _ E0 Hq Ha) as (Q1 & _). rewrite Q1, Hc0. exact O2. }
  destruct (clients_step _ _ _ _ _ _ _ _ _ _ _ E Hk) as [X|(aa & st & -> & Ha & X)]; [exists q; auto|].
  exists (mkK (k_addr q) (k_ctx q) st). split; [exact X|]. cbn [k_st k_ctx]. split; [|exact Cn].
  destruct aa as [o|o sp|m| | |e|]; cbn [cact] in Ha.
  - exfalso. cbn [own_step] in Ow. rewrite Hk, O1 in Ow. destruct o; congruence.
  - unfold writer_step in Ha. destruct (c_wr (k_st q)) as [ | | | |[|m0 lw]| | | | ]; try discriminate; 
      repeat match type of Ha with context [match ?x with _ => _ end] => match x with context [match _ with _ => _ end] => fail 1 | _ => destruct x eqn:? end; try discriminate Ha end; injection Ha as <-; auto.
  - injection Ha as <-. auto.
  - injection Ha as <-. destruct (c_once (k_st q) =? 0); auto.
  - destruct (c_once (k_st q) =? 1); [|discriminate]. injection Ha as <-. auto.
  - injection Ha as <-. auto.
  - injection Ha as <-. auto.
Qed.

(** The context ends while the dial succeeds: close runs before the connection is stored. *)
Definition race : list dact := [DaCall (adr 1); DaGet 0; DaCancel 0; DaSelect 0 BCtx; DaClient 0 ACloseFlag; DaClient 0 ACloseConn; DaClose 0; DaClient 0 (AMain Fine)].
Theorem C52_refuted : ~ C52_statement.
Proof.
  intros H. destruct (drun SideOutbound 1 3 0 0 (fun _ => false) d_start race) as [s|] eqn:E; [|vm_compute in E; discriminate].
  assert (F : waits s 0 0 /\ orphan s 0 /\ cancelled s 0 = true).
  { vm_compute in E. injection E as <-. split; [eexists _, _, _; split; reflexivity|]. split; [|reflexivity]. eexists. split; [reflexivity|]. repeat split; auto. }
  destruct F as (W & O & C). destruct (H _ _ _ _ _ _ race s 0 (Nat.lt_0_succ 0) E C) as (l' & s' & R & (c & Hc & Pc)).
  destruct (C52_hangs _ _ _ _ _ _ race s 0 0 l' s' (Nat.lt_0_succ 0) E W O R) as ((n & e & c' & Hc' & Pc') & _). assert (c' = c) as -> by congruence. rewrite Pc' in Pc. exact Pc.
Qed.
(** Two calls for one address: the second is cancelled while the first one's dial is under way. *)
Example C52_elsewhere_nonvacuous : exists s, pool_does SideOutbound 1 3 0 0 (fun _ => false) [DaCall (adr 1); DaGet 0; DaCall (adr 1); DaGet 1; DaCancel 1; DaSelect 1 BCtx; DaClient 0 ACloseFlag; DaClient 0 ACloseConn; DaClose 1] s /\
  waits s 1 0 /\ elsewhere s 0 /\ cancelled s 1 = true.
Proof. eexists. split; [vm_compute; reflexivity|]. split; [eexists _, _, _; split; reflexivity|]. split; [|reflexivity]. eexists. split; [reflexivity|]. split; reflexivity. Qed.

(** *** Otherwise the call returns. *)

Definition rank (m : mpc) : nat :=
  match m with
  | MDial => 20 | MAccept => 19 | MHandshake => 18 | MReady => 17 | MCheck => 16 | MSpawn => 15 | MDispatch => 14 | MRead => 13 | MReaderDone => 12 | MClose => 11
  | MFailReady => 10 | MFailWriter => 9 | MFailReader => 8 | MAbort => 7 | MDisconnected => 6 | MRemove => 5 | MDone => 4 | MEnd => 0
  end.
(** The client can end on its own: close has run, and found the connection if the client is using one; a dial under way is cancelled. *)
Definition unblocked (s : dstate) (q : client) : Prop :=
  c_once (k_st q) = 2 /\
  match c_main (k_st q) with
  | MDial => cancelled s (k_ctx q) = true
  | MAccept | MHandshake | MReady | MCheck | MSpawn | MDispatch | MRead => c_cclosed (k_st q) = true
  | _ => True
  end.
Lemma drive sd max att p idle isctx : forall r s k q, 0 < max -> pinv max s -> ds_lock s = None -> nth_error (ds_clients s) k = Some q -> rank (c_main (k_st q)) <= r -> unblocked s q ->
  exists l s' q', own_run sd max att p idle isctx s l = Some s' /\ ds_callers s' = ds_callers s /\ ds_lock s' = None /\ nth_error (ds_clients s') k = Some q' /\ c_cdone (k_st q') = true.
Proof.
  induction r as [r IH] using lt_wf_ind. intros s k q M I Lk Hk Hr (U1 & U2).
  destruct (pi_sig _ _ I q (nth_error_In _ _ Hk)) as [(_ & _ & _ & _ & _ & _ & Sg) _].
  assert (D : c_main (k_st q) = MEnd \/ c_main (k_st q) <> MEnd) by (destruct (c_main (k_st q)); auto; right; discriminate). destruct D as [D|D].
  { exists [], s, q. cbn. rewrite Sg, D. auto. }
  assert (St : exists st, cact idle (k_st q) (AMain (Fails 0)) = Some st /\ rank (c_main st) < rank (c_main (k_st q)) /\ c_once st = 2 /\ c_cclosed st = c_cclosed (k_st q) /\
     (match c_main st with MDial => False | MAccept | MHandshake | MReady | MCheck | MSpawn | MDispatch | MRead => c_cclosed (k_st q) = true | _ => True end)).
  { cbn [cact]. unfold main_step. destruct (c_main (k_st q)) eqn:Mq; try (contradiction D; reflexivity); rewrite ?U1; cbn [Nat.eqb];
      try (eexists; split; [reflexivity|]; cbn; repeat split; auto; try lia; destruct (c_side (k_st q)); cbn; auto; lia).
    eexists. split; [reflexivity|]. cbn. repeat split; auto; destruct (c_err (k_st q)); cbn; auto; lia. }
  destruct St as (st & Ha & Rk & T1 & T2 & T3).
  assert (Ow : own_step s (DaClient k (AMain (Fails 0))) = true) by (cbn [own_step]; rewrite Hk; destruct (c_main (k_st q)); auto).
  assert (E : exists s1, dstep sd max att p idle isctx s (DaClient k (AMain (Fails 0))) = Some s1).
  { cbn [dstep]. rewrite Hk, Ha, Lk. destruct (c_main (k_st q)); eexists; reflexivity. }
  destruct E as (s1 & E). destruct (client_shape _ _ _ _ _ _ _ _ _ _ _ _ E Hk Ha) as (Q1 & Q2 & Q3 & _).
  assert (H1 : nth_error (ds_clients s1) k = Some (mkK (k_addr q) (k_ctx q) st)) by (rewrite Q2, (nth_error_set _ _ _ _ k Hk), Nat.eqb_refl; reflexivity).
  destruct (IH (rank (c_main st)) ltac:(lia) s1 k _ M (pinv_step _ _ _ _ _ _ M _ _ _ I E) ltac:(congruence) H1 (Nat.le_refl _)) as (l & s' & q' & R & X1 & X2 & X3 & X4).
  { unfold unblocked. cbn [k_st]. split; [exact T1|]. rewrite T2. destruct (c_main st); auto; contradiction. }
  exists (DaClient k (AMain (Fails 0)) :: l), s', q'. split; [cbn [own_run]; rewrite Ow, E; exact R|]. split; [congruence|auto].
Qed.

Lemma fail_all sd max att p idle isctx e : forall d s i c j, nth_error (ds_callers s) i = Some c -> d_pc c = DFail e j -> p - j = d -> exists l s', own_run sd max att p idle isctx s l = Some s' /\ at_pc s' i (DErr e).
Proof.
  induction d as [|d IH]; intros s i c j Hc Pc Ed.
  - eexists [DaFail i], _. cbn [own_run own_step dstep]. rewrite Hc, Pc. destruct (Nat.ltb_spec j p); [lia|]. split; [reflexivity|]. eexists. dproj. rewrite (nth_error_set _ _ _ _ i Hc), Nat.eqb_refl. split; reflexivity.
  - pose (s1 := mkDS (set_nth i (mkD (d_addr c) (DFail e (S j)) (d_cancelled c)) (ds_callers s)) (ds_clients s) (ds_pool s) (ds_lock s) (ds_gets s) (ds_failed s ++ [(i, j)]) (ds_late s)).
    destruct (IH s1 i (mkD (d_addr c) (DFail e (S j)) (d_cancelled c)) (S j)) as (l & s' & R & X); [unfold s1; dproj; rewrite (nth_error_set _ _ _ _ i Hc), Nat.eqb_refl; reflexivity|reflexivity|lia|].
    exists (DaFail i :: l), s'. split; [|exact X]. cbn [own_run own_step dstep]. rewrite Hc, Pc. destruct (Nat.ltb_spec j p); [|lia]. exact R.
Qed.

(** A client that dialled has its connection until it ends. *)
Definition wired (sd : cside) (st : cstate) : Prop :=
  c_side st = sd /\ match c_main st with MHandshake | MReady | MCheck | MSpawn | MDispatch | MRead => c_conn st = true | MAccept => c_side st = SideInbound | _ => True end.
Lemma wired_step idle si st a st' : wired si st -> cact idle st a = Some st' -> wired si st'.
Proof.
  intros [I J] H. unfold wired in *. ccases H; cproj; subst; try (split; [reflexivity|]; auto; fail);
    repeat match goal with |- context [match ?x with _ => _ end] => destruct x end; auto.
Qed.
Lemma reach_wired sd max att p idle isctx l s q : pool_does sd max att p idle isctx l s -> In q (ds_clients s) -> wired sd (k_st q).
Proof.
  intros H. revert q. revert H. unfold pool_does. apply (drun_inv sd max att p idle isctx (fun s => forall q, In q (ds_clients s) -> wired sd (k_st q))); [|intros q []].
  clear s. intros s a s' J E. pose proof E as E0. assert (Rn : wired sd (newClient sd)) by (destruct sd; split; cbn; auto).
  dcases E; auto.
  - destruct ex; [auto|]. intros q1 Hq1. apply in_app_or in Hq1 as [Hq1|[<-|[]]]; auto.
  - intros q1 Hq1. apply in_app_or in Hq1 as [Hq1|[<-|[]]]; auto.
  - destruct (client_shape _ _ _ _ _ _ _ _ _ _ _ _ E0 Hq Ha) as (Q1 & Q2 & _). rewrite Q2. intros q1 Hq1. apply in_set_nth in Hq1 as [->|Hq1]; [|auto]. cbn [k_st].
    apply (wired_step idle sd (k_st q) aa st); [apply J, (nth_error_In _ _ Hq)|exact Ha].
Qed.

(** C52, partly: the call is waiting in select, its context is cancelled, the pool is not blocked by an eviction (C38), and neither of the two obstacles is there:
    the client is not being dialled for another call that is still wanted, and close has not already missed the connection. *)
Theorem C52_partial max att p idle isctx l s i c n k q : 0 < max -> pool_does SideOutbound max att p idle isctx l s -> ds_lock s = None ->
  nth_error (ds_callers s) i = Some c -> d_pc c = DSelect n k -> d_cancelled c = true -> nth_error (ds_clients s) k = Some q ->
  ~ elsewhere s k -> (c_conn (k_st q) = true -> c_once (k_st q) = 2 -> c_cclosed (k_st q) = true) ->
  exists l' s', own_run SideOutbound max att p idle isctx s l' = Some s' /\ returned s' i.
Proof.
  set (sd := SideOutbound). intros M H Lk Hi Pc Ca Hk N0 N2. pose proof (reach_pinv _ _ _ _ _ _ _ _ M H) as I. pose proof (reach_wired _ _ _ _ _ _ _ _ q H (nth_error_In _ _ Hk)) as [Sd N3].
  assert (N1 : c_main (k_st q) = MDial -> cancelled s (k_ctx q) = true).
  { intros Mq. destruct (cancelled s (k_ctx q)) eqn:X; [reflexivity|]. exfalso. apply N0. exists q. auto. }
  destruct (dstep sd max att p idle isctx s (DaSelect i BCtx)) as [s1|] eqn:E1; [|cbn [dstep] in E1; rewrite Hi, Pc, Hk, Ca in E1; discriminate].
  pose proof (pinv_step _ _ _ _ _ _ M _ _ _ I E1) as I1. pose proof E1 as E1'. cbn [dstep] in E1'. rewrite Hi, Pc, Hk, Ca in E1'. injection E1' as E1'.
  set (c1 := mkD (d_addr c) (DClose n k ECtx) (d_cancelled c)) in *.
  assert (C1 : nth_error (ds_callers s1) i = Some c1) by (subst s1; dproj; rewrite (nth_error_set _ _ _ _ i Hi), Nat.eqb_refl; reflexivity).
  assert (K1 : nth_error (ds_clients s1) k = Some q) by (subst s1; exact Hk). assert (L1 : ds_lock s1 = None) by (subst s1; exact Lk).
  assert (Cc : forall j, cancelled s1 j = cancelled s j).
  { intros j. unfold cancelled. subst s1; dproj. rewrite (nth_error_set _ _ _ _ j Hi). destruct (Nat.eqb_spec j i) as [->|]; [rewrite Hi; reflexivity|reflexivity]. }
  (* close has run *)
  assert (Cl : exists l2 s2 q2, own_run sd max att p idle isctx s1 l2 = Some s2 /\ pinv max s2 /\ ds_callers s2 = ds_callers s1 /\ ds_lock s2 = None /\ nth_error (ds_clients s2) k = Some q2 /\ unblocked s2 q2).
  { destruct (pi_sig _ _ I q (nth_error_In _ _ Hk)) as [_ (O1 & _)].
    assert (Fin : forall t qt, ds_callers t = ds_callers s1 -> k_ctx qt = k_ctx q -> c_main (k_st qt) = c_main (k_st q) -> c_once (k_st qt) = 2 ->
       c_cclosed (k_st qt) = (if c_once (k_st q) =? 2 then c_cclosed (k_st q) else c_cclosed (k_st q) || c_conn (k_st q)) -> unblocked t qt).
    { intros t qt T1 T2 T3 T4 T5. split; [exact T4|]. rewrite T3, T5. assert (Ct : cancelled t (k_ctx qt) = cancelled s (k_ctx q)) by (rewrite <- Cc, T2; unfold cancelled; rewrite T1; reflexivity).
      destruct (c_main (k_st q)) eqn:Mq; auto; try (rewrite Ct; apply N1; reflexivity);
        try (rewrite Sd in N3; discriminate N3); (destruct (Nat.eqb_spec (c_once (k_st q)) 2) as [O2|O2]; [apply N2; auto; discriminate|rewrite N3; apply orb_true_r]). }
    assert (One : forall t qt, pinv max t -> nth_error (ds_clients t) k = Some qt -> ds_callers t = ds_callers s1 -> ds_lock t = None -> k_ctx qt = k_ctx q -> c_main (k_st qt) = c_main (k_st q) -> c_once (k_st qt) = 1 ->
       c_conn (k_st qt) = c_conn (k_st q) -> c_cclosed (k_st qt) = c_cclosed (k_st q) -> c_once (k_st q) <> 2 ->
       exists s2 q2, own_run sd max att p idle isctx t [DaClient k ACloseConn] = Some s2 /\ pinv max s2 /\ ds_callers s2 = ds_callers s1 /\ ds_lock s2 = None /\ nth_error (ds_clients s2) k = Some q2 /\ unblocked s2 q2).
    { intros t qt It Kt T1 T2 T3 T4 T5 T6 T7 T8. destruct (dstep sd max att p idle isctx t (DaClient k ACloseConn)) as [s2|] eqn:E2; [|cbn [dstep cact] in E2; rewrite Kt, T5 in E2; cbn in E2; destruct (c_main (k_st qt)); discriminate].
      assert (A2 : cact idle (k_st qt) ACloseConn = Some (close_conn (k_st qt))) by (cbn [cact]; rewrite T5; reflexivity).
      destruct (client_shape _ _ _ _ _ _ _ _ _ _ _ _ E2 Kt A2) as (Q1 & Q2 & Q3 & _). exists s2, (mkK (k_addr qt) (k_ctx qt) (close_conn (k_st qt))).
      split; [cbn [own_run own_step]; rewrite E2; reflexivity|]. split; [exact (pinv_step _ _ _ _ _ _ M _ _ _ It E2)|]. split; [congruence|]. split; [congruence|]. split; [rewrite Q2, (nth_error_set _ _ _ _ k Kt), Nat.eqb_refl; reflexivity|].
      apply Fin; [congruence|exact T3|exact T4|reflexivity|]. cbn. rewrite T6, T7. destruct (Nat.eqb_spec (c_once (k_st q)) 2); [contradiction|reflexivity]. }
    destruct (c_once (k_st q)) as [|[|[|o]]] eqn:Oq; [| | |lia].
    - destruct (dstep sd max att p idle isctx s1 (DaClient k ACloseFlag)) as [s2|] eqn:E2; [|cbn [dstep cact] in E2; rewrite K1 in E2; destruct (c_main (k_st q)); discriminate].
      assert (A2 : cact idle (k_st q) ACloseFlag = Some (close_flag (k_st q))) by (cbn [cact]; rewrite Oq; reflexivity).
      destruct (client_shape _ _ _ _ _ _ _ _ _ _ _ _ E2 K1 A2) as (Q1 & Q2 & Q3 & _).
      destruct (One s2 (mkK (k_addr q) (k_ctx q) (close_flag (k_st q)))) as (s3 & q3 & R3 & X); try reflexivity; try congruence; try discriminate.
      + exact (pinv_step _ _ _ _ _ _ M _ _ _ I1 E2).
      + rewrite Q2, (nth_error_set _ _ _ _ k K1), Nat.eqb_refl. reflexivity.
      + exists [DaClient k ACloseFlag; DaClient k ACloseConn], s3, q3. split; [|exact X]. change ([DaClient k ACloseFlag; DaClient k ACloseConn]) with ([DaClient k ACloseFlag] ++ [DaClient k ACloseConn]). rewrite own_app. cbn [own_run own_step] in R3 |- *. rewrite E2. exact R3.
    - destruct (One s1 q) as (s3 & q3 & R3 & X); try reflexivity; try congruence; try discriminate; try assumption. exists [DaClient k ACloseConn], s3, q3. auto.
    - exists [], s1, q. cbn [own_run]. split; [reflexivity|]. split; [exact I1|]. split; [reflexivity|]. split; [exact L1|]. split; [exact K1|]. apply Fin; try reflexivity. exact Oq. }
  destruct Cl as (l2 & s2 & q2 & R2 & I2 & C2 & L2 & K2 & U2). assert (B2 : nth_error (ds_callers s2) i = Some c1) by (rewrite C2; exact C1).
  destruct (dstep sd max att p idle isctx s2 (DaClose i)) as [s3|] eqn:E3; [|cbn [dstep] in E3; rewrite C2, C1 in E3; cbn [d_pc c1] in E3; rewrite K2, (proj1 U2) in E3; discriminate].
  pose proof (pinv_step _ _ _ _ _ _ M _ _ _ I2 E3) as I3. pose proof E3 as E3'. cbn [dstep] in E3'. rewrite C2, C1 in E3'. cbn [d_pc c1] in E3'. rewrite K2, (proj1 U2) in E3'. cbn [Nat.eqb] in E3'. injection E3' as E3'.
  set (c3 := mkD (d_addr c1) (DWait n k ECtx) (d_cancelled c1)) in *.
  assert (C3 : nth_error (ds_callers s3) i = Some c3) by (subst s3; dproj; rewrite (nth_error_set _ _ _ _ i B2), Nat.eqb_refl; reflexivity).
  assert (K3 : nth_error (ds_clients s3) k = Some q2) by (subst s3; exact K2).
  assert (U3 : unblocked s3 q2).
  { destruct U2 as [V1 V2]. split; [exact V1|]. destruct (c_main (k_st q2)); auto. unfold cancelled in *. subst s3; dproj. rewrite (nth_error_set _ _ _ _ (k_ctx q2) B2).
    destruct (Nat.eqb_spec (k_ctx q2) i) as [Ei|]; [exact Ca|exact V2]. }
  destruct (drive sd max att p idle isctx _ s3 k q2 M I3 ltac:(subst s3; exact L2) K3 (Nat.le_refl _) U3) as (l4 & s4 & q4 & R4 & C4 & L4 & K4 & D4).
  assert (B4 : nth_error (ds_callers s4) i = Some c3) by (rewrite C4; exact C3).
  destruct (dstep sd max att p idle isctx s4 (DaWait i)) as [s5|] eqn:E5; [|cbn [dstep] in E5; rewrite C4, C3 in E5; cbn [d_pc c3] in E5; rewrite K4, D4 in E5; discriminate].
  pose proof E5 as E5'. cbn [dstep] in E5'. rewrite C4, C3 in E5'. cbn [d_pc c3] in E5'. rewrite K4, D4 in E5'. injection E5' as E5'.
  assert (C5 : nth_error (ds_callers s5) i = Some (mkD (d_addr c3) (DFail ECtx 0) (d_cancelled c3))) by (subst s5; dproj; rewrite (nth_error_set _ _ _ _ i B4), Nat.eqb_refl; reflexivity).
  destruct (fail_all sd max att p idle isctx ECtx (p - 0) s5 i _ 0 C5 eq_refl eq_refl) as (l6 & s6 & R6 & (c6 & C6 & P6)).
  exists (DaSelect i BCtx :: l2 ++ DaClose i :: l4 ++ DaWait i :: l6), s6. split; [|exists c6; split; [exact C6|rewrite P6; exact Logic.I]].
  cbn [own_run own_step]. rewrite E1, own_app, R2. cbn [own_run own_step]. rewrite E3, own_app, R4. cbn [own_run own_step]. rewrite E5. exact R6.
Qed.
Example C52_nonvacuous : exists s q, pool_does SideOutbound 1 3 0 0 (fun _ => false) [DaCall (adr 1); DaGet 0; DaClient 0 (AMain Fine); DaCancel 0] s /\ at_pc s 0 (DSelect 0 0) /\ cancelled s 0 = true /\ ds_lock s = None /\
  nth_error (ds_clients s) 0 = Some q /\ c_main (k_st q) = MHandshake /\ c_conn (k_st q) = true /\ c_once (k_st q) = 0.
Proof. eexists _, _. split; [vm_compute; reflexivity|]. split; [eexists; split; reflexivity|]. repeat split; reflexivity. Qed.
Print Assumptions C52_hangs.
Print Assumptions C52_hangs_elsewhere.
Print Assumptions C52_refuted.
Print Assumptions C52_partial.
