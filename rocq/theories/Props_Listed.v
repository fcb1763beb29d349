(** * C111: Inbound and Outbound list the connections of a node *)
From Verif Require Import Base Spec M_Table P_Table P_Iter P_Gossip P_Conn M_Maps M_Client P_Client Props_Maps M_Dial P_Dial Props_Dial.
Local Open Scope nat_scope.

(** ** The claim *)

(** Inbound() or Outbound() can return: the pool's lock is free (map.go:87-88). *)
Definition can_list (s : dstate) : Prop := ds_lock s = None.
(** WaitUntilClosed on client [k] would block. *)
Definition open_client (s : dstate) (k : nat) : Prop := exists q, nth_error (ds_clients s) k = Some q /\ c_cdone (k_st q) = false.

(** A call of Inbound or Outbound can always come to return, and then it lists every client that has not been closed, once, and no other. *)
Definition C111_statement : Prop := forall sd max att p idle isctx l s, 0 < max -> pool_does sd max att p idle isctx l s ->
  (exists l' s', drun sd max att p idle isctx s l' = Some s' /\ can_list s') /\
  (can_list s -> NoDup (listed s) /\ forall e, In e (listed s) <-> exists k, e = Some k /\ open_client s k).

(** ** What holds *)

Lemma listed_facts max s : pinv max s -> NoDup (listed s) /\ length (listed s) <= max /\
  forall e, In e (listed s) <-> exists k q, e = Some k /\ nth_error (ds_clients s) k = Some q /\ past (k_st q) = false.
Proof.
  intros [(l & R & L & P) _ _ _]. unfold listed. rewrite (slice_repr _ _ R). split; [|split].
  - assert (N : NoDup l) by (exact (NoDup_map_inv fst l (cr_nodup _ _ R))).
    assert (F : forall a b k, In (a, k) l -> In (b, k) l -> a = b).
    { intros a b k Ha Hb. apply P in Ha as (q & Hq & <- & _). apply P in Hb as (q' & Hq' & <- & _). congruence. }
    clear R L P. induction l as [|[a k] l IH]; cbn [map snd]; [constructor|]. inversion N as [|? ? N1 N2]; subst. constructor.
    + intros H. apply in_map_iff in H as ([b j] & E & Hi). cbn in E. injection E as ->. apply N1. rewrite (F a b k (or_introl eq_refl) (or_intror Hi)). exact Hi.
    + apply IH; [exact N2|]. intros x y j Hx Hy. exact (F x y j (or_intror Hx) (or_intror Hy)).
  - rewrite map_length. exact L.
  - intros e. rewrite in_map_iff. split.
    + intros ([a k] & <- & Hi). apply P in Hi as (q & Hq & _ & Pq). exists k, q. auto.
    + intros (k & q & -> & Hq & Pq). exists (k_addr q, k). split; [reflexivity|]. apply P. exists q. auto.
Qed.

(** Whoever calls Inbound or Outbound and gets an answer: no client is listed twice, no entry is nil, at most [max] are listed; a listed client has not been
    closed; every client is listed until its goroutine has announced the disconnection and takes it out (client.go:204, 247). *)
Theorem C111_partial : forall sd max att p idle isctx l s, 0 < max -> pool_does sd max att p idle isctx l s -> can_list s ->
  NoDup (listed s) /\ length (listed s) <= max /\
  (forall e, In e (listed s) -> exists k, e = Some k /\ open_client s k) /\
  (forall k q, nth_error (ds_clients s) k = Some q -> active q -> In (Some k) (listed s)).
Proof.
  intros sd max att p idle isctx l s M H C. pose proof (reach_pinv _ _ _ _ _ _ _ _ M H) as I. destruct (listed_facts max s I) as (N & L & X).
  split; [exact N|]. split; [exact L|]. split.
  - intros e He. apply X in He as (k & q & -> & Hq & Pq). exists k. split; [reflexivity|]. exists q. split; [exact Hq|].
    destruct (pi_sig _ _ I q (nth_error_In _ _ Hq)) as [(_ & _ & _ & _ & _ & _ & E) _]. rewrite E. unfold past in Pq. destruct (c_main (k_st q)); auto; discriminate.
  - intros k q Hq (A1 & A2 & A3). apply X. exists k, q. split; [reflexivity|]. split; [exact Hq|]. unfold past. destruct (c_main (k_st q)); auto; congruence.
Qed.
Print Assumptions C111_partial.

(** Clients that have left the pool have left it for good. *)
Lemma past_stays sd max att p idle isctx k s a s' : dstep sd max att p idle isctx s a = Some s' ->
  (exists q, nth_error (ds_clients s) k = Some q /\ past (k_st q) = true) -> exists q, nth_error (ds_clients s') k = Some q /\ past (k_st q) = true.
Proof.
  intros E (q0 & Hq0 & Pq0). dcases E; try (exists q0; split; [first [exact Hq0|apply nth_error_keep, Hq0|destruct ex; [exact Hq0|apply nth_error_keep, Hq0]]|exact Pq0]; fail).
  assert (E0 : dstep sd max att p idle isctx s (DaClient kk aa) = Some s') by (cbn [dstep]; rewrite Hq, Ha; exact E). destruct (client_shape _ _ _ _ _ _ _ _ _ _ _ _ E0 Hq Ha) as (_ & Q2 & _).
  rewrite Q2, (nth_error_set _ _ _ _ k Hq). destruct (Nat.eqb_spec k kk) as [->|]; [|eauto]. eexists. split; [reflexivity|]. cbn [k_st].
  assert (q0 = q) as -> by congruence. destruct (past_step _ _ _ _ Ha) as [(M1 & _)|[M1 _]]; [unfold past in Pq0; rewrite M1 in Pq0; discriminate|congruence].
Qed.
(** A client that has been closed (WaitUntilClosed has returned) is never listed again, whatever happens. *)
Theorem C111_closed : forall sd max att p idle isctx l s k l' s', 0 < max -> pool_does sd max att p idle isctx l s -> ended s k ->
  drun sd max att p idle isctx s l' = Some s' -> ~ In (Some k) (listed s').
Proof.
  intros sd max att p idle isctx l s k l' s' M H (q & Hq & Eq) R Hi. pose proof (reach_pinv _ _ _ _ _ _ _ _ M H) as I.
  assert (Ps : exists q, nth_error (ds_clients s) k = Some q /\ past (k_st q) = true).
  { exists q. split; [exact Hq|]. destruct (pi_sig _ _ I q (nth_error_In _ _ Hq)) as [(_ & _ & _ & _ & _ & _ & E) _]. rewrite E in Eq. unfold past. destruct (c_main (k_st q)); auto; discriminate. }
  assert (J : exists q, nth_error (ds_clients s') k = Some q /\ past (k_st q) = true).
  { revert R. apply (drun_inv sd max att p idle isctx (fun t => exists q, nth_error (ds_clients t) k = Some q /\ past (k_st q) = true)); [|exact Ps].
    intros t a t' J E. exact (past_stays _ _ _ _ _ _ _ _ _ _ E J). }
  destruct J as (q1 & Hq1 & P1). destruct (listed_facts max s' (run_pinv _ _ _ _ _ _ _ _ _ M I R)) as (_ & _ & X). apply X in Hi as (k' & q' & E & Hq' & Pq). injection E as <-. congruence.
Qed.
Print Assumptions C111_closed.

(** Once a call evicts, calls of Inbound and Outbound (for that pool) never return. *)
Theorem C111_hangs : forall sd max att p idle isctx l s i v l' s', 0 < max -> pool_does sd max att p idle isctx l s -> evicts s i v ->
  drun sd max att p idle isctx s l' = Some s' -> ~ can_list s'.
Proof.
  intros sd max att p idle isctx l s i v l' s' M H V R C. destruct (C38_deadlock _ _ _ _ _ _ _ _ _ _ _ _ M H V R) as [(n & k & m & c & Hc & Pc) _].
  pose proof (run_pinv _ _ _ _ _ _ _ _ _ M (reach_pinv _ _ _ _ _ _ _ _ M H) R) as I. pose proof (pi_lock _ _ I i c Hc) as Lk. unfold evicting in Lk. rewrite Pc in Lk.
  unfold can_list in C. rewrite (Lk eq_refl) in C. discriminate.
Qed.
Print Assumptions C111_hangs.

Theorem C111_refuted : ~ C111_statement.
Proof.
  intros H. pose (l := [DaCall (adr 1); DaGet 0; DaCall (adr 2); DaGet 1]). destruct (drun SideOutbound 1 1 0 0 (fun _ => false) d_start l) as [s|] eqn:E; [|vm_compute in E; discriminate].
  assert (V : evicts s 1 0) by (vm_compute in E; injection E as <-; eexists _, _, _, _; split; reflexivity).
  destruct (H _ _ _ _ _ _ l s (Nat.lt_0_succ 0) E) as [(l' & s' & R & C) _]. exact (C111_hangs _ _ _ _ _ _ l s 1 0 l' s' (Nat.lt_0_succ 0) E V R C).
Qed.
Print Assumptions C111_refuted.

(** Three connections are accepted; the second breaks in the handshake and ends.  Two are listed, the most recent first. *)
Definition listed_run : list dact :=
  [DaCall (adr 1); DaGet 0; DaCall (adr 2); DaGet 1; DaCall (adr 3); DaGet 2] ++ repeat (DaClient 1 (AMain (Fails 7))) 4 ++
  [DaClient 1 ACloseFlag; DaClient 1 ACloseConn] ++ repeat (DaClient 1 (AMain Fine)) 3.
Example C111_nonvacuous : exists s, pool_does SideInbound 5 1 0 0 (fun _ => false) listed_run s /\ can_list s /\ ended s 1 /\
  listed s = [Some 2; Some 0] /\ exists q, nth_error (ds_clients s) 2 = Some q /\ active q.
Proof.
  destruct (drun SideInbound 5 1 0 0 (fun _ => false) d_start listed_run) as [s|] eqn:E; [|vm_compute in E; discriminate]. exists s. split; [exact E|].
  vm_compute in E. injection E as <-. split; [reflexivity|]. split; [eexists; split; reflexivity|]. split; [reflexivity|]. eexists. split; [reflexivity|]. repeat split; discriminate.
Qed.
Example C111_hangs_nonvacuous : exists s, pool_does SideInbound 2 1 0 0 (fun _ => false)
  [DaCall (adr 1); DaGet 0; DaCall (adr 2); DaGet 1; DaClient 0 (AMain Fine); DaClient 0 (AMain Fine); DaCall (adr 3); DaGet 2] s /\ evicts s 2 0.
Proof. eexists. split; [vm_compute; reflexivity|]. eexists _, _, _, _. split; reflexivity. Qed.
