(** * Nodes that have not called Listen, and accepted connections without a client (C76, C77). *)
From Verif Require Import P_Work.
From Verif Require Import Base Spec M_Table P_Table P_Iter P_Gossip P_Conn M_Maps M_Client P_Client Props_Maps M_Dial P_Dial Props_Dial M_Close P_Close Props_Close.
Local Open Scope nat_scope.

(** ** C76: messages from peers a node has dialled *)

(** The reader of the node's dialled client [k] has a message in hand. *)
Definition holding (s : nstate) (k : nat) : Prop := exists q, nth_error (ds_clients (nd_out s)) k = Some q /\ c_main (k_st q) = MDispatch.

(** node.go:454-459: handlers run every time the node receives a message from an inbound or outbound connection.  So a reader with a message in
    hand can get rid of it, in some continuation. *)
Definition C76_statement : Prop := forall w max att p idle isctx l s k, 0 < max -> 0 < w -> life w max att p idle isctx l s -> holding s k ->
  exists l' s', nrun w max att p idle isctx s l' = Some s' /\ ~ holding s' k.

Lemma cact_keeps idle s a s' : cact idle s a = Some s' -> is_main a = false -> c_main s' = c_main s.
Proof. intros H N. ccases H; cproj; try discriminate N; reflexivity. Qed.
Lemma holding_out max att p idle isctx k (d d' : dstate) da : dstep SideOutbound max att p idle isctx d da = Some d' ->
  (forall q, nth_error (ds_clients d) k = Some q -> forall a, da = DaClient k a -> is_main a = false) ->
  (exists q, nth_error (ds_clients d) k = Some q /\ c_main (k_st q) = MDispatch) -> exists q, nth_error (ds_clients d') k = Some q /\ c_main (k_st q) = MDispatch.
Proof.
  intros E N (q & Hq & Mq). destruct da as [ca|cj|gi|gi|si b|xi|xi|fi|gk ga].
  9:{ destruct (nth_error (ds_clients d) gk) as [q0|] eqn:H0; [|cbn [dstep] in E; rewrite H0 in E; discriminate].
      destruct (cact idle (k_st q0) ga) as [st|] eqn:Ha; [|cbn [dstep] in E; rewrite H0, Ha in E; discriminate].
      destruct (client_shape _ _ _ _ _ _ _ _ _ _ _ _ E H0 Ha) as (_ & Q2 & _). rewrite Q2, (nth_error_set _ _ _ _ k H0). destruct (Nat.eqb_spec k gk) as [->|]; [|eauto].
      eexists. split; [reflexivity|]. cbn [k_st]. rewrite H0 in Hq. injection Hq as ->. rewrite (cact_keeps _ _ _ _ Ha (N q H0 ga eq_refl)). exact Mq. }
  all: enough (X : exists x, ds_clients d' = ds_clients d ++ x) by (destruct X as (x & ->); exists q; split; [rewrite nth_error_app1; [exact Hq|apply nth_error_Some; congruence]|exact Mq]).
  all: cbn [dstep] in E; unfold set_pc in E;
    repeat match type of E with context [match ?x with _ => _ end] => match x with context [match _ with _ => _ end] => fail 1 | _ => destruct x eqn:? end; try discriminate E end;
    injection E as <-; cbn [ds_clients]; first [eexists; reflexivity | exists []; rewrite app_nil_r; reflexivity].
Qed.

Section Stuck.
Variables (w max att p idle : nat) (isctx : nat -> bool).
Notation nstep := (nstep w max att p idle isctx).
Notation nrun := (nrun w max att p idle isctx).

Definition stuck_inv (s : nstate) : Prop := forall k, In k (nd_stuck s) -> holding s k.
Lemma stuck_step s a s' : stuck_inv s -> nstep s a = Some s' -> stuck_inv s' /\ forall k, In k (nd_stuck s) -> In k (nd_stuck s').
Proof.
  intros I E. assert (K : (forall k, In k (nd_stuck s') -> In k (nd_stuck s) \/ holding s k /\ nd_out s' = nd_out s) /\ forall k, In k (nd_stuck s) -> In k (nd_stuck s')).
  { clear I. ncases E; auto.
    split; [|cbn; auto]. intros k [<-|X]; [|auto]. right. split; [|reflexivity]. unfold handing in Hd. unfold holding.
    destruct (nth_error (ds_clients (nd_out s)) gk) as [q|] eqn:Hq; [|destruct ga as [[|]| | | | | |]; discriminate]. exists q. split; [reflexivity|].
    destruct (c_main (k_st q)); try reflexivity; destruct ga as [[|]| | | | | |]; discriminate. }
  destruct K as (K1 & K2). split; [|exact K2]. intros k X.
  assert (H : holding s k) by (destruct (K1 k X) as [Y|(Y & _)]; auto).
  destruct (K1 k X) as [Y|(_ & Y)]; [|unfold holding; rewrite Y; exact H]. clear K1 K2.
  unfold holding in *. destruct (proj2 (moves _ _ _ _ _ _ _ _ _ E)) as [->|(da & -> & St)]; [exact H|].
  eapply holding_out; [exact St| |exact H]. intros q _ a ->. unfold M_Close.nstep in E. destruct (nd_panic s); [discriminate|]. rewrite St in E.
  destruct (is_main a) eqn:Mn; [|reflexivity]. exfalso. cbn [andb] in E. replace (existsb (Nat.eqb k) (nd_stuck s)) with true in E; [discriminate|].
  symmetry. apply existsb_exists. exists k. split; [exact Y|apply Nat.eqb_refl].
Qed.
Lemma stuck_reach l s : life w max att p idle isctx l s -> stuck_inv s.
Proof. intros R. apply (nrun_inv w max att p idle isctx stuck_inv) with (l := l) (s := n_start); [intros x a y I E; apply (stuck_step x a y I E)|intros k []|exact R]. Qed.
End Stuck.

(** A reader that met the node's missing work channel is stuck with its message for good, also if Listen is called later: it reads nothing any
    more, no response either, and its client never ends. *)
Theorem C76_stuck w max att p idle isctx l s k l' s' : life w max att p idle isctx l s -> In k (nd_stuck s) -> nrun w max att p idle isctx s l' = Some s' ->
  exists q, nth_error (ds_clients (nd_out s')) k = Some q /\ c_main (k_st q) = MDispatch /\ (0 < max -> c_cdone (k_st q) = false /\ c_rdone (k_st q) = false).
Proof.
  intros R Hk R'.
  assert (X : stuck_inv s' /\ In k (nd_stuck s')).
  { apply (nrun_inv w max att p idle isctx (fun x => stuck_inv x /\ In k (nd_stuck x))) with (l := l') (s := s); [|split; [exact (stuck_reach _ _ _ _ _ _ _ _ R)|exact Hk]|exact R'].
    intros x a y (I & J) E. destruct (stuck_step _ _ _ _ _ _ x a y I E) as (I' & J'). auto. }
  destruct X as (I & J). destruct (I k J) as (q & Hq & Mq). exists q. split; [exact Hq|]. split; [exact Mq|]. intros Mx.
  pose proof (reach_ninv w max att p idle isctx (l ++ l') s' Mx) as N. unfold life in N, R. rewrite nrun_app, R in N. specialize (N R').
  destruct (pi_sig _ _ (ni_out _ _ N) q (nth_error_In _ _ Hq)) as [(_ & _ & B & _ & _ & _ & D) _]. rewrite Mq in B, D. split; [exact D|exact (B eq_refl)].
Qed.

Lemma stuck_made w max att p idle isctx s l s' : nd_made s = true -> nrun w max att p idle isctx s l = Some s' -> nd_made s' = true /\ nd_stuck s' = nd_stuck s.
Proof.
  intros M. apply (nrun_inv w max att p idle isctx (fun x => nd_made x = true /\ nd_stuck x = nd_stuck s)); [|auto].
  intros x a y (I & J) E. clear M. ncases E; auto. congruence.
Qed.
Lemma listen_made w max att p idle isctx l s : life w max att p idle isctx l s -> In NaListen l -> nd_made s = true.
Proof.
  unfold life. intros R H. apply in_split in H. destruct H as (l1 & l2 & ->). rewrite nrun_app in R. destruct (nrun w max att p idle isctx n_start l1) as [s1|]; [|discriminate].
  cbn [M_Close.nrun] in R. destruct (nstep w max att p idle isctx s1 NaListen) as [s2|] eqn:E; [|discriminate]. refine (proj1 (stuck_made _ _ _ _ _ _ _ _ _ _ R)).
  unfold M_Close.nstep in E. destruct (nd_panic s1); [discriminate|]. destruct (nd_lst s1); try discriminate. injection E as <-. reflexivity.
Qed.

(** A node that dials and has not called Listen: the reader of the dialled client is blocked by the first message that is no response. *)
Definition unheard : list nact := dialled ++ [NaOut (DaClient 0 (AMain Fine)); NaOut (DaClient 0 (AMain Fine))].
Example C76_stuck_nonvacuous : exists s s', life 4 4 3 0 0 (fun _ => false) unheard s /\ In 0 (nd_stuck s) /\
  (* Listen is called, and the client is closed *)
  nrun 4 4 3 0 0 (fun _ => false) s [NaListen; NaStore; NaOut (DaClient 0 ACloseFlag); NaOut (DaClient 0 ACloseConn)] = Some s' /\ In 0 (nd_stuck s').
Proof. eexists. eexists. split; [vm_compute; reflexivity|]. split; [left; reflexivity|]. split; [vm_compute; reflexivity|vm_compute; auto]. Qed.

Theorem C76_refuted : ~ C76_statement.
Proof.
  intros H. destruct C76_stuck_nonvacuous as (s & _ & R & Hk & _). assert (Hh : holding s 0) by exact (stuck_reach _ _ _ _ _ _ _ _ R 0 Hk).
  destruct (H 4 4 3 0 0 (fun _ => false) unheard s 0 ltac:(lia) ltac:(lia) R Hh) as (l' & s' & R' & N). apply N.
  destruct (C76_stuck _ _ _ _ _ _ _ _ _ _ _ R Hk R') as (q & Hq & Mq & _). exists q. auto.
Qed.

(** What holds: once Listen has been called no further reader gets stuck like this, and one that is not stuck hands its message to the workers
    whenever their queue has room. *)
Theorem C76_partial w max att p idle isctx l s : life w max att p idle isctx l s -> In NaListen l ->
  (forall l' s', nrun w max att p idle isctx s l' = Some s' -> nd_stuck s' = nd_stuck s) /\
  (forall k, holding s k -> ~ In k (nd_stuck s) -> nd_panic s = false -> nd_wclosed s = false -> length (nd_queue s) < w ->
     exists s', nstep w max att p idle isctx s (NaOut (DaClient k (AMain Fine))) = Some s' /\ nd_queue s' = nd_queue s ++ [(SideOutbound, k)] /\ ~ holding s' k).
Proof.
  intros R HL. pose proof (listen_made _ _ _ _ _ _ _ _ R HL) as Md. split; [intros l' s' R'; exact (proj2 (stuck_made _ _ _ _ _ _ _ _ _ Md R'))|].
  intros k (q & Hq & Mq) Ns Pn Wc Q.
  assert (Ha : exists st, cact idle (k_st q) (AMain Fine) = Some st /\ c_main st = MRead) by (unfold cact, main_step; rewrite Mq; eauto). destruct Ha as (st & Ha & Ms).
  eexists. unfold M_Close.nstep. rewrite Pn. cbn [dstep]. rewrite Hq, Ha, Mq. cbn [is_main andb].
  assert (existsb (Nat.eqb k) (nd_stuck s) = false) as -> by (apply Bool.not_true_is_false; rewrite existsb_exists; intros (x & X & Y); apply Nat.eqb_eq in Y; subst; auto).
  assert (handing (nd_out s) k (AMain Fine) = true) as -> by (unfold handing; rewrite Hq, Mq; reflexivity). rewrite Md, Wc. cbn [negb]. rewrite (proj2 (Nat.ltb_lt _ _) Q).
  split; [reflexivity|]. split; [reflexivity|]. intros (q' & Hq' & Mq'). cbn [nd_out set_queue set_out ds_clients] in Hq'. rewrite (nth_error_set _ _ _ _ k Hq), Nat.eqb_refl in Hq'. injection Hq' as <-. cbn [k_st] in Mq'. congruence.
Qed.
Example C76_partial_nonvacuous : exists s, life 4 4 3 0 0 (fun _ => false) ([NaListen; NaStore] ++ dialled ++ [NaOut (DaClient 0 (AMain Fine))]) s /\ holding s 0 /\ nd_stuck s = [] /\ nd_panic s = false /\ nd_wclosed s = false /\ nd_queue s = [].
Proof. eexists. split; [vm_compute; reflexivity|]. split; [eexists; split; vm_compute; reflexivity|]. vm_compute. auto. Qed.

(** ** C77: accepted connections *)

(** The node accepts connections, handing each to a client that its inbound pool gives (node.go:226-231): call [i] of the pool's get is for the
    [i]-th connection, and the client created by that call has the connection as its own. *)
Definition serves (s : dstate) (k i : nat) : Prop := exists q, nth_error (ds_clients s) k = Some q /\ k_ctx q = i.
(** Every accepted connection whose accepting is finished has a client that serves it. *)
Definition C77_statement : Prop := forall max idle isctx l s i c k e, 0 < max -> pool_does SideInbound max 1 0 idle isctx l s ->
  nth_error (ds_callers s) i = Some c -> d_pc c = DOk k e -> serves s k i.

Definition cinv (s : dstate) : Prop :=
  (forall i c, nth_error (ds_callers s) i = Some c ->
     match d_pc c with
     | DLoop _ => forall k, ~ serves s k i
     | DEvict _ k _ _ => k = length (ds_clients s) /\ forall k, ~ serves s k i
     | DOk k e => (exists q, nth_error (ds_clients s) k = Some q /\ k_addr q = d_addr c) /\ forall k', serves s k' i <-> (k' = k /\ e = false)
     | _ => False
     end) /\
  (forall k q, nth_error (ds_clients s) k = Some q -> exists c, nth_error (ds_callers s) (k_ctx q) = Some c /\ d_addr c = k_addr q).

Lemma serves_snoc s s' a i st : ds_clients s' = ds_clients s ++ [mkK a i st] -> forall k j, serves s' k j <-> serves s k j \/ (k = length (ds_clients s) /\ j = i).
Proof.
  intros E k j. unfold serves. rewrite E. split.
  - intros (q & Hq & Cq). apply nth_error_snoc in Hq as [Hq|[-> ->]]; [left; eauto|right; auto].
  - intros [(q & Hq & Cq)|(-> & ->)]; [exists q; split; [apply nth_error_keep, Hq|exact Cq]|]. eexists. split; [rewrite nth_error_app2, Nat.sub_diag by lia; reflexivity|reflexivity].
Qed.
Lemma serves_same s s' : ds_clients s' = ds_clients s -> forall k j, serves s' k j <-> serves s k j.
Proof. intros E k j. unfold serves. rewrite E. reflexivity. Qed.
Lemma serves_set s s' k0 q st : nth_error (ds_clients s) k0 = Some q -> ds_clients s' = set_nth k0 (mkK (k_addr q) (k_ctx q) st) (ds_clients s) -> forall k j, serves s' k j <-> serves s k j.
Proof.
  intros Hq E k j. unfold serves. rewrite E. rewrite (nth_error_set _ _ _ _ k Hq). destruct (Nat.eqb_spec k k0) as [->|]; [|reflexivity]. rewrite Hq.
  split; intros (q' & X & Y); injection X as <-; eexists; (split; [reflexivity|exact Y]).
Qed.
(** A caller whose address stays moves: the clients' callers remain. *)
Lemma cinv_ctx (s : dstate) i c c' : nth_error (ds_callers s) i = Some c -> d_addr c' = d_addr c ->
  (forall k q, nth_error (ds_clients s) k = Some q -> exists c, nth_error (ds_callers s) (k_ctx q) = Some c /\ d_addr c = k_addr q) ->
  forall k q, nth_error (ds_clients s) k = Some q -> exists c, nth_error (set_nth i c' (ds_callers s)) (k_ctx q) = Some c /\ d_addr c = k_addr q.
Proof.
  intros Hi A H k q Hq. destruct (H k q Hq) as (c1 & H1 & A1). rewrite (nth_error_set _ _ _ _ (k_ctx q) Hi). destruct (Nat.eqb_spec (k_ctx q) i) as [E|]; [|eauto].
  rewrite E, Hi in H1. injection H1 as ->. exists c'. split; [reflexivity|congruence].
Qed.

Lemma cinv_step max att p idle isctx s a s' : 0 < max -> pinv max s -> cinv s -> dstep SideInbound max att p idle isctx s a = Some s' -> cinv s'.
Proof.
  intros Mx P (I1 & I2) E. pose proof E as E0. destruct a as [ad|i|i|i|i b|i|i|i|k a].
  9:{ destruct (nth_error (ds_clients s) k) as [q0|] eqn:H0; [|cbn [dstep] in E; rewrite H0 in E; discriminate].
      destruct (cact idle (k_st q0) a) as [st|] eqn:Ha; [|cbn [dstep] in E; rewrite H0, Ha in E; discriminate].
      destruct (client_shape _ _ _ _ _ _ _ _ _ _ _ _ E H0 Ha) as (Q1 & Q2 & _). pose proof (serves_set _ _ _ _ _ H0 Q2) as Sv. split.
      - intros i c Hi. rewrite Q1 in Hi. specialize (I1 i c Hi). destruct (d_pc c); auto.
        + intros x Hx. apply Sv in Hx. exact (I1 x Hx).
        + destruct I1 as (-> & I1). split; [rewrite Q2, set_nth_length; reflexivity|]. intros x Hx. apply Sv in Hx. exact (I1 x Hx).
        + destruct I1 as ((q & Hq & Aq) & I1). split; [|intros k'; rewrite Sv; apply I1]. rewrite Q2, (nth_error_set _ _ _ _ _ H0). destruct (Nat.eqb_spec k0 k) as [->|]; [|eauto].
          eexists. split; [reflexivity|]. cbn [k_addr]. congruence.
      - intros k' q' Hq'. rewrite Q1. rewrite Q2, (nth_error_set _ _ _ _ _ H0) in Hq'. destruct (Nat.eqb_spec k' k) as [->|]; [|eauto]. injection Hq' as <-. cbn [k_ctx k_addr]. eauto. }
  all: cbn [dstep] in E.
  - injection E as <-. split; dproj.
    + intros i c Hi. apply nth_error_snoc in Hi as [Hi|[-> ->]]; [exact (I1 i c Hi)|]. cbn [d_pc]. intros k (q & Hq & Cq). cbn [ds_clients] in Hq. destruct (I2 k q Hq) as (c & Hc & _).
      rewrite Cq in Hc. assert (length (ds_callers s) < length (ds_callers s)) by (apply nth_error_Some; congruence). lia.
    + intros k q Hq. destruct (I2 k q Hq) as (c & Hc & Ac). exists c. split; [apply nth_error_keep, Hc|exact Ac].
  - destruct (nth_error (ds_callers s) i) as [c|] eqn:Hi; [|discriminate]. injection E as <-. split; dproj.
    + intros j c1 H1. rewrite (nth_error_set _ _ _ _ j Hi) in H1. destruct (Nat.eqb_spec j i) as [->|]; [injection H1 as <-; cbn [d_pc d_addr]; exact (I1 i c Hi)|exact (I1 j c1 H1)].
    + apply (cinv_ctx s i c _ Hi); [reflexivity|exact I2].
  - destruct (nth_error (ds_callers s) i) as [c|] eqn:Hi; [|discriminate]. pose proof (I1 i c Hi) as Ii. destruct (d_pc c) as [n| | | | | | |] eqn:Pc; try discriminate. destruct (n <? att); [|discriminate]. destruct (ds_lock s) as [o|] eqn:Lk; [discriminate|].
    assert (Ne : forall j c1, nth_error (ds_callers s) j = Some c1 -> evicting c1 = false) by (intros j c1 H1; destruct (evicting c1) eqn:Ev; [pose proof (pi_lock _ _ P j c1 H1 Ev); congruence|reflexivity]).
    destruct (fetch_ok SideInbound max idle isctx Mx s (d_addr c) P) as (m & k & ex & ev & F & X). rewrite F in E. destruct ev as [v|].
    + destruct X as (-> & -> & _). injection E as <-. split; dproj; [|apply (cinv_ctx s i c _ Hi); [reflexivity|exact I2]].
      intros j c1 H1. rewrite (nth_error_set _ _ _ _ j Hi) in H1. destruct (Nat.eqb_spec j i) as [->|]; [injection H1 as <-; cbn [d_pc d_addr]; auto|exact (I1 j c1 H1)].
    + injection E as <-. cbn [got]. destruct X as [_ X]. destruct ex; dproj.
      * split; dproj; [|apply (cinv_ctx s i c _ Hi); [reflexivity|exact I2]].
        intros j c1 H1. rewrite (nth_error_set _ _ _ _ j Hi) in H1. destruct (Nat.eqb_spec j i) as [->|]; [injection H1 as <-; cbn [d_pc d_addr]|exact (I1 j c1 H1)].
        destruct X as (q & Hq & Aq & _). split; [eauto|]. intros k'. split; [intros Y; destruct (Ii k' Y)|intros (_ & Y); discriminate].
      * destruct X as [-> _]. match goal with |- cinv ?t => pose proof (serves_snoc s t _ _ _ eq_refl) as Sv end. split; dproj.
        -- intros j c1 H1. rewrite (nth_error_set _ _ _ _ j Hi) in H1. destruct (Nat.eqb_spec j i) as [->|Nj].
           ++ injection H1 as <-. cbn [d_pc d_addr]. split; [eexists; split; [rewrite nth_error_app2, Nat.sub_diag by lia; reflexivity|reflexivity]|].
              intros k'. rewrite Sv. split; [intros [Y|(-> & _)]; [destruct (Ii k' Y)|auto]|intros (-> & _); auto].
           ++ specialize (I1 j c1 H1). specialize (Ne j c1 H1). unfold evicting in Ne. destruct (d_pc c1); try discriminate Ne; auto.
              ** intros k' Y. apply Sv in Y as [Y|(_ & Y)]; [exact (I1 k' Y)|congruence].
              ** destruct I1 as ((q & Hq & Aq) & I1). split; [exists q; split; [apply nth_error_keep, Hq|exact Aq]|]. intros k'. rewrite Sv, I1. intuition congruence.
        -- intros k' q' Hq'. apply nth_error_snoc in Hq' as [Hq'|[-> ->]]; [refine (cinv_ctx s i c _ Hi _ I2 k' q' Hq'); reflexivity|]. cbn [k_ctx k_addr]. rewrite (nth_error_set _ _ _ _ i Hi), Nat.eqb_refl. eexists. split; reflexivity.
  - destruct (nth_error (ds_callers s) i) as [c|] eqn:Hi; [|discriminate]. pose proof (I1 i c Hi) as Ii. destruct (d_pc c) as [|n k v m| | | | | |] eqn:Pc; try discriminate.
    destruct (nth_error (ds_clients s) v) as [qv|]; [|discriminate]. destruct ((c_once (k_st qv) =? 2) && c_cdone (k_st qv)); [|discriminate]. injection E as <-. destruct Ii as (-> & Ii). cbn [got].
    assert (Ne : forall j c1, nth_error (ds_callers s) j = Some c1 -> j <> i -> evicting c1 = false).
    { intros j c1 H1 Nj. destruct (evicting c1) eqn:Ev; [|reflexivity]. pose proof (pi_lock _ _ P j c1 H1 Ev) as A. pose proof (pi_lock _ _ P i c Hi) as B. unfold evicting in B. rewrite Pc in B. specialize (B eq_refl). congruence. }
    match goal with |- cinv ?t => pose proof (serves_snoc s t _ _ _ eq_refl) as Sv end. split; dproj.
    + intros j c1 H1. rewrite (nth_error_set _ _ _ _ j Hi) in H1. destruct (Nat.eqb_spec j i) as [->|Nj].
      * injection H1 as <-. cbn [d_pc d_addr]. split; [eexists; split; [rewrite nth_error_app2, Nat.sub_diag by lia; reflexivity|reflexivity]|].
        intros k'. rewrite Sv. split; [intros [Y|(-> & _)]; [destruct (Ii k' Y)|auto]|intros (-> & _); auto].
      * specialize (I1 j c1 H1). specialize (Ne j c1 H1 Nj). unfold evicting in Ne. destruct (d_pc c1); try discriminate Ne; auto.
        -- intros k' Y. apply Sv in Y as [Y|(_ & Y)]; [exact (I1 k' Y)|congruence].
        -- destruct I1 as ((q & Hq & Aq) & I1). split; [exists q; split; [apply nth_error_keep, Hq|exact Aq]|]. intros k'. rewrite Sv, I1. intuition congruence.
    + intros k' q' Hq'. apply nth_error_snoc in Hq' as [Hq'|[-> ->]]; [refine (cinv_ctx s i c _ Hi _ I2 k' q' Hq'); reflexivity|]. cbn [k_ctx k_addr]. rewrite (nth_error_set _ _ _ _ i Hi), Nat.eqb_refl. eexists. split; reflexivity.
  - destruct (nth_error (ds_callers s) i) as [c|] eqn:Hi; [|discriminate]. pose proof (I1 i c Hi) as Ii. destruct (d_pc c); try discriminate. destruct Ii.
  - destruct (nth_error (ds_callers s) i) as [c|] eqn:Hi; [|discriminate]. pose proof (I1 i c Hi) as Ii. destruct (d_pc c); try discriminate. destruct Ii.
  - destruct (nth_error (ds_callers s) i) as [c|] eqn:Hi; [|discriminate]. pose proof (I1 i c Hi) as Ii. destruct (d_pc c); try discriminate. destruct Ii.
  - destruct (nth_error (ds_callers s) i) as [c|] eqn:Hi; [|discriminate]. pose proof (I1 i c Hi) as Ii. destruct (d_pc c); try discriminate. destruct Ii.
Qed.
Lemma reach_cinv max att p idle isctx l s : 0 < max -> pool_does SideInbound max att p idle isctx l s -> pinv max s /\ cinv s.
Proof.
  intros Mx. apply (drun_inv SideInbound max att p idle isctx (fun x => pinv max x /\ cinv x)).
  - intros x a y (P & C) E. split; [exact (pinv_step _ _ _ _ _ _ Mx x a y P E)|exact (cinv_step _ _ _ _ _ x a y Mx P C E)].
  - split; [apply pinv_start|]. split; intros [|] ? H; discriminate.
Qed.
(** A call that has returned a client stays so. *)
Lemma ok_step sd max att p idle isctx x a y i c k e : dstep sd max att p idle isctx x a = Some y -> nth_error (ds_callers x) i = Some c -> d_pc c = DOk k e ->
  exists c', nth_error (ds_callers y) i = Some c' /\ d_pc c' = DOk k e /\ d_addr c' = d_addr c.
Proof.
  intros E Hi Pc. destruct a as [ad|j|j|j|j b|j|j|j|kk a].
  9:{ destruct (nth_error (ds_clients x) kk) as [q0|] eqn:H0; [|cbn [dstep] in E; rewrite H0 in E; discriminate].
      destruct (cact idle (k_st q0) a) as [st|] eqn:Ha; [|cbn [dstep] in E; rewrite H0, Ha in E; discriminate].
      destruct (client_shape _ _ _ _ _ _ _ _ _ _ _ _ E H0 Ha) as (Q1 & _). rewrite Q1. eauto. }
  1:{ cbn [dstep] in E. injection E as <-. cbn [ds_callers]. exists c. split; [apply nth_error_keep, Hi|auto]. }
  all: destruct (nth_error (ds_callers x) j) as [c0|] eqn:Hj; [|cbn [dstep] in E; rewrite Hj in E; discriminate];
    destruct (Nat.eqb_spec i j) as [->|Nj];
    [rewrite Hi in Hj; injection Hj as <-; cbn [dstep] in E; rewrite Hi, ?Pc in E; first [discriminate E | injection E as <-; cbn [ds_callers]; rewrite (nth_error_set _ _ _ _ j Hi), Nat.eqb_refl; eexists; split; [reflexivity|auto]]|].
  all: enough (X : exists c', ds_callers y = set_nth j c' (ds_callers x)) by (destruct X as (c' & ->); rewrite (nth_error_set _ _ _ _ i Hj); destruct (Nat.eqb_spec i j); [contradiction|eauto]).
  all: cbn [dstep] in E; rewrite Hj in E; unfold set_pc in E;
    repeat match type of E with context [match ?x with _ => _ end] => match x with context [match _ with _ => _ end] => fail 1 | _ => destruct x eqn:? end; try discriminate E end;
    injection E as <-; cbn [ds_callers]; eexists; reflexivity.
Qed.
Lemma ok_stays sd max att p idle isctx l s s' i c k e : drun sd max att p idle isctx s l = Some s' -> nth_error (ds_callers s) i = Some c -> d_pc c = DOk k e ->
  exists c', nth_error (ds_callers s') i = Some c' /\ d_pc c' = DOk k e /\ d_addr c' = d_addr c.
Proof.
  intros R Hi Pc. apply (drun_inv sd max att p idle isctx (fun x => exists c', nth_error (ds_callers x) i = Some c' /\ d_pc c' = DOk k e /\ d_addr c' = d_addr c)) with (l := l) (s := s); [|eauto|exact R].
  intros x a y (c1 & H1 & P1 & A1) E. destruct (ok_step _ _ _ _ _ _ _ _ _ _ _ _ _ E H1 P1) as (c2 & H2 & P2 & A2). exists c2. split; [exact H2|]. split; [exact P2|congruence].
Qed.

(** A connection from an address that the pool already has a client for is dropped on the floor: no client ever serves it, so it is neither read
    nor written nor closed. *)
Theorem C77_leaks max att p idle isctx l s i c k : 0 < max -> pool_does SideInbound max att p idle isctx l s ->
  nth_error (ds_callers s) i = Some c -> d_pc c = DOk k true ->
  (exists q j cj, nth_error (ds_clients s) k = Some q /\ k_addr q = d_addr c /\ j <> i /\ k_ctx q = j /\ nth_error (ds_callers s) j = Some cj /\ d_addr cj = d_addr c) /\
  forall l' s' k', drun SideInbound max att p idle isctx s l' = Some s' -> ~ serves s' k' i.
Proof.
  intros Mx R Hi Pc. destruct (reach_cinv _ _ _ _ _ _ _ Mx R) as (P & I1 & I2). pose proof (I1 i c Hi) as Ii. rewrite Pc in Ii. destruct Ii as ((q & Hq & Aq) & Sv). split.
  - destruct (I2 k q Hq) as (cj & Hj & Aj). exists q, (k_ctx q), cj. repeat split; auto; [|congruence]. intros E. assert (X : serves s k i) by (exists q; auto). apply Sv in X as [_ X]. discriminate.
  - intros l' s' k' R' X. destruct (ok_stays _ _ _ _ _ _ _ _ _ _ _ _ _ R' Hi Pc) as (c' & Hi' & Pc' & _).
    assert (R2 : pool_does SideInbound max att p idle isctx (l ++ l') s') by (unfold pool_does in *; rewrite drun_app, R; exact R').
    destruct (reach_cinv _ _ _ _ _ _ _ Mx R2) as (_ & J1 & _). specialize (J1 i c' Hi'). rewrite Pc' in J1. apply J1 in X as [_ X]. discriminate.
Qed.
(** Two connections from one address. *)
Definition twice : list dact := [DaCall (adr 1); DaGet 0; DaCall (adr 2); DaGet 1; DaCall (adr 1); DaGet 2].
Example C77_leaks_nonvacuous : exists s c, pool_does SideInbound 4 1 0 0 (fun _ => false) twice s /\ nth_error (ds_callers s) 2 = Some c /\ d_pc c = DOk 0 true.
Proof. eexists. eexists. split; [vm_compute; reflexivity|]. vm_compute. auto. Qed.
Theorem C77_refuted : ~ C77_statement.
Proof.
  intros H. destruct C77_leaks_nonvacuous as (s & c & R & Hi & Pc). pose proof (H 4 0 (fun _ => false) twice s 2 c 0 true ltac:(lia) R Hi Pc) as X.
  destruct (C77_leaks 4 1 0 0 (fun _ => false) twice s 2 c 0 ltac:(lia) R Hi Pc) as (_ & Y). exact (Y [] s 0 eq_refl X).
Qed.

(** What holds: a connection whose address no other connection has had is served, by one client of its own that carries its address. *)
Theorem C77_partial max att p idle isctx l s i c k e : 0 < max -> pool_does SideInbound max att p idle isctx l s -> nth_error (ds_callers s) i = Some c -> d_pc c = DOk k e ->
  (forall j cj, nth_error (ds_callers s) j = Some cj -> d_addr cj = d_addr c -> j = i) ->
  e = false /\ (exists q, nth_error (ds_clients s) k = Some q /\ k_addr q = d_addr c) /\ serves s k i /\ forall k' i', serves s k' i -> serves s k i' -> k' = k /\ i' = i.
Proof.
  intros Mx R Hi Pc U. destruct (reach_cinv _ _ _ _ _ _ _ Mx R) as (P & I1 & I2). pose proof (I1 i c Hi) as Ii. rewrite Pc in Ii. destruct Ii as (Q & Sv).
  assert (e = false) as ->.
  { destruct e; [|reflexivity]. destruct (C77_leaks _ _ _ _ _ _ _ _ _ _ Mx R Hi Pc) as ((q & j & cj & _ & _ & Nj & _ & Hj & Aj) & _). destruct (Nj (U j cj Hj Aj)). }
  split; [reflexivity|]. split; [exact Q|]. assert (X : serves s k i) by (apply Sv; auto). split; [exact X|]. intros k' i' A B. split; [apply Sv in A; apply A|].
  destruct X as (q1 & H1 & C1). destruct B as (q2 & H2 & C2). congruence.
Qed.
Example C77_partial_nonvacuous : exists s c, pool_does SideInbound 4 1 0 0 (fun _ => false) twice s /\ nth_error (ds_callers s) 1 = Some c /\ d_pc c = DOk 1 false /\
  forall j cj, nth_error (ds_callers s) j = Some cj -> d_addr cj = d_addr c -> j = 1.
Proof.
  eexists. eexists. split; [vm_compute; reflexivity|]. split; [vm_compute; reflexivity|]. split; [reflexivity|]. intros [|[|[|[|j]]]] cj H; cbn in H; try discriminate; injection H as <-; cbn [d_addr]; intros E; try discriminate E; reflexivity.
Qed.

Print Assumptions C76_stuck.
Print Assumptions C76_refuted.
Print Assumptions C76_partial.
Print Assumptions C77_leaks.
Print Assumptions C77_refuted.
Print Assumptions C77_partial.
