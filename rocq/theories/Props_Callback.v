(** * Calls to the node from protocol callbacks (C79) *)
From Verif Require Import P_Work.
From Verif Require Import Base Spec M_Table P_Table P_Iter P_Gossip P_Conn M_Maps M_Client P_Client Props_Maps M_Dial P_Dial Props_Dial M_Callback.
Local Open Scope nat_scope.

(** ** Specification *)
Definition with_callbacks (max att p idle : nat) (isctx : nat -> bool) (l : list bact) (s : bstate) : Prop := brun max att p idle isctx b_start l = Some s.

(** A callback may use the node: its call to Ping, Send or Request returns, given that everything else does what it can. *)
Definition C79_statement : Prop := forall max att p idle isctx l s k i, 0 < max -> 0 < att -> with_callbacks max att p idle isctx l s -> In (k, i) (b_calls s) ->
  exists l' s', brun max att p idle isctx s l' = Some s' /\ returned (b_pool s') i.

(** ** The machine and the pool underneath *)
Lemma brun_inv max att p idle isctx (P : bstate -> Prop) : (forall s a s', P s -> bstep max att p idle isctx s a = Some s' -> P s') -> forall l s s', P s -> brun max att p idle isctx s l = Some s' -> P s'.
Proof.
  intros St. induction l as [|a l IH]; cbn [brun]; intros s s' H R; [injection R as <-; exact H|].
  destruct (bstep max att p idle isctx s a) as [s1|] eqn:E; [|discriminate]. apply (IH s1 s'); [apply (St s a s1 H E)|exact R].
Qed.
Lemma brun_app max att p idle isctx l1 l2 : forall s, brun max att p idle isctx s (l1 ++ l2) = match brun max att p idle isctx s l1 with Some s' => brun max att p idle isctx s' l2 | None => None end.
Proof. induction l1 as [|a l1 IH]; intros s; cbn [brun app]; [reflexivity|]. destruct (bstep max att p idle isctx s a); [apply IH|reflexivity]. Qed.
Lemma bstep_pool max att p idle isctx s a s' : bstep max att p idle isctx s a = Some s' ->
  exists da, dstep SideOutbound max att p idle isctx (b_pool s) da = Some (b_pool s') /\ (forall k o, da = DaClient k (AMain o) -> busy s k = false) /\
    exists x, b_calls s' = b_calls s ++ x.
Proof.
  intros E. destruct a as [da|k ad]; cbn [bstep] in E.
  - destruct (match da with DaClient k (AMain _) => busy s k | _ => false end) eqn:B; [discriminate|]. destruct (dstep SideOutbound max att p idle isctx (b_pool s) da) as [d|] eqn:D; [|discriminate]. injection E as <-.
    exists da. split; [exact D|]. split; [intros k o ->; exact B|]. exists []. cbn. rewrite app_nil_r. reflexivity.
  - destruct (nth_error (ds_clients (b_pool s)) k) as [q|]; [|discriminate]. destruct (in_callback (k_st q) && negb (busy s k)); [|discriminate].
    destruct (dstep SideOutbound max att p idle isctx (b_pool s) (DaCall ad)) as [d|] eqn:D; [|discriminate]. injection E as <-. exists (DaCall ad). split; [exact D|]. split; [discriminate|]. eexists. reflexivity.
Qed.

(** A client whose disconnection is being announced has an error. *)
Definition discerr (s : cstate) : Prop := match c_main s with MClose | MDisconnected => c_rdone s = true | _ => True end.
Lemma discerr_step idle s a s' : discerr s -> cact idle s a = Some s' -> discerr s'.
Proof. intros I H. unfold discerr in *. ccases H; cproj; auto; repeat match goal with |- context [match ?x with _ => _ end] => destruct x end; auto. Qed.
Lemma reach_discerr sd max att p idle isctx l s q : pool_does sd max att p idle isctx l s -> In q (ds_clients s) -> discerr (k_st q).
Proof.
  intros H. enough (J : forall q, In q (ds_clients s) -> discerr (k_st q)) by apply J. clear q. revert H. unfold pool_does.
  apply (drun_inv sd max att p idle isctx (fun s => forall q, In q (ds_clients s) -> discerr (k_st q))); [|intros q []].
  clear s. intros s a s' J E. pose proof E as E0. assert (Rn : discerr (newClient sd)) by (destruct sd; exact I).
  dcases E; auto.
  - destruct ex; [auto|]. intros q Hq. apply in_app_or in Hq as [Hq|[<-|[]]]; auto.
  - intros q0 Hq0. apply in_app_or in Hq0 as [Hq0|[<-|[]]]; auto.
  - destruct (client_shape _ _ _ _ _ _ _ _ _ _ _ _ E0 Hq Ha) as (Q1 & Q2 & _). rewrite Q2. intros q0 Hq0. apply in_set_nth in Hq0 as [->|Hq0]; [|auto]. cbn [k_st].
    apply (discerr_step idle (k_st q) aa st); [apply J, (nth_error_In _ _ Hq)|exact Ha].
Qed.

(** ** Waiting for oneself *)

(** Client [k]'s goroutine is at its callbacks. *)
Definition at_callback (s : dstate) (k : nat) (m : mpc) (ad : bytes) : Prop := (m = MReady \/ m = MDisconnected) /\ exists q, nth_error (ds_clients s) k = Some q /\ c_main (k_st q) = m /\ k_addr q = ad.
(** Call [j] is about to ask for address [ad], or waits for client [k]. *)
Definition hung (s : dstate) (k : nat) (ad : bytes) (j : nat) : Prop := exists c, nth_error (ds_callers s) j = Some c /\
  match d_pc c with DLoop _ => d_addr c = ad | DSelect _ k' | DClose _ k' _ | DWait _ k' _ | DEvict _ _ k' _ => k' = k | _ => False end.

Lemma main_keeps idle s a s' : cact idle s a = Some s' -> (forall o, a <> AMain o) -> c_main s' = c_main s.
Proof. intros H N. ccases H; cproj; try reflexivity. all: exfalso; eapply N; reflexivity. Qed.

Lemma callback_step max att p idle isctx s da s' k m ad : dstep SideOutbound max att p idle isctx s da = Some s' -> (forall o, da <> DaClient k (AMain o)) ->
  at_callback s k m ad -> at_callback s' k m ad.
Proof.
  intros E N (Hm & q & Hq & Mq & Aq). split; [exact Hm|]. destruct da as [ca|cj|gi|gi|si b|xi|xi|fi|gk ga].
  9:{ destruct (nth_error (ds_clients s) gk) as [q0|] eqn:H0; [|cbn [dstep] in E; rewrite H0 in E; discriminate].
      destruct (cact idle (k_st q0) ga) as [st|] eqn:Ha; [|cbn [dstep] in E; rewrite H0, Ha in E; discriminate].
      destruct (client_shape _ _ _ _ _ _ _ _ _ _ _ _ E H0 Ha) as (_ & Q2 & _). rewrite Q2, (nth_error_set _ _ _ _ k H0). destruct (Nat.eqb_spec k gk) as [->|]; [|eauto].
      rewrite H0 in Hq. injection Hq as ->. eexists. split; [reflexivity|]. cbn [k_st k_addr]. split; [|exact Aq]. rewrite (main_keeps _ _ _ _ Ha); [exact Mq|]. intros o ->. exact (N o eq_refl). }
  all: enough (X : exists x, ds_clients s' = ds_clients s ++ x) by (destruct X as (x & ->); exists q; split; [rewrite nth_error_app1; [exact Hq|apply nth_error_Some; congruence]|auto]).
  all: cbn [dstep] in E; unfold set_pc in E;
    repeat match type of E with context [match ?x with _ => _ end] => match x with context [match _ with _ => _ end] => fail 1 | _ => destruct x eqn:? end; try discriminate E end;
    injection E as <-; cbn [ds_clients]; first [eexists; reflexivity | exists []; rewrite app_nil_r; reflexivity].
Qed.

Lemma hung_step max att p idle isctx l s da s' k m ad j : 0 < max -> pool_does SideOutbound max att p idle isctx l s -> dstep SideOutbound max att p idle isctx s da = Some s' ->
  at_callback s k m ad -> hung s k ad j -> hung s' k ad j.
Proof.
  intros Mx R E (Hm & q & Hq & Mq & Aq) (c & Hj & Pc). pose proof (reach_pinv _ _ _ _ _ _ _ _ Mx R) as P.
  destruct (pi_sig _ _ P q (nth_error_In _ _ Hq)) as [(_ & Sr & Srd & _ & Swd & _ & Sc) _].
  pose proof (reach_rinv _ _ _ _ _ _ _ _ q Mx R (nth_error_In _ _ Hq)) as (R1 & _). pose proof (reach_discerr _ _ _ _ _ _ _ _ q R (nth_error_In _ _ Hq)) as D. unfold discerr in D.
  assert (Cd : c_cdone (k_st q) = false) by (rewrite Sc, Mq; destruct Hm as [-> | ->]; reflexivity).
  assert (Er : m = MDisconnected -> c_err (k_st q) <> None) by (intros ->; rewrite Mq in D; exact (R1 D)).
  assert (Nr : m = MReady -> c_ready (k_st q) = false /\ c_rdone (k_st q) = false /\ c_wdone (k_st q) = false) by (intros ->; rewrite Mq in Sr, Srd, Swd; cbn in *; auto).
  assert (Pq : past (k_st q) = false) by (unfold past; rewrite Mq; destruct Hm as [-> | ->]; reflexivity).
  clear Sr Srd Swd Sc D R1.
  destruct da as [ca|cj|gi|gi|si b|xi|xi|fi|gk ga].
  9:{ destruct (nth_error (ds_clients s) gk) as [q0|] eqn:H0; [|cbn [dstep] in E; rewrite H0 in E; discriminate].
      destruct (cact idle (k_st q0) ga) as [st|] eqn:Ha; [|cbn [dstep] in E; rewrite H0, Ha in E; discriminate].
      destruct (client_shape _ _ _ _ _ _ _ _ _ _ _ _ E H0 Ha) as (Q1 & _). unfold hung. rewrite Q1. eauto. }
  1:{ cbn [dstep] in E. injection E as <-. exists c. split; [apply nth_error_keep, Hj|auto]. }
  all: match type of E with dstep _ _ _ _ _ _ _ ?act = _ => let i := match act with DaCancel ?i => i | DaGet ?i => i | DaEvicted ?i => i | DaSelect ?i _ => i | DaClose ?i => i | DaWait ?i => i | DaFail ?i => i end in
    destruct (Nat.eqb_spec j i) as [->|Nj] end.
  all: try (match type of E with dstep _ _ _ _ _ _ _ ?act = _ => let i := match act with DaCancel ?i => i | DaGet ?i => i | DaEvicted ?i => i | DaSelect ?i _ => i | DaClose ?i => i | DaWait ?i => i | DaFail ?i => i end in
      destruct (nth_error (ds_callers s) i) as [c0|] eqn:Hi; [|cbn [dstep] in E; rewrite Hi in E; discriminate];
      enough (X : exists c', ds_callers s' = set_nth i c' (ds_callers s)) by (destruct X as (c' & X); exists c; rewrite X, (nth_error_set _ _ _ _ j Hi); destruct (Nat.eqb_spec j i); [contradiction|auto]) end;
    cbn [dstep] in E; rewrite Hi in E; unfold set_pc in E;
    repeat match type of E with context [match ?x with _ => _ end] => match x with context [match _ with _ => _ end] => fail 1 | _ => destruct x eqn:? end; try discriminate E end;
    injection E as <-; cbn [ds_callers]; eexists; reflexivity).
  - cbn [dstep] in E. rewrite Hj in E. injection E as <-. exists (mkD (d_addr c) (d_pc c) true). cbn [ds_callers]. rewrite (nth_error_set _ _ _ _ cj Hj), Nat.eqb_refl. auto.
  - cbn [dstep] in E. rewrite Hj in E. destruct (d_pc c) as [n| | | | | | |] eqn:Dc; try discriminate. destruct (n <? att); [|discriminate]. destruct (ds_lock s) eqn:Lk; [discriminate|].
    destruct (fetch_ok SideOutbound max idle isctx Mx s (d_addr c) P) as (mm & k1 & ex & ev & F & Y). rewrite F in E.
    destruct ev as [v|]; [destruct Y as (_ & _ & _ & No & _); specialize (No k q Hq ltac:(congruence)); congruence|]. destruct Y as [_ Y].
    destruct ex; [|destruct Y as [_ No]; specialize (No k q Hq ltac:(congruence)); congruence]. destruct Y as (q1 & H1 & A1 & P1). injection E as <-. cbn [got].
    assert (k1 = k) as ->. { destruct P as [(l0 & Rp & _ & Pr) _ _ _]. assert (I1 : In (d_addr c, k1) l0) by (apply Pr; eauto). assert (I2 : In (d_addr c, k) l0) by (apply Pr; exists q; repeat split; congruence).
      apply (in_find _ _ _ (cr_nodup _ _ Rp)) in I1. apply (in_find _ _ _ (cr_nodup _ _ Rp)) in I2. congruence. }
    unfold hung. cbn [ds_callers]. rewrite (nth_error_set _ _ _ _ gi Hj), Nat.eqb_refl. eexists. split; reflexivity.
  - cbn [dstep] in E. rewrite Hj in E. destruct (d_pc c) as [|n k' v mm| | | | | |]; try discriminate. subst v. rewrite Hq, Cd, andb_false_r in E. discriminate.
  - cbn [dstep] in E. rewrite Hj in E. destruct (d_pc c) as [| |n k'| | | | |] eqn:Dc; try discriminate. subst k'. rewrite Hq in E.
    destruct (match b with BCtx => d_cancelled c | BReady => c_ready (k_st q) | BReader => c_rdone (k_st q) | BWriter => c_wdone (k_st q) end) eqn:Hb; [|discriminate]. injection E as <-.
    unfold hung. cbn [set_pc ds_callers]. rewrite (nth_error_set _ _ _ _ si Hj), Nat.eqb_refl. eexists. split; [reflexivity|]. cbn [d_addr d_pc].
    destruct b; [reflexivity| | |]; (destruct Hm as [Hm|Hm]; [destruct (Nr Hm) as (N1 & N2 & N3); congruence|]; specialize (Er Hm); destruct (c_err (k_st q)); [reflexivity|contradiction]).
  - cbn [dstep] in E. rewrite Hj in E. destruct (d_pc c) as [| | |n k' e| | | |] eqn:Dc; try discriminate. subst k'. rewrite Hq in E. destruct (c_once (k_st q) =? 2); [|discriminate]. injection E as <-.
    unfold hung. cbn [set_pc ds_callers]. rewrite (nth_error_set _ _ _ _ xi Hj), Nat.eqb_refl. eexists. split; [reflexivity|]. cbn [d_addr d_pc]. auto.
  - cbn [dstep] in E. rewrite Hj in E. destruct (d_pc c) as [| | | |n k' e| | |] eqn:Dc; try discriminate. subst k'. rewrite Hq, Cd in E. discriminate.
  - cbn [dstep] in E. rewrite Hj in E. destruct (d_pc c); try discriminate. destruct Pc.
Qed.

Lemma hung_open s k ad j : hung s k ad j -> ~ returned s j /\ call_over s j = false.
Proof. intros (c & Hj & Pc). unfold returned, call_over. rewrite Hj. split; [intros (c' & E & X); injection E as <-|]; destruct (d_pc c); try contradiction; reflexivity. Qed.
Lemma reach_pool max att p idle isctx l s : with_callbacks max att p idle isctx l s -> exists l', pool_does SideOutbound max att p idle isctx l' (b_pool s).
Proof.
  intros R. apply (brun_inv max att p idle isctx (fun x => exists l', pool_does SideOutbound max att p idle isctx l' (b_pool x))) with (l := l) (s := b_start); [|exists []; reflexivity|exact R].
  intros x a y (l' & Rx) E. destruct (bstep_pool _ _ _ _ _ _ _ _ E) as (da & D & _). exists (l' ++ [da]). unfold pool_does in *. rewrite drun_app, Rx. cbn [drun]. rewrite D. reflexivity.
Qed.
(** The goroutine of client [k] waits for client [k]. *)
Definition selfwait (s : bstate) (k : nat) (m : mpc) (ad : bytes) (i : nat) : Prop := at_callback (b_pool s) k m ad /\ In (k, i) (b_calls s) /\ hung (b_pool s) k ad i.
Lemma selfwait_step max att p idle isctx l s a s' k m ad i : 0 < max -> pool_does SideOutbound max att p idle isctx l (b_pool s) -> bstep max att p idle isctx s a = Some s' -> selfwait s k m ad i ->
  selfwait s' k m ad i /\ forall j, hung (b_pool s) k ad j -> hung (b_pool s') k ad j.
Proof.
  intros Mx R E (A & B & C). destruct (bstep_pool _ _ _ _ _ _ _ _ E) as (da & D & Nb & x & Cx).
  assert (Y : forall j, hung (b_pool s) k ad j -> hung (b_pool s') k ad j) by (intros j Hj; exact (hung_step _ _ _ _ _ _ _ _ _ _ _ _ _ Mx R D A Hj)). split; [|exact Y]. split; [|split; [|exact (Y i C)]].
  - apply (callback_step _ _ _ _ _ _ _ _ _ _ _ D); [|exact A]. intros o ->. specialize (Nb k o eq_refl). assert (X : busy s k = true); [|congruence].
    unfold busy. apply existsb_exists. exists (k, i). split; [exact B|]. cbn [fst snd]. rewrite Nat.eqb_refl. destruct (hung_open _ _ _ _ C) as (_ & ->). reflexivity.
  - rewrite Cx. apply in_app_iff. auto.
Qed.


Lemma callers_step max att p idle isctx s da s' j c' : dstep SideOutbound max att p idle isctx s da = Some s' -> nth_error (ds_callers s') j = Some c' ->
  (exists c, nth_error (ds_callers s) j = Some c /\ d_addr c = d_addr c') \/ (nth_error (ds_callers s) j = None /\ d_pc c' = DLoop 0).
Proof.
  intros E Hj. destruct da as [ca|cj|gi|gi|si b|xi|xi|fi|gk ga].
  9:{ destruct (nth_error (ds_clients s) gk) as [q0|] eqn:H0; [|cbn [dstep] in E; rewrite H0 in E; discriminate].
      destruct (cact idle (k_st q0) ga) as [st|] eqn:Ha; [|cbn [dstep] in E; rewrite H0, Ha in E; discriminate].
      destruct (client_shape _ _ _ _ _ _ _ _ _ _ _ _ E H0 Ha) as (Q1 & _). rewrite Q1 in Hj. eauto. }
  1:{ cbn [dstep] in E. injection E as <-. cbn [ds_callers] in Hj. destruct (nth_error (ds_callers s) j) as [c|] eqn:H0.
      - rewrite nth_error_app1 in Hj by (apply nth_error_Some; congruence). rewrite H0 in Hj. injection Hj as <-. eauto.
      - apply nth_error_None in H0 as L. rewrite nth_error_app2 in Hj by exact L. destruct (j - length (ds_callers s)) as [|[|]]; cbn in Hj; try discriminate. injection Hj as <-. right. auto. }
  all: left; match type of E with dstep _ _ _ _ _ _ _ ?act = _ => let i := match act with DaCancel ?i => i | DaGet ?i => i | DaEvicted ?i => i | DaSelect ?i _ => i | DaClose ?i => i | DaWait ?i => i | DaFail ?i => i end in
      destruct (nth_error (ds_callers s) i) as [c0|] eqn:Hi; [|cbn [dstep] in E; rewrite Hi in E; discriminate];
      enough (X : exists c1, d_addr c1 = d_addr c0 /\ ds_callers s' = set_nth i c1 (ds_callers s)) by (destruct X as (c1 & A1 & X); rewrite X, (nth_error_set _ _ _ _ j Hi) in Hj; destruct (Nat.eqb_spec j i) as [->|]; [injection Hj as <-|]; eauto) end;
    cbn [dstep] in E; rewrite Hi in E; unfold set_pc in E;
    repeat match type of E with context [match ?x with _ => _ end] => match x with context [match _ with _ => _ end] => fail 1 | _ => destruct x eqn:? end; try discriminate E end;
    injection E as <-; cbn [ds_callers]; refine (ex_intro _ _ (conj _ eq_refl)); reflexivity.
Qed.

Lemma callers_grow max att p idle isctx s da s' : dstep SideOutbound max att p idle isctx s da = Some s' -> length (ds_callers s) <= length (ds_callers s').
Proof.
  intros E. destruct (le_lt_dec (length (ds_callers s)) (length (ds_callers s'))) as [|L]; [assumption|exfalso].
  destruct da as [ca|cj|gi|gi|si b|xi|xi|fi|gk ga]; cbn [dstep] in E; unfold set_pc in E;
    repeat match type of E with context [match ?x with _ => _ end] => match x with context [match _ with _ => _ end] => fail 1 | _ => destruct x eqn:? end; try discriminate E end;
    injection E as <-; cbn [ds_callers] in L; rewrite ?app_length, ?set_nth_length in L; lia.
Qed.
Lemma clients_grow max att p idle isctx s da s' : dstep SideOutbound max att p idle isctx s da = Some s' -> length (ds_clients s) <= length (ds_clients s').
Proof.
  intros E. destruct (le_lt_dec (length (ds_clients s)) (length (ds_clients s'))) as [|L]; [assumption|exfalso].
  destruct da as [ca|cj|gi|gi|si b|xi|xi|fi|gk ga]; cbn [dstep] in E; unfold set_pc in E;
    repeat match type of E with context [match ?x with _ => _ end] => match x with context [match _ with _ => _ end] => fail 1 | _ => destruct x eqn:? end; try discriminate E end;
    injection E as <-; cbn [ds_clients] in L; rewrite ?app_length, ?set_nth_length in L; lia.
Qed.

(** From a state in which client [k]'s goroutine waits for itself: *)
Lemma selfwait_forever max att p idle isctx l s k m ad i l' s' : 0 < max -> with_callbacks max att p idle isctx l s -> selfwait s k m ad i -> brun max att p idle isctx s l' = Some s' ->
  selfwait s' k m ad i /\ (forall j, hung (b_pool s) k ad j -> hung (b_pool s') k ad j) /\
  forall j c, nth_error (ds_callers (b_pool s')) j = Some c -> d_addr c = ad -> nth_error (ds_callers (b_pool s)) j = None -> hung (b_pool s') k ad j.
Proof.
  intros Mx R W R'. set (Q := fun x => (exists l2, with_callbacks max att p idle isctx l2 x) /\ selfwait x k m ad i /\ (forall j, hung (b_pool s) k ad j -> hung (b_pool x) k ad j) /\
    (forall j c, nth_error (ds_callers (b_pool x)) j = Some c -> d_addr c = ad -> nth_error (ds_callers (b_pool s)) j = None -> hung (b_pool x) k ad j)).
  assert (X : Q s'); [|destruct X as (_ & X); exact X].
  apply (brun_inv max att p idle isctx Q) with (l := l') (s := s); [| |exact R'].
  - intros x a y ((l2 & Rx) & W1 & J1 & J2) Ey. assert (Ry : with_callbacks max att p idle isctx (l2 ++ [a]) y) by (unfold with_callbacks in *; rewrite brun_app, Rx; cbn [brun]; rewrite Ey; reflexivity).
    destruct (reach_pool _ _ _ _ _ _ _ Rx) as (l3 & Rp). destruct (selfwait_step _ _ _ _ _ _ _ _ _ _ _ _ _ Mx Rp Ey W1) as (W' & Hg). split; [eauto|]. split; [exact W'|]. split; [auto|].
    intros j c Hj Ac Nj. destruct (bstep_pool _ _ _ _ _ _ _ _ Ey) as (da & D & _). destruct (callers_step _ _ _ _ _ _ _ _ _ _ D Hj) as [(c0 & H0 & A0)|(H0 & P0)].
    + apply Hg, (J2 j c0 H0); congruence.
    + exists c. rewrite P0. auto.
  - split; [eauto|]. split; [exact W|]. split; [auto|]. congruence.
Qed.

Lemma selfwait_client s k m ad i l max att p idle isctx : 0 < max -> with_callbacks max att p idle isctx l s -> selfwait s k m ad i ->
  exists q, nth_error (ds_clients (b_pool s)) k = Some q /\ k_addr q = ad /\ c_main (k_st q) = m /\ c_cdone (k_st q) = false /\ (m = MReady -> c_ready (k_st q) = false).
Proof.
  intros Mx R ((Hm & q & Hq & Mq & Aq) & _). exists q. destruct (reach_pool _ _ _ _ _ _ _ R) as (l3 & Rp). pose proof (reach_pinv _ _ _ _ _ _ _ _ Mx Rp) as P.
  destruct (pi_sig _ _ P q (nth_error_In _ _ Hq)) as [(_ & Sr & _ & _ & _ & _ & Sc) _]. rewrite Mq in *. repeat split; auto; [rewrite Sc; destruct Hm as [-> | ->]; reflexivity|intros ->; rewrite Sr; reflexivity].
Qed.

(** A callback that calls the node with its own client's address (to send to the peer that has just connected, or to reconnect to the one that has
    just been lost) never returns, in any continuation, also if the call's context is cancelled.  The client stays at its callback: it never
    becomes ready (if it was to become so) and never ends, and no later call for that address ever returns. *)
Theorem C79_own_address max att p idle isctx l s k q s1 l' s' : 0 < max -> with_callbacks max att p idle isctx l s -> nth_error (ds_clients (b_pool s)) k = Some q ->
  bstep max att p idle isctx s (BaCall k (k_addr q)) = Some s1 -> brun max att p idle isctx s1 l' = Some s' ->
  (exists q', nth_error (ds_clients (b_pool s')) k = Some q' /\ k_addr q' = k_addr q /\ c_main (k_st q') = c_main (k_st q) /\ c_cdone (k_st q') = false /\ (c_main (k_st q) = MReady -> c_ready (k_st q') = false)) /\
  forall j c, nth_error (ds_callers (b_pool s')) j = Some c -> d_addr c = k_addr q -> length (ds_callers (b_pool s)) <= j -> ~ returned (b_pool s') j.
Proof.
  intros Mx R Hq E R'. pose proof E as E0. cbn [bstep] in E. rewrite Hq in E. destruct (in_callback (k_st q) && negb (busy s k)) eqn:G; [|discriminate]. cbn [dstep] in E. injection E as E.
  apply andb_prop in G as [G _]. assert (Hm : c_main (k_st q) = MReady \/ c_main (k_st q) = MDisconnected) by (unfold in_callback in G; destruct (c_main (k_st q)); auto; discriminate).
  assert (R1 : with_callbacks max att p idle isctx (l ++ [BaCall k (k_addr q)]) s1) by (unfold with_callbacks in *; rewrite brun_app, R; cbn [brun]; rewrite E0; reflexivity).
  set (n := length (ds_callers (b_pool s))) in *.
  assert (H1 : hung (b_pool s1) k (k_addr q) n). { subst s1. exists (mkD (k_addr q) (DLoop 0) false). split; [cbn [b_pool ds_callers]; subst n; rewrite nth_error_app2, Nat.sub_diag by lia; reflexivity|reflexivity]. }
  assert (W : selfwait s1 k (c_main (k_st q)) (k_addr q) n). { split; [|split; [|exact H1]]; subst s1; cbn [b_pool b_calls]; [split; [exact Hm|exists q; auto]|apply in_app_iff; right; left; reflexivity]. }
  destruct (selfwait_forever _ _ _ _ _ _ _ _ _ _ _ _ _ Mx R1 W R') as (W' & J1 & J2).
  assert (R2 : with_callbacks max att p idle isctx ((l ++ [BaCall k (k_addr q)]) ++ l') s') by (unfold with_callbacks in *; rewrite brun_app, R1; exact R').
  split; [exact (selfwait_client _ _ _ _ _ _ _ _ _ _ _ Mx R2 W')|]. intros j c Hj Ac Lj. apply (proj1 (hung_open _ k (k_addr q) j ltac:(
    destruct (Nat.eq_dec j n) as [->|]; [exact (J1 n H1)|apply (J2 j c Hj Ac); apply nth_error_None; subst s1; cbn [b_pool ds_callers]; rewrite app_length; cbn; lia]))).
Qed.

(** A callback that calls the node with a new address when the pool is full and its own client is the one to be evicted never returns either,
    and keeps the pool locked for ever: from then on no call that has not got its client yet returns, whatever its address. *)
Theorem C79_own_eviction max att p idle isctx l s k i q l' s' : 0 < max -> with_callbacks max att p idle isctx l s -> In (k, i) (b_calls s) -> evicts (b_pool s) i k ->
  nth_error (ds_clients (b_pool s)) k = Some q -> c_main (k_st q) = MReady \/ c_main (k_st q) = MDisconnected -> brun max att p idle isctx s l' = Some s' ->
  ~ returned (b_pool s') i /\ ds_lock (b_pool s') = Some i /\ (forall j s2, bstep max att p idle isctx s' (BaPool (DaGet j)) <> Some s2).
Proof.
  intros Mx R Ic (n & ck & mm & c & Hc & Pc) Hq Hm R'.
  assert (W : selfwait s k (c_main (k_st q)) (k_addr q) i). { split; [split; [exact Hm|exists q; auto]|]. split; [exact Ic|]. exists c. rewrite Pc. auto. }
  destruct (selfwait_forever _ _ _ _ _ _ _ _ _ _ _ _ _ Mx R W R') as (W' & _). split; [apply (hung_open _ k (k_addr q)), W'|].
  assert (Lk : ds_lock (b_pool s') = Some i); [|split; [exact Lk|]].
  2:{ intros j s2 E. cbn [bstep dstep] in E. rewrite Lk in E. destruct (nth_error (ds_callers (b_pool s')) j) as [c0|]; [|discriminate]. destruct (d_pc c0); try discriminate. destruct (_ <? _); discriminate. }
  assert (V : exists l2, with_callbacks max att p idle isctx l2 s' /\ selfwait s' k (c_main (k_st q)) (k_addr q) i /\ evicts (b_pool s') i k).
  { apply (brun_inv max att p idle isctx (fun x => exists l2, with_callbacks max att p idle isctx l2 x /\ selfwait x k (c_main (k_st q)) (k_addr q) i /\ evicts (b_pool x) i k)) with (l := l') (s := s);
      [|exists l; split; [exact R|split; [exact W|exists n, ck, mm, c; auto]]|exact R'].
    intros x a y (l2 & Rx & Wx & Vx) Ey. exists (l2 ++ [a]). destruct (reach_pool _ _ _ _ _ _ _ Rx) as (l3 & Rp).
    split; [unfold with_callbacks in *; rewrite brun_app, Rx; cbn [brun]; rewrite Ey; reflexivity|]. split; [exact (proj1 (selfwait_step _ _ _ _ _ _ _ _ _ _ _ _ _ Mx Rp Ey Wx))|].
    destruct (selfwait_client _ _ _ _ _ _ _ _ _ _ _ Mx Rx Wx) as (q0 & H0 & _ & _ & C0 & _). destruct (bstep_pool _ _ _ _ _ _ _ _ Ey) as (da & D & _). destruct Vx as (n1 & k1 & m1 & c1 & Hc1 & P1).
    destruct da as [ca|cj|gi|gi|si b|xi|xi|fi|gk ga].
    9:{ destruct (nth_error (ds_clients (b_pool x)) gk) as [q1|] eqn:H1; [|cbn [dstep] in D; rewrite H1 in D; discriminate].
        destruct (cact idle (k_st q1) ga) as [st|] eqn:Ha; [|cbn [dstep] in D; rewrite H1, Ha in D; discriminate].
        destruct (client_shape _ _ _ _ _ _ _ _ _ _ _ _ D H1 Ha) as (Q1 & _). exists n1, k1, m1, c1. rewrite Q1. auto. }
    1:{ cbn [dstep] in D. injection D as D. exists n1, k1, m1, c1. rewrite <- D. split; [apply nth_error_keep, Hc1|exact P1]. }
    1:{ cbn [dstep] in D. destruct (nth_error (ds_callers (b_pool x)) cj) as [c2|] eqn:Hi; [|discriminate]. injection D as D. exists n1, k1, m1. rewrite <- D. unfold at_pc. cbn [ds_callers]. rewrite (nth_error_set _ _ _ _ i Hi).
        destruct (Nat.eqb_spec i cj) as [->|]; [|eauto]. rewrite Hc1 in Hi. injection Hi as <-. eexists. split; [reflexivity|exact P1]. }
    all: match type of D with dstep _ _ _ _ _ _ _ ?act = _ => let ii := match act with DaCancel ?i => i | DaGet ?i => i | DaEvicted ?i => i | DaSelect ?i _ => i | DaClose ?i => i | DaWait ?i => i | DaFail ?i => i end in
        destruct (nth_error (ds_callers (b_pool x)) ii) as [c2|] eqn:Hi; [|cbn [dstep] in D; rewrite Hi in D; discriminate];
        destruct (Nat.eqb_spec i ii) as [Eq|Ne]; [exfalso; subst ii; rewrite Hc1 in Hi; injection Hi as Eq2; subst c2; cbn [dstep] in D; rewrite Hc1, P1 in D; rewrite ?H0, ?C0, ?andb_false_r in D; discriminate D|];
        enough (X : exists c1, ds_callers (b_pool y) = set_nth ii c1 (ds_callers (b_pool x))) by (destruct X as (c3 & X); exists n1, k1, m1, c1; rewrite X, (nth_error_set _ _ _ _ i Hi); destruct (Nat.eqb_spec i ii); [contradiction|auto]) end;
      cbn [dstep] in D; rewrite Hi in D; unfold set_pc in D;
      repeat match type of D with context [match ?x with _ => _ end] => match x with context [match _ with _ => _ end] => fail 1 | _ => destruct x eqn:? end; try discriminate D end;
      injection D as <-; cbn [ds_callers]; eexists; reflexivity. }
  destruct V as (l2 & R2 & _ & (n1 & k1 & m1 & c1 & Hc1 & P1)). destruct (reach_pool _ _ _ _ _ _ _ R2) as (l3 & Rp). pose proof (reach_pinv _ _ _ _ _ _ _ _ Mx Rp) as P.
  apply (pi_lock _ _ P i c1 Hc1). unfold evicting. rewrite P1. reflexivity.
Qed.

(** ** Refutation *)
Definition self_call : list bact := [BaPool (DaCall (adr 1)); BaPool (DaGet 0); BaPool (DaClient 0 (AMain Fine)); BaPool (DaClient 0 (AMain Fine)); BaCall 0 (adr 1)].
Theorem C79_refuted : ~ C79_statement.
Proof.
  intros H. destruct (brun 5 3 0 0 (fun _ => false) b_start (firstn 4 self_call)) as [s|] eqn:E; [|vm_compute in E; discriminate].
  destruct (brun 5 3 0 0 (fun _ => false) b_start self_call) as [s1|] eqn:E1; [|vm_compute in E1; discriminate].
  assert (C : In (0, 1) (b_calls s1)) by (vm_compute in E1; injection E1 as <-; left; reflexivity).
  destruct (H 5 3 0 0 (fun _ => false) self_call s1 0 1 ltac:(lia) ltac:(lia) E1 C) as (l' & s' & R' & (c & Hc & Pc)).
  assert (Q : exists q, nth_error (ds_clients (b_pool s)) 0 = Some q /\ k_addr q = adr 1 /\ length (ds_callers (b_pool s)) = 1) by (vm_compute in E; injection E as <-; eexists; repeat split).
  destruct Q as (q & Hq & Aq & Ln).
  assert (B : bstep 5 3 0 0 (fun _ => false) s (BaCall 0 (k_addr q)) = Some s1). { rewrite Aq. unfold self_call in E1. change self_call with (firstn 4 self_call ++ [BaCall 0 (adr 1)]) in E1. change (brun 5 3 0 0 (fun _ => false) b_start (firstn 4 self_call ++ [BaCall 0 (adr 1)]) = Some s1) in E1. rewrite brun_app, E in E1. cbn [brun] in E1. destruct (bstep _ _ _ _ _ s _); [exact E1|discriminate]. }
  destruct (C79_own_address 5 3 0 0 (fun _ => false) _ s 0 q s1 l' s' ltac:(lia) E Hq B R') as (_ & N).
  assert (A1 : d_addr c = adr 1).
  { apply (brun_inv 5 3 0 0 (fun _ => false) (fun x => exists c, nth_error (ds_callers (b_pool x)) 1 = Some c /\ d_addr c = adr 1)) with (l := l') (s := s1) in R'.
    - destruct R' as (c' & Hc' & A'). congruence.
    - intros x a y (c1 & H1 & A1) Ey. destruct (bstep_pool _ _ _ _ _ _ _ _ Ey) as (da & D & _). destruct (nth_error (ds_callers (b_pool y)) 1) as [c2|] eqn:H2.
      + exists c2. split; [reflexivity|]. destruct (callers_step _ _ _ _ _ _ _ _ _ _ D H2) as [(c3 & H3 & A3)|(H3 & _)]; congruence.
      + exfalso. apply nth_error_None in H2. assert (1 < length (ds_callers (b_pool x))) by (apply nth_error_Some; congruence). pose proof (callers_grow _ _ _ _ _ _ _ _ D). lia.
    - vm_compute in E1. injection E1 as <-. eexists. split; reflexivity. }
  apply (N 1 c Hc); [congruence|lia|]. exists c. auto.
Qed.

(** ** What holds *)
Lemma calls_known max att p idle isctx l s k i : with_callbacks max att p idle isctx l s -> In (k, i) (b_calls s) -> k < length (ds_clients (b_pool s)).
Proof.
  intros R. revert k i. apply (brun_inv max att p idle isctx (fun x => forall k i, In (k, i) (b_calls x) -> k < length (ds_clients (b_pool x)))) with (l := l) (s := b_start); [|intros k i []|exact R].
  intros x a y J E k i Ik. destruct a as [da|k0 ad]; cbn [bstep] in E.
  - destruct (match da with DaClient k _ => _ | _ => false end); [discriminate|]. destruct (dstep SideOutbound max att p idle isctx (b_pool x) da) as [d|] eqn:D; [|discriminate]. injection E as <-. cbn [b_pool b_calls] in *.
    specialize (J k i Ik). pose proof (clients_grow _ _ _ _ _ _ _ _ D). lia.
  - destruct (nth_error (ds_clients (b_pool x)) k0) as [q|] eqn:Hq; [|discriminate]. destruct (in_callback (k_st q) && negb (busy x k0)); [|discriminate]. cbn [dstep] in E. injection E as <-. cbn [b_pool b_calls ds_clients] in *.
    apply in_app_or in Ik as [Ik|[Ek|[]]]; [exact (J k i Ik)|]. injection Ek as <- _. apply nth_error_Some. congruence.
Qed.
Lemma main_fine max att p idle isctx s k q st : nth_error (ds_clients (b_pool s)) k = Some q -> c_main (k_st q) <> MRemove -> (forall i, ~ In (k, i) (b_calls s)) -> main_step (k_st q) Fine = Some st ->
  exists s', bstep max att p idle isctx s (BaPool (DaClient k (AMain Fine))) = Some s' /\ b_calls s' = b_calls s /\ ds_callers (b_pool s') = ds_callers (b_pool s) /\
    nth_error (ds_clients (b_pool s')) k = Some (mkK (k_addr q) (k_ctx q) st).
Proof.
  intros Hq Nm Nb St. assert (B : busy s k = false). { destruct (busy s k) eqn:B; [|reflexivity]. unfold busy in B. apply existsb_exists in B as ((k0 & i) & I1 & I2). cbn [fst snd] in I2. apply andb_prop in I2 as [I2 _]. apply Nat.eqb_eq in I2. subst k0. destruct (Nb i I1). }
  cbn [bstep dstep]. rewrite B, Hq. cbn [cact]. rewrite St. eexists. split; [destruct (c_main (k_st q)); try reflexivity; contradiction|]. cbn [b_calls b_pool ds_callers ds_clients]. split; [reflexivity|]. split; [reflexivity|].
  rewrite (nth_error_set _ _ _ _ k Hq), Nat.eqb_refl. reflexivity.
Qed.

(** A call, from a callback or not, for an address whose client is ready and has no error, or for one that has no client while the pool
    has room, can go on to return that client, whatever callbacks of other clients are in progress. *)
Theorem C79_partial max att p idle isctx l s i c n : 0 < max -> with_callbacks max att p idle isctx l s -> ds_lock (b_pool s) = None ->
  nth_error (ds_callers (b_pool s)) i = Some c -> d_pc c = DLoop n -> n < att ->
  (exists k q, nth_error (ds_clients (b_pool s)) k = Some q /\ k_addr q = d_addr c /\ active q /\ c_ready (k_st q) = true /\ c_err (k_st q) = None) \/
  (length (listed (b_pool s)) < max /\ forall k q, nth_error (ds_clients (b_pool s)) k = Some q -> k_addr q = d_addr c -> c_main (k_st q) = MDone \/ c_main (k_st q) = MEnd) ->
  exists l' s' k q, brun max att p idle isctx s l' = Some s' /\ at_pc (b_pool s') i (DOk k false) /\ nth_error (ds_clients (b_pool s')) k = Some q /\ k_addr q = d_addr c /\ c_ready (k_st q) = true /\ c_err (k_st q) = None.
Proof.
  intros Mx R Lk Hi Pc Ln X. destruct (reach_pool _ _ _ _ _ _ _ R) as (l3 & Rp). destruct X as [(k & q & Hq & Aq & Ac & Rq & Eq)|(Room & No)].
  - destruct (C71_shared SideOutbound max att p idle isctx l3 (b_pool s) i c n k q Mx Rp Lk Hi Pc Ln Hq Aq Ac) as (d & D & (c1 & Hc1 & P1) & Cl).
    exists [BaPool (DaGet i); BaPool (DaSelect i BReady)]. cbn [brun bstep]. rewrite D. cbn [b_pool b_calls dstep]. rewrite Hc1, P1. cbn [got]. rewrite Cl, Hq, Rq, Eq. eexists _, k, q. split; [reflexivity|].
    cbn [b_pool set_pc ds_clients]. split; [|rewrite Cl; auto]. eexists. cbn [b_pool set_pc ds_callers]. rewrite (nth_error_set _ _ _ _ i Hc1), Nat.eqb_refl. split; reflexivity.
  - pose proof (reach_pinv _ _ _ _ _ _ _ _ Mx Rp) as P. destruct (fetch_ok SideOutbound max idle isctx Mx (b_pool s) (d_addr c) P) as (m & k & ex & ev & F & Y).
    destruct ev as [v|]. { exfalso. destruct Y as (-> & -> & _ & _ & (l0 & Rr & L & _)). unfold listed in Room. rewrite (slice_repr _ _ Rr), map_length in Room. lia. }
    destruct Y as [_ Y]. destruct ex. { exfalso. destruct Y as (q1 & H1 & A1 & P1). unfold past in P1. destruct (No k q1 H1 A1) as [Z|Z]; rewrite Z in P1; discriminate. } destruct Y as [-> _].
    set (k := length (ds_clients (b_pool s))).
    assert (S1 : exists s1, bstep max att p idle isctx s (BaPool (DaGet i)) = Some s1 /\ b_calls s1 = b_calls s /\ (exists c1, nth_error (ds_callers (b_pool s1)) i = Some c1 /\ d_pc c1 = DSelect n k) /\ nth_error (ds_clients (b_pool s1)) k = Some (mkK (d_addr c) i (newClient SideOutbound))).
    { cbn [bstep dstep]. rewrite Hi, Pc, Lk, F. apply Nat.ltb_lt in Ln. rewrite Ln. eexists. split; [reflexivity|]. cbn [b_calls b_pool ds_callers ds_clients]. split; [reflexivity|]. split.
      - rewrite (nth_error_set _ _ _ _ i Hi), Nat.eqb_refl. eexists. split; reflexivity.
      - subst k. rewrite nth_error_app2, Nat.sub_diag by lia. reflexivity. }
    destruct S1 as (s1 & E1 & C1 & (c1 & Hc1 & P1) & Q1).
    assert (Nb : forall i0, ~ In (k, i0) (b_calls s)) by (intros i0 I0; pose proof (calls_known _ _ _ _ _ _ _ _ _ R I0); subst k; lia).
    destruct (main_fine max att p idle isctx s1 k _ _ Q1 ltac:(discriminate) ltac:(rewrite C1; exact Nb) eq_refl) as (s2 & E2 & C2 & B2 & Q2).
    destruct (main_fine max att p idle isctx s2 k _ _ Q2 ltac:(discriminate) ltac:(rewrite C2, C1; exact Nb) eq_refl) as (s3 & E3 & C3 & B3 & Q3).
    destruct (main_fine max att p idle isctx s3 k _ _ Q3 ltac:(discriminate) ltac:(rewrite C3, C2, C1; exact Nb) eq_refl) as (s4 & E4 & C4 & B4 & Q4).
    exists [BaPool (DaGet i); BaPool (DaClient k (AMain Fine)); BaPool (DaClient k (AMain Fine)); BaPool (DaClient k (AMain Fine)); BaPool (DaSelect i BReady)].
    cbn [brun]. rewrite E1, E2, E3, E4. cbn [bstep dstep]. rewrite B4, B3, B2, Hc1, P1, Q4. eexists _, k, _. split; [reflexivity|]. cbn [b_pool set_pc ds_clients]. split; [|split; [exact Q4|repeat split]].
    eexists. cbn [b_pool set_pc ds_callers]. rewrite B4, B3, B2, (nth_error_set _ _ _ _ i Hc1), Nat.eqb_refl. split; reflexivity.
Qed.

(** A callback holds up the goroutine that runs it for exactly as long as its call has not returned, with a client or with an error. *)
Theorem C79_holds_up_partial max att p idle isctx s k o :
  ((forall i, In (k, i) (b_calls s) -> returned (b_pool s) i) -> forall d, dstep SideOutbound max att p idle isctx (b_pool s) (DaClient k (AMain o)) = Some d ->
     exists s', bstep max att p idle isctx s (BaPool (DaClient k (AMain o))) = Some s' /\ b_pool s' = d) /\
  (forall i, In (k, i) (b_calls s) -> ~ returned (b_pool s) i -> bstep max att p idle isctx s (BaPool (DaClient k (AMain o))) = None).
Proof.
  assert (O : forall i, call_over (b_pool s) i = true <-> returned (b_pool s) i).
  { intros i. unfold call_over, returned. destruct (nth_error (ds_callers (b_pool s)) i) as [c|]; [|split; [discriminate | intros (c & E & _); discriminate]].
    split; [intros H; exists c; split; [reflexivity|]; destruct (d_pc c); try discriminate; exact I | intros (c' & E & H); injection E as <-; destruct (d_pc c); try contradiction; reflexivity]. }
  split.
  - intros H d D. cbn [bstep]. destruct (busy s k) eqn:B; [|rewrite D; eexists; split; reflexivity]. exfalso.
    unfold busy in B. apply existsb_exists in B as ((k', i) & Ii & B). apply andb_true_iff in B as [Bk Bo]. cbn [fst snd] in *. apply Nat.eqb_eq in Bk as ->.
    apply H, O in Ii. rewrite Ii in Bo. discriminate.
  - intros i Ii N. cbn [bstep]. replace (busy s k) with true; [reflexivity|]. symmetry. unfold busy. apply existsb_exists. exists (k, i). split; [exact Ii|]. cbn [fst snd].
    rewrite Nat.eqb_refl. cbn [andb]. destruct (call_over (b_pool s) i) eqn:C; [apply O in C; contradiction | reflexivity].
Qed.
(** Both cases arise: a callback's call fails, and its client's goroutine goes on. *)
Example C79_holds_up_nonvacuous : exists l s s1, with_callbacks 5 1 0 0 (fun _ => false) l s /\ b_calls s = [(0, 1)] /\ ~ returned (b_pool s) 1 /\
  brun 5 1 0 0 (fun _ => false) s [BaPool (DaGet 1); BaPool (DaClient 1 (AMain (Fails 7))); BaPool (DaClient 1 (AMain Fine)); BaPool (DaSelect 1 BReady); BaPool (DaClient 1 ACloseFlag); BaPool (DaClient 1 ACloseConn);
    BaPool (DaClose 1); BaPool (DaClient 1 (AMain Fine)); BaPool (DaClient 1 (AMain Fine)); BaPool (DaClient 1 (AMain Fine)); BaPool (DaClient 1 (AMain Fine)); BaPool (DaWait 1); BaPool (DaFail 1)] = Some s1 /\ at_pc (b_pool s1) 1 (DErr (EClient 7)) /\
  exists s2, bstep 5 1 0 0 (fun _ => false) s1 (BaPool (DaClient 0 (AMain Fine))) = Some s2.
Proof.
  exists [BaPool (DaCall (adr 1)); BaPool (DaGet 0); BaPool (DaClient 0 (AMain Fine)); BaPool (DaClient 0 (AMain Fine)); BaCall 0 (adr 2)]. eexists _, _.
  split; [vm_compute; reflexivity|]. split; [reflexivity|]. split; [intros (c & E & X); injection E as <-; exact X|]. split; [vm_compute; reflexivity|].
  split; [eexists; split; reflexivity|]. eexists. vm_compute. reflexivity.
Qed.
(** A callback's call that meets the hypotheses of [C79_partial]: a peer connects, and the protocol sends to another one. *)
Example C79_partial_nonvacuous : exists l s c, with_callbacks 5 3 0 0 (fun _ => false) l s /\ b_calls s = [(0, 1)] /\ nth_error (ds_callers (b_pool s)) 1 = Some c /\ d_pc c = DLoop 0 /\ ds_lock (b_pool s) = None /\
  length (listed (b_pool s)) < 5 /\ d_addr c = adr 2.
Proof. exists [BaPool (DaCall (adr 1)); BaPool (DaGet 0); BaPool (DaClient 0 (AMain Fine)); BaPool (DaClient 0 (AMain Fine)); BaCall 0 (adr 2)]. eexists _, _. split; [vm_compute; reflexivity|]. vm_compute. repeat split; lia. Qed.
(** OnPeerDisconnected tries to reconnect: [C79_own_address]'s hypotheses hold, with an error and a connection that has ended. *)
Example C79_reconnect : exists l s q s1, with_callbacks 5 3 0 0 (fun _ => false) l s /\ nth_error (ds_clients (b_pool s)) 0 = Some q /\ c_main (k_st q) = MDisconnected /\ k_addr q = adr 1 /\
  bstep 5 3 0 0 (fun _ => false) s (BaCall 0 (adr 1)) = Some s1.
Proof.
  exists [BaPool (DaCall (adr 1)); BaPool (DaGet 0); BaPool (DaClient 0 (AMain Fine)); BaPool (DaClient 0 (AMain Fine)); BaPool (DaClient 0 (AMain Fine)); BaPool (DaSelect 0 BReady); BaPool (DaClient 0 (AMain Fine));
    BaPool (DaClient 0 (AMain (Fails 7))); BaPool (DaClient 0 (AMain Fine)); BaPool (DaClient 0 ACloseFlag); BaPool (DaClient 0 ACloseConn); BaPool (DaClient 0 (AMain Fine))].
  eexists _, _, _. split; [vm_compute; reflexivity|]. vm_compute. repeat split.
Qed.
(** A pool of one: the callback of the only client calls another address. *)
Example C79_eviction_nonvacuous : exists l s q, with_callbacks 1 3 0 0 (fun _ => false) l s /\ In (0, 1) (b_calls s) /\ evicts (b_pool s) 1 0 /\ nth_error (ds_clients (b_pool s)) 0 = Some q /\ c_main (k_st q) = MReady.
Proof.
  exists [BaPool (DaCall (adr 1)); BaPool (DaGet 0); BaPool (DaClient 0 (AMain Fine)); BaPool (DaClient 0 (AMain Fine)); BaCall 0 (adr 2); BaPool (DaGet 1)]. eexists _, _. split; [vm_compute; reflexivity|].
  split; [left; reflexivity|]. split; [eexists _, _, _, _; split; reflexivity|]. split; reflexivity.
Qed.

Print Assumptions C79_own_address.
Print Assumptions C79_own_eviction.
Print Assumptions C79_refuted.
Print Assumptions C79_partial.
Print Assumptions C79_holds_up_partial.
