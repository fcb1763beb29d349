(** * Kademlia's connection callback (C86) *)
From Verif Require Import P_Work.
From Verif Require Import Base Spec M_ID M_Table P_Table P_Kad P_Iter P_Gossip P_Conn M_Maps M_Client P_Client Props_Maps M_Dial P_Dial Props_Dial M_Callback Props_Callback M_Kad M_KadConn.
From Verif Require Props_Kad.
Local Open Scope nat_scope.

(** ** Specification *)

(** A node with Kademlia bound, whose table was made by NewTable, after the schedule [l]. *)
Definition kad_node (max att p idle : nat) (isctx : nat -> bool) (self : ID) (l : list kcact) (s : kcstate) : Prop :=
  exists t0, NewTable self = Ok t0 /\ kcrun max att p idle isctx (kc_start t0) l = Some s.
(** OnPeerConnected's [j]-th run is over. *)
Definition callback_over (s : kcstate) (j : nat) : Prop := exists a, nth_error (kc_acks s) j = Some a /\ a_pc a = KDone.

(** Kademlia's OnPeerConnected returns, given that everything else does what it can: a peer that has been dialled can be used. *)
Definition C86_statement : Prop := forall max att p idle isctx self l s j, 0 < max -> 0 < att -> key32 (id_key self) ->
  kad_node max att p idle isctx self l s -> j < length (kc_acks s) -> exists l' s', kcrun max att p idle isctx s l' = Some s' /\ callback_over s' j.

(** ** The machine and those underneath *)
Lemma kcrun_inv max att p idle isctx (P : kcstate -> Prop) : (forall s x s', P s -> kcstep max att p idle isctx s x = Some s' -> P s') -> forall l s s', P s -> kcrun max att p idle isctx s l = Some s' -> P s'.
Proof.
  intros St. induction l as [|a l IH]; cbn [kcrun]; intros s s' H R; [injection R as <-; exact H|].
  destruct (kcstep max att p idle isctx s a) as [s1|] eqn:E; [|discriminate]. apply (IH s1 s'); [apply (St s a s1 H E)|exact R].
Qed.
Lemma kcrun_app max att p idle isctx l1 l2 : forall s, kcrun max att p idle isctx s (l1 ++ l2) = match kcrun max att p idle isctx s l1 with Some s' => kcrun max att p idle isctx s' l2 | None => None end.
Proof. induction l1 as [|a l1 IH]; intros s; cbn [kcrun app]; [reflexivity|]. destruct (kcstep max att p idle isctx s a); [apply IH|reflexivity]. Qed.

Lemma ack_step_shape s j a o s' : ack_step s j a o = Some s' ->
  exists t pc e, kad_step o (kc_table s) (a_pc a) = Ok (t, pc, e) /\ s' = mkKC (kc_conn s) t (set_nth j (mkKA (a_client a) pc None) (kc_acks s)).
Proof. unfold ack_step. destruct (kad_step o (kc_table s) (a_pc a)) as [[[t pc] e]| |]; intros E; try discriminate. injection E as <-. eauto. Qed.

Lemma kcstep_conn max att p idle isctx s x s' : kcstep max att p idle isctx s x = Some s' -> kc_conn s' = kc_conn s \/ exists a, bstep max att p idle isctx (kc_conn s) a = Some (kc_conn s').
Proof.
  destruct x as [da|k id|j o|op]; cbn [kcstep]; intros E.
  - destruct (may s da); [|discriminate]. destruct (bstep max att p idle isctx (kc_conn s) (BaPool da)) as [b|] eqn:B; [|discriminate]. injection E as <-. right. eauto.
  - destruct (nth_error _ k) as [q|]; [|discriminate]. destruct (c_main (k_st q)); try discriminate. destruct (c_err (k_st q)); [discriminate|]. destruct (existsb _ _); [discriminate|]. injection E as <-. left. reflexivity.
  - destruct (nth_error (kc_acks s) j) as [a|]; [|discriminate].
    assert (A : forall o', ack_step s j a o' = Some s' -> kc_conn s' = kc_conn s) by (intros o' A; destruct (ack_step_shape _ _ _ _ _ A) as (t & pc & e & _ & ->); reflexivity).
    destruct (a_pc a) eqn:Pc; try (left; eapply A; eassumption); try discriminate.
    destruct (a_call a) as [i|].
    + destruct (nth_error _ i) as [c|]; [|discriminate]. destruct (ping_fits (d_pc c) o); [|discriminate]. left. eapply A. eassumption.
    + destruct (bstep max att p idle isctx (kc_conn s) (BaCall (a_client a) (id_addr last))) as [b|] eqn:B; [|discriminate]. injection E as <-. right. eauto.
  - injection E as <-. left. reflexivity.
Qed.
Lemma kcrun_conn max att p idle isctx l : forall s s', kcrun max att p idle isctx s l = Some s' -> exists l', brun max att p idle isctx (kc_conn s) l' = Some (kc_conn s').
Proof.
  induction l as [|x l IH]; cbn [kcrun]; intros s s' R; [injection R as <-; exists []; reflexivity|].
  destruct (kcstep max att p idle isctx s x) as [s1|] eqn:E; [|discriminate]. destruct (IH s1 s' R) as (l1 & R1). destruct (kcstep_conn _ _ _ _ _ _ _ _ E) as [Q|(a & B)].
  - exists l1. rewrite <- Q. exact R1.
  - exists (a :: l1). cbn [brun]. rewrite B. exact R1.
Qed.
Lemma node_conn max att p idle isctx self l s : kad_node max att p idle isctx self l s -> exists l', with_callbacks max att p idle isctx l' (kc_conn s).
Proof. intros (t0 & _ & R). destruct (kcrun_conn _ _ _ _ _ _ _ _ R) as (l' & Q). exists l'. exact Q. Qed.
Lemma node_snoc max att p idle isctx self l s l' s' : kad_node max att p idle isctx self l s -> kcrun max att p idle isctx s l' = Some s' -> kad_node max att p idle isctx self (l ++ l') s'.
Proof. intros (t0 & T & R) R'. exists t0. split; [exact T|]. rewrite kcrun_app, R. exact R'. Qed.

(** A call that has returned stays so. *)
Lemma over_stays max att p idle isctx s da s' i : dstep SideOutbound max att p idle isctx s da = Some s' -> call_over s i = true -> call_over s' i = true.
Proof.
  intros E H. unfold call_over in H. destruct (nth_error (ds_callers s) i) as [c|] eqn:Hi; [|discriminate].
  destruct da as [ca|cj|gi|gi|si b|xi|xi|fi|gk ga].
  9:{ destruct (nth_error (ds_clients s) gk) as [q0|] eqn:H0; [|cbn [dstep] in E; rewrite H0 in E; discriminate].
      destruct (cact idle (k_st q0) ga) as [st|] eqn:Ha; [|cbn [dstep] in E; rewrite H0, Ha in E; discriminate].
      destruct (client_shape _ _ _ _ _ _ _ _ _ _ _ _ E H0 Ha) as (Q1 & _). unfold call_over. rewrite Q1, Hi. exact H. }
  1:{ cbn [dstep] in E. injection E as <-. unfold call_over. cbn [ds_callers]. rewrite (nth_error_keep _ _ _ _ Hi). exact H. }
  all: match type of E with dstep _ _ _ _ _ _ _ ?act = _ => let x := match act with DaCancel ?i => i | DaGet ?i => i | DaEvicted ?i => i | DaSelect ?i _ => i | DaClose ?i => i | DaWait ?i => i | DaFail ?i => i end in
    destruct (Nat.eqb_spec i x) as [->|Ni] end.
  all: try (match type of E with dstep _ _ _ _ _ _ _ ?act = _ => let x := match act with DaCancel ?i => i | DaGet ?i => i | DaEvicted ?i => i | DaSelect ?i _ => i | DaClose ?i => i | DaWait ?i => i | DaFail ?i => i end in
      destruct (nth_error (ds_callers s) x) as [c0|] eqn:H0; [|cbn [dstep] in E; rewrite H0 in E; discriminate];
      enough (X : exists c', ds_callers s' = set_nth x c' (ds_callers s)) by (destruct X as (c' & X); unfold call_over; rewrite X, (nth_error_set _ _ _ _ i H0); destruct (Nat.eqb_spec i x); [contradiction|rewrite Hi; exact H]) end;
    cbn [dstep] in E; rewrite H0 in E; unfold set_pc in E;
    repeat match type of E with context [match ?x with _ => _ end] => match x with context [match _ with _ => _ end] => fail 1 | _ => destruct x eqn:? end; try discriminate E end;
    injection E as <-; cbn [ds_callers]; eexists; reflexivity).
  all: cbn [dstep] in E; rewrite Hi in E; destruct (d_pc c) eqn:Pc; try discriminate; injection E as <-; unfold call_over; cbn [ds_callers]; rewrite (nth_error_set _ _ _ _ _ Hi), Nat.eqb_refl; cbn [d_pc]; reflexivity.
Qed.

(** ** What holds of every reachable state *)
Record kinv (s : kcstate) : Prop := {
  ki_live : forall j a, nth_error (kc_acks s) j = Some a -> is_done a = false ->
              exists q, nth_error (ds_clients (b_pool (kc_conn s))) (a_client a) = Some q /\ c_main (k_st q) = MReady /\ c_err (k_st q) = None;
  ki_calls : forall k i, In (k, i) (b_calls (kc_conn s)) -> call_over (b_pool (kc_conn s)) i = true \/
              exists j a id last, nth_error (kc_acks s) j = Some a /\ a_client a = k /\ a_pc a = KPing id last /\ a_call a = Some i;
  ki_uniq : forall i j a b, nth_error (kc_acks s) i = Some a -> nth_error (kc_acks s) j = Some b -> a_client a = a_client b -> i = j;
  ki_known : forall j a, nth_error (kc_acks s) j = Some a -> a_client a < length (ds_clients (b_pool (kc_conn s)));
  ki_ping : forall j a i, nth_error (kc_acks s) j = Some a -> a_call a = Some i -> exists id last c, a_pc a = KPing id last /\
              nth_error (ds_callers (b_pool (kc_conn s))) i = Some c /\ d_addr c = id_addr last /\ In (a_client a, i) (b_calls (kc_conn s))
}.

Lemma quiet_err idle s a s' : cact idle s a = Some s' -> sig_inv s -> c_main s = MReady -> (forall o, a <> AMain o) -> (forall e, a <> AReport e) -> c_err s' = c_err s.
Proof.
  intros H (_ & _ & _ & Sw & _) M N1 N2. rewrite M in Sw. cbn in Sw. specialize (Sw eq_refl).
  destruct a as [o|o sp|m| | |e|]; cbn [cact] in H; try (exfalso; eapply N1; reflexivity); try (exfalso; eapply N2; reflexivity).
  - unfold writer_step in H. destruct (c_wr s); cbn in Sw; try discriminate.
  - injection H as <-. reflexivity.
  - destruct (c_once s =? 0); injection H as <-; reflexivity.
  - destruct (c_once s =? 1); [|discriminate]. injection H as <-. reflexivity.
  - injection H as <-. reflexivity.
Qed.

(** The callers' side of a step of the pool. *)
Lemma caller_kept max att p idle isctx s da s' i c : dstep SideOutbound max att p idle isctx s da = Some s' -> nth_error (ds_callers s) i = Some c -> exists c', nth_error (ds_callers s') i = Some c' /\ d_addr c' = d_addr c.
Proof.
  intros E Hi. pose proof (callers_grow _ _ _ _ _ _ _ _ E) as L. assert (i < length (ds_callers s)) by (apply nth_error_Some; congruence).
  destruct (nth_error (ds_callers s') i) as [c'|] eqn:H'; [|apply nth_error_None in H'; lia]. exists c'. split; [reflexivity|].
  destruct (callers_step _ _ _ _ _ _ _ _ _ _ E H') as [(c0 & H0 & A0)|(H0 & _)]; congruence.
Qed.

Lemma clients_kept max att p idle isctx l s da s' k q : 0 < max -> pool_does SideOutbound max att p idle isctx l s -> dstep SideOutbound max att p idle isctx s da = Some s' ->
  nth_error (ds_clients s) k = Some q -> c_main (k_st q) = MReady -> c_err (k_st q) = None -> (forall o, da <> DaClient k (AMain o)) -> (forall e, da <> DaClient k (AReport e)) ->
  exists q', nth_error (ds_clients s') k = Some q' /\ c_main (k_st q') = MReady /\ c_err (k_st q') = None.
Proof.
  intros Mx R E Hq Mq Eq N1 N2. pose proof (reach_pinv _ _ _ _ _ _ _ _ Mx R) as P. destruct (pi_sig _ _ P q (nth_error_In _ _ Hq)) as [Sg _].
  destruct da as [ca|cj|gi|gi|si b|xi|xi|fi|gk ga].
  9:{ destruct (nth_error (ds_clients s) gk) as [q0|] eqn:H0; [|cbn [dstep] in E; rewrite H0 in E; discriminate].
      destruct (cact idle (k_st q0) ga) as [st|] eqn:Ha; [|cbn [dstep] in E; rewrite H0, Ha in E; discriminate].
      destruct (client_shape _ _ _ _ _ _ _ _ _ _ _ _ E H0 Ha) as (_ & Q2 & _). rewrite Q2, (nth_error_set _ _ _ _ k H0). destruct (Nat.eqb_spec k gk) as [->|]; [|eauto].
      rewrite H0 in Hq. injection Hq as ->. eexists. split; [reflexivity|]. cbn [k_st k_addr]. split.
      - rewrite (main_keeps _ _ _ _ Ha); [exact Mq|]. intros o ->. exact (N1 o eq_refl).
      - rewrite (quiet_err _ _ _ _ Ha Sg Mq); [exact Eq| |]; intros o ->; [exact (N1 o eq_refl)|exact (N2 o eq_refl)]. }
  all: enough (X : exists x, ds_clients s' = ds_clients s ++ x) by (destruct X as (x & ->); exists q; split; [rewrite nth_error_app1; [exact Hq|apply nth_error_Some; congruence]|auto]).
  all: cbn [dstep] in E; unfold set_pc in E;
    repeat match type of E with context [match ?x with _ => _ end] => match x with context [match _ with _ => _ end] => fail 1 | _ => destruct x eqn:? end; try discriminate E end;
    injection E as <-; cbn [ds_clients]; first [eexists; reflexivity | exists []; rewrite app_nil_r; reflexivity].
Qed.

Lemma nth_snoc {A} (l : list A) x i y : nth_error (l ++ [x]) i = Some y -> nth_error l i = Some y \/ (i = length l /\ y = x).
Proof.
  intros H. destruct (lt_dec i (length l)) as [L|L]; [left; rewrite nth_error_app1 in H by exact L; exact H|]. rewrite nth_error_app2 in H by lia.
  destruct (i - length l) as [|[|]] eqn:D; cbn in H; try discriminate. injection H as <-. right. split; [lia|reflexivity].
Qed.

Lemma kinv_ack s j a o s' : kinv s -> nth_error (kc_acks s) j = Some a -> is_done a = false -> (forall i, a_call a = Some i -> call_over (b_pool (kc_conn s)) i = true) -> ack_step s j a o = Some s' -> kinv s'.
Proof.
  intros [L C U K G] Hj Nd Ov E. destruct (ack_step_shape _ _ _ _ _ E) as (t & pc & e & _ & ->). split; cbn [kc_conn kc_acks kc_table].
  - intros i b Hb Db. rewrite (nth_error_set _ _ _ _ i Hj) in Hb. destruct (Nat.eqb_spec i j) as [->|]; [injection Hb as <-; cbn [a_client]; exact (L j a Hj Nd)|exact (L i b Hb Db)].
  - intros k i Hi. destruct (C k i Hi) as [H|(j0 & b & id & la & Hb & Ab & Pb & Cb)]; [auto|]. destruct (Nat.eqb_spec j0 j) as [->|Nj].
    + rewrite Hj in Hb. injection Hb as <-. left. exact (Ov i Cb).
    + right. exists j0, b, id, la. rewrite (nth_error_set _ _ _ _ j0 Hj). destruct (Nat.eqb_spec j0 j); [contradiction|auto].
  - intros i1 i2 b1 b2 H1 H2. rewrite (nth_error_set _ _ _ _ i1 Hj) in H1. rewrite (nth_error_set _ _ _ _ i2 Hj) in H2.
    destruct (Nat.eqb_spec i1 j) as [->|], (Nat.eqb_spec i2 j) as [->|]; try injection H1 as <-; try injection H2 as <-; cbn [a_client]; intros Q; auto; eauto.
  - intros i b Hb. rewrite (nth_error_set _ _ _ _ i Hj) in Hb. destruct (Nat.eqb_spec i j) as [->|]; [injection Hb as <-; cbn [a_client]; exact (K j a Hj)|exact (K i b Hb)].
  - intros i b n Hb Cb. rewrite (nth_error_set _ _ _ _ i Hj) in Hb. destruct (Nat.eqb_spec i j) as [->|]; [injection Hb as <-; discriminate|exact (G i b n Hb Cb)].
Qed.

Lemma kinv_step max att p idle isctx l s x s' : 0 < max -> with_callbacks max att p idle isctx l (kc_conn s) -> kinv s -> kcstep max att p idle isctx s x = Some s' -> kinv s'.
Proof.
  intros Mx R I E. pose proof I as [L C U K G]. destruct (reach_pool _ _ _ _ _ _ _ R) as (lp & Rp). destruct x as [da|k id|j o|op]; cbn [kcstep] in E.
  - destruct (may s da) eqn:My; [|discriminate]. destruct (bstep max att p idle isctx (kc_conn s) (BaPool da)) as [b|] eqn:B; [|discriminate]. injection E as <-.
    cbn [bstep] in B. destruct (match da with DaClient k (AMain _) => busy (kc_conn s) k | _ => false end) eqn:Bz; [discriminate|]. destruct (dstep SideOutbound max att p idle isctx (b_pool (kc_conn s)) da) as [d|] eqn:D; [|discriminate]. injection B as <-.
    split; cbn [kc_conn kc_acks kc_table b_pool b_calls].
    + intros j a Hj Nd. destruct (L j a Hj Nd) as (q & Hq & Mq & Eq). apply (clients_kept _ _ _ _ _ _ _ _ _ _ _ Mx Rp D Hq Mq Eq).
      * intros o ->. cbn [may] in My. unfold announced in My. rewrite Hq, Mq, Eq in My. apply existsb_exists in My as (b & Ib & Bb). apply andb_prop in Bb as [B1 B2]. apply Nat.eqb_eq in B1.
        apply In_nth_error in Ib as (j0 & Hb). rewrite (U j j0 a b Hj Hb ltac:(congruence)) in Hj. congruence.
      * intros e ->. cbn [may] in My. rewrite Hq in My. pose proof (reach_pinv _ _ _ _ _ _ _ _ Mx Rp) as P. destruct (pi_sig _ _ P q (nth_error_In _ _ Hq)) as [(_ & Sr & _) _]. rewrite Mq in Sr. cbn in Sr. congruence.
    + intros k i Hi. destruct (C k i Hi) as [H|H]; [left; exact (over_stays _ _ _ _ _ _ _ _ _ D H)|right; exact H].
    + exact U.
    + intros j a Hj. pose proof (clients_grow _ _ _ _ _ _ _ _ D). pose proof (K j a Hj). lia.
    + intros j a i Hj Hi. destruct (G j a i Hj Hi) as (id & la & c & P1 & P2 & P3 & P4). destruct (caller_kept _ _ _ _ _ _ _ _ _ _ D P2) as (c' & H' & A'). exists id, la, c'. repeat split; auto. congruence.
  - destruct (nth_error (ds_clients (b_pool (kc_conn s))) k) as [q|] eqn:Hq; [|discriminate]. destruct (c_main (k_st q)) eqn:Mq; try discriminate. destruct (c_err (k_st q)) eqn:Eq; [discriminate|].
    destruct (existsb _ _) eqn:X; [discriminate|]. injection E as <-. split; cbn [kc_conn kc_acks kc_table].
    + intros j a Hj Nd. apply nth_snoc in Hj as [Hj|[-> ->]]; [eauto|]. cbn [a_client]. eauto.
    + intros k0 i Hi. destruct (C k0 i Hi) as [H|(j0 & b & id0 & la & Hb & Ab)]; [auto|]. right. exists j0, b, id0, la. split; [apply nth_error_keep, Hb|exact Ab].
    + assert (F : forall i a, nth_error (kc_acks s) i = Some a -> a_client a <> k).
      { intros i a Hi Q. assert (Y : existsb (fun a => a_client a =? k) (kc_acks s) = true) by (apply existsb_exists; exists a; split; [exact (nth_error_In _ _ Hi)|apply Nat.eqb_eq, Q]). congruence. }
      intros i1 i2 b1 b2 H1 H2 Q. apply nth_snoc in H1 as [H1|[-> ->]]; apply nth_snoc in H2 as [H2|[-> ->]]; cbn [a_client] in *; eauto; exfalso; eapply F; eauto.
    + intros j a Hj. apply nth_snoc in Hj as [Hj|[-> ->]]; [eauto|]. cbn [a_client]. apply nth_error_Some. congruence.
    + intros j a i Hj Hi. apply nth_snoc in Hj as [Hj|[-> ->]]; [eauto|discriminate].
  - destruct (nth_error (kc_acks s) j) as [a|] eqn:Hj; [|discriminate].
    assert (A : is_done a = false -> a_call a = None -> ack_step s j a o = Some s' -> kinv s') by (intros Nd Nc; apply (kinv_ack s j a o s' I Hj Nd); intros i Q; congruence).
    assert (B : forall i, a_call a = Some i -> exists id last, a_pc a = KPing id last) by (intros i Q; destruct (G j a i Hj Q) as (id & la & c & P1 & _); eauto).
    destruct (a_pc a) eqn:Pc; try discriminate;
      try (apply A; [unfold is_done; rewrite Pc; reflexivity|destruct (a_call a) eqn:Q; [destruct (B _ eq_refl) as (? & ? & ?); discriminate|reflexivity]|exact E]).
    destruct (a_call a) as [i|] eqn:Q.
    + destruct (nth_error (ds_callers (b_pool (kc_conn s))) i) as [c|] eqn:Hc; [|discriminate]. destruct (ping_fits (d_pc c) o) eqn:F; [|discriminate].
      apply (kinv_ack s j a o s' I Hj); [unfold is_done; rewrite Pc; reflexivity| |exact E]. intros i0 Q0. rewrite Q in Q0. injection Q0 as <-. unfold call_over. rewrite Hc. destruct (d_pc c); auto; discriminate.
    + destruct (bstep max att p idle isctx (kc_conn s) (BaCall (a_client a) (id_addr last))) as [b|] eqn:Bs; [|discriminate]. injection E as <-. cbn [bstep] in Bs.
      destruct (nth_error (ds_clients (b_pool (kc_conn s))) (a_client a)) as [q|] eqn:Hq; [|discriminate]. destruct (in_callback (k_st q) && negb (busy (kc_conn s) (a_client a))); [|discriminate]. cbn [dstep] in Bs. injection Bs as <-.
      assert (Nd : is_done a = false) by (unfold is_done; rewrite Pc; reflexivity).
      split; cbn [kc_conn kc_acks kc_table b_pool b_calls ds_clients ds_callers].
      * intros i b Hb Db. rewrite (nth_error_set _ _ _ _ i Hj) in Hb. destruct (Nat.eqb_spec i j) as [->|]; [injection Hb as <-; cbn [a_client]; exact (L j a Hj Nd)|exact (L i b Hb Db)].
      * intros k i Hi. apply in_app_or in Hi as [Hi|[Hi|[]]].
        -- destruct (C k i Hi) as [H|(j0 & b & id0 & la & Hb & Ab & Pb & Cb)].
           ++ left. unfold call_over in *. cbn [ds_callers]. destruct (nth_error (ds_callers (b_pool (kc_conn s))) i) as [c|] eqn:Hc; [|discriminate]. rewrite (nth_error_keep _ _ _ _ Hc). exact H.
           ++ right. exists j0, b, id0, la. rewrite (nth_error_set _ _ _ _ j0 Hj). destruct (Nat.eqb_spec j0 j) as [->|]; [congruence|auto].
        -- injection Hi as <- <-. right. exists j. rewrite (nth_error_set _ _ _ _ j Hj), Nat.eqb_refl. eexists _, _, _. split; [reflexivity|]. cbn. repeat split.
      * intros i1 i2 b1 b2 H1 H2. rewrite (nth_error_set _ _ _ _ i1 Hj) in H1. rewrite (nth_error_set _ _ _ _ i2 Hj) in H2.
        destruct (Nat.eqb_spec i1 j) as [->|], (Nat.eqb_spec i2 j) as [->|]; try injection H1 as <-; try injection H2 as <-; cbn [a_client]; intros Z; auto; eauto.
      * intros i b Hb. rewrite (nth_error_set _ _ _ _ i Hj) in Hb. destruct (Nat.eqb_spec i j) as [->|]; [injection Hb as <-; cbn [a_client]; exact (K j a Hj)|exact (K i b Hb)].
      * intros i b n Hb Cb. rewrite (nth_error_set _ _ _ _ i Hj) in Hb. destruct (Nat.eqb_spec i j) as [->|].
        -- injection Hb as <-. cbn [a_call a_pc a_client] in *. injection Cb as <-. eexists _, _, _. split; [reflexivity|]. rewrite nth_error_app2, Nat.sub_diag by lia. cbn. split; [reflexivity|]. split; [reflexivity|]. apply in_app_iff. right. left. reflexivity.
        -- destruct (G i b n Hb Cb) as (id0 & la & c & P1 & P2 & P3 & P4). exists id0, la, c. split; [exact P1|]. split; [apply nth_error_keep, P2|]. split; [exact P3|]. apply in_app_iff. auto.
  - injection E as <-. split; assumption.
Qed.
Lemma node_inv max att p idle isctx self l s : 0 < max -> kad_node max att p idle isctx self l s -> kinv s.
Proof.
  intros Mx (t0 & _ & R). enough (X : (exists l', with_callbacks max att p idle isctx l' (kc_conn s)) /\ kinv s) by apply X.
  apply (kcrun_inv max att p idle isctx (fun x => (exists l', with_callbacks max att p idle isctx l' (kc_conn x)) /\ kinv x)) with (l := l) (s := kc_start t0); [| |exact R].
  - intros x a y ((l' & Rx) & Ix) E. split; [|exact (kinv_step _ _ _ _ _ _ _ _ _ Mx Rx Ix E)]. destruct (kcstep_conn _ _ _ _ _ _ _ _ E) as [Q|(b & B)]; [rewrite Q; eauto|].
    exists (l' ++ [b]). unfold with_callbacks in *. rewrite brun_app, Rx. cbn [brun]. rewrite B. reflexivity.
  - split; [exists []; reflexivity|]. split; cbn; intros; try contradiction; match goal with H : nth_error [] ?n = Some _ |- _ => destruct n; discriminate end.
Qed.

(** ** The callback that never returns *)

(** OnPeerConnected that is about to ping its own client's address, because the entry at the tail of the peer's full bucket has that address,
    never returns, in any continuation, also if the ping's context expires.  The client never becomes ready; the call that dialled it, every
    other call that waits for it, and every later call for that address never return. *)
Theorem C86_hangs max att p idle isctx self l s j a id last q o s1 l' s' : 0 < max -> kad_node max att p idle isctx self l s ->
  nth_error (kc_acks s) j = Some a -> a_pc a = KPing id last -> a_call a = None ->
  nth_error (ds_clients (b_pool (kc_conn s))) (a_client a) = Some q -> k_addr q = id_addr last ->
  kcstep max att p idle isctx s (KcAck j o) = Some s1 -> kcrun max att p idle isctx s1 l' = Some s' ->
  ~ callback_over s' j /\
  (exists q', nth_error (ds_clients (b_pool (kc_conn s'))) (a_client a) = Some q' /\ k_addr q' = k_addr q /\ c_ready (k_st q') = false /\ c_cdone (k_st q') = false) /\
  (forall i n, at_pc (b_pool (kc_conn s)) i (DSelect n (a_client a)) -> ~ returned (b_pool (kc_conn s')) i) /\
  (forall i c, length (ds_callers (b_pool (kc_conn s))) <= i -> nth_error (ds_callers (b_pool (kc_conn s'))) i = Some c -> d_addr c = k_addr q -> ~ returned (b_pool (kc_conn s')) i).
Proof.
  intros Mx R Hj Pc Ca Hq Aq E R'. pose proof (node_inv _ _ _ _ _ _ _ _ Mx R) as I. destruct (node_conn _ _ _ _ _ _ _ _ R) as (lb & Rb).
  destruct (ki_live _ I j a Hj ltac:(unfold is_done; rewrite Pc; reflexivity)) as (q0 & H0 & Mq & Eq). rewrite Hq in H0. injection H0 as <-.
  pose proof E as E0. cbn [kcstep] in E. rewrite Hj, Pc, Ca in E. destruct (bstep max att p idle isctx (kc_conn s) (BaCall (a_client a) (id_addr last))) as [b|] eqn:B; [|discriminate]. injection E as E.
  assert (Cn : kc_conn s1 = b) by (subst s1; reflexivity). set (k := a_client a) in *. set (n := length (ds_callers (b_pool (kc_conn s)))) in *.
  assert (R1 : with_callbacks max att p idle isctx (lb ++ [BaCall k (id_addr last)]) b) by (unfold with_callbacks in *; rewrite brun_app, Rb; cbn [brun]; rewrite B; reflexivity).
  assert (Hk : hung (b_pool b) k (k_addr q) n /\ In (k, n) (b_calls b) /\ ds_clients (b_pool b) = ds_clients (b_pool (kc_conn s)) /\ ds_callers (b_pool b) = ds_callers (b_pool (kc_conn s)) ++ [mkD (id_addr last) (DLoop 0) false]).
  { cbn [bstep] in B. fold k in B. rewrite Hq in B. destruct (in_callback (k_st q) && negb (busy (kc_conn s) k)); [|discriminate]. cbn [dstep] in B. injection B as <-. cbn [b_pool b_calls ds_clients ds_callers].
    split; [|split; [apply in_app_iff; right; left; reflexivity|auto]]. exists (mkD (id_addr last) (DLoop 0) false). cbn [b_pool ds_callers]. subst n. rewrite nth_error_app2, Nat.sub_diag by lia. split; [reflexivity|]. cbn. congruence. }
  destruct Hk as (Hk & Ik & Kc & Kl).
  assert (W : selfwait b k MReady (k_addr q) n). { split; [|split; [exact Ik|exact Hk]]. split; [left; reflexivity|]. exists q. rewrite Kc. auto. }
  destruct (kcrun_conn _ _ _ _ _ _ _ _ R') as (l2 & R2). rewrite Cn in R2.
  destruct (selfwait_forever _ _ _ _ _ _ _ _ _ _ _ _ _ Mx R1 W R2) as (W' & J1 & J2).
  assert (R3 : with_callbacks max att p idle isctx ((lb ++ [BaCall k (id_addr last)]) ++ l2) (kc_conn s')) by (unfold with_callbacks in *; rewrite brun_app, R1; exact R2).
  split; [|split; [|split]].
  - (* the Ack stays where it is *)
    assert (X : (exists lb2, with_callbacks max att p idle isctx lb2 (kc_conn s')) /\ selfwait (kc_conn s') k MReady (k_addr q) n /\ exists a', nth_error (kc_acks s') j = Some a' /\ a_pc a' = KPing id last /\ a_call a' = Some n).
    { apply (kcrun_inv max att p idle isctx (fun x => (exists lb2, with_callbacks max att p idle isctx lb2 (kc_conn x)) /\ selfwait (kc_conn x) k MReady (k_addr q) n /\ exists a', nth_error (kc_acks x) j = Some a' /\ a_pc a' = KPing id last /\ a_call a' = Some n)) with (l := l') (s := s1); [| |exact R'].
      - intros x c y ((lb2 & Rx) & Wx & (a' & Ha & Pa & Cx)) Ey. destruct (reach_pool _ _ _ _ _ _ _ Rx) as (lp & Rp). destruct (hung_open _ _ _ _ (proj2 (proj2 Wx))) as (_ & Ov).
        split; [|split].
        + destruct (kcstep_conn _ _ _ _ _ _ _ _ Ey) as [Q|(ba & Bx)]; [rewrite Q; eauto|]. exists (lb2 ++ [ba]). unfold with_callbacks in *. rewrite brun_app, Rx. cbn [brun]. rewrite Bx. reflexivity.
        + destruct (kcstep_conn _ _ _ _ _ _ _ _ Ey) as [Q|(ba & Bx)]; [rewrite Q; exact Wx|]. exact (proj1 (selfwait_step _ _ _ _ _ _ _ _ _ _ _ _ _ Mx Rp Bx Wx)).
        + destruct c as [da|k0 id0|j0 o0|op]; cbn [kcstep] in Ey.
          * destruct (may x da); [|discriminate]. destruct (bstep max att p idle isctx (kc_conn x) (BaPool da)) as [b0|]; [|discriminate]. injection Ey as <-. eauto.
          * destruct (nth_error (ds_clients _) k0) as [q1|]; [|discriminate]. destruct (c_main (k_st q1)); try discriminate. destruct (c_err (k_st q1)); [discriminate|]. destruct (existsb _ _); [discriminate|]. injection Ey as <-.
            exists a'. split; [apply nth_error_keep, Ha|auto].
          * destruct (nth_error (kc_acks x) j0) as [a0|] eqn:H0; [|discriminate]. destruct (Nat.eqb_spec j j0) as [<-|Nj].
            -- rewrite Ha in H0. injection H0 as <-. rewrite Pa, Cx in Ey. unfold call_over in Ov. destruct (nth_error (ds_callers (b_pool (kc_conn x))) n) as [c|]; [|discriminate].
               destruct (ping_fits (d_pc c) o0) eqn:F; [|discriminate]. destruct (d_pc c); try discriminate.
            -- enough (Y : exists a1, kc_acks y = set_nth j0 a1 (kc_acks x)) by (destruct Y as (a1 & Y); exists a'; rewrite Y, (nth_error_set _ _ _ _ j H0); destruct (Nat.eqb_spec j j0); [contradiction|auto]).
               assert (Y : forall o2, ack_step x j0 a0 o2 = Some y -> exists a1, kc_acks y = set_nth j0 a1 (kc_acks x)) by (intros o2 Z; destruct (ack_step_shape _ _ _ _ _ Z) as (t & pc & e & _ & ->); eexists; reflexivity).
               destruct (a_pc a0); try (eapply Y; eassumption); try discriminate. destruct (a_call a0) as [i0|].
               ++ destruct (nth_error (ds_callers (b_pool (kc_conn x))) i0) as [c0|]; [|discriminate]. destruct (ping_fits (d_pc c0) o0); [|discriminate]. eapply Y; eassumption.
               ++ destruct (bstep max att p idle isctx (kc_conn x) (BaCall (a_client a0) (id_addr last0))) as [b0|]; [|discriminate]. injection Ey as <-. eexists. reflexivity.
          * injection Ey as <-. eauto.
      - subst s1. cbn [kc_conn kc_acks]. split; [eauto|]. split; [exact W|]. rewrite (nth_error_set _ _ _ _ j Hj), Nat.eqb_refl. eexists. split; [reflexivity|]. cbn. auto. }
    destruct X as (_ & _ & a' & Ha & Pa & _). intros (a2 & H2 & P2). congruence.
  - destruct (selfwait_client _ _ _ _ _ _ _ _ _ _ _ Mx R3 W') as (q' & H1 & H2 & H3 & H4 & H5). exists q'. repeat split; auto.
  - intros i m (c & Hc & Pi). apply (hung_open _ k (k_addr q)), J1. exists c. rewrite Kl, Pi. split; [apply nth_error_keep, Hc|reflexivity].
  - intros i c Li Hi Ai. destruct (Nat.eq_dec i n) as [->|Ni]; [apply (hung_open _ k (k_addr q)), J1, Hk|].
    apply (hung_open _ k (k_addr q)). apply (J2 i c Hi Ai). apply nth_error_None. rewrite Kl, app_length. cbn. lia.
Qed.

(** A peer comes back at its address under another key: sixteen peers are known in its bucket, and it was the one seen least recently. *)
Definition nb (i : N) : ID := NewID (Props_Kad.ex_key 255 i) [] (1000 + i).
Definition back : ID := NewID (Props_Kad.ex_key 255 99) [] 1001.
Definition full_bucket : list kcact := map (fun i => KcOther (OpUpdate (nb i))) [1;2;3;4;5;6;7;8;9;10;11;12;13;14;15;16]%N.
Definition comes_back : list kcact := full_bucket ++ [KcConn (DaCall (id_addr back)); KcConn (DaGet 0); KcConn (DaClient 0 (AMain Fine)); KcConn (DaClient 0 (AMain Fine));
  KcConnected 0 back; KcAck 0 GotPong; KcAck 0 GotPong].
Definition new_table (self : ID) : table := match NewTable self with Ok t => t | _ => mkTable [] self 0 end.
Definition kself : ID := Props_Kad.ex_id 1 1.

Lemma comes_back_ok : exists s s1 a q id last, kad_node 5 3 1 0 (fun _ => false) kself comes_back s /\ nth_error (kc_acks s) 0 = Some a /\ a_pc a = KPing id last /\ a_call a = None /\ a_client a = 0 /\
  nth_error (ds_clients (b_pool (kc_conn s))) 0 = Some q /\ k_addr q = id_addr last /\ at_pc (b_pool (kc_conn s)) 0 (DSelect 0 0) /\ id = back /\ last = nb 1 /\
  kcstep 5 3 1 0 (fun _ => false) s (KcAck 0 GotPong) = Some s1.
Proof.
  assert (T : NewTable kself = Ok (new_table kself)) by (vm_compute; reflexivity).
  destruct (kcrun 5 3 1 0 (fun _ => false) (kc_start (new_table kself)) comes_back) as [s|] eqn:E; [|vm_compute in E; discriminate].
  exists s. vm_compute in E. injection E as E. subst s. eexists _, _, _, _, _. split; [eexists; split; [exact T|vm_compute; reflexivity]|].
  split; [reflexivity|]. split; [reflexivity|]. split; [reflexivity|]. split; [reflexivity|]. split; [reflexivity|]. split; [vm_compute; reflexivity|]. split; [eexists; split; reflexivity|].
  split; [vm_compute; reflexivity|]. split; [vm_compute; reflexivity|]. vm_compute. reflexivity.
Qed.
Theorem C86_refuted : ~ C86_statement.
Proof.
  intros H. destruct comes_back_ok as (s & s1 & a & q & id & last & R & Ha & Pa & Ca & Ka & Hq & Aq & _ & _ & _ & E).
  assert (R1 : kad_node 5 3 1 0 (fun _ => false) kself (comes_back ++ [KcAck 0 GotPong]) s1) by (apply (node_snoc _ _ _ _ _ _ _ s); [exact R|cbn [kcrun]; rewrite E; reflexivity]).
  assert (L : 0 < length (kc_acks s1)). { cbn [kcstep] in E. rewrite Ha, Pa, Ca in E. destruct (bstep _ _ _ _ _ _ _) as [b|]; [|discriminate]. injection E as <-. cbn [kc_acks]. destruct (kc_acks s); [discriminate|cbn; lia]. }
  destruct (H 5 3 1 0 (fun _ => false) kself _ s1 0 ltac:(lia) ltac:(lia) eq_refl R1 L) as (l' & s' & R' & O).
  rewrite <- Ka in Hq. destruct (C86_hangs 5 3 1 0 (fun _ => false) kself _ s 0 a id last q GotPong s1 l' s' ltac:(lia) R Ha Pa Ca Hq Aq E R') as (N & _). exact (N O).
Qed.

(** ** What holds *)

(** With room in the peer's bucket, or the peer recorded already, the callback needs nobody: two steps of its own end it. *)
Theorem C86_room_partial max att p idle isctx s j a id : nth_error (kc_acks s) j = Some a -> a_pc a = KUpdate id ->
  Recorded (kc_table s) (id_key id) = true \/ length (Bucket (kc_table s) (id_key id)) < 16 -> forall o, exists s1 s', kcstep max att p idle isctx s (KcAck j o) = Some s1 /\ kcstep max att p idle isctx s1 (KcAck j o) = Some s' /\
  callback_over s' j /\ kc_conn s' = kc_conn s /\ kc_table s' = fst (Update (kc_table s) id).
Proof.
  intros Hj Pc X o.
  assert (Y : exists ins, Update (kc_table s) id = (fst (Update (kc_table s) id), (ins, None))).
  { unfold Update. destruct (bytes_eqb (id_key id) ZeroPublicKey); [eexists; reflexivity|]. cbv zeta. fold (Bucket (kc_table s) (id_key id)).
    destruct (take_first (has_key (id_key id)) (Bucket (kc_table s) (id_key id))) as [[e rest]|] eqn:F; [eexists; reflexivity|]. destruct X as [X|X].
    - exfalso. unfold Recorded in X. apply existsb_exists in X as (e & Ie & He). rewrite (proj1 (take_first_none _ _) F e Ie) in He. discriminate.
    - change BucketSize with 16. apply Nat.ltb_lt in X. rewrite X. eexists. reflexivity. }
  destruct Y as (ins & Y). cbn [kcstep]. rewrite Hj, Pc. unfold ack_step at 1. rewrite Pc. cbn [kad_step]. rewrite Y. eexists. refine (ex_intro _ _ (conj eq_refl _)).
  cbn [kcstep kc_acks]. rewrite (nth_error_set _ _ _ _ j Hj), Nat.eqb_refl. cbn [a_pc]. unfold ack_step. cbn [a_pc kad_step kc_conn kc_acks kc_table a_client]. split; [reflexivity|].
  split; [|split; reflexivity]. unfold callback_over. cbn [kc_acks]. erewrite nth_error_set; [rewrite Nat.eqb_refl; eexists; split; reflexivity|]. rewrite (nth_error_set _ _ _ _ j Hj), Nat.eqb_refl. reflexivity.
Qed.

(** The callback's call to the node can be made. *)
Lemma ping_starts max att p idle isctx self l s j a id last o : 0 < max -> kad_node max att p idle isctx self l s -> nth_error (kc_acks s) j = Some a -> a_pc a = KPing id last -> a_call a = None ->
  exists s1, kcstep max att p idle isctx s (KcAck j o) = Some s1 /\ kc_table s1 = kc_table s /\ kc_acks s1 = set_nth j (mkKA (a_client a) (KPing id last) (Some (length (ds_callers (b_pool (kc_conn s)))))) (kc_acks s) /\
    b_pool (kc_conn s1) = mkDS (ds_callers (b_pool (kc_conn s)) ++ [mkD (id_addr last) (DLoop 0) false]) (ds_clients (b_pool (kc_conn s))) (ds_pool (b_pool (kc_conn s))) (ds_lock (b_pool (kc_conn s)))
                            (ds_gets (b_pool (kc_conn s))) (ds_failed (b_pool (kc_conn s))) (ds_late (b_pool (kc_conn s))).
Proof.
  intros Mx R Hj Pc Ca. pose proof (node_inv _ _ _ _ _ _ _ _ Mx R) as I. destruct (ki_live _ I j a Hj ltac:(unfold is_done; rewrite Pc; reflexivity)) as (q & Hq & Mq & Eq).
  assert (B : busy (kc_conn s) (a_client a) = false).
  { destruct (busy (kc_conn s) (a_client a)) eqn:B; [|reflexivity]. unfold busy in B. apply existsb_exists in B as ((k & i) & I1 & I2). cbn [fst snd] in I2. apply andb_prop in I2 as [I2 I3]. apply Nat.eqb_eq in I2. subst k.
    destruct (ki_calls _ I _ _ I1) as [O|(j0 & b & id0 & la & Hb & Ab & Pb & Cb)]; [rewrite O in I3; discriminate|]. rewrite (ki_uniq _ I j0 j b a Hb Hj Ab) in Hb. congruence. }
  cbn [kcstep]. rewrite Hj, Pc, Ca. cbn [bstep]. rewrite Hq, B. unfold in_callback. rewrite Mq, Eq. cbn [andb negb dstep]. eexists. split; [reflexivity|]. cbn [kc_table kc_acks kc_conn b_pool]. auto.
Qed.

Lemma kc_pool_step max att p idle isctx s da d : (forall k a, da <> DaClient k a) -> dstep SideOutbound max att p idle isctx (b_pool (kc_conn s)) da = Some d ->
  kcstep max att p idle isctx s (KcConn da) = Some (mkKC (mkB d (b_calls (kc_conn s))) (kc_table s) (kc_acks s)).
Proof.
  intros N D. cbn [kcstep bstep]. rewrite D. destruct da; try reflexivity. destruct (N k a eq_refl).
Qed.
(** A step of a client's goroutine that is in no callback. *)
Lemma kc_main_step max att p idle isctx s k q st : nth_error (ds_clients (b_pool (kc_conn s))) k = Some q -> c_main (k_st q) <> MRemove -> (forall i, ~ In (k, i) (b_calls (kc_conn s))) -> announced s k = true -> main_step (k_st q) Fine = Some st ->
  exists s', kcstep max att p idle isctx s (KcConn (DaClient k (AMain Fine))) = Some s' /\ b_calls (kc_conn s') = b_calls (kc_conn s) /\ ds_callers (b_pool (kc_conn s')) = ds_callers (b_pool (kc_conn s)) /\
    nth_error (ds_clients (b_pool (kc_conn s'))) k = Some (mkK (k_addr q) (k_ctx q) st) /\ kc_table s' = kc_table s /\ kc_acks s' = kc_acks s.
Proof.
  intros Hq Nm Nb An St. destruct (main_fine max att p idle isctx (kc_conn s) k q st Hq Nm Nb St) as (b & E & B1 & B2 & B3). cbn [kcstep may]. rewrite An, E. eexists. split; [reflexivity|]. cbn [kc_conn kc_table kc_acks]. auto.
Qed.

Definition ends_well (max att p idle : nat) (isctx : nat -> bool) (s : kcstate) (j : nat) : Prop := exists l' s', kcrun max att p idle isctx s l' = Some s' /\ callback_over s' j.
(** Once the connection for the ping is there, the callback can end. *)
Lemma ping_ends max att p idle isctx s j k id last i c kk : nth_error (kc_acks s) j = Some (mkKA k (KPing id last) (Some i)) -> nth_error (ds_callers (b_pool (kc_conn s))) i = Some c -> d_pc c = DOk kk false -> ends_well max att p idle isctx s j.
Proof.
  intros Hj Hi Pi. exists [KcAck j GotPong; KcAck j GotPong]. cbn [kcrun]. replace (kcstep max att p idle isctx s (KcAck j GotPong)) with (Some (mkKC (kc_conn s) (kc_table s) (set_nth j (mkKA k (KEmit (Evicted id) KDone) None) (kc_acks s)))) by (cbn [kcstep]; rewrite Hj; cbn [a_pc a_call]; rewrite Hi, Pi; reflexivity).
  cbn [kcstep kc_acks]. rewrite (nth_error_set _ _ _ _ j Hj), Nat.eqb_refl. cbn [a_pc]. unfold ack_step. cbn [a_pc kad_step kc_conn kc_acks kc_table a_client]. eexists. split; [reflexivity|].
  unfold callback_over. cbn [kc_acks]. erewrite nth_error_set; [rewrite Nat.eqb_refl; eexists; split; reflexivity|]. rewrite (nth_error_set _ _ _ _ j Hj), Nat.eqb_refl. reflexivity.
Qed.
Lemma ends_after max att p idle isctx l s s' j : kcrun max att p idle isctx s l = Some s' -> ends_well max att p idle isctx s' j -> ends_well max att p idle isctx s j.
Proof. intros R (l' & s2 & R' & O). exists (l ++ l'), s2. rewrite kcrun_app, R. auto. Qed.

(** The callback that has to ping can end when the pool's lock is free and the address to be pinged has a client that is ready and has no error, or has
    no client while the pool has room and the entry to be pinged is still recorded. *)
Theorem C86_partial max att p idle isctx self l s j a id last : 0 < max -> 0 < att -> kad_node max att p idle isctx self l s ->
  nth_error (kc_acks s) j = Some a -> a_pc a = KPing id last -> a_call a = None -> ds_lock (b_pool (kc_conn s)) = None ->
  (exists k q, nth_error (ds_clients (b_pool (kc_conn s))) k = Some q /\ k_addr q = id_addr last /\ active q /\ c_ready (k_st q) = true /\ c_err (k_st q) = None) \/
  (length (listed (b_pool (kc_conn s))) < max /\ Recorded (kc_table s) (id_key last) = true /\
   forall k q, nth_error (ds_clients (b_pool (kc_conn s))) k = Some q -> k_addr q = id_addr last -> c_main (k_st q) = MDone \/ c_main (k_st q) = MEnd) ->
  exists l' s', kcrun max att p idle isctx s l' = Some s' /\ callback_over s' j.
Proof.
  intros Mx At R Hj Pc Ca Lk X. change (ends_well max att p idle isctx s j). destruct (ping_starts _ _ _ _ _ _ _ _ _ _ _ _ GotPong Mx R Hj Pc Ca) as (s1 & E1 & T1 & A1 & P1).
  set (i := length (ds_callers (b_pool (kc_conn s)))) in *. pose proof (node_snoc _ _ _ _ _ _ _ _ [KcAck j GotPong] s1 R ltac:(cbn [kcrun]; rewrite E1; reflexivity)) as R1.
  apply (ends_after _ _ _ _ _ [KcAck j GotPong] s s1 j); [cbn [kcrun]; rewrite E1; reflexivity|].
  destruct (node_conn _ _ _ _ _ _ _ _ R1) as (lb & Rb). destruct (reach_pool _ _ _ _ _ _ _ Rb) as (lp & Rp). pose proof (node_inv _ _ _ _ _ _ _ _ Mx R1) as I1.
  assert (Hi : nth_error (ds_callers (b_pool (kc_conn s1))) i = Some (mkD (id_addr last) (DLoop 0) false)) by (rewrite P1; cbn [ds_callers]; subst i; rewrite nth_error_app2, Nat.sub_diag by lia; reflexivity).
  assert (Hj1 : nth_error (kc_acks s1) j = Some (mkKA (a_client a) (KPing id last) (Some i))) by (rewrite A1, (nth_error_set _ _ _ _ j Hj), Nat.eqb_refl; reflexivity).
  assert (Lk1 : ds_lock (b_pool (kc_conn s1)) = None) by (rewrite P1; exact Lk).
  assert (Cl1 : ds_clients (b_pool (kc_conn s1)) = ds_clients (b_pool (kc_conn s))) by (rewrite P1; reflexivity).
  destruct X as [(k & q & Hq & Aq & Ac & Rq & Eq)|(Room & Rec & No)].
  - rewrite <- Cl1 in Hq. destruct (C71_shared SideOutbound max att p idle isctx lp (b_pool (kc_conn s1)) i _ 0 k q Mx Rp Lk1 Hi eq_refl At Hq Aq Ac) as (d & D & (c1 & Hc1 & Pc1) & Cl). cbn [got] in Pc1.
    assert (D2 : dstep SideOutbound max att p idle isctx d (DaSelect i BReady) = Some (set_pc i c1 (DOk k false) d)) by (cbn [dstep]; rewrite Hc1, Pc1, Cl, Hq, Rq, Eq; reflexivity).
    eapply (ends_after _ _ _ _ _ [KcConn (DaGet i); KcConn (DaSelect i BReady)]).
    + cbn [kcrun]. rewrite (kc_pool_step _ _ _ _ _ s1 (DaGet i) d ltac:(discriminate) D), (kc_pool_step _ _ _ _ _ (mkKC (mkB d (b_calls (kc_conn s1))) (kc_table s1) (kc_acks s1)) (DaSelect i BReady) (set_pc i c1 (DOk k false) d) ltac:(discriminate) D2). reflexivity.
    + eapply ping_ends; cbn [kc_acks kc_conn b_pool set_pc ds_callers]; [exact Hj1|rewrite (nth_error_set _ _ _ _ i Hc1), Nat.eqb_refl; reflexivity|reflexivity].
  - pose proof (reach_pinv _ _ _ _ _ _ _ _ Mx Rp) as P. destruct (fetch_ok SideOutbound max idle isctx Mx (b_pool (kc_conn s1)) (id_addr last) P) as (m & k & ex & ev & F & Y).
    destruct ev as [v|]. { exfalso. destruct Y as (-> & -> & _ & _ & (l0 & Rr & L & _)). unfold listed in Room. rewrite P1 in Rr. cbn [ds_pool] in Rr. rewrite (slice_repr _ _ Rr), map_length in Room. lia. }
    destruct Y as [_ Y]. destruct ex. { exfalso. destruct Y as (q1 & H1 & A2 & P2). rewrite Cl1 in H1. unfold past in P2. destruct (No k q1 H1 A2) as [Z|Z]; rewrite Z in P2; discriminate. } destruct Y as [-> _].
    set (k := length (ds_clients (b_pool (kc_conn s1)))) in *.
    assert (D : exists d, dstep SideOutbound max att p idle isctx (b_pool (kc_conn s1)) (DaGet i) = Some d /\ nth_error (ds_callers d) i = Some (mkD (id_addr last) (DSelect 0 k) false) /\ nth_error (ds_clients d) k = Some (mkK (id_addr last) i (newClient SideOutbound))).
    { cbn [dstep]. rewrite Hi. cbn [d_pc d_addr d_cancelled]. rewrite Lk1. fold k. rewrite F. apply Nat.ltb_lt in At. rewrite At. eexists. split; [reflexivity|]. cbn [ds_callers ds_clients got]. split.
      - rewrite (nth_error_set _ _ _ _ i Hi), Nat.eqb_refl. reflexivity.
      - subst k. rewrite nth_error_app2, Nat.sub_diag by lia. reflexivity. }
    destruct D as (d & D & Hd & Kd). pose proof (kc_pool_step _ _ _ _ _ s1 (DaGet i) d ltac:(discriminate) D) as E2. set (s2 := mkKC (mkB d (b_calls (kc_conn s1))) (kc_table s1) (kc_acks s1)) in E2.
    assert (Nb : forall i0, ~ In (k, i0) (b_calls (kc_conn s1))) by (intros i0 I0; pose proof (calls_known _ _ _ _ _ _ _ _ _ Rb I0); subst k; lia).
    assert (Na : forall n b, nth_error (kc_acks s1) n = Some b -> a_client b <> k) by (intros n b Hb Q; pose proof (ki_known _ I1 n b Hb); subst k; lia).
    destruct (kc_main_step max att p idle isctx s2 k _ _ Kd ltac:(discriminate) Nb ltac:(unfold announced, s2; cbn [kc_conn b_pool]; rewrite Kd; reflexivity) eq_refl) as (s3 & E3 & B3 & C3 & K3 & T3 & A3).
    destruct (kc_main_step max att p idle isctx s3 k _ _ K3 ltac:(discriminate) ltac:(rewrite B3; exact Nb) ltac:(unfold announced; rewrite K3; reflexivity) eq_refl) as (s4 & E4 & B4 & C4 & K4 & T4 & A4).
    set (n := length (kc_acks s4)).
    assert (E5 : kcstep max att p idle isctx s4 (KcConnected k last) = Some (mkKC (kc_conn s4) (kc_table s4) (kc_acks s4 ++ [mkKA k (KUpdate last) None]))).
    { cbn [kcstep]. rewrite K4. cbn [k_st c_main c_err with_main newClient set_conn]. destruct (existsb _ _) eqn:Q; [|reflexivity]. exfalso. apply existsb_exists in Q as (b & Ib & Qb). apply Nat.eqb_eq in Qb.
      rewrite A4, A3 in Ib. unfold s2 in Ib. cbn [kc_acks] in Ib. apply In_nth_error in Ib as (n0 & Hb). exact (Na n0 b Hb Qb). }
    set (s5 := mkKC (kc_conn s4) (kc_table s4) (kc_acks s4 ++ [mkKA k (KUpdate last) None])) in E5.
    assert (H5 : nth_error (kc_acks s5) n = Some (mkKA k (KUpdate last) None)) by (unfold s5, n; cbn [kc_acks]; rewrite nth_error_app2, Nat.sub_diag by lia; reflexivity).
    destruct (C86_room_partial max att p idle isctx s5 n _ last H5 eq_refl ltac:(left; unfold s5; cbn [kc_table]; rewrite T4, T3; unfold s2; cbn [kc_table]; rewrite T1; exact Rec) GotPong) as (s6 & s7 & E6 & E7 & (a7 & H7 & D7) & C7 & _).
    assert (Aj : nth_error (kc_acks s7) j = Some (mkKA (a_client a) (KPing id last) (Some i)) /\ exists b, nth_error (kc_acks s7) n = Some b /\ a_client b = k /\ a_pc b = KDone).
    { assert (Hj5 : nth_error (kc_acks s5) j = Some (mkKA (a_client a) (KPing id last) (Some i))) by (unfold s5; cbn [kc_acks]; apply nth_error_keep; rewrite A4, A3; exact Hj1).
      assert (Nn : j <> n) by (intros ->; rewrite H5 in Hj5; discriminate).
      assert (St : forall x y b, (match a_pc b with KPing _ _ | KDone => False | _ => True end) -> nth_error (kc_acks x) n = Some b -> kcstep max att p idle isctx x (KcAck n GotPong) = Some y ->
                exists pc t e, kad_step GotPong (kc_table x) (a_pc b) = Ok (t, pc, e) /\ kc_acks y = set_nth n (mkKA (a_client b) pc None) (kc_acks x)).
      { intros x y b Nb0 Hb Ey. cbn [kcstep] in Ey. rewrite Hb in Ey. destruct (a_pc b) eqn:Pb; try contradiction; destruct (ack_step_shape _ _ _ _ _ Ey) as (t & pc & e & Sk & ->); rewrite Pb in Sk; eexists _, _, _; split; try exact Sk; reflexivity. }
      destruct (St s5 s6 (mkKA k (KUpdate last) None) Logic.I H5 E6) as (pc6 & t6 & e6 & S6 & A6). cbn [a_pc a_client] in *.
      assert (H6 : nth_error (kc_acks s6) n = Some (mkKA k pc6 None)) by (rewrite A6, (nth_error_set _ _ _ _ n H5), Nat.eqb_refl; reflexivity).
      assert (Pm : match pc6 with KPing _ _ | KDone => False | _ => True end). { cbn [kad_step] in S6. destruct (Update (kc_table s5) last) as [t' [ins [er|]]]; injection S6 as _ <- _; exact Logic.I. }
      destruct (St s6 s7 (mkKA k pc6 None) Pm H6 E7) as (pc7 & t7 & e7 & S7 & A7). cbn [a_pc a_client] in *. rewrite A7. split.
      - rewrite (nth_error_set _ _ _ _ j H6). destruct (Nat.eqb_spec j n); [contradiction|]. rewrite A6, (nth_error_set _ _ _ _ j H5). destruct (Nat.eqb_spec j n); [contradiction|exact Hj5].
      - rewrite A7, (nth_error_set _ _ _ _ n H6), Nat.eqb_refl in H7. injection H7 as <-. cbn [a_pc] in D7. rewrite (nth_error_set _ _ _ _ n H6), Nat.eqb_refl. eexists. split; [reflexivity|]. cbn. auto. }
    destruct Aj as (Aj & bn & Hn & Kn & Dn).
    assert (C7' : kc_conn s7 = kc_conn s4) by (rewrite C7; reflexivity).
    destruct (kc_main_step max att p idle isctx s7 k (mkK (id_addr last) i _) _ ltac:(rewrite C7'; exact K4) ltac:(discriminate) ltac:(rewrite C7', B4, B3; exact Nb)
      ltac:(unfold announced; rewrite C7', K4; cbn [k_st c_main c_err with_main newClient set_conn]; apply existsb_exists; exists bn; split; [exact (nth_error_In _ _ Hn)|unfold is_done; rewrite Kn, Nat.eqb_refl, Dn; reflexivity]) eq_refl) as (s8 & E8 & B8 & C8 & K8 & T8 & A8).
    assert (H8 : nth_error (ds_callers (b_pool (kc_conn s8))) i = Some (mkD (id_addr last) (DSelect 0 k) false)) by (rewrite C8, C7', C4, C3; exact Hd).
    assert (D9 : dstep SideOutbound max att p idle isctx (b_pool (kc_conn s8)) (DaSelect i BReady) = Some (set_pc i (mkD (id_addr last) (DSelect 0 k) false) (DOk k false) (b_pool (kc_conn s8)))) by (cbn [dstep]; rewrite H8; cbn [d_pc]; rewrite K8; reflexivity).
    pose proof (kc_pool_step _ _ _ _ _ s8 (DaSelect i BReady) _ ltac:(discriminate) D9) as E9.
    eapply (ends_after _ _ _ _ _ [KcConn (DaGet i); KcConn (DaClient k (AMain Fine)); KcConn (DaClient k (AMain Fine)); KcConnected k last; KcAck n GotPong; KcAck n GotPong; KcConn (DaClient k (AMain Fine)); KcConn (DaSelect i BReady)]).
    + cbn [kcrun]. rewrite E2, E3, E4, E5, E6, E7, E8, E9. reflexivity.
    + eapply ping_ends; cbn [kc_acks kc_conn b_pool set_pc ds_callers]; [rewrite A8; exact Aj|rewrite (nth_error_set _ _ _ _ i H8), Nat.eqb_refl; reflexivity|reflexivity].
Qed.

Example C86_hangs_nonvacuous : exists s s1 a q id last, kad_node 5 3 1 0 (fun _ => false) kself comes_back s /\ nth_error (kc_acks s) 0 = Some a /\ a_pc a = KPing id last /\ a_call a = None /\ a_client a = 0 /\
  nth_error (ds_clients (b_pool (kc_conn s))) 0 = Some q /\ k_addr q = id_addr last /\ at_pc (b_pool (kc_conn s)) 0 (DSelect 0 0) /\ id = back /\ last = nb 1 /\
  kcstep 5 3 1 0 (fun _ => false) s (KcAck 0 GotPong) = Some s1.
Proof. exact comes_back_ok. Qed.
(** A peer at a new address, whose bucket is full: the entry at the tail is pinged, and nobody is connected to it yet. *)
Definition newcomer : ID := NewID (Props_Kad.ex_key 255 99) [] 2000.
Example C86_partial_nonvacuous : exists l s a, kad_node 5 3 1 0 (fun _ => false) kself l s /\ nth_error (kc_acks s) 0 = Some a /\ a_pc a = KPing newcomer (nb 1) /\ a_call a = None /\ ds_lock (b_pool (kc_conn s)) = None /\
  length (listed (b_pool (kc_conn s))) < 5 /\ Recorded (kc_table s) (id_key (nb 1)) = true /\
  (forall k q, nth_error (ds_clients (b_pool (kc_conn s))) k = Some q -> k_addr q = id_addr (nb 1) -> c_main (k_st q) = MDone \/ c_main (k_st q) = MEnd).
Proof.
  assert (T : NewTable kself = Ok (new_table kself)) by (vm_compute; reflexivity).
  exists (full_bucket ++ [KcConn (DaCall (id_addr newcomer)); KcConn (DaGet 0); KcConn (DaClient 0 (AMain Fine)); KcConn (DaClient 0 (AMain Fine)); KcConnected 0 newcomer; KcAck 0 GotPong; KcAck 0 GotPong]).
  eexists _, _. split; [eexists; split; [exact T|vm_compute; reflexivity]|]. split; [reflexivity|]. split; [vm_compute; reflexivity|]. split; [reflexivity|]. split; [reflexivity|]. split; [vm_compute; lia|]. split; [vm_compute; reflexivity|].
  intros [|[|k]] q Hq; cbn in Hq; try discriminate. injection Hq as <-. vm_compute. discriminate.
Qed.
Example C86_room_nonvacuous : exists l s a, kad_node 5 3 1 0 (fun _ => false) kself l s /\ nth_error (kc_acks s) 0 = Some a /\ a_pc a = KUpdate back /\ length (Bucket (kc_table s) (id_key back)) = 15.
Proof.
  assert (T : NewTable kself = Ok (new_table kself)) by (vm_compute; reflexivity).
  exists (firstn 15 full_bucket ++ [KcConn (DaCall (id_addr back)); KcConn (DaGet 0); KcConn (DaClient 0 (AMain Fine)); KcConn (DaClient 0 (AMain Fine)); KcConnected 0 back]).
  eexists _, _. split; [eexists; split; [exact T|vm_compute; reflexivity]|]. split; [reflexivity|]. split; vm_compute; reflexivity.
Qed.

(** ** An entry that cannot be dialled *)

(** What holds of callback [j] from the moment its call to the node has failed, while only it takes steps. *)
Definition after_failure (id last : ID) (i : nat) (s : kcstate) (a : kack) : Prop :=
  let gone := Recorded (kc_table s) (id_key last) = false in
  match a_pc a with
  | KPing id' last' =>
      (id' = id /\ last' = last /\ a_call a = Some i /\ exists c e, nth_error (ds_callers (b_pool (kc_conn s))) i = Some c /\ d_pc c = DErr e) \/
      (id' = id /\ gone /\ forall i', a_call a = Some i' -> exists c, nth_error (ds_callers (b_pool (kc_conn s))) i' = Some c /\ d_pc c = DLoop 0)
  | KDialFailed id' last' | KDelete id' last' | KEmit _ (KDelete id' last') => id' = id /\ last' = last
  | KUpdate id' | KEmit _ (KUpdate id') | KLast id' => id' = id /\ gone
  | KEmit _ KDone | KDone => gone
  | _ => False
  end.

Lemma gone_iff t k : table_inv t -> key32 k -> (Recorded t k = false <-> ~ In k (keys t)).
Proof. intros I K. rewrite <- Bool.not_true_iff_false, Recorded_iff by assumption. reflexivity. Qed.

Lemma after_failure_step max att p idle isctx id last i s j o s' a : table_inv (kc_table s) -> key32 (id_key last) -> key32 (id_key id) -> id_key id <> id_key last ->
  nth_error (kc_acks s) j = Some a -> after_failure id last i s a -> kcstep max att p idle isctx s (KcAck j o) = Some s' ->
  table_inv (kc_table s') /\ exists a', nth_error (kc_acks s') j = Some a' /\ after_failure id last i s' a'.
Proof.
  intros I Kl Ki Ne Hj F E. cbn [kcstep] in E. rewrite Hj in E.
  assert (Q : forall t pc, nth_error (kc_acks (mkKC (kc_conn s) t (set_nth j (mkKA (a_client a) pc None) (kc_acks s)))) j = Some (mkKA (a_client a) pc None))
    by (intros t pc; cbn [kc_acks]; rewrite (nth_error_set _ _ _ _ j Hj), Nat.eqb_refl; reflexivity).
  unfold after_failure in F. destruct (a_pc a) as [id'|id'|id' last'|id' last'|id' last'|ad|ev nx|] eqn:Pc; try contradiction; try discriminate.
  - (* KUpdate *) destruct F as (-> & G). destruct (ack_step_shape _ _ _ _ _ E) as (t & pc & e & K & ->). rewrite Pc in K. cbn [kad_step] in K.
    destruct (Update (kc_table s) id) as [t' [b er]] eqn:U. pose proof (Update_inv _ id I Ki) as [I' _]. rewrite U in I'. cbn [fst] in I'.
    destruct (Update_keys _ id _ _ _ (id_key last) I Ki U) as (X & _).
    assert (G' : Recorded t' (id_key last) = false) by (apply gone_iff; auto; rewrite X; apply gone_iff in G; auto; intros [Y|(_ & Y)]; [tauto|congruence]).
    destruct er as [er|]; injection K as <- <- <-; (split; [exact I'|]); eexists; (split; [apply Q|]); cbn [after_failure a_pc kc_table]; auto.
  - (* KLast *) destruct F as (-> & G). destruct (ack_step_shape _ _ _ _ _ E) as (t & pc & e & K & ->). rewrite Pc in K. cbn [kad_step] in K.
    destruct (Last (kc_table s) (id_key id)) as [l| |]; cbn [bind] in K; try discriminate. injection K as <- <- <-. split; [exact I|]. eexists. split; [apply Q|]. cbn [after_failure a_pc kc_table a_call]. right.
    split; [reflexivity|]. split; [exact G|]. discriminate.
  - (* KPing *) destruct (a_call a) as [i0|] eqn:Ca.
    + destruct (nth_error (ds_callers (b_pool (kc_conn s))) i0) as [c|] eqn:Hc; [|discriminate]. destruct (ping_fits (d_pc c) o) eqn:Pf; [|discriminate].
      destruct F as [(-> & -> & Ei & c' & e & Hc' & Pe)|(-> & G & X)].
      * injection Ei as ->. rewrite Hc in Hc'. injection Hc' as <-. rewrite Pe in Pf. destruct o; try discriminate Pf.
        destruct (ack_step_shape _ _ _ _ _ E) as (t & pc & e' & K & ->). rewrite Pc in K. cbn [kad_step] in K. injection K as <- <- <-. split; [exact I|]. eexists. split; [apply Q|]. cbn [after_failure a_pc]. auto.
      * destruct (X _ eq_refl) as (c' & Hc' & Pl). rewrite Hc in Hc'. injection Hc' as <-. rewrite Pl in Pf. discriminate Pf.
    + destruct F as [(_ & _ & Ei & _)|(-> & G & X)]; [discriminate Ei|].
      destruct (bstep max att p idle isctx (kc_conn s) (BaCall (a_client a) (id_addr last'))) as [b|] eqn:B; [|discriminate]. injection E as <-. split; [exact I|].
      eexists. split; [cbn [kc_acks]; rewrite (nth_error_set _ _ _ _ j Hj), Nat.eqb_refl; reflexivity|]. unfold after_failure. cbn [a_pc kc_table a_call kc_conn]. right. split; [reflexivity|]. split; [exact G|].
      intros i' [= <-]. exists (mkD (id_addr last') (DLoop 0) false). split; [|reflexivity].
      cbn [bstep] in B. destruct (nth_error (ds_clients (b_pool (kc_conn s))) (a_client a)) as [q|]; [|discriminate]. destruct (in_callback (k_st q) && negb (busy (kc_conn s) (a_client a))); [|discriminate].
      destruct (dstep SideOutbound max att p idle isctx (b_pool (kc_conn s)) (DaCall (id_addr last'))) as [d|] eqn:D; [|discriminate]. injection B as <-. cbn [dstep] in D. injection D as <-. cbn [b_pool ds_callers].
      rewrite nth_error_app2, Nat.sub_diag by lia. reflexivity.
  - (* KDialFailed *) destruct F as (-> & ->). destruct (ack_step_shape _ _ _ _ _ E) as (t & pc & e & K & ->). rewrite Pc in K. cbn [kad_step] in K.
    pose proof (DeleteByAddress_inv _ (id_addr last) I) as [I' _]. destruct (DeleteByAddress (kc_table s) (id_addr last)) as [t' [x [|]]]; cbn [fst] in I'; injection K as <- <- <-;
      (split; [exact I'|]); eexists; (split; [apply Q|]); cbn [after_failure a_pc]; auto.
  - (* KDelete *) destruct F as (-> & ->). destruct (ack_step_shape _ _ _ _ _ E) as (t & pc & e & K & ->). rewrite Pc in K. cbn [kad_step] in K.
    pose proof (Delete_inv _ (id_key last) I Kl) as [I' _]. destruct (Delete (kc_table s) (id_key last)) as [t' [x b]] eqn:D. cbn [fst] in I'.
    pose proof (Delete_keys _ _ _ _ _ (id_key last) I Kl D) as X.
    assert (G : Recorded t' (id_key last) = false) by (apply gone_iff; auto; destruct b; [destruct X as (X1 & _ & X); rewrite X; intros (_ & Y); congruence|destruct X as (-> & X); exact X]).
    destruct b; injection K as <- <- <-; (split; [exact I'|]); eexists; (split; [apply Q|]); cbn [after_failure a_pc kc_table]; auto.
  - (* KEmit *) destruct (ack_step_shape _ _ _ _ _ E) as (t & pc & e & K & ->). rewrite Pc in K. cbn [kad_step] in K. injection K as <- <- <-. split; [exact I|]. eexists. split; [apply Q|].
    destruct nx; try contradiction; cbn [after_failure a_pc kc_table]; auto.
Qed.

(** Once the call to the node has failed, the only way on for the callback is by removing the entry it could not dial: however it goes on from there (while
    nobody else takes a step), if it ends, the entry is recorded no more, and no more than five steps of its own, all of which it can take, see to it. *)
Theorem C86_unreachable_partial max att p idle isctx s j k id last i c e self ops : table_of self ops (kc_table s) ->
  key32 (id_key id) -> key32 (id_key last) -> id_key id <> id_key last ->
  nth_error (kc_acks s) j = Some (mkKA k (KPing id last) (Some i)) -> nth_error (ds_callers (b_pool (kc_conn s))) i = Some c -> d_pc c = DErr e ->
  (forall os s', kcrun max att p idle isctx s (map (KcAck j) os) = Some s' -> callback_over s' j -> Recorded (kc_table s') (id_key last) = false) /\
  exists n s' a', n <= 5 /\ kcrun max att p idle isctx s (repeat (KcAck j DialError) n) = Some s' /\ nth_error (kc_acks s') j = Some a' /\ a_pc a' = KUpdate id /\ Recorded (kc_table s') (id_key last) = false.
Proof.
  intros T Ki Kl Ne Hj Hc Pe. destruct (Props_Kad.table_of_inv _ _ _ T) as [I _]. split.
  - assert (G : forall os s s' a, table_inv (kc_table s) -> nth_error (kc_acks s) j = Some a -> after_failure id last i s a -> kcrun max att p idle isctx s (map (KcAck j) os) = Some s' ->
        exists a', nth_error (kc_acks s') j = Some a' /\ after_failure id last i s' a').
    { clear - Ki Kl Ne. induction os as [|o os IH]; intros s s' a I Hj F R; cbn [map kcrun] in R; [injection R as <-; eauto|].
      destruct (kcstep max att p idle isctx s (KcAck j o)) as [s1|] eqn:E; [|discriminate]. destruct (after_failure_step _ _ _ _ _ _ _ _ _ _ _ _ _ I Kl Ki Ne Hj F E) as (I1 & a1 & H1 & F1). eapply IH; eauto. }
    intros os s' R (a' & Ha & Da). destruct (G os s s' _ I Hj ltac:(left; cbn; eauto 8) R) as (a2 & H2 & F2). rewrite Ha in H2. injection H2 as <-. unfold after_failure in F2. rewrite Da in F2. exact F2.
  - set (s1 := mkKC (kc_conn s) (kc_table s) (set_nth j (mkKA k (KDialFailed id last) None) (kc_acks s))).
    assert (E1 : kcstep max att p idle isctx s (KcAck j DialError) = Some s1) by (cbn [kcstep]; rewrite Hj; cbn [a_pc a_call]; rewrite Hc, Pe; reflexivity).
    assert (St : forall s0 pc t pc' ev, nth_error (kc_acks s0) j = Some (mkKA k pc None) -> match pc with KDone | KPing _ _ => False | _ => True end -> kad_step DialError (kc_table s0) pc = Ok (t, pc', ev) ->
        exists s0', kcstep max att p idle isctx s0 (KcAck j DialError) = Some s0' /\ nth_error (kc_acks s0') j = Some (mkKA k pc' None) /\ kc_table s0' = t).
    { clear. intros s0 pc t pc' ev H N K. cbn [kcstep]. rewrite H. cbn [a_pc]. eexists. split; [destruct pc; try contradiction; unfold ack_step; cbn [a_pc]; rewrite K; reflexivity|].
      cbn [kc_acks kc_table a_client]. rewrite (nth_error_set _ _ _ _ j H), Nat.eqb_refl. auto. }
    assert (H1 : nth_error (kc_acks s1) j = Some (mkKA k (KDialFailed id last) None)) by (cbn [s1 kc_acks]; rewrite (nth_error_set _ _ _ _ j Hj), Nat.eqb_refl; reflexivity).
    assert (X : exists n s2, n <= 2 /\ kcrun max att p idle isctx s1 (repeat (KcAck j DialError) n) = Some s2 /\ nth_error (kc_acks s2) j = Some (mkKA k (KDelete id last) None) /\ table_inv (kc_table s2)).
    { pose proof (DeleteByAddress_inv _ (id_addr last) I) as [I' _]. destruct (DeleteByAddress (kc_table s) (id_addr last)) as [t' [x b]] eqn:D. cbn [fst] in I'.
      destruct b.
      - destruct (St s1 _ t' (KEmit (Evicted x) (KDelete id last)) None H1 Logic.I) as (s2 & E2 & H2 & T2); [cbn [s1 kc_table kad_step]; rewrite D; reflexivity|].
        destruct (St s2 _ t' (KDelete id last) (Some (Evicted x)) H2 Logic.I) as (s3 & E3 & H3 & T3); [cbn [kad_step]; rewrite T2; reflexivity|].
        exists 2, s3. cbn [repeat kcrun]. rewrite E2, E3. rewrite T3. auto.
      - destruct (St s1 _ t' (KDelete id last) None H1 Logic.I) as (s2 & E2 & H2 & T2); [cbn [s1 kc_table kad_step]; rewrite D; reflexivity|].
        exists 1, s2. cbn [repeat kcrun]. rewrite E2, T2. auto. }
    destruct X as (n & s2 & Ln & R2 & H2 & I2).
    assert (Y : exists m s3, m <= 2 /\ kcrun max att p idle isctx s2 (repeat (KcAck j DialError) m) = Some s3 /\ nth_error (kc_acks s3) j = Some (mkKA k (KUpdate id) None) /\ Recorded (kc_table s3) (id_key last) = false).
    { pose proof (Delete_inv _ (id_key last) I2 Kl) as [I' _]. destruct (Delete (kc_table s2) (id_key last)) as [t' [x b]] eqn:D. cbn [fst] in I'.
      pose proof (Delete_keys _ _ _ _ _ (id_key last) I2 Kl D) as X.
      assert (G : Recorded t' (id_key last) = false) by (apply gone_iff; auto; destruct b; [destruct X as (X1 & _ & X); rewrite X; intros (_ & Y); congruence|destruct X as (-> & X); exact X]).
      destruct b.
      - destruct (St s2 _ t' (KEmit (Evicted x) (KUpdate id)) None H2 Logic.I) as (s3 & E3 & H3 & T3); [cbn [kad_step]; rewrite D; reflexivity|].
        destruct (St s3 _ t' (KUpdate id) (Some (Evicted x)) H3 Logic.I) as (s4 & E4 & H4 & T4); [cbn [kad_step]; rewrite T3; reflexivity|].
        exists 2, s4. cbn [repeat kcrun]. rewrite E3, E4, T4. auto.
      - destruct (St s2 _ t' (KUpdate id) None H2 Logic.I) as (s3 & E3 & H3 & T3); [cbn [kad_step]; rewrite D; reflexivity|].
        exists 1, s3. cbn [repeat kcrun]. rewrite E3, T3. auto. }
    destruct Y as (m & s3 & Lm & R3 & H3 & G3). exists (S (n + m)), s3, (mkKA k (KUpdate id) None). split; [lia|]. split; [|auto].
    cbn [repeat kcrun]. rewrite E1. rewrite repeat_app, kcrun_app, R2. exact R3.
Qed.

(** The newcomer's bucket is full and the entry at its tail cannot be dialled. *)
Definition tail_down : list kcact :=
  full_bucket ++ map KcConn [DaCall (id_addr newcomer); DaGet 0; DaClient 0 (AMain Fine); DaClient 0 (AMain Fine)] ++ [KcConnected 0 newcomer; KcAck 0 GotPong; KcAck 0 GotPong; KcAck 0 GotPong] ++
  map KcConn [DaGet 1; DaClient 1 (AMain (Fails 7)); DaClient 1 (AMain Fine); DaSelect 1 BReady; DaClient 1 ACloseFlag; DaClient 1 ACloseConn; DaClose 1;
              DaClient 1 (AMain Fine); DaClient 1 (AMain Fine); DaClient 1 (AMain Fine); DaClient 1 (AMain Fine); DaWait 1; DaFail 1; DaFail 1].
Example C86_unreachable_nonvacuous : exists s c, kad_node 5 1 1 0 (fun _ => false) kself tail_down s /\ nth_error (kc_acks s) 0 = Some (mkKA 0 (KPing newcomer (nb 1)) (Some 1)) /\
  nth_error (ds_callers (b_pool (kc_conn s))) 1 = Some c /\ d_pc c = DErr (EClient 7) /\ table_of kself (map (fun i => OpUpdate (nb i)) [1;2;3;4;5;6;7;8;9;10;11;12;13;14;15;16]%N) (kc_table s) /\
  key32 (id_key newcomer) /\ key32 (id_key (nb 1)) /\ id_key newcomer <> id_key (nb 1) /\ Recorded (kc_table s) (id_key (nb 1)) = true.
Proof.
  assert (T : NewTable kself = Ok (new_table kself)) by (vm_compute; reflexivity).
  eexists _, _. split; [eexists; split; [exact T|vm_compute; reflexivity]|]. split; [vm_compute; reflexivity|]. split; [reflexivity|]. split; [reflexivity|]. split.
  - split; [reflexivity|]. split; [repeat constructor|]. eexists. split; [exact T|vm_compute; reflexivity].
  - split; [reflexivity|]. split; [reflexivity|]. split; [vm_compute; discriminate|vm_compute; reflexivity].
Qed.

Print Assumptions C86_hangs.
Print Assumptions C86_refuted.
Print Assumptions C86_room_partial.
Print Assumptions C86_partial.
Print Assumptions C86_unreachable_partial.
