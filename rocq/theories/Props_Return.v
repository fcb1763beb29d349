(** * Does Close return? (C46) *)
From Verif Require Import P_Work.
From Verif Require Import Base Spec M_Table P_Table P_Iter P_Gossip P_Conn M_Maps M_Client P_Client Props_Maps M_Dial P_Dial Props_Dial M_Close P_Close Props_Close.
Local Open Scope nat_scope.

(** ** Specification *)

(** The reader of a client turns out to have the response to a pending request in hand, which needs no worker. *)
Definition as_response (d : dstate) (a : dact) : bool :=
  match a with
  | DaClient k (AMain (Fails _)) => match nth_error (ds_clients d) k with Some q => match c_main (k_st q) with MDispatch => true | _ => false end | None => false end
  | _ => false
  end.
(** The steps that need neither users of the node nor the network: accepting fails once the listener is closed, and see [own_step].
    The messages that readers have in hand are taken to be requests. *)
Definition nown (s : nstate) (a : nact) : bool :=
  match a with
  | NaListen | NaClose | NaAccept _ => false
  | NaAcceptFails => negb (nd_open s)
  | NaIn d => own_step (nd_in s) d && negb (as_response (nd_in s) d)
  | NaOut d => own_step (nd_out s) d && negb (as_response (nd_out s) d)
  | _ => true
  end.
Fixpoint alone (w max att p idle : nat) (isctx : nat -> bool) (s : nstate) (l : list nact) : option nstate :=
  match l with [] => Some s | a :: l' => if nown s a then match nstep w max att p idle isctx s a with Some s' => alone w max att p idle isctx s' l' | None => None end else None end.

(** A call of Close on a node that Listen was called on returns, whatever has happened before. *)
Definition C46_statement : Prop := forall w max att p idle isctx l s i, 0 < max -> life w max att p idle isctx l s -> In NaListen l -> pending s i ->
  exists l' s', alone w max att p idle isctx s l' = Some s' /\ closed s' i.

Section Alone.
Variables (w max att p idle : nat) (isctx : nat -> bool).
Lemma alone_run : forall l s s', alone w max att p idle isctx s l = Some s' -> nrun w max att p idle isctx s l = Some s'.
Proof.
  induction l as [|a l IH]; cbn [alone M_Close.nrun]; intros s s' H; [exact H|]. destruct (nown s a); [|discriminate]. destruct (nstep w max att p idle isctx s a); [apply IH, H|discriminate].
Qed.
Lemma alone_app l1 l2 : forall s, alone w max att p idle isctx s (l1 ++ l2) = match alone w max att p idle isctx s l1 with Some s' => alone w max att p idle isctx s' l2 | None => None end.
Proof. induction l1 as [|a l1 IH]; intros s; cbn [alone app]; [reflexivity|]. destruct (nown s a); [|reflexivity]. destruct (nstep w max att p idle isctx s a); [apply IH|reflexivity]. Qed.
Lemma alone_inv (P : nstate -> Prop) : (forall s a s', P s -> nown s a = true -> nstep w max att p idle isctx s a = Some s' -> P s') ->
  forall l s s', P s -> alone w max att p idle isctx s l = Some s' -> P s'.
Proof.
  intros St. induction l as [|a l IH]; cbn [alone]; intros s s' H R; [injection R as <-; exact H|].
  destruct (nown s a) eqn:O; [|discriminate]. destruct (nstep w max att p idle isctx s a) as [s1|] eqn:E; [|discriminate]. apply (IH s1 s'); [apply (St s a s1 H O E)|exact R].
Qed.
End Alone.

(** ** Ways to hang *)

(** Close was called after Listen returned but before the listener goroutine declared that it listens: the listener was not closed. *)
Definition stranded (s : nstate) : Prop := nd_open s = true /\ match nd_lst s with LStore | LAccept | LGet _ => True | _ => False end /\ nd_done s = 0 /\ nd_dclosed s = false /\
  forall k, In k (nd_closers s) -> k = KRecv.
(** Such calls wait for as long as nobody calls Close again and accepting connections does not fail by itself. *)
Theorem C46_hangs w max att p idle isctx s l' s' : stranded s -> nrun w max att p idle isctx s l' = Some s' -> ~ In NaClose l' -> ~ In NaAcceptFails l' -> stranded s' /\ nd_closers s' = nd_closers s.
Proof.
  intros S R N1 N2. revert s S R. induction l' as [|a l IH]; cbn [M_Close.nrun]; intros s S R; [injection R as <-; auto|].
  destruct (nstep w max att p idle isctx s a) as [s1|] eqn:E; [|discriminate]. cut (stranded s1 /\ nd_closers s1 = nd_closers s).
  { intros [X Y]. destruct (IH ltac:(intros Z; apply N1; right; exact Z) ltac:(intros Z; apply N2; right; exact Z) s1 X R) as [X1 X2]. split; [exact X1|congruence]. }
  assert (N3 : a <> NaClose) by (intros ->; apply N1; left; reflexivity). assert (N4 : a <> NaAcceptFails) by (intros ->; apply N2; left; reflexivity). clear IH N1 N2 R l s'.
  destruct S as (S1 & S2 & S3 & S4 & S5). unfold stranded. ncases E; try congruence; try rewrite Ls in S2; try contradiction; auto 6.
  all: try (pose proof (S5 _ (nth_error_In _ _ Hci)); discriminate).
Qed.
Theorem C46_refuted : ~ C46_statement.
Proof.
  intros H. pose (l := [NaListen; NaClose; NaCloser 0; NaStore]). destruct (nrun 1 1 1 0 0 (fun _ => false) n_start l) as [s|] eqn:E; [|vm_compute in E; discriminate].
  assert (X : stranded s /\ nd_closers s = [KRecv]) by (vm_compute in E; injection E as <-; split; [|reflexivity]; split; [reflexivity|]; split; [exact I|]; split; [reflexivity|]; split; [reflexivity|]; intros k [<-|[]]; reflexivity).
  destruct X as [X Y]. destruct (H _ _ _ _ _ _ l s 0 (Nat.lt_0_succ 0) E (or_introl eq_refl)) as (l' & s' & R & Z); [exists KRecv; rewrite Y; split; [reflexivity|exact I]|].
  cut (stranded s' /\ nd_closers s' = [KRecv]); [intros [_ Z2]; destruct Z as (e & Z); rewrite Z2 in Z; discriminate|]. clear Z. revert R.
  apply (alone_inv 1 1 1 0 0 (fun _ => false) (fun t => stranded t /\ nd_closers t = [KRecv])); [|auto]. clear. intros s a s' [S C] O E. rewrite <- C.
  apply (C46_hangs 1 1 1 0 0 (fun _ => false) s [a] s' S); [cbn [M_Close.nrun]; rewrite E; reflexivity| |]; intros [->|[]]; cbn in O; [discriminate|]. destruct S as (S & _). rewrite S in O. discriminate.
Qed.

(** On a node that does not listen Close never returns. *)
Theorem C46_never_listened w max att p idle isctx l s i : 0 < max -> life w max att p idle isctx l s -> ~ In NaListen l -> ~ closed s i.
Proof.
  intros M H N (e & C). destruct (reach_kinv _ _ _ _ _ _ _ _ M H) as [_ K].
  assert (L : nd_lst s = LNone).
  { revert H. unfold life. assert (L0 : nd_lst n_start = LNone) by reflexivity. revert L0. generalize n_start. induction l as [|a l IH]; cbn [M_Close.nrun]; intros t L0 R; [congruence|].
    destruct (nstep w max att p idle isctx t a) as [t1|] eqn:E; [|discriminate]. apply (IH ltac:(intros X; apply N; right; exact X) t1); [|exact R].
    assert (Na : a <> NaListen) by (intros ->; apply N; left; reflexivity). clear IH R. ncases E; congruence. }
  destruct e; [|rewrite (ki_late _ K (nth_error_In _ _ C)) in L; discriminate]. pose proof (ki_early _ K) as Q. rewrite L in Q. cbn [reported bit] in Q. pose proof (cntb_pos isE _ _ (nth_error_In _ _ C) eq_refl). lia.
Qed.
Example C46_never_listened_nonvacuous : exists s, life 1 1 1 0 0 (fun _ => false) (dialled ++ [NaClose; NaCloser 0]) s /\ pending s 0.
Proof. eexists. split; [vm_compute; reflexivity|]. eexists. split; [reflexivity|exact I]. Qed.

(** Once the listener goroutine evicts a connection, no Close ever returns, whatever anybody does. *)
Lemma evicts_step sd max att p idle isctx s a s' i v : pinv max s -> evicts s i v -> dstep sd max att p idle isctx s a = Some s' -> evicts s' i v.
Proof.
  intros Iv (n & k0 & m & c1 & T3 & T3') E. assert (Lk : ds_lock s = Some i) by (apply (pi_lock _ _ Iv i c1 T3); unfold evicting; rewrite T3'; reflexivity). exists n, k0, m.
  assert (Ni : forall j c, nth_error (ds_callers s) j = Some c -> d_pc c <> DEvict n k0 v m -> (i =? j) = false) by (intros j c Hj N; apply Nat.eqb_neq; intros ->; congruence).
  dcases E; try congruence.
  - exists c1; split; [apply nth_error_keep, T3|exact T3'].
  - destruct (Nat.eq_dec i j) as [->|N].
    + exists (mkD (d_addr c) (d_pc c) true). dproj. rewrite (nth_error_set _ _ _ _ j Hi), Nat.eqb_refl. split; [reflexivity|]. cbn. congruence.
    + exists c1. dproj. rewrite (nth_error_set _ _ _ _ i Hi). apply Nat.eqb_neq in N. rewrite N. auto.
  - exfalso. assert (Lj : ds_lock s = Some j) by (apply (pi_lock _ _ Iv j c Hi); unfold evicting; rewrite Pc; reflexivity). destruct (pi_held _ _ Iv j Lj) as (c2 & n2 & k2 & v2 & m2 & q2 & X1 & X2 & X3 & X4).
    assert (c2 = c) as -> by congruence. rewrite Pc in X2. injection X2 as <- <- <- <-. assert (q2 = q) as -> by congruence.
    destruct (pi_sig _ _ Iv q (nth_error_In _ _ Hq)) as [(_ & _ & _ & _ & _ & _ & Sg) _]. apply andb_prop in Hd as [_ Hd]. rewrite Sg in Hd. unfold past in X4. destruct (c_main (k_st q)); discriminate.
  - exists c1. dproj. rewrite (nth_error_set _ _ _ _ i Hi), (Ni j c Hi) by congruence. auto.
  - exists c1. dproj. rewrite (nth_error_set _ _ _ _ i Hi), (Ni j c Hi) by congruence. auto.
  - exists c1. dproj. rewrite (nth_error_set _ _ _ _ i Hi), (Ni j c Hi) by congruence. auto.
  - exists c1. dproj. rewrite (nth_error_set _ _ _ _ i Hi), (Ni j c Hi) by congruence. auto.
  - exists c1. dproj. rewrite (nth_error_set _ _ _ _ i Hi), (Ni j c Hi) by congruence. auto.
  - assert (E0 : dstep sd max att p idle isctx s (DaClient kk aa) = Some s') by (cbn [dstep]; rewrite Hq, Ha; exact E). destruct (client_shape _ _ _ _ _ _ _ _ _ _ _ _ E0 Hq Ha) as (Q1 & _). exists c1. rewrite Q1. auto.
Qed.
Theorem C46_eviction w max att p idle isctx l s i v l' s' : 0 < max -> life w max att p idle isctx l s -> nd_lst s = LGet i -> evicts (nd_in s) i v -> nrun w max att p idle isctx s l' = Some s' ->
  nd_lst s' = LGet i /\ forall j, ~ closed s' j.
Proof.
  intros M H L Ev R. assert (H' : life w max att p idle isctx (l ++ l') s') by (unfold life; rewrite nrun_app, H; exact R).
  assert (L' : nd_lst s' = LGet i).
  { pose proof (reach_ninv _ _ _ _ _ _ _ _ M H) as N. cut (ninv max s' /\ nd_lst s' = LGet i /\ evicts (nd_in s') i v); [tauto|]. revert R.
    apply (nrun_inv w max att p idle isctx (fun t => ninv max t /\ nd_lst t = LGet i /\ evicts (nd_in t) i v)); [|auto]. clear - M. intros s a s' (N & L & Ev) E. split; [exact (ninv_step _ _ _ _ _ _ M _ _ _ N E)|].
    pose proof (ni_before _ _ N ltac:(rewrite L; reflexivity)) as Iv. split.
    - destruct Ev as (n & k & m & c & Hc & Pc). ncases E; congruence.
    - destruct (moves _ _ _ _ _ _ _ _ _ E) as [[X|[(ad & _ & X & _)|[(da & _ & X & _)|(_ & X & _)]]] _]; [congruence|congruence| |congruence]. exact (evicts_step _ _ _ _ _ _ _ _ _ _ _ Iv Ev X). }
  split; [exact L'|]. intros j (e & C). destruct (reach_kinv _ _ _ _ _ _ _ _ M H') as [_ K]. 
  destruct e; [|rewrite (ki_late _ K (nth_error_In _ _ C)) in L'; discriminate]. pose proof (ki_early _ K) as Q. rewrite L' in Q. cbn [reported bit] in Q. pose proof (cntb_pos isE _ _ (nth_error_In _ _ C) eq_refl). lia.
Qed.
Example C46_eviction_nonvacuous : exists s, life 1 2 1 0 0 (fun _ => false) [NaListen; NaStore; NaAccept (adr 1); NaIn (DaGet 0); NaGot; NaAccept (adr 2); NaIn (DaGet 1); NaGot; NaAccept (adr 3); NaIn (DaGet 2); NaClose; NaCloser 0; NaCloser 0] s /\
  nd_lst s = LGet 2 /\ evicts (nd_in s) 2 0 /\ pending s 0.
Proof. eexists. split; [vm_compute; reflexivity|]. split; [reflexivity|]. split; [eexists _, _, _, _; split; reflexivity|]. eexists. split; [reflexivity|exact I]. Qed.

(** The shutdown closed a connection before its goroutine had stored it: as long as the peer keeps silent at most one call of Close returns. *)
Theorem C46_orphan w max att p idle isctx l s k rest l' s' : 0 < max -> life w max att p idle isctx l s -> nd_lst s = LJoin k rest -> orphan (nd_in s) k -> nrun w max att p idle isctx s l' = Some s' ->
  (forall o, ~ In (NaIn (DaClient k (AMain o))) l') -> nd_lst s' = LJoin k rest /\ orphan (nd_in s') k /\ forall i j, closed s' i -> closed s' j -> i = j.
Proof.
  intros M H L O R Sil. assert (H' : life w max att p idle isctx (l ++ l') s') by (unfold life; rewrite nrun_app, H; exact R).
  assert (X : nd_lst s' = LJoin k rest /\ orphan (nd_in s') k).
  { pose proof (reach_ninv _ _ _ _ _ _ _ _ M H) as N. clear H H'. revert s N L O R. induction l' as [|a l' IH]; cbn [M_Close.nrun]; intros s N L O R; [injection R as <-; auto|].
    destruct (nstep w max att p idle isctx s a) as [s1|] eqn:E; [|discriminate]. assert (Sa : forall o, a <> NaIn (DaClient k (AMain o))) by (intros o ->; apply (Sil o); left; reflexivity).
    cut (nd_lst s1 = LJoin k rest /\ orphan (nd_in s1) k).
    { intros [X Y]. apply (IH ltac:(intros o Z; apply (Sil o); right; exact Z) s1); auto. exact (ninv_step _ _ _ _ _ _ M _ _ _ N E). }
    clear IH R Sil. destruct O as (q & Hk & O1 & O2 & O3 & O4).
    assert (Dk : c_cdone (k_st q) = false) by (destruct (ni_sig _ _ N q (nth_error_In _ _ Hk)) as [(_ & _ & _ & _ & _ & _ & ->) _]; destruct O4 as [-> | ->]; reflexivity).
    split.
    - clear Sa. ncases E; try congruence. injection L as -> ->. assert (jq = q) as -> by congruence. rewrite Dk, andb_false_r in Jd. discriminate.
    - destruct (moves _ _ _ _ _ _ _ _ _ E) as [[X|[(ad & _ & X & _)|[(da & -> & X & _)|(_ & X & _)]]] _]; [rewrite X; exists q; auto 6|congruence| |congruence].
      destruct (clients_step _ _ _ _ _ _ _ _ _ _ _ X Hk) as [Y|(aa & st & -> & Ha & Y)]; [exists q; auto|].
      exists (mkK (k_addr q) (k_ctx q) st). split; [exact Y|]. cbn [k_st]. assert (Na : match aa with AMain _ => False | _ => True end) by (destruct aa as [o| | | | | |]; auto; exact (Sa o eq_refl)).
      destruct (own_client _ _ _ _ Ha O1 Na) as (X1 & X2 & X3 & X4). rewrite X2, X3, X4. auto. }
  destruct X as [X1 X2]. split; [exact X1|]. split; [exact X2|]. intros i j (ei & Ci) (ej & Cj). destruct (reach_kinv _ _ _ _ _ _ _ _ M H') as [_ K].
  destruct (Nat.eq_dec i j) as [|Nij]; [assumption|]. exfalso.
  destruct ei; [|rewrite (ki_late _ K (nth_error_In _ _ Ci)) in X1; discriminate]. destruct ej; [|rewrite (ki_late _ K (nth_error_In _ _ Cj)) in X1; discriminate].
  pose proof (cntb_two isE _ _ _ _ _ Ci Cj Nij eq_refl eq_refl) as T. pose proof (ki_early _ K) as Q. rewrite X1 in Q. cbn [reported bit] in Q. lia.
Qed.
Example C46_orphan_nonvacuous : exists s, life 1 1 1 0 0 (fun _ => false) [NaListen; NaStore; NaAccept (adr 1); NaIn (DaGet 0); NaGot; NaClose; NaCloser 0; NaCloser 0; NaAcceptFails; NaReport; NaCloser 0; NaClose; NaCloser 1; NaRelease; NaPick 0; NaIn (DaClient 0 ACloseFlag); NaIn (DaClient 0 ACloseConn); NaIn (DaClient 0 (AMain Fine))] s /\
  nd_lst s = LJoin 0 [] /\ orphan (nd_in s) 0 /\ closed s 0 /\ pending s 1.
Proof. eexists. split; [vm_compute; reflexivity|]. split; [reflexivity|]. split; [eexists; repeat split; try reflexivity; left; reflexivity|]. split; [eexists; reflexivity|]. eexists. split; [reflexivity|exact I]. Qed.

(** All workers have ended, because a handler returned an error to each (C43), and their queue is full: the reader of a connection that
    holds a request waits, and so does the shutdown. *)
Definition jammed (w : nat) (s : nstate) (k : nat) : Prop := (forall x, In x (nd_workers s) -> x = KGone) /\ w <= length (nd_queue s) /\
  exists q, nth_error (ds_clients (nd_in s)) k = Some q /\ c_main (k_st q) = MDispatch.
Lemma main_kept idle s1 a s2 : cact idle s1 a = Some s2 -> match a with AMain _ => False | _ => True end -> c_main s2 = c_main s1.
Proof. intros H N. ccases H; try contradiction; reflexivity. Qed.
Theorem C46_jam w max att p idle isctx l s k rest l' s' : 0 < max -> life w max att p idle isctx l s -> nd_lst s = LJoin k rest -> jammed w s k -> nrun w max att p idle isctx s l' = Some s' ->
  (forall e, ~ In (NaIn (DaClient k (AMain (Fails e)))) l') -> nd_lst s' = LJoin k rest /\ jammed w s' k /\ forall i j, closed s' i -> closed s' j -> i = j.
Proof.
  intros M H L O R Sil. assert (H' : life w max att p idle isctx (l ++ l') s') by (unfold life; rewrite nrun_app, H; exact R).
  assert (X : nd_lst s' = LJoin k rest /\ jammed w s' k).
  { pose proof (reach_ninv _ _ _ _ _ _ _ _ M H) as N. clear H H'. revert s N L O R. induction l' as [|a l' IH]; cbn [M_Close.nrun]; intros s N L O R; [injection R as <-; auto|].
    destruct (nstep w max att p idle isctx s a) as [s1|] eqn:E; [|discriminate]. assert (Sa : forall o, a <> NaIn (DaClient k (AMain (Fails o)))) by (intros o ->; apply (Sil o); left; reflexivity).
    cut (nd_lst s1 = LJoin k rest /\ jammed w s1 k).
    { intros [X Y]. apply (IH ltac:(intros o Z; apply (Sil o); right; exact Z) s1); auto. exact (ninv_step _ _ _ _ _ _ M _ _ _ N E). }
    clear IH R Sil. destruct O as (O1 & O2 & q & Hk & O3).
    assert (Dk : c_cdone (k_st q) = false) by (destruct (ni_sig _ _ N q (nth_error_In _ _ Hk)) as [(_ & _ & _ & _ & _ & _ & ->) _]; rewrite O3; reflexivity).
    assert (Wk : (forall x, In x (nd_workers s1) -> x = KGone) /\ w <= length (nd_queue s1)).
    { ncases E; auto; try congruence; try (pose proof (O1 _ (nth_error_In _ _ Hwj)); discriminate); rewrite app_length; cbn; split; auto; lia. }
    assert (Fine1 : a <> NaIn (DaClient k (AMain Fine))).
    { intros ->. unfold M_Close.nstep in E. destruct (nd_panic s); [discriminate|]. destruct (dstep SideInbound max 1 0 idle isctx (nd_in s) (DaClient k (AMain Fine))); [|discriminate].
      assert (Hd : handing (nd_in s) k (AMain Fine) = true) by (cbn [handing]; rewrite Hk, O3; reflexivity). rewrite Hd in E. rewrite (ni_work _ _ N), L in E. cbn [drained] in E. destruct (Nat.ltb_spec (length (nd_queue s)) w); [lia|discriminate]. }
    split; [|split; [tauto|split; [tauto|]]].
    - clear Sa Wk Fine1. ncases E; try congruence. injection L as -> ->. assert (jq = q) as -> by congruence. rewrite Dk, andb_false_r in Jd. discriminate.
    - destruct (moves _ _ _ _ _ _ _ _ _ E) as [[X|[(ad & _ & X & _)|[(da & -> & X & _)|(_ & X & _)]]] _]; [rewrite X; exists q; auto 6|congruence| |congruence].
      destruct (clients_step _ _ _ _ _ _ _ _ _ _ _ X Hk) as [Y|(aa & st & -> & Ha & Y)]; [exists q; auto|].
      exists (mkK (k_addr q) (k_ctx q) st). split; [exact Y|]. cbn [k_st]. assert (Na : match aa with AMain _ => False | _ => True end) by (destruct aa as [[|o]| | | | | |]; try exact Logic.I; exfalso; first [exact (Fine1 eq_refl)|eapply Sa; reflexivity]).
      rewrite <- O3. exact (main_kept _ _ _ _ Ha Na). }
  destruct X as [X1 X2]. split; [exact X1|]. split; [exact X2|]. intros i j (ei & Ci) (ej & Cj). destruct (reach_kinv _ _ _ _ _ _ _ _ M H') as [_ K].
  destruct (Nat.eq_dec i j) as [|Nij]; [assumption|]. exfalso.
  destruct ei; [|rewrite (ki_late _ K (nth_error_In _ _ Ci)) in X1; discriminate]. destruct ej; [|rewrite (ki_late _ K (nth_error_In _ _ Cj)) in X1; discriminate].
  pose proof (cntb_two isE _ _ _ _ _ Ci Cj Nij eq_refl eq_refl) as T. pose proof (ki_early _ K) as Q. rewrite X1 in Q. cbn [reported bit] in Q. lia.
Qed.
(** One worker: it takes the first message, whose handler fails; the second fills the queue; the third is stuck. *)
Definition message : list nact := [NaIn (DaClient 0 (AMain Fine)); NaIn (DaClient 0 (AMain Fine))].
Example C46_jam_nonvacuous : exists s, life 1 1 1 0 0 (fun _ => false) (NaListen :: NaStore :: accepted ++ message ++ [NaTake 0; NaHandled 0 false] ++ message ++ [NaIn (DaClient 0 (AMain Fine))] ++ close_one ++ [NaClose; NaCloser 1; NaRelease; NaPick 0; NaIn (DaClient 0 ACloseFlag); NaIn (DaClient 0 ACloseConn)]) s /\
  nd_lst s = LJoin 0 [] /\ jammed 1 s 0 /\ closed s 0 /\ pending s 1.
Proof. eexists. split; [vm_compute; reflexivity|]. split; [reflexivity|]. split; [split; [intros x [<-|[]]; reflexivity|split; [cbn; lia|eexists; split; reflexivity]]|]. split; [eexists; reflexivity|]. eexists. split; [reflexivity|exact I]. Qed.
Print Assumptions C46_hangs.
Print Assumptions C46_refuted.
Print Assumptions C46_never_listened.
Print Assumptions C46_eviction.
Print Assumptions C46_orphan.
Print Assumptions C46_jam.
