(** * Closing a node (C44, C45, C46) *)
From Verif Require Import P_Work.
From Verif Require Import Base Spec M_Table P_Table P_Iter P_Gossip P_Conn M_Maps M_Client P_Client Props_Maps M_Dial P_Dial Props_Dial M_Close P_Close.
Local Open Scope nat_scope.

(** ** Specification *)

(** A node with [w] workers, from NewNode on: any actions of its users, peers and goroutines. *)
Definition life (w max att p idle : nat) (isctx : nat -> bool) (l : list nact) (s : nstate) : Prop := nrun w max att p idle isctx n_start l = Some s.
(** Call [i] of Close has returned nil. *)
Definition closed (s : nstate) (i : nat) : Prop := exists e, nth_error (nd_closers s) i = Some (KNil e).
Definition pending (s : nstate) (i : nat) : Prop := exists k, nth_error (nd_closers s) i = Some k /\ match k with KCas | KListener | KRecv => True | _ => False end.
(** All goroutines of the client have ended, but perhaps for closing the channel that says so. *)
Definition gone (q : client) : Prop := c_main (k_st q) = MDone \/ c_main (k_st q) = MEnd.
(** Some goroutine of the node has panicked. *)
Definition crashed (s : nstate) : Prop := nd_panic s = true \/ exists q, (In q (ds_clients (nd_in s)) \/ In q (ds_clients (nd_out s))) /\ c_panic (k_st q) = true.

Lemma reach_ninv w max att p idle isctx l s : 0 < max -> life w max att p idle isctx l s -> ninv max s.
Proof. intros M. apply (nrun_inv w max att p idle isctx (ninv max)); [intros t a t' J E; exact (ninv_step _ _ _ _ _ _ M _ _ _ J E)|apply ninv_start]. Qed.

(** ** The calls of Close *)
Definition bit (b : bool) : nat := if b then 1 else 0.
Definition isL (k : kpc) : bool := match k with KListener => true | _ => false end.
Definition isE (k : kpc) : bool := match k with KNil true => true | _ => false end.
Definition reported (x : lpc) : bool := match x with LNone | LStore | LAccept | LGet _ | LReport => false | _ => true end.
Record kinv (s : nstate) : Prop := {
  ki_tok : cntb isL (nd_closers s) + bit (nd_listening s) <= 1;
  ki_open : 0 < cntb isL (nd_closers s) + bit (nd_listening s) -> nd_open s = true;
  ki_fresh : match nd_lst s with
             | LNone => nd_listening s = false /\ cntb isL (nd_closers s) = 0
             | LStore => nd_listening s = false /\ cntb isL (nd_closers s) = 0 /\ nd_open s = true
             | LFinish | LEnd => nd_listening s = false
             | _ => True
             end;
  ki_err : ~ In KErr (nd_closers s);
  ki_early : cntb isE (nd_closers s) + nd_done s = bit (reported (nd_lst s));
  ki_late : In (KNil false) (nd_closers s) -> nd_lst s = LEnd;
  ki_made : nd_made s = match nd_lst s with LNone => false | _ => true end
}.
Lemma cntb_snoc {A} (f : A -> bool) l x : cntb f (l ++ [x]) = cntb f l + bit (f x).
Proof. rewrite cntb_app. unfold cntb, sumf, bit. cbn. destruct (f x); reflexivity. Qed.
Lemma cntb_set1 {A} (f : A -> bool) l i x y : nth_error l i = Some x -> cntb f (set_nth i y l) = cntb f l + bit (f y) - bit (f x) /\ bit (f x) <= cntb f l.
Proof. intros H. pose proof (cntb_setn f l i x y H) as Q. change Nat.b2n with bit in Q. assert (bit (f x) <= cntb f l) by (destruct (f x) eqn:Fx; [apply (cntb_pos f l x (nth_error_In _ _ H) Fx)|cbn; lia]). lia. Qed.
(** One call of Close moves on. *)
Lemma kinv_closer s i k k' listening op dn : kinv s -> nth_error (nd_closers s) i = Some k -> k' <> KErr -> 
  bit (isL k') + bit listening <= bit (isL k) + bit (nd_listening s) ->
  (op = nd_open s \/ (isL k = true /\ isL k' = false /\ listening = nd_listening s)) ->
  bit (isE k') + dn = bit (isE k) + nd_done s -> (k' = KNil false -> nd_lst s = LEnd) -> (nd_listening s = false -> listening = false) ->
  kinv (mkND (nd_in s) (nd_out s) (nd_lst s) listening op dn (nd_dclosed s) (set_nth i k' (nd_closers s)) (nd_made s) (nd_wclosed s) (nd_queue s) (nd_workers s) (nd_stuck s) (nd_panic s)).
Proof.
  intros [A B C D F G H] Hi Ne X1 X2 X3 X4 X5. destruct (cntb_set1 isL _ _ _ k' Hi) as [L1 L2]. destruct (cntb_set1 isE _ _ _ k' Hi) as [E1 E2].
  constructor; nproj.
  - lia.
  - intros X. destruct X2 as [->|(Y1 & Y2 & ->)]; [apply B; lia|]. rewrite Y1, Y2 in *. cbn [bit] in *. lia.
  - destruct (nd_lst s); auto.
    + destruct C as [C1 C2]. rewrite (X5 C1) in *. rewrite C1 in *. split; [reflexivity|]. destruct (isL k); cbn [bit] in *; lia.
    + destruct C as (C1 & C2 & C3). rewrite (X5 C1) in *. rewrite C1 in *. split; [reflexivity|]. split; [destruct (isL k); cbn [bit] in *; lia|]. destruct X2 as [->|(Y1 & _)]; [exact C3|]. rewrite Y1 in *. cbn [bit] in *. lia.
  - intros X. apply in_set_nth in X as [X|X]; [congruence|exact (D X)].
  - lia.
  - intros X. apply in_set_nth in X as [X|X]; [apply X4; congruence|exact (G X)].
  - exact H.
Qed.
Lemma kinv_ext s t : nd_listening t = nd_listening s -> nd_open t = nd_open s -> nd_lst t = nd_lst s -> nd_closers t = nd_closers s -> nd_done t = nd_done s -> nd_made t = nd_made s -> kinv s -> kinv t.
Proof. intros E1 E2 E3 E4 E5 E6 [A B C D F G H]. constructor; rewrite ?E1, ?E2, ?E3, ?E4, ?E5, ?E6; assumption. Qed.
Lemma kinv_step w max att p idle isctx s a s' : 0 < max -> ninv max s -> kinv s -> nstep w max att p idle isctx s a = Some s' -> kinv s'.
Proof.
  intros M N K E. pose proof K as [A B C D F G H]. destruct (ni_done _ _ N) as (N1 & N2 & N3).
  ncases E.
  all: try (apply (kinv_ext s); [nproj; first [reflexivity|assumption|symmetry; assumption] ..|exact K]; fail).
  all: try rewrite Ls in *; cbn [reported] in *.
  all: try (constructor; nproj; cbn [reported]; first [assumption|exact Logic.I|intros X; specialize (G X); discriminate X|intros X; specialize (G X); discriminate G|reflexivity]; fail).
  (* listen *)
  - destruct C as [C1 C2]. constructor; nproj; cbn [reported]; auto; try (intros X; specialize (G X); discriminate).
  (* store *)
  - destruct C as (C1 & C2 & C3). constructor; nproj; cbn [reported bit]; auto; try lia; try (intros X; specialize (G X); discriminate).
  (* accept *)
  - constructor; nproj; cbn [reported]; auto; try (intros X; specialize (G X); discriminate).
  (* report *)
  - constructor; nproj; cbn [reported bit] in *; auto; try lia; try (intros X; specialize (G X); discriminate).
  (* unset *)
  - constructor; nproj; cbn [reported bit]; auto; try lia; try (intros X; apply B; lia); try (intros X; specialize (G X); discriminate).
  (* close *)
  - constructor; nproj; rewrite ?cntb_snoc; cbn [isL isE bit]; rewrite ?Nat.add_0_r; auto.
    + intros X. apply in_app_or in X as [X|[X|[]]]; [exact (D X)|discriminate].
    + intros X. apply in_app_or in X as [X|[X|[]]]; [exact (G X)|discriminate].
  - eapply kinv_ext; [..|apply (kinv_closer s ci _ KListener false (nd_open s) (nd_done s) K Hci)]; nproj; try reflexivity; try discriminate; rewrite ?Li; cbn [isL isE bit]; auto.
  - eapply kinv_ext; [..|apply (kinv_closer s ci _ KRecv (nd_listening s) (nd_open s) (nd_done s) K Hci)]; nproj; try reflexivity; try discriminate; rewrite ?Li; cbn [isL isE bit]; auto.
  - eapply kinv_ext; [..|apply (kinv_closer s ci _ KRecv (nd_listening s) false (nd_done s) K Hci)]; nproj; try reflexivity; try discriminate; cbn [isL isE bit]; auto; lia.
  (* listener already closed: impossible *)
  - exfalso. assert (X : false = true); [|discriminate]. apply B. pose proof (cntb_pos isL _ _ (nth_error_In _ _ Hci) eq_refl). lia.
  (* received the closing *)
  - eapply kinv_ext; [..|apply (kinv_closer s ci _ (KNil false) (nd_listening s) (nd_open s) 0 K Hci)]; nproj; try reflexivity; try discriminate; rewrite ?Dn; cbn [isL isE bit]; auto.
    intros _. destruct (nd_lst s); congruence.
  - eapply kinv_ext; [..|apply (kinv_closer s ci _ (KNil true) (nd_listening s) (nd_open s) dn K Hci)]; nproj; try reflexivity; try discriminate; rewrite ?Dn; cbn [isL isE bit]; auto.
Qed.
Lemma kinv_start : kinv n_start.
Proof. constructor; cbn; auto; try lia; intros []. Qed.
Lemma reach_kinv w max att p idle isctx l s : 0 < max -> life w max att p idle isctx l s -> ninv max s /\ kinv s.
Proof.
  intros M. apply (nrun_inv w max att p idle isctx (fun t => ninv max t /\ kinv t)); [|split; [apply ninv_start|apply kinv_start]].
  intros t a t' [J K] E. split; [exact (ninv_step _ _ _ _ _ _ M _ _ _ J E)|exact (kinv_step _ _ _ _ _ _ _ _ _ M J K E)].
Qed.

(** ** C44 *)

Definition C44_statement : Prop := forall w max att p idle isctx l s i q, 0 < max -> life w max att p idle isctx l s -> closed s i -> In q (ds_clients (nd_in s)) \/ In q (ds_clients (nd_out s)) -> gone q.

(** Accepting one connection, whose handshake succeeds and whose reader waits for a message. *)
Definition accepted : list nact := [NaAccept (adr 1); NaIn (DaGet 0); NaGot; NaIn (DaClient 0 (AMain Fine)); NaIn (DaClient 0 (AMain Fine)); NaIn (DaClient 0 (AMain Fine)); NaIn (DaClient 0 (AMain Fine)); NaIn (DaClient 0 (AMain Fine))].
(** Dialling out, likewise. *)
Definition dialled : list nact := [NaOut (DaCall (adr 2)); NaOut (DaGet 0); NaOut (DaClient 0 (AMain Fine)); NaOut (DaClient 0 (AMain Fine)); NaOut (DaClient 0 (AMain Fine)); NaOut (DaSelect 0 BReady); NaOut (DaClient 0 (AMain Fine))].
(** Close is called and returns as early as it can. *)
Definition close_one : list nact := [NaClose; NaCloser 0; NaCloser 0; NaAcceptFails; NaReport; NaCloser 0].
(** The listener goroutine of a node with one worker and no inbound connection ends, and a second Close returns. *)
Definition close_two : list nact := [NaRelease; NaCloseWork; NaQuit 0; NaWaited; NaUnset; NaFinish; NaClose; NaCloser 1; NaCloser 1].

Theorem C44_refuted : ~ C44_statement.
Proof.
  intros H. pose (l := NaListen :: NaStore :: accepted ++ close_one). destruct (nrun 1 1 1 0 0 (fun _ => false) n_start l) as [s|] eqn:E; [|vm_compute in E; discriminate].
  assert (X : closed s 0 /\ exists q, In q (ds_clients (nd_in s)) /\ c_main (k_st q) = MRead) by (vm_compute in E; injection E as <-; split; [eexists; reflexivity|eexists; split; [left; reflexivity|reflexivity]]).
  destruct X as (X1 & q & X2 & X3). destruct (H _ _ _ _ _ _ l s 0 q (Nat.lt_0_succ 0) E X1 (or_introl X2)); congruence.
Qed.
(** Outbound connections are not stopped at all: the node is closed down completely, and the connection goes on. *)
Theorem C44_refuted_outbound : exists l s q, life 1 1 1 0 0 (fun _ => false) l s /\ nd_lst s = LEnd /\ closed s 0 /\ closed s 1 /\ In q (ds_clients (nd_out s)) /\
  c_main (k_st q) = MRead /\ c_once (k_st q) = 0 /\ c_cclosed (k_st q) = false.
Proof.
  exists (NaListen :: NaStore :: dialled ++ close_one ++ close_two). eexists _, _. split; [vm_compute; reflexivity|]. split; [reflexivity|]. split; [eexists; reflexivity|]. split; [eexists; reflexivity|]. split; [left; reflexivity|]. auto.
Qed.

Definition idle_gone (s : nstate) : Prop := match nd_lst s with LUnset | LFinish | LEnd => forall k, In k (nd_workers s) -> k = KGone | _ => True end.
Lemma idle_gone_step w max att p idle isctx s a s' : idle_gone s -> nstep w max att p idle isctx s a = Some s' -> idle_gone s'.
Proof.
  intros I E. unfold idle_gone in *. ncases E; try exact I; try exact Logic.I; try (rewrite Ls in I |- *; exact I); try (rewrite Ls; exact Logic.I).
  all: try (destruct (nd_lst s); auto; intros k Hk; pose proof (I _ (nth_error_In _ _ Hwj)); discriminate).
  all: intros k Hk; rewrite forallb_forall in Al; specialize (Al k Hk); destruct k; congruence.
Qed.
Lemma reach_idle w max att p idle isctx l s : life w max att p idle isctx l s -> idle_gone s.
Proof. apply (nrun_inv w max att p idle isctx idle_gone); [intros t a t'; apply idle_gone_step|exact Logic.I]. Qed.

(** When two calls of Close have returned, every inbound connection has been stopped and the workers have ended. *)
Theorem C44_partial w max att p idle isctx l s i j : 0 < max -> life w max att p idle isctx l s -> closed s i -> closed s j -> i <> j ->
  (forall q, In q (ds_clients (nd_in s)) -> gone q) /\ (forall k, In k (nd_workers s) -> k = KGone) /\ nd_lst s = LEnd.
Proof.
  intros M H (ei & Hi) (ej & Hj) Nij. destruct (reach_kinv _ _ _ _ _ _ _ _ M H) as [I K].
  assert (L : nd_lst s = LEnd).
  { destruct ei; [|exact (ki_late _ K (nth_error_In _ _ Hi))]. destruct ej; [|exact (ki_late _ K (nth_error_In _ _ Hj))].
    pose proof (cntb_two isE _ _ _ _ _ Hi Hj Nij eq_refl eq_refl) as T. pose proof (ki_early _ K) as Q. destruct (reported (nd_lst s)); cbn [bit] in Q; lia. }
  split; [|split; [|auto]].
  - intros q Hq. apply In_nth_error in Hq as (k & Hk). destruct (ni_after _ _ I) as [_ X]; [rewrite L; reflexivity|]. rewrite L in X. destruct (past (k_st q)) eqn:Pq; [|destruct (X k q Hk Pq)].
    unfold past in Pq. unfold gone. destruct (c_main (k_st q)); auto; discriminate.
  - pose proof (reach_idle _ _ _ _ _ _ _ _ H) as G. unfold idle_gone in G. rewrite L in G. exact G.
Qed.
Example C44_nonvacuous : exists s, life 1 1 1 0 0 (fun _ => false) (NaListen :: NaStore :: accepted ++ close_one ++
    [NaRelease; NaPick 0; NaIn (DaClient 0 ACloseFlag); NaIn (DaClient 0 ACloseConn); NaIn (DaClient 0 (AMain (Fails 1))); NaIn (DaClient 0 (AMain Fine)); NaIn (DaClient 0 (AMain Fine)); NaIn (DaClient 0 (AMain Fine)); NaIn (DaClient 0 (AMain Fine)); NaIn (DaClient 0 (AMain Fine));
     NaJoined; NaCloseWork; NaQuit 0; NaWaited; NaUnset; NaFinish; NaClose; NaCloser 1; NaCloser 1]) s /\ closed s 0 /\ closed s 1 /\ length (ds_clients (nd_in s)) = 1.
Proof. eexists. split; [vm_compute; reflexivity|]. split; [eexists; reflexivity|]. split; [eexists; reflexivity|]. reflexivity. Qed.

(** Once Close has closed the listener, no connection is accepted any more. *)
Definition shut (s : nstate) : Prop := nd_open s = false /\ match nd_lst s with LNone | LStore | LGet _ => False | _ => True end.
Lemma shut_step w max att p idle isctx s a s' : 0 < max -> ninv max s -> shut s -> nstep w max att p idle isctx s a = Some s' -> shut s' /\ length (ds_clients (nd_in s')) = length (ds_clients (nd_in s)).
Proof.
  intros M N [S1 S2] E.
  assert (Nc : forall i c, nth_error (ds_callers (nd_in s)) i = Some c -> done_call c) by (intros i c Hc; destruct (ni_calls _ _ N i c Hc) as [X|X]; [exact X|]; rewrite X in S2; contradiction).
  assert (Cl : length (ds_clients (nd_in s')) = length (ds_clients (nd_in s))).
  { destruct (moves _ _ _ _ _ _ _ _ _ E) as [[X|[(ad & _ & _ & X & _)|[(da & _ & X & Y)|(_ & _ & _ & X)]]] _]; [congruence|congruence| |rewrite X; reflexivity].
    destruct da as [ad|j|j|j|j b|j|j|j|kk aa]; try contradiction.
    - destruct (get_calls _ _ _ _ _ _ _ (or_introl eq_refl) X) as (c & c' & Hc & Nd & _). destruct (Nd (Nc _ _ Hc)).
    - destruct (get_calls _ _ _ _ _ _ _ (or_intror eq_refl) X) as (c & c' & Hc & Nd & _). destruct (Nd (Nc _ _ Hc)).
    - destruct (nth_error (ds_clients (nd_in s)) kk) as [q|] eqn:Hq; [|cbn [dstep] in X; rewrite Hq in X; discriminate].
      destruct (cact idle (k_st q) aa) as [st|] eqn:Ha; [|cbn [dstep] in X; rewrite Hq, Ha in X; discriminate].
      destruct (client_shape _ _ _ _ _ _ _ _ _ _ _ _ X Hq Ha) as (_ & Q2 & _). rewrite Q2. apply set_nth_length. }
  split; [|exact Cl]. clear Cl. unfold shut. ncases E; try rewrite Ls in S2; try contradiction; try discriminate; auto; rewrite Ls; auto.
Qed.
Theorem C44_no_more w max att p idle isctx l s l' s' : 0 < max -> life w max att p idle isctx l s -> shut s -> nrun w max att p idle isctx s l' = Some s' -> length (ds_clients (nd_in s')) = length (ds_clients (nd_in s)).
Proof.
  intros M H S. pose proof (reach_ninv _ _ _ _ _ _ _ _ M H) as I.
  intros R. apply (nrun_inv w max att p idle isctx (fun t => ninv max t /\ shut t /\ length (ds_clients (nd_in t)) = length (ds_clients (nd_in s)))) in R; [tauto| |auto].
  intros t a t' (T1 & T2 & T3) E. destruct (shut_step _ _ _ _ _ _ _ _ _ M T1 T2 E) as [X Y]. split; [exact (ninv_step _ _ _ _ _ _ M _ _ _ T1 E)|]. split; [exact X|congruence].
Qed.
Example C44_no_more_nonvacuous : exists s, life 1 1 1 0 0 (fun _ => false) (NaListen :: NaStore :: accepted ++ [NaClose; NaCloser 0; NaCloser 0]) s /\ shut s.
Proof. eexists. split; [vm_compute; reflexivity|]. split; [reflexivity|exact Logic.I]. Qed.

(** No call of Close returns an error, however many run at once: only one of them closes the listener, which is still open then. *)
Theorem C46_no_error w max att p idle isctx l s i : 0 < max -> life w max att p idle isctx l s -> nth_error (nd_closers s) i <> Some KErr.
Proof. intros M H E. destruct (reach_kinv _ _ _ _ _ _ _ _ M H) as [_ K]. exact (ki_err _ K (nth_error_In _ _ E)). Qed.
Example C46_no_error_nonvacuous : exists s, life 1 4 3 0 0 (fun _ => false) ([NaListen; NaStore; NaClose; NaClose; NaCloser 1; NaCloser 0; NaCloser 1; NaAcceptFails; NaReport; NaCloser 0]) s /\ map (fun k => match k with KErr => 2 | KNil _ => 1 | _ => 0 end) (nd_closers s) = [1; 0].
Proof. eexists. split; [vm_compute; reflexivity|]. reflexivity. Qed.

Print Assumptions C44_refuted.
Print Assumptions C44_refuted_outbound.
Print Assumptions C44_partial.
Print Assumptions C44_no_more.

(** ** C45 *)

Definition C45_statement : Prop := forall w max att p idle isctx l s, 0 < max -> life w max att p idle isctx l s -> ~ crashed s.
(** An outbound connection outlives the closing of the node; the next message on it kills the process. *)
Theorem C45_refuted : ~ C45_statement.
Proof.
  intros H. pose (l := NaListen :: NaStore :: dialled ++ close_one ++ close_two ++ [NaOut (DaClient 0 (AMain Fine)); NaOut (DaClient 0 (AMain Fine))]).
  destruct (nrun 1 1 1 0 0 (fun _ => false) n_start l) as [s|] eqn:E; [|vm_compute in E; discriminate].
  apply (H _ _ _ _ _ _ l s (Nat.lt_0_succ 0) E). left. vm_compute in E. injection E as <-. reflexivity.
Qed.
Lemma no_client_panic max s q : ninv max s -> In q (ds_clients (nd_in s)) \/ In q (ds_clients (nd_out s)) -> c_panic (k_st q) = false.
Proof. intros N [H|H]; [destruct (ni_sig _ _ N q H) as [(X & _) _]; exact X|destruct (pi_sig _ _ (ni_out _ _ N) q H) as [(X & _) _]; exact X]. Qed.
(** There is no other way: the only panics are those of outbound readers that hand over a message after the workers' channel was closed. *)
Theorem C45_partial w max att p idle isctx l s a s' : 0 < max -> life w max att p idle isctx l s -> nstep w max att p idle isctx s a = Some s' -> crashed s' ->
  exists k q, a = NaOut (DaClient k (AMain Fine)) /\ nth_error (ds_clients (nd_out s)) k = Some q /\ c_main (k_st q) = MDispatch /\ nd_wclosed s = true.
Proof.
  intros M H E Cr. pose proof (reach_ninv _ _ _ _ _ _ _ _ M H) as N. pose proof (ninv_step _ _ _ _ _ _ M _ _ _ N E) as N'.
  destruct Cr as [Cr|(q & Hq & Cq)]; [|rewrite (no_client_panic _ _ _ N' Hq) in Cq; discriminate]. destruct (ni_done _ _ N) as (N1 & N2 & N3). pose proof (ni_work _ _ N) as N4. clear N'.
  ncases E; try congruence; try rewrite Ls in *; try discriminate.
  - exfalso. unfold handing in Hd. destruct ga as [[|]| | | | | |]; try discriminate. destruct (nth_error (ds_clients (nd_in s)) gk) as [q|] eqn:Hq; [|discriminate]. destruct (c_main (k_st q)) eqn:Mq; try discriminate.
    symmetry in N4. destruct (ni_after _ _ N) as [_ X]; [destruct (nd_lst s); try discriminate; reflexivity|]. specialize (X gk q Hq ltac:(unfold past; rewrite Mq; reflexivity)). destruct (nd_lst s); try discriminate; destruct X.
  - unfold handing in Hd. destruct ga as [[|]| | | | | |]; try discriminate. destruct (nth_error (ds_clients (nd_out s)) gk) as [q|] eqn:Hq; [|discriminate]. destruct (c_main (k_st q)) eqn:Mq; try discriminate. exists gk, q. auto.
Qed.
(** In particular a node that never dials never crashes. *)
Theorem C45_no_dialling w max att p idle isctx l s : 0 < max -> life w max att p idle isctx l s -> ds_clients (nd_out s) = [] -> ~ crashed s.
Proof.
  intros M H Z. enough (X : crashed s -> ds_clients (nd_out s) <> []) by (intros C; exact (X C Z)). pose proof H as R. unfold life in R. clear Z.
  revert R. cut (forall l1 l2 s1, nrun w max att p idle isctx n_start l1 = Some s1 -> (crashed s1 -> ds_clients (nd_out s1) <> []) -> nrun w max att p idle isctx s1 l2 = Some s -> crashed s -> ds_clients (nd_out s) <> []).
  { intros X R. apply (X [] l n_start); [reflexivity| |exact R]. intros [C|(q & [[]|[]] & _)]. discriminate. }
  intros l1 l2. revert l1. induction l2 as [|a l2 IH]; intros l1 s1 R1 C1 R; cbn [M_Close.nrun] in R; [injection R as <-; exact C1|].
  destruct (nstep w max att p idle isctx s1 a) as [s2|] eqn:E; [|discriminate]. apply (IH (l1 ++ [a]) s2); [rewrite nrun_app, R1; cbn; rewrite E; reflexivity| |exact R].
  intros C2. destruct (C45_partial _ _ _ _ _ _ l1 s1 a s2 M R1 E C2) as (k & q & -> & Hq & _ & Wc).
  destruct (moves _ _ _ _ _ _ s1 (NaOut (DaClient k (AMain Fine))) s2 E) as [_ [X|(da & Y & X)]].
  - rewrite X. intros Z. rewrite Z in Hq. destruct k; discriminate.
  - injection Y as <-. destruct (cact idle (k_st q) (AMain Fine)) as [st|] eqn:Ha; [|cbn [dstep] in X; rewrite Hq, Ha in X; discriminate].
    destruct (client_shape _ _ _ _ _ _ _ _ _ _ _ _ X Hq Ha) as (_ & Q2 & _). intros Z.
    rewrite Z in Q2. apply (f_equal (@length _)) in Q2. rewrite set_nth_length in Q2. destruct (ds_clients (nd_out s1)); [destruct k; discriminate|discriminate].
Qed.
Print Assumptions C45_refuted.
Print Assumptions C45_partial.
Print Assumptions C45_no_dialling.
Print Assumptions C46_no_error.
