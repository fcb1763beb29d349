(** * Invariants of a connection pool in use *)
From Verif Require Import Base Spec M_Table P_Table P_Iter P_Gossip P_Conn M_Maps M_Client P_Client Props_Maps M_Dial.
Local Open Scope nat_scope.

(** The client has removed itself from the pool. *)
Definition past (s : cstate) : bool := match c_main s with MDone | MEnd => true | _ => false end.

Lemma past_step idle s a s' : cact idle s a = Some s' ->
  (c_main s = MRemove /\ (exists o, a = AMain o) /\ c_main s' = MDone) \/ (past s' = past s /\ (c_main s = MRemove -> c_main s' = MRemove)).
Proof.
  intros H. unfold past. ccases H; cproj; try (right; split; [reflexivity|auto; discriminate]; fail); try (left; eauto; fail);
    repeat match goal with |- context [match ?x with _ => _ end] => destruct x end; right; split; auto; discriminate.
Qed.

Definition pairs_ok (l : lru) (cs : list client) : Prop :=
  forall a k, In (a, k) l <-> exists q, nth_error cs k = Some q /\ k_addr q = a /\ past (k_st q) = false.

Section Inv.
Variables (sd : cside) (max att p idle : nat) (isctx : nat -> bool).
Notation dstep := (dstep sd max att p idle isctx).
Notation drun := (drun sd max att p idle isctx).

Lemma drun_inv (P : dstate -> Prop) : (forall s a s', P s -> dstep s a = Some s' -> P s') -> forall l s s', P s -> drun s l = Some s' -> P s'.
Proof.
  intros St. induction l as [|a l IH]; cbn [M_Dial.drun]; intros s s' H R; [injection R as <-; exact H|].
  destruct (dstep s a) as [s1|] eqn:E; [|discriminate]. apply (IH s1 s'); [apply (St s a s1 H E)|exact R].
Qed.
Lemma drun_app l1 l2 : forall s, drun s (l1 ++ l2) = match drun s l1 with Some s' => drun s' l2 | None => None end.
Proof. induction l1 as [|a l1 IH]; intros s; cbn [M_Dial.drun app]; [reflexivity|]. destruct (dstep s a); [apply IH|reflexivity]. Qed.

Definition evicting (c : caller) : bool := match d_pc c with DEvict _ _ _ _ => true | _ => false end.

Record pinv (s : dstate) : Prop := {
  pi_repr : exists l, cm_repr (ds_pool s) l /\ length l <= max /\ pairs_ok l (ds_clients s);
  pi_sig : forall q, In q (ds_clients s) -> sig_inv (k_st q) /\ once_inv (k_st q);
  pi_lock : forall i c, nth_error (ds_callers s) i = Some c -> evicting c = true -> ds_lock s = Some i;
  pi_held : forall i, ds_lock s = Some i -> exists c n k v m q, nth_error (ds_callers s) i = Some c /\ d_pc c = DEvict n k v m /\ nth_error (ds_clients s) v = Some q /\ past (k_st q) = false
}.

Ltac dproj := cbn [ds_callers ds_clients ds_pool ds_lock ds_gets ds_failed ds_late] in *.

(** Steps that change only the program point of one caller that neither holds nor takes the lock. *)
Lemma pinv_pc s i c c' g f t : pinv s -> nth_error (ds_callers s) i = Some c -> evicting c = false -> evicting c' = false ->
  pinv (mkDS (set_nth i c' (ds_callers s)) (ds_clients s) (ds_pool s) (ds_lock s) g f t).
Proof.
  intros [A B C D] Hi E E'. constructor; dproj; auto.
  - intros j c1 H1 E1. rewrite (nth_error_set _ _ _ _ j Hi) in H1. destruct (j =? i); [injection H1 as <-; congruence|exact (C j c1 H1 E1)].
  - intros j Hj. destruct (D j Hj) as (c1 & n & k & v & m & q & H1 & P1 & H2 & P2). exists c1, n, k, v, m, q. repeat split; auto.
    rewrite (nth_error_set _ _ _ _ j Hi). destruct (Nat.eqb_spec j i) as [->|]; [|exact H1]. assert (c1 = c) as -> by congruence. unfold evicting in E. rewrite P1 in E. discriminate.
Qed.

Lemma in_find l a k : NoDup (map fst l) -> In (a, k) l <-> lru_find a l = Some k.
Proof.
  induction l as [|[b c] l IH]; cbn; intros N; [split; [intros []|discriminate]|]. inversion N as [|? ? N1 N2]; subst. destruct (bytes_eqb_spec a b) as [->|Ne].
  - split; [intros [E|H]; [congruence|]|intros E; left; congruence]. exfalso. apply N1. apply (in_map fst) in H. exact H.
  - rewrite <- IH by exact N2. split; [intros [E|H]; [congruence|exact H]|auto].
Qed.
Lemma in_drop a b k l : In (a, k) (lru_drop b l) <-> In (a, k) l /\ a <> b.
Proof.
  unfold lru_drop. rewrite filter_In. cbn [fst]. destruct (bytes_eqb_spec b a) as [->|N]; cbn; intuition congruence.
Qed.
Lemma past_new : past (newClient sd) = false.
Proof. destruct sd; reflexivity. Qed.

Lemma pairs_snoc l cs a i : pairs_ok l cs -> pairs_ok ((a, length cs) :: l) (cs ++ [mkK a i (newClient sd)]).
Proof.
  intros H b k. cbn [In]. rewrite (H b k). split.
  - intros [E|(q & Hq & Aq & Pq)]; [|exists q; split; [apply nth_error_keep, Hq|auto]]. injection E as <- <-. eexists. split; [rewrite nth_error_app2, Nat.sub_diag by lia; reflexivity|]. split; [reflexivity|exact past_new].
  - intros (q & Hq & Aq & Pq). apply nth_error_snoc in Hq as [Hq|[-> ->]]; [right; eauto|left]. cbn in Aq. congruence.
Qed.
Lemma pairs_same l cs k q q' : pairs_ok l cs -> nth_error cs k = Some q -> k_addr q' = k_addr q -> past (k_st q') = past (k_st q) -> pairs_ok l (set_nth k q' cs).
Proof.
  intros H Hk Ea Ep a j. rewrite (H a j), (nth_error_set _ _ _ _ j Hk). destruct (Nat.eqb_spec j k) as [->|]; [|tauto]. rewrite Hk.
  split; intros (r & Hr & Ar & Pr); injection Hr as <-; eexists; (split; [reflexivity|split; congruence]).
Qed.
Lemma pairs_removed l cs k q q' : pairs_ok l cs -> NoDup (map fst l) -> nth_error cs k = Some q -> past (k_st q) = false -> k_addr q' = k_addr q -> past (k_st q') = true ->
  pairs_ok (lru_drop (k_addr q) l) (set_nth k q' cs).
Proof.
  intros H N Hk Pk Ea Ep a j. rewrite in_drop, (H a j), (nth_error_set _ _ _ _ j Hk). destruct (Nat.eqb_spec j k) as [->|Ne].
  - split; [intros [(r & Hr & Ar & Pr) Na]; congruence|]. intros (r & Hr & Ar & Pr). assert (r = q') as -> by congruence. congruence.
  - split; [intros [X _]; exact X|]. intros X. split; [exact X|]. intros ->. destruct X as (r & Hr & Ar & Pr). apply Ne.
    assert (I1 : In (k_addr q, j) l) by (apply H; eauto). assert (I2 : In (k_addr q, k) l) by (apply H; eauto). apply (in_find _ _ _ N) in I1. apply (in_find _ _ _ N) in I2. congruence.
Qed.

Hypothesis max_pos : 0 < max.

Lemma fetch_ok s a : pinv s -> exists m k ex ev, cm_fetch max (ds_pool s) a (length (ds_clients s)) = Ok (m, k, ex, ev) /\
  (match ev with
   | None => (exists l, cm_repr m l /\ length l <= max /\ pairs_ok l (if ex then ds_clients s else ds_clients s ++ [mkK a 0 (newClient sd)])) /\
             (if ex then exists q, nth_error (ds_clients s) k = Some q /\ k_addr q = a /\ past (k_st q) = false
              else k = length (ds_clients s) /\ forall k' q, nth_error (ds_clients s) k' = Some q -> k_addr q = a -> past (k_st q) = true)
   | Some v => ex = false /\ k = length (ds_clients s) /\ (exists q, nth_error (ds_clients s) v = Some q /\ past (k_st q) = false) /\
               (forall k' q, nth_error (ds_clients s) k' = Some q -> k_addr q = a -> past (k_st q) = true) /\ exists l, cm_repr (ds_pool s) l /\ length l = max /\ pairs_ok l (ds_clients s)
   end).
Proof.
  intros [(l & R & L & P) B C D]. destruct (cm_fetch_repr max (ds_pool s) l a (length (ds_clients s)) R ltac:(lia)) as (m & k & ex & ev & E & R' & F & X).
  pose proof (lru_len max l (length (ds_clients s)) (CGet a) L max_pos) as L'. destruct R as [R1 R2 R3 R4 R5]. exists m, k, ex, ev. split; [exact E|]. cbn [lru_step] in *. destruct ex.
  - destruct X as [X ->]. rewrite X in *. split.
    + exists ((a, k) :: lru_drop a l). split; [exact R'|]. split; [exact L'|]. intros b j. cbn [In]. rewrite in_drop, <- (P b j). apply (in_find _ _ _ R2) in X. split; [intros [Q|[Q _]]; [injection Q as <- <-; exact X|exact Q]|].
      intros Q. destruct (bytes_eqb_spec b a) as [->|Nb]; [left|right; auto]. apply (in_find _ _ _ R2) in X. apply (in_find _ _ _ R2) in Q. congruence.
    + apply P. apply (in_find _ _ _ R2). exact X.
  - destruct X as (X & -> & Y). assert (No : forall k' q, nth_error (ds_clients s) k' = Some q -> k_addr q = a -> past (k_st q) = true).
    { intros k' q Hq Aq. destruct (past (k_st q)) eqn:Pq; [reflexivity|exfalso]. assert (I1 : In (a, k') l) by (apply P; eauto). apply (in_find _ _ _ R2) in I1. congruence. }
    destruct (length l =? max) eqn:El.
    + destruct Y as ([a' v] & Hv & ->). cbn [snd]. split; [reflexivity|]. split; [reflexivity|]. split; [|split; [exact No|]].
      * assert (I1 : In (a', v) l) by (rewrite Hv; apply in_or_app; right; left; reflexivity). apply P in I1 as (q & Hq & _ & Pq). eauto.
      * exists l. split; [constructor; assumption|]. split; [apply Nat.eqb_eq, El|exact P].
    + subst ev. split; [|auto]. rewrite X in *. exists ((a, length (ds_clients s)) :: l). split; [exact R'|]. split; [exact L'|]. apply pairs_snoc, P.
Qed.

Theorem pinv_step s a s' : pinv s -> dstep s a = Some s' -> pinv s'.
Proof.
  intros I E. pose proof I as [A B C D]. destruct a as [ad|i|i|i|i b|i|i|i|k a]; cbn [M_Dial.dstep] in E.
  - injection E as <-. constructor; dproj; auto.
    + intros i c Hi Ev. apply nth_error_snoc in Hi as [Hi|[_ ->]]; [exact (C i c Hi Ev)|discriminate].
    + intros i Hi. destruct (D i Hi) as (c & n & k & v & m & q & H1 & P1 & H2 & P2). exists c, n, k, v, m, q. repeat split; auto. apply nth_error_keep, H1.
  - destruct (nth_error (ds_callers s) i) as [c|] eqn:Hi; [|discriminate]. injection E as <-. constructor; dproj; auto.
    + intros j c1 H1 E1. rewrite (nth_error_set _ _ _ _ j Hi) in H1. destruct (Nat.eqb_spec j i) as [->|]; [injection H1 as <-; exact (C i c Hi E1)|exact (C j c1 H1 E1)].
    + intros j Hj. destruct (D j Hj) as (c1 & n & k & v & m & q & H1 & P1 & H2 & P2). rewrite (nth_error_set _ _ _ _ j Hi). destruct (Nat.eqb_spec j i) as [->|]; [|exists c1, n, k, v, m, q; auto].
      assert (c1 = c) as -> by congruence. eexists _, n, k, v, m, q. split; [reflexivity|]. auto.
  - destruct (nth_error (ds_callers s) i) as [c|] eqn:Hi; [|discriminate]. destruct (d_pc c) as [n| | | | | | |] eqn:Pc; try discriminate. destruct (n <? att); [|discriminate]. destruct (ds_lock s) as [o|] eqn:Lk; [discriminate|].
    destruct (fetch_ok s (d_addr c) I) as (m & k & ex & ev & F & X). rewrite F in E. destruct ev as [v|]; [|].
    + destruct X as (-> & -> & (q & Hq & Pq) & _). injection E as <-. constructor; dproj; auto.
      * intros j c1 H1 E1. rewrite (nth_error_set _ _ _ _ j Hi) in H1. destruct (Nat.eqb_spec j i) as [->|]; [reflexivity|]. pose proof (C j c1 H1 E1). congruence.
      * intros j Hj. injection Hj as <-. rewrite (nth_error_set _ _ _ _ i Hi), Nat.eqb_refl. eexists _, n, _, v, m, q. split; [reflexivity|]. cbn. auto.
    + injection E as <-. destruct X as [(l & R & L & P) X]. constructor; dproj.
      * exists l. split; [exact R|]. split; [exact L|]. destruct ex; [exact P|]. intros b j. rewrite (P b j). split; intros (q & Hq & Q); apply nth_error_snoc in Hq as [Hq|[-> ->]].
        -- exists q. split; [apply nth_error_keep, Hq|exact Q].
        -- eexists. split; [rewrite nth_error_app2, Nat.sub_diag by lia; reflexivity|exact Q].
        -- exists q. split; [apply nth_error_keep, Hq|exact Q].
        -- eexists. split; [rewrite nth_error_app2, Nat.sub_diag by lia; reflexivity|exact Q].
      * intros q Hq. destruct ex; [exact (B q Hq)|]. apply in_app_or in Hq as [Hq|[<-|[]]]; [exact (B q Hq)|]. split; [apply sig_start|apply once_start].
      * intros j c1 H1 E1. rewrite (nth_error_set _ _ _ _ j Hi) in H1. destruct (Nat.eqb_spec j i) as [->|]; [|pose proof (C j c1 H1 E1); congruence]. injection H1 as <-. unfold evicting in E1. cbn in E1. destruct sd; discriminate.
      * discriminate.
  - destruct (nth_error (ds_callers s) i) as [c|] eqn:Hi; [|discriminate]. destruct (d_pc c) as [|n k v m| | | | | |] eqn:Pc; try discriminate.
    assert (Lk : ds_lock s = Some i) by (apply (C i c Hi); unfold evicting; rewrite Pc; reflexivity). destruct (D i Lk) as (c1 & n1 & k1 & v1 & m1 & q1 & H1 & P1 & H2 & P2).
    assert (c1 = c) as -> by congruence. rewrite Pc in P1. injection P1 as <- <- <- <-. rewrite H2 in E. destruct (B q1 (nth_error_In _ _ H2)) as [Sg _]. destruct Sg as (_ & _ & _ & _ & _ & _ & Sg).
    destruct (c_once (k_st q1) =? 2); [|discriminate]. cbn [andb] in E. rewrite Sg in E. unfold past in P2. destruct (c_main (k_st q1)); discriminate.
  - destruct (nth_error (ds_callers s) i) as [c|] eqn:Hi; [|discriminate]. destruct (d_pc c) as [| |n k| | | | |] eqn:Pc; try discriminate. destruct (nth_error (ds_clients s) k) as [q|]; [|discriminate].
    destruct (match b with BCtx => _ | BReady => _ | BReader => _ | BWriter => _ end); [|discriminate]. injection E as <-. apply (pinv_pc s i c); auto; [unfold evicting; rewrite Pc; reflexivity|]. unfold evicting. cbn [d_pc]. destruct b; try reflexivity; destruct (c_err (k_st q)); reflexivity.
  - destruct (nth_error (ds_callers s) i) as [c|] eqn:Hi; [|discriminate]. destruct (d_pc c) as [| | |n k e| | | |] eqn:Pc; try discriminate. destruct (nth_error (ds_clients s) k) as [q|]; [|discriminate].
    destruct (c_once (k_st q) =? 2); [|discriminate]. injection E as <-. apply (pinv_pc s i c); auto. unfold evicting; rewrite Pc; reflexivity.
  - destruct (nth_error (ds_callers s) i) as [c|] eqn:Hi; [|discriminate]. destruct (d_pc c) as [| | | |n k e| | |] eqn:Pc; try discriminate. destruct (nth_error (ds_clients s) k) as [q|]; [|discriminate].
    destruct (c_cdone (k_st q)); [|discriminate]. injection E as <-. apply (pinv_pc s i c); auto; [unfold evicting; rewrite Pc; reflexivity|]. unfold evicting. cbn [d_pc]. destruct (match e with ECtx => _ | EClient _ => _ end); [reflexivity|]. destruct (S n <? att); reflexivity.
  - destruct (nth_error (ds_callers s) i) as [c|] eqn:Hi; [|discriminate]. destruct (d_pc c) as [| | | | |e j| |] eqn:Pc; try discriminate. destruct (j <? p); injection E as <-; apply (pinv_pc s i c); auto; unfold evicting; rewrite Pc; reflexivity.
  - destruct (nth_error (ds_clients s) k) as [q|] eqn:Hk; [|discriminate]. destruct (cact idle (k_st q) a) as [st|] eqn:Ea; [|discriminate].
    assert (Sg : forall q', In q' (set_nth k (mkK (k_addr q) (k_ctx q) st) (ds_clients s)) -> sig_inv (k_st q') /\ once_inv (k_st q')).
    { intros q' Hq. apply in_set_nth in Hq as [->|Hq]; [|exact (B q' Hq)]. destruct (B q (nth_error_In _ _ Hk)) as [B1 B2]. split; [exact (sig_step _ _ _ _ B1 Ea)|exact (once_step _ _ _ _ B2 Ea)]. }
    destruct (past_step _ _ _ _ Ea) as [(M1 & (o & ->) & M2)|[M1 M2]].
    + rewrite M1 in E. destruct (ds_lock s) as [o1|] eqn:Lk; [discriminate|]. injection E as <-. destruct A as (l & R & L & P). constructor; dproj; auto.
      * exists (lru_drop (k_addr q) l). split; [apply cm_remove_repr, R|]. split; [pose proof (filter_length_le (fun e => negb (bytes_eqb (k_addr q) (fst e))) l); unfold lru_drop; lia|].
        apply pairs_removed; auto; [apply (cr_nodup _ _ R)| |]; unfold past; [rewrite M1|cbn [k_st]; rewrite M2]; reflexivity.
      * discriminate.
    + assert (E2 : s' = mkDS (ds_callers s) (set_nth k (mkK (k_addr q) (k_ctx q) st) (ds_clients s)) (ds_pool s) (ds_lock s) (ds_gets s) (ds_failed s) (ds_late s) \/ (c_main (k_st q) = MRemove /\ exists o, a = AMain o)).
      { destruct (c_main (k_st q)) eqn:Mq; try (left; injection E as <-; reflexivity). destruct a; try (left; injection E as <-; reflexivity). right. eauto. }
      destruct E2 as [->|[Mq (o & ->)]].
      * constructor; dproj; auto.
        -- destruct A as (l & R & L & P). exists l. split; [exact R|]. split; [exact L|]. apply (pairs_same l _ k q); auto.
        -- intros i Hi. destruct (D i Hi) as (c & n & k1 & v & m & q1 & H1 & P1 & H2 & P2). destruct (Nat.eq_dec v k) as [->|N].
           ++ assert (q1 = q) as -> by congruence. eexists c, n, k1, k, m, _. rewrite (nth_error_set _ _ _ _ k Hk), Nat.eqb_refl. split; [exact H1|]. split; [exact P1|]. split; [reflexivity|]. cbn [k_st]. congruence.
           ++ exists c, n, k1, v, m, q1. rewrite (nth_error_set _ _ _ _ v Hk). apply Nat.eqb_neq in N. rewrite N. auto.
      * exfalso. cbn [cact] in Ea. unfold main_step in Ea. rewrite Mq in Ea. injection Ea as <-. specialize (M2 Mq). discriminate.
Qed.
End Inv.

Lemma pinv_start max : pinv max d_start.
Proof.
  constructor; cbn.
  - exists []. split; [exact cm_repr_0|]. split; [cbn; lia|]. intros a k. split; [intros []|]. intros (q & H & _). destruct k; discriminate.
  - intros q [].
  - intros [|i] c H; discriminate.
  - discriminate.
Qed.
