(** * C138: a peer that reads slowly, but all the time, is sent everything (refuted with an idle timeout; proved without, and for batches that are small enough). *)
From Verif Require Import Base M_Drip.
Local Open Scope nat_scope.

(** ** Specification *)

(** What has happened since the connection was made at time [t]. *)
Definition goes_on (idle t : nat) (l : list dact) (s : drip) : Prop := drun idle (d_start t) l = Some s.
(** The writer has given up. *)
Definition cut (s : drip) : Prop := d_pc s = DFailed.
(** Nothing more is accepted, and the peer takes one byte in every unit of time. *)
Definition drips (l : list dact) : Prop := forall a, In a l -> match a with DAccept _ => False | DTick k => k = 1 | _ => True end.
(** Bytes accepted, and not given to the peer yet. *)
Definition owed (s : drip) : nat := d_acc s - d_out s.

(** Claimed: whatever is accepted is given to a peer that takes something in every unit of time. *)
Definition C138_statement : Prop := forall idle t l s, goes_on idle t l s -> exists l' s', drips l' /\ drun idle s l' = Some s' /\ d_out s' = d_acc s /\ d_now s' <= d_now s + owed s.

(** The time left when a batch is taken is enough for it at one byte in a unit of time. *)
Fixpoint small (idle : nat) (s : drip) (l : list dact) : Prop :=
  match l with
  | [] => True
  | a :: l' => (a = DTake -> match d_dl s with Some d => d_now s + list_sum (d_buf s) <= d | None => True end) /\ match dstep idle s a with Some s' => small idle s' l' | None => True end
  end.

(** *** Lemmas *)

Local Arguments list_sum : simpl never.
Definition left_of (s : drip) : nat := match d_pc s with DWrite n => n | _ => 0 end.
Definition sums (s : drip) : Prop := d_pc s <> DFailed -> d_out s + left_of s + list_sum (d_buf s) = d_acc s.
Lemma sum_snoc l n : list_sum (l ++ [n]) = list_sum l + n.
Proof. rewrite list_sum_app. change (list_sum [n]) with (n + 0). lia. Qed.
Lemma sums_step idle s a s' : sums s -> dstep idle s a = Some s' -> sums s'.
Proof.
  unfold sums, left_of. intros I H. destruct s as [now pc dl buf acc out], a; destruct pc; cbn [dstep d_pc d_now d_dl d_buf d_acc d_out] in H, I; try discriminate.
  - injection H as <-. cbn. intros _. rewrite sum_snoc. specialize (I ltac:(discriminate)). lia.
  - injection H as <-. cbn. intros _. rewrite sum_snoc. specialize (I ltac:(discriminate)). lia.
  - injection H as <-. cbn. intros _. rewrite sum_snoc. specialize (I ltac:(discriminate)). lia.
  - injection H as <-. cbn. congruence.
  - injection H as <-. cbn. intros _. apply I. discriminate.
  - destruct buf as [|b buf]; [discriminate|]. injection H as <-. cbn [d_pc d_buf d_out d_acc]. intros _. specialize (I ltac:(discriminate)). change (list_sum (@nil nat)) with 0. change (list_sum (b :: buf)) with (b + list_sum buf) in I. unfold total in *. change (list_sum (b :: buf)) with (b + list_sum buf). lia.
  - destruct buf, k; try discriminate. injection H as <-. cbn. intros _. apply I. discriminate.
  - destruct (0 <? k); [|discriminate]. destruct (Nat.leb_spec k todo); [|discriminate]. destruct (negb _); [|discriminate]. injection H as <-. cbn. intros _. specialize (I ltac:(discriminate)). lia.
  - destruct k; [|discriminate]. injection H as <-. cbn. congruence.
  - destruct (_ && _); [|discriminate]. injection H as <-. cbn. congruence.
  - destruct todo; [|discriminate]. injection H as <-. cbn. intros _. specialize (I ltac:(discriminate)). lia.
Qed.
Lemma sums_run idle l : forall s s', sums s -> drun idle s l = Some s' -> sums s'.
Proof. induction l as [|a l IH]; cbn; intros s s' I H; [injection H as <-; exact I|]. destruct (dstep idle s a) eqn:E; [|discriminate]. eauto using sums_step. Qed.
Lemma drun_app idle l1 : forall l2 s s1, drun idle s l1 = Some s1 -> drun idle s (l1 ++ l2) = drun idle s1 l2.
Proof. induction l1 as [|a l1 IH]; cbn; intros l2 s s1 H; [congruence|]. destruct (dstep idle s a); [auto | discriminate]. Qed.

(** The deadline allows for what is left. *)
Definition ample (s : drip) : Prop := d_pc s <> DFailed /\ match d_pc s, d_dl s with DWrite n, Some d => d_now s + n <= d | _, _ => True end.
Lemma ample_step idle s a s' : ample s -> (a = DTake -> match d_dl s with Some d => d_now s + list_sum (d_buf s) <= d | None => True end) -> dstep idle s a = Some s' -> ample s'.
Proof.
  unfold ample. intros I T H. destruct s as [now pc dl buf acc out], a; destruct pc; cbn [dstep d_pc d_now d_dl d_buf d_acc d_out] in H, I, T; try discriminate.
  - injection H as <-. cbn. split; [discriminate | exact Logic.I].
  - injection H as <-. cbn. split; [discriminate | exact Logic.I].
  - injection H as <-. cbn. exact I.
  - destruct I as [I _]. congruence.
  - injection H as <-. cbn. split; [discriminate | exact Logic.I].
  - destruct buf; [discriminate|]. injection H as <-. cbn. split; [discriminate|]. exact (T eq_refl).
  - destruct buf, k; try discriminate. injection H as <-. cbn. split; [discriminate | exact Logic.I].
  - destruct (Nat.ltb_spec 0 k); [|discriminate]. destruct (Nat.leb_spec k todo); [|discriminate]. destruct (negb _); [|discriminate]. injection H as <-. cbn. split; [discriminate|].
    destruct I as [_ I]. destruct dl; [lia | exact Logic.I].
  - destruct I as [I _]. congruence.
  - destruct I as [_ I]. destruct (Nat.ltb_spec 0 todo); [|discriminate]. destruct dl as [d|]; [|discriminate]. cbn in H. destruct (Nat.leb_spec d now); [lia | discriminate].
  - destruct todo; [|discriminate]. injection H as <-. cbn. split; [discriminate | exact Logic.I].
Qed.
Lemma ample_run idle l : forall s s', ample s -> small idle s l -> drun idle s l = Some s' -> ample s'.
Proof.
  induction l as [|a l IH]; cbn; intros s s' I T H; [injection H as <-; exact I|]. destruct T as [T1 T2].
  destruct (dstep idle s a) as [s1|] eqn:E; [|discriminate]. exact (IH s1 s' (ample_step _ _ _ _ I T1 E) T2 H).
Qed.

Lemma drips_cons a l : (match a with DAccept _ => False | DTick k => k = 1 | _ => True end) -> drips l -> drips (a :: l).
Proof. intros A L b [<- |B]; [exact A | exact (L b B)]. Qed.
Lemma drips_app l1 l2 : drips l1 -> drips l2 -> drips (l1 ++ l2).
Proof. intros A B a H. apply in_app_or in H as [H|H]; [exact (A a H) | exact (B a H)]. Qed.
(** A batch is written at one byte in a unit of time. *)
Lemma drain idle n : forall now dl buf acc out, (match dl with Some d => now + n <= d | None => True end) ->
  exists l, drips l /\ drun idle (mkD now (DWrite n) dl buf acc out) l = Some (mkD (now + n) (DWrite 0) dl buf acc (out + n)).
Proof.
  induction n as [|n IH]; intros now dl buf acc out A.
  - exists []. split; [intros a []|]. cbn. rewrite !Nat.add_0_r. reflexivity.
  - destruct (IH (S now) dl buf acc (out + 1)) as (l & D & R); [destruct dl; [lia | exact Logic.I]|]. exists (DTick 1 :: l). split; [apply drips_cons; [reflexivity | exact D]|].
    assert (L : late now dl = false) by (destruct dl; [apply Nat.leb_gt; lia | reflexivity]). cbn [drun dstep d_pc d_now d_dl d_buf d_acc d_out]. rewrite L. cbn [Nat.ltb Nat.leb andb negb].
    replace (S n - 1) with n by lia. rewrite R. do 2 f_equal; lia.
Qed.
Definition none (s : drip) : Prop := d_dl s = None /\ d_pc s <> DFailed.
Lemma none_step s a s' : none s -> dstep 0 s a = Some s' -> none s'.
Proof.
  unfold none. intros [I J] H. destruct s as [now pc dl buf acc out]. cbn in I, J. subst dl. destruct a, pc; cbn [dstep d_pc d_now d_dl d_buf d_acc d_out] in H; try discriminate; try (injection H as <-; cbn; split; [reflexivity | discriminate]); try congruence.
  - destruct buf; [discriminate|]. injection H as <-. cbn. split; [reflexivity | discriminate].
  - destruct buf, k; try discriminate. injection H as <-. cbn. split; [reflexivity | discriminate].
  - destruct (_ && _); [|discriminate]. injection H as <-. cbn. split; [reflexivity | discriminate].
  - rewrite andb_false_r in H. discriminate.
  - destruct todo; [|discriminate]. injection H as <-. cbn. split; [reflexivity | discriminate].
Qed.
Lemma none_run l : forall s s', none s -> drun 0 s l = Some s' -> none s'.
Proof. induction l as [|a l IH]; cbn; intros s s' I H; [injection H as <-; exact I|]. destruct (dstep 0 s a) eqn:E; [|discriminate]. eauto using none_step. Qed.

(** *** Theorems *)

(** Without an idle timeout everything that has been accepted is given to the peer, in as many units of time as it has bytes or fewer, and the writer never gives up. *)
Theorem C138_partial : forall t l s, goes_on 0 t l s ->
  ~ cut s /\ exists l' s', drips l' /\ drun 0 s l' = Some s' /\ d_out s' = d_acc s /\ d_now s' <= d_now s + owed s.
Proof.
  unfold goes_on, cut, owed. intros t l s H. assert (N : none s) by (apply (none_run l (d_start t)); [split; [reflexivity | discriminate] | exact H]).
  assert (Sm : sums s) by (apply (sums_run 0 l (d_start t)); [intros _; reflexivity | exact H]). destruct N as [N1 N2]. split; [exact N2|]. specialize (Sm N2). unfold left_of in Sm.
  destruct s as [now pc dl buf acc out]. cbn in *. subst dl.
  assert (W : forall now out, out + list_sum buf = acc -> exists l' s', drips l' /\ drun 0 (mkD now DWait None buf acc out) l' = Some s' /\ d_out s' = acc /\ d_now s' = now + list_sum buf).
  { intros now' out' E. destruct buf as [|b buf']; [exists []; eexists; split; [intros a []|]; split; [reflexivity|]; change (list_sum (@nil nat)) with 0 in *; cbn [d_out d_now]; lia|].
    destruct (drain 0 (list_sum (b :: buf')) now' None [] acc out' I) as (l1 & D & R). exists (DTake :: l1). eexists. split; [apply drips_cons; [exact I | exact D]|].
    split; [cbn [drun dstep d_pc d_buf d_now d_dl d_acc d_out]; exact R|]. cbn [d_out d_now]. lia. }
  assert (W0 : forall now out, out + list_sum buf = acc -> exists l' s', drips l' /\ drun 0 (mkD now DTop None buf acc out) l' = Some s' /\ d_out s' = acc /\ d_now s' = now + list_sum buf).
  { intros now' out' E. destruct (W now' out' E) as (l1 & s1 & D & R & Q). exists (DBegin :: l1), s1. split; [apply drips_cons; [exact I | exact D]|]. split; [exact R | exact Q]. }
  destruct pc as [| |n|]; [| | |congruence].
  - destruct (W0 now out ltac:(lia)) as (l1 & s1 & D & R & Q1 & Q2). exists l1, s1. repeat split; auto. lia.
  - destruct (W now out ltac:(lia)) as (l1 & s1 & D & R & Q1 & Q2). exists l1, s1. repeat split; auto. lia.
  - destruct (drain 0 n now None buf acc out I) as (l0 & D0 & R0). destruct (W0 (now + n) (out + n) ltac:(lia)) as (l1 & s1 & D & R & Q1 & Q2).
    exists (l0 ++ DFlushed :: l1), s1. split; [apply drips_app; [exact D0 | apply drips_cons; [exact I | exact D]]|].
    split; [rewrite (drun_app _ _ _ _ _ R0); cbn [drun dstep d_pc d_now d_dl d_buf d_acc d_out]; exact R|]. split; [exact Q1 | lia].
Qed.

(** With an idle timeout, the writer does not give up if it never takes more at once than the peer can be relied on to take before the deadline, which is an idle timeout
    from the end of the batch before; and then it can complete what it has begun. *)
Theorem C138_small_partial : forall idle t l s, goes_on idle t l s -> small idle (d_start t) l ->
  ~ cut s /\ forall n, d_pc s = DWrite n -> exists l' s', drips l' /\ drun idle s l' = Some s' /\ d_out s' = d_out s + n /\ d_now s' = d_now s + n.
Proof.
  unfold goes_on, cut. intros idle t l s H T. destruct (ample_run idle l (d_start t) s) as [A1 A2]; [split; [discriminate | exact I] | exact T | exact H|].
  split; [exact A1|]. intros n E. destruct s as [now pc dl buf acc out]. cbn in *. subst pc. destruct (drain idle n now dl buf acc out A2) as (l' & D & R). exists l'. eexists. split; [exact D|].
  split; [exact R|]. split; reflexivity.
Qed.

(** In particular whatever waits when a batch has been completed, or at the beginning, is given to the peer if it has no more bytes than the timeout has units of time. *)
Theorem C138_prompt_partial : forall idle t l s, goes_on idle t l s -> d_pc s = DTop -> owed s <= idle ->
  exists l' s', drips l' /\ drun idle s l' = Some s' /\ d_out s' = d_acc s /\ d_now s' = d_now s + owed s.
Proof.
  unfold goes_on, owed. intros idle t l s H E B. assert (Sm : sums s) by (apply (sums_run idle l (d_start t)); [intros _; reflexivity | exact H]).
  specialize (Sm ltac:(rewrite E; discriminate)). unfold left_of in Sm. rewrite E in Sm. destruct s as [now pc dl buf acc out]. cbn [d_pc d_now d_dl d_buf d_acc d_out] in *. subst pc.
  destruct buf as [|b buf'].
  - change (list_sum (@nil nat)) with 0 in Sm. exists []. eexists. split; [intros a []|]. split; [reflexivity|]. cbn [d_out d_now]. lia.
  - set (dl' := if idle =? 0 then dl else Some (now + idle)). set (n := list_sum (b :: buf')) in *.
    destruct (Nat.eq_dec n 0) as [Z|Z].
    + exists [DBegin; DTake]. eexists. split; [intros a [<- |[<- |[]]]; exact I|]. split; [reflexivity|]. cbn [d_out d_now]. lia.
    + assert (A : match dl' with Some d => now + n <= d | None => True end) by (unfold dl'; destruct (Nat.eqb_spec idle 0); lia).
      destruct (drain idle n now dl' [] acc out A) as (l1 & D & R). exists (DBegin :: DTake :: l1). eexists.
      split; [apply drips_cons; [exact I|]; apply drips_cons; [exact I | exact D]|]. split; [cbn [drun dstep d_pc d_buf d_now d_dl d_acc d_out]; exact R|]. cbn [d_out d_now]. lia.
Qed.

(** With an idle timeout of any length, one message that is longer than the timeout has units of time is never completed for a peer that takes a byte in each of them: the
    writer gives up, although the peer has taken something at every moment. *)
Theorem C138_cut : forall idle t, 0 < idle -> exists l s, goes_on idle t (DAccept (S idle) :: l) s /\ drips l /\ cut s /\ d_now s = t + idle /\ d_out s = idle /\ d_acc s = S idle.
Proof.
  intros idle t P.
  assert (W : forall n now m out, 0 < m -> exists l, drips l /\ drun idle (mkD now (DWrite (n + m)) (Some (now + n)) [] (S idle) out) l = Some (mkD (now + n) (DWrite m) (Some (now + n)) [] (S idle) (out + n))).
  { induction n as [|n IH]; intros now m out M; [exists []; split; [intros a []|]; cbn; rewrite !Nat.add_0_r; reflexivity|].
    destruct (IH (S now) m (out + 1) M) as (l & D & R). exists (DTick 1 :: l). split; [apply drips_cons; [reflexivity | exact D]|].
    cbn [drun dstep d_pc d_now d_dl d_buf d_acc d_out]. assert (late now (Some (now + S n)) = false) as -> by (apply Nat.leb_gt; lia). cbn [plus Nat.ltb Nat.leb andb negb].
    replace (S (n + m) - 1) with (n + m) by lia. replace (now + S n) with (S now + n) by lia. rewrite R. do 2 f_equal; lia. }
  destruct (W idle t 1 0 ltac:(lia)) as (l & D & R).
  exists (DBegin :: DTake :: l ++ [DExpire]). eexists. split; [|split].
  - unfold goes_on, d_start. cbn [drun dstep d_pc d_now d_dl d_buf d_acc d_out plus app]. destruct (Nat.eqb_spec idle 0) as [Z|_]; [lia|]. cbn [drun dstep d_pc d_now d_dl d_buf d_acc d_out].
    assert (total [S idle] = idle + 1) as -> by (change (total [S idle]) with (S idle + 0); lia). rewrite (drun_app _ _ _ _ _ R). cbn [drun dstep d_pc d_now d_dl d_buf d_acc d_out late Nat.ltb Nat.leb andb]. rewrite Nat.leb_refl. reflexivity.
  - apply drips_cons; [exact I|]. apply drips_cons; [exact I|]. apply drips_app; [exact D|]. apply drips_cons; [exact I | intros a []].
  - cbn. repeat split.
Qed.
Theorem C138_refuted : ~ C138_statement.
Proof.
  intros H. destruct (C138_cut 1 0 ltac:(lia)) as (l & s & R & _ & C & _ & O & A). destruct (H _ _ _ _ R) as (l' & s' & D & R' & E & _).
  assert (K : forall l s s', cut s -> drun 1 s l = Some s' -> d_out s' = d_out s).
  { clear. induction l as [|a l IH]; cbn; intros s s' C H; [congruence|]. destruct (dstep 1 s a) as [s1|] eqn:E; [|discriminate].
    assert (cut s1 /\ d_out s1 = d_out s) as [C1 O1] by (unfold cut in *; unfold dstep in E; rewrite C in E; destruct a as [| | |[|]| |]; try discriminate; injection E as <-; auto).
    rewrite <- O1. eauto. }
  rewrite (K _ _ _ C R') in E. lia.
Qed.

(** With an idle timeout of 5: two batches that are small enough, and one that is not because time has passed while the writer waited for it. *)
Definition ex_small : list dact := [DAccept 2; DAccept 3; DBegin; DTake; DTick 1; DTick 4; DAccept 5; DFlushed; DBegin; DTake; DTick 1].
Definition ex_late : list dact := [DBegin; DTick 0; DTick 0; DTick 0; DAccept 3; DTake; DTick 1; DTick 1; DExpire].
Example C138_nonvacuous :
  (exists s, goes_on 5 7 ex_small s /\ small 5 (d_start 7) ex_small /\ d_pc s = DWrite 4 /\ d_out s = 6) /\ (exists s, goes_on 5 7 ex_late s /\ cut s /\ d_out s = 2) /\
  (exists s, goes_on 0 7 ex_small s /\ owed s = 4) /\ (exists s, goes_on 5 7 (firstn 8 ex_small) s /\ d_pc s = DTop /\ owed s = 5).
Proof.
  split; [|split; [|split]]; (eexists; split; [vm_compute; reflexivity|]); [|split; reflexivity|reflexivity|split; reflexivity].
  split; [vm_compute; repeat split; try discriminate; intros _; repeat constructor | split; reflexivity].
Qed.

Print Assumptions C138_partial.
Print Assumptions C138_small_partial.
Print Assumptions C138_prompt_partial.
Print Assumptions C138_cut.
Print Assumptions C138_refuted.
