(** * C127: what a call that has been given up leaves behind. *)
From Verif Require Import Base M_Table P_Table M_Maps P_Iter M_Gossip P_Gossip P_GossipNet M_Conn P_Conn Props_Conn.
Local Open Scope nat_scope.

(** ** Spec *)

(** Calls of Request that have not returned. *)
Definition waiting (r : rq) : bool := match rq_pc r with RqDone _ => false | _ => true end.
(** Calls that have an ID for their request and have not sent it yet. *)
Definition about_to_send (r : rq) : bool := match rq_pc r with RqSend => true | _ => false end.
(** Requests, and answers to requests. *)
Definition of_request (m : kmsg) : bool := match km_tag m with Some _ => true | None => false end.
(** What the connection keeps for calls. *)
Definition kept (s : kstate) : nat := length (rm_entries (k_map s)).

(** Requests that are yet to be sent, and requests and answers that are on their way or with the peer. *)
Definition unread (s : kstate) : nat :=
  cntb about_to_send (k_reqs s) + cntb of_request (k_out s) + cntb of_request (k_pend s) + cntb of_request (k_in s).

(** ** C127 *)

(** A connection keeps something for calls only while they have not returned. *)
Definition C127_statement : Prop := forall l s, k_reaches l s -> kept s <= cntb waiting (k_reqs s).

(** *** Lemmas *)

Definition keyed (r : reqmap) : Prop := NoDup (map fst (rm_entries r)).

Lemma cntb_set {A} (p : A -> bool) (l : list A) : forall i x y, nth_error l i = Some x -> cntb p (set_nth i y l) + Nat.b2n (p x) = cntb p l + Nat.b2n (p y).
Proof.
  induction l as [|a l IH]; intros [|i] x y H; try discriminate; cbn [set_nth] in *.
  - injection H as ->. unfold cntb. cbn [sumf]. lia.
  - specialize (IH _ _ y H). unfold cntb in *. cbn [sumf]. lia.
Qed.

Lemma rm_get_in n l ch : rm_get n l = Some ch -> In n (map fst l).
Proof.
  induction l as [|[m c] l IH]; [discriminate|]. cbn. destruct (N.eqb_spec n m) as [->|]; [auto|]. intros H. right. apply IH, H.
Qed.
Lemma rm_get_notin n l : rm_get n l = None -> ~ In n (map fst l).
Proof.
  induction l as [|[m c] l IH]; [auto|]. cbn. destruct (N.eqb_spec n m) as [->|D]; [discriminate|]. intros H [X|X]; [congruence | exact (IH H X)].
Qed.
Lemma rm_del_absent n l : ~ In n (map fst l) -> rm_del n l = l.
Proof.
  induction l as [|[m c] l IH]; [reflexivity|]. cbn. intros H. destruct (N.eqb_spec n m) as [->|D]; [exfalso; auto|]. cbn. f_equal. apply IH. auto.
Qed.
Lemma rm_del_one n l : NoDup (map fst l) -> In n (map fst l) -> S (length (rm_del n l)) = length l.
Proof.
  induction l as [|[m c] l IH]; intros D H; [destruct H|]. inversion D as [|? ? D1 D2]; subst. cbn in H |- *. destruct (N.eqb_spec n m) as [->|X]; cbn.
  - fold (rm_del m l). rewrite rm_del_absent by exact D1. reflexivity.
  - fold (rm_del n l). f_equal. apply IH; [exact D2|]. destruct H as [H|H]; [congruence | exact H].
Qed.
Lemma rm_del_keys n l : NoDup (map fst l) -> NoDup (map fst (rm_del n l)).
Proof.
  induction l as [|[m c] l IH]; intros D; [constructor|]. inversion D as [|? ? D1 D2]; subst. cbn. destruct (N.eqb n m); cbn; [apply IH, D2|].
  constructor; [|apply IH, D2]. intros X. apply D1. apply in_map_iff in X as (e & E & X). apply filter_In in X as [X _]. apply in_map_iff. eauto.
Qed.

Definition law (s : kstate) : Prop := keyed (k_map s) /\ kept s = unread s.

Lemma law_step s a s' : kinv s -> law s -> kstep s a = Some s' -> law s'.
Proof.
  intros I [K L] H. unfold law, kept, unread, keyed in *. destruct a as [d|i|i|d| |j d|d| | |i|i| ]; cbn [kstep] in H.
  - injection H as <-. kproj. rewrite cntb_app. split; [exact K|]. change (cntb about_to_send [mkRq d RqStart None]) with 0. lia.
  - destruct (nth_error (k_reqs s) i) as [r|] eqn:N; [|discriminate]. destruct (rq_pc r) eqn:P; try discriminate.
    destruct (nextNonce (k_map s)) as [m' o] eqn:E. pose proof I as (_ & _ & _ & (B & _) & _). destruct (nextNonce_spec _ _ _ B E) as [_ Sp].
    assert (Ar : about_to_send r = false) by (unfold about_to_send; rewrite P; reflexivity).
    destruct o as [[ch n]|]; injection H as <-; kproj.
    + destruct Sp as (_ & _ & _ & G & ->). pose proof (cntb_set about_to_send _ _ _ (mkRq (rq_data r) RqSend (Some (ch, n))) N) as C. rewrite Ar in C. cbn [about_to_send rq_pc Nat.b2n] in C.
      cbn [map fst length]. split; [constructor; [apply rm_get_notin, G | exact K]|]. lia.
    + destruct Sp as [-> _]. pose proof (cntb_set about_to_send _ _ _ (mkRq (rq_data r) (RqDone RNoNonce) None) N) as C. rewrite Ar in C. cbn [about_to_send rq_pc Nat.b2n] in C.
      split; [exact K | lia].
  - destruct (nth_error (k_reqs s) i) as [[d p sl]|] eqn:N; [|discriminate]. destruct p; try discriminate. destruct sl as [[ch n]|]; [|discriminate]. injection H as <-. kproj.
    pose proof (cntb_set about_to_send _ _ _ (mkRq d RqWait (Some (ch, n))) N) as C. cbn [about_to_send rq_pc Nat.b2n] in C. rewrite cntb_app.
    change (cntb of_request [mkMsg n d (Some i)]) with 1. split; [exact K | lia].
  - injection H as <-. kproj. rewrite cntb_app. change (cntb of_request [mkMsg 0 d None]) with 0. split; [exact K | lia].
  - destruct (k_out s) as [|m out] eqn:Eo; [discriminate|]. injection H as <-. kproj. rewrite cntb_cons in L.
    assert (X : N.eqb (km_nonce m) 0 = negb (of_request m)).
    { pose proof I as (R & (M & _) & _). specialize (M m). rewrite Eo in M. specialize (M (or_introl (or_introl eq_refl))). unfold of_request.
      destruct (km_tag m) as [i|]; [|rewrite M; reflexivity]. destruct M as (ch & r & Nr & Sl & _). specialize (R i r Nr). unfold rinv in R. rewrite Sl in R. destruct R as (Z & _).
      apply N.eqb_neq in Z. rewrite Z. reflexivity. }
    rewrite X. destruct (of_request m) eqn:Om; cbn [negb Nat.b2n] in *; [rewrite cntb_app, cntb_one, Om; cbn [Nat.b2n]|]; (split; [exact K | lia]).
  - destruct (nth_error (k_pend s) j) as [m|] eqn:N; [|discriminate]. injection H as <-. kproj. rewrite cntb_app, cntb_one. pose proof (cntb_rem of_request _ _ _ N) as C.
    change (of_request (mkMsg (km_nonce m) d (km_tag m))) with (of_request m). split; [exact K | lia].
  - injection H as <-. kproj. rewrite cntb_app. change (cntb of_request [mkMsg 0 d None]) with 0. split; [exact K | lia].
  - destruct (k_reader s) eqn:Kr; try discriminate. destruct (k_in s) as [|m rest] eqn:Ei; [discriminate|]. destruct (findRequest (k_map s) (km_nonce m)) as [m' o] eqn:E. injection H as <-. kproj.
    rewrite cntb_cons in L. pose proof I as (R & (M & _) & _ & (_ & Z0) & _). specialize (M m). rewrite Ei in M. specialize (M (or_intror (or_intror (or_introl eq_refl)))). unfold findRequest in E.
    assert (Of : of_request m = match km_tag m with Some _ => true | None => false end) by reflexivity. rewrite Of in L. clear Of. destruct (km_tag m) as [i|] eqn:Tm.
    + destruct M as (ch & r & Nr & Sl & _). specialize (R i r Nr). unfold rinv in R. rewrite Sl, Ei, cntb_cons, (tg_refl i m Tm) in R. destruct R as (_ & _ & _ & _ & b & c & _ & _ & G & _).
      rewrite G in E by (cbn; lia). injection E as <- <-. cbn [rm_entries]. split; [apply rm_del_keys, K|].
      pose proof (rm_del_one (km_nonce m) _ K (rm_get_in _ _ _ (G ltac:(cbn; lia)))) as D. cbn [Nat.b2n] in L. lia.
    + rewrite M, Z0 in E. injection E as <- <-. cbn [Nat.b2n] in L. split; [exact K | lia].
  - destruct (k_reader s) as [|ch m|ch|m|]; try discriminate.
    + destruct (nth_error (k_chans s) ch) as [[[b|] []]|]; try discriminate; injection H as <-; kproj; auto.
    + destruct (nth_error (k_chans s) ch) as [[b cl]|]; [|discriminate]. injection H as <-. kproj. auto.
    + injection H as <-. kproj. auto.
  - destruct (nth_error (k_reqs s) i) as [[d p sl]|] eqn:N; [|discriminate]. destruct p; try discriminate. destruct sl as [[ch n]|]; [|discriminate].
    destruct (nth_error (k_chans s) ch) as [[[m|] cl]|]; [| |discriminate].
    + injection H as <-. kproj. pose proof (cntb_set about_to_send _ _ _ (mkRq d (RqDone (if N.eqb (km_nonce m) 0 then REof else RData (km_data m))) (Some (ch, n))) N) as C.
      cbn [about_to_send rq_pc Nat.b2n] in C. split; [exact K | lia].
    + destruct cl; [|discriminate]. injection H as <-. kproj. pose proof (cntb_set about_to_send _ _ _ (mkRq d (RqDone REof) (Some (ch, n))) N) as C.
      cbn [about_to_send rq_pc Nat.b2n] in C. split; [exact K | lia].
  - destruct (nth_error (k_reqs s) i) as [[d p sl]|] eqn:N; [|discriminate]. destruct p; try discriminate. destruct sl as [[ch n]|]; [|discriminate].
    injection H as <-. kproj. pose proof (cntb_set about_to_send _ _ _ (mkRq d (RqDone RCancelled) (Some (ch, n))) N) as C. cbn [about_to_send rq_pc Nat.b2n] in C. split; [exact K | lia].
  - destruct (k_reader s); try discriminate. injection H as <-. kproj. auto.
Qed.

(** *** Theorems *)

(** What the connection keeps: one entry for each call about to send its request, and for each request whose answer has not been read,
    wherever request or answer are; whether the call still waits makes no difference. *)
Theorem C127_partial : forall l s, k_reaches l s -> kept s = unread s.
Proof.
  intros l s H. assert (X : kinv s /\ law s); [|apply X].
  refine (krun_inv (fun s => kinv s /\ law s) _ l k_start s _ H).
  - intros s0 a s1 [I L] E. split; [exact (kinv_step _ _ _ I E) | exact (law_step _ _ _ I L E)].
  - split; [exact kinv_start|]. split; [constructor | reflexivity].
Qed.

(** So nothing is left, of calls given up neither, once the peer has answered every request and the answers have been read. *)
Theorem C127_answered : forall l s, k_reaches l s -> (forall r, In r (k_reqs s) -> about_to_send r = false) -> k_out s = [] -> k_pend s = [] -> k_in s = [] -> kept s = 0.
Proof.
  intros l s H A O P In0. rewrite (C127_partial l s H). unfold unread. rewrite O, P, In0, (cntb_zero about_to_send (k_reqs s) A). reflexivity.
Qed.

(** For requests that are not answered, and whose calls have been given up, any number of entries is kept though no call waits. *)
Definition give_up (i : nat) : list kact := [KCall 0; KNonce i; KSendReq i; KDeliver; KCancel i].
Definition give_ups (n : nat) : list kact := flat_map give_up (seq 0 n).

Lemma give_ups_run n : (N.of_nat n < MaxUint64)%N -> exists s, krun k_start (give_ups n) = Some s /\ k_reader s = KRead /\ k_out s = [] /\
  length (k_reqs s) = n /\ cntb waiting (k_reqs s) = 0 /\ length (k_pend s) = n /\ cntb of_request (k_pend s) = n /\ rm_nonce (k_map s) = N.of_nat n /\
  (forall k, In k (map fst (rm_entries (k_map s))) -> (k <= N.of_nat n)%N).
Proof.
  induction n as [|n IH]; intros B.
  - exists k_start. repeat split; auto. intros k [].
  - destruct IH as (s & R & Kr & O & Lr & W & Lp & Cp & Nn & Ks); [lia|]. unfold give_ups in *. rewrite seq_S, flat_map_app, krun_app, R. cbn [flat_map app plus]. unfold give_up. cbn [krun kstep app].
    kproj. rewrite nth_error_app2 by lia. rewrite Lr, Nat.sub_diag. cbn [nth_error rq_pc rq_data].
    assert (E : exists ch, nextNonce (k_map s) = (mkRM (N.of_nat (S n)) ((N.of_nat (S n), ch) :: rm_entries (k_map s)) (S (rm_made (k_map s))), Some (ch, N.of_nat (S n))) /\ ch = rm_made (k_map s)).
    { unfold nextNonce. rewrite Nn. assert (N.eqb (N.of_nat n) MaxUint64 = false) as -> by (apply N.eqb_neq; lia).
      assert (((N.of_nat n + 1) mod 2 ^ 64)%N = N.of_nat (S n)) as -> by (rewrite N.mod_small; [lia|]; unfold MaxUint64 in B; change (2 ^ 64)%N with 18446744073709551616%N; lia).
      destruct (rm_get (N.of_nat (S n)) (rm_entries (k_map s))) eqn:G; [|eauto]. apply rm_get_in in G. apply Ks in G. lia. }
    destruct E as (ch & -> & _).
    assert (Q : nth_error (k_reqs s ++ [mkRq 0 RqStart None]) n = Some (mkRq 0 RqStart None)) by (rewrite nth_error_app2 by lia; rewrite Lr, Nat.sub_diag; reflexivity).
    pose proof (cntb_set waiting _ _ _ (mkRq 0 RqSend (Some (ch, N.of_nat (S n)))) Q) as C1.
    assert (Q1 : nth_error (set_nth n (mkRq 0 RqSend (Some (ch, N.of_nat (S n)))) (k_reqs s ++ [mkRq 0 RqStart None])) n = Some (mkRq 0 RqSend (Some (ch, N.of_nat (S n))))) by (rewrite (nth_error_set _ _ _ _ n Q), Nat.eqb_refl; reflexivity).
    set (l1 := set_nth n (mkRq 0 RqSend _) _) in *. kproj. rewrite Q1.
    pose proof (cntb_set waiting _ _ _ (mkRq 0 RqWait (Some (ch, N.of_nat (S n)))) Q1) as C2.
    assert (Q2 : nth_error (set_nth n (mkRq 0 RqWait (Some (ch, N.of_nat (S n)))) l1) n = Some (mkRq 0 RqWait (Some (ch, N.of_nat (S n))))) by (rewrite (nth_error_set _ _ _ _ n Q1), Nat.eqb_refl; reflexivity).
    set (l2 := set_nth n (mkRq 0 RqWait _) l1) in *. kproj. rewrite O. cbn [app]. kproj. rewrite Q2.
    pose proof (cntb_set waiting _ _ _ (mkRq 0 (RqDone RCancelled) (Some (ch, N.of_nat (S n)))) Q2) as C3.
    assert (Ls : forall i (x : rq) (l : list rq), length (set_nth i x l) = length l) by (clear; intros i x l; revert i; induction l as [|y l IH]; intros [|i]; cbn; auto).
    eexists. split; [reflexivity|]. kproj. cbn [km_nonce]. assert (N.eqb (N.of_nat (S n)) 0 = false) as -> by (apply N.eqb_neq; lia).
    rewrite cntb_app in C1. cbn [waiting rq_pc Nat.b2n] in C1, C2, C3. change (cntb waiting [mkRq 0 RqStart None]) with 1 in C1.
    split; [exact Kr|]. split; [reflexivity|]. split; [unfold l2, l1; rewrite !Ls, app_length; cbn; lia|]. split; [lia|]. split; [rewrite app_length; cbn; lia|].
    split; [rewrite cntb_app, Cp; change (cntb of_request [mkMsg (N.of_nat (S n)) 0 (Some n)]) with 1; lia|]. split; [reflexivity|].
    intros k Hk. cbn [rm_entries map fst In] in Hk. destruct Hk as [Hk|Hk]; [rewrite <- Hk; apply N.le_refl|]. apply Ks in Hk. lia.
Qed.

Theorem C127_unbounded : forall n, (N.of_nat n < MaxUint64)%N ->
  exists l s, k_reaches l s /\ k_reader s = KRead /\ cntb waiting (k_reqs s) = 0 /\ kept s = n.
Proof.
  intros n B. destruct (give_ups_run n B) as (s & R & Kr & O & Lr & W & Lp & Cp & _). exists (give_ups n), s. split; [exact R|]. split; [exact Kr|]. split; [exact W|].
  rewrite (C127_partial _ s R). unfold unread. rewrite O, Cp.
  assert (cntb about_to_send (k_reqs s) <= cntb waiting (k_reqs s)) by (apply cntb_le; intros r; unfold about_to_send, waiting; destruct (rq_pc r); congruence).
  assert (k_in s = []) as ->; [|change (cntb of_request []) with 0; lia].
  assert (X : forall l s0 s1, (forall a, In a l -> exists i, a = KCall 0 \/ a = KNonce i \/ a = KSendReq i \/ a = KDeliver \/ a = KCancel i) -> krun s0 l = Some s1 -> k_in s1 = k_in s0).
  { clear. induction l as [|a l IH]; intros s0 s1 F R; cbn in R; [injection R as <-; reflexivity|]. destruct (kstep s0 a) as [s'|] eqn:E; [|discriminate].
    rewrite (IH s' s1 (fun b Hb => F b (or_intror Hb)) R). clear IH R. destruct (F a (or_introl eq_refl)) as (i & [-> | [-> | [-> | [-> | ->]]]]); cbn [kstep] in E.
    - injection E as <-. reflexivity.
    - destruct (nth_error (k_reqs s0) i) as [r|]; [|discriminate]. destruct (rq_pc r); try discriminate. destruct (nextNonce (k_map s0)) as [m [[ch n]|]]; injection E as <-; reflexivity.
    - destruct (nth_error (k_reqs s0) i) as [[d [] [[ch n]|]]|]; try discriminate. injection E as <-. reflexivity.
    - destruct (k_out s0); [discriminate|]. injection E as <-. reflexivity.
    - destruct (nth_error (k_reqs s0) i) as [[d [] [[ch n]|]]|]; try discriminate. injection E as <-. reflexivity. }
  refine (X _ _ _ _ R). intros a Ha.
  unfold give_ups in Ha. apply in_flat_map in Ha as (i & _ & Ha). exists i. destruct Ha as [<-|[<-|[<-|[<-|[<-|[]]]]]]; auto 6.
Qed.

(** When the connection is gone nothing is given back: what was kept then is kept as long as the Client is referred to. *)
Theorem C127_dropped : forall l s l' s', k_reaches l s -> k_reader s = KStopped -> krun s l' = Some s' -> k_reader s' = KStopped /\ kept s <= kept s'.
Proof.
  intros l s l' s' _. revert s. induction l' as [|a l' IH]; intros s Kr R; cbn in R; [injection R as <-; auto|]. destruct (kstep s a) as [s1|] eqn:E; [|discriminate].
  assert (Y : k_reader s1 = KStopped /\ kept s <= kept s1).
  { unfold kept. destruct a as [d|i|i|d| |j d|d| | |i|i| ]; cbn [kstep] in E; try (rewrite Kr in E; discriminate).
    - injection E as <-. auto.
    - destruct (nth_error (k_reqs s) i) as [r|]; [|discriminate]. destruct (rq_pc r); try discriminate. unfold nextNonce in E.
      destruct (rm_get _ _); injection E as <-; cbn; auto.
    - destruct (nth_error (k_reqs s) i) as [[d [] [[ch n]|]]|]; try discriminate. injection E as <-. auto.
    - injection E as <-. auto.
    - destruct (k_out s); [discriminate|]. injection E as <-. auto.
    - destruct (nth_error (k_pend s) j); [|discriminate]. injection E as <-. auto.
    - injection E as <-. auto.
    - destruct (nth_error (k_reqs s) i) as [[d [] [[ch n]|]]|]; try discriminate. destruct (nth_error (k_chans s) ch) as [[[m|] []]|]; try discriminate; injection E as <-; auto.
    - destruct (nth_error (k_reqs s) i) as [[d [] [[ch n]|]]|]; try discriminate. injection E as <-. auto. }
  destruct Y as [Y1 Y2]. destruct (IH s1 Y1 R) as [Z1 Z2]. split; [exact Z1 | lia].
Qed.

Theorem C127_refuted : ~ C127_statement.
Proof.
  intros X. destruct (C127_unbounded 1 eq_refl) as (l & s & R & _ & W & K). specialize (X l s R). lia.
Qed.

(** Two calls, one given up and answered late: an entry each until their answers have been read. *)
Definition ex_late : list kact := [KCall 1; KNonce 0; KSendReq 0; KCall 2; KNonce 1; KSendReq 1; KDeliver; KDeliver; KCancel 0].
Example C127_nonvacuous :
  (exists s, k_reaches ex_late s /\ kept s = 2 /\ cntb waiting (k_reqs s) = 1) /\
  (exists s, k_reaches (ex_late ++ [KAnswer 0 7; KRecv; KStep; KStep]) s /\ kept s = 1 /\ k_work s = []) /\
  (exists s, k_reaches (ex_late ++ [KAnswer 0 7; KRecv; KStep; KStep; KAnswer 0 8; KRecv]) s /\ kept s = 0 /\ k_out s = [] /\ k_pend s = [] /\ k_in s = [] /\ forall r, In r (k_reqs s) -> about_to_send r = false) /\
  (exists s, k_reaches (ex_late ++ [KDrop]) s /\ k_reader s = KStopped /\ kept s = 2).
Proof.
  split; [|split; [|split]].
  - eexists. split; [vm_compute; reflexivity|]. split; reflexivity.
  - eexists. split; [vm_compute; reflexivity|]. split; reflexivity.
  - eexists. split; [vm_compute; reflexivity|]. split; [reflexivity|]. split; [reflexivity|]. split; [reflexivity|]. split; [reflexivity|]. intros r [<-|[<-|[]]]; reflexivity.
  - eexists. split; [vm_compute; reflexivity|]. split; reflexivity.
Qed.

Print Assumptions C127_refuted.
Print Assumptions C127_partial.
Print Assumptions C127_answered.
Print Assumptions C127_unbounded.
Print Assumptions C127_dropped.
