(** * C136: whoever connects and does not complete the handshake is dropped (refuted without an idle timeout; within four times it otherwise). *)
From Verif Require Import Base M_Timely.
Local Open Scope nat_scope.

(** ** Specification *)

(** A connection accepted at time [t], and what has happened since. *)
Definition since (idle : nat) (need : nat -> nat) (t : nat) (l : list sact) (s : slow) : Prop := srun idle need (s_start t) l = Some s.
(** The handshake is over at time [u]. *)
Definition over_at (s : slow) (u : nat) : Prop := s_pc s = SReady u \/ s_pc s = SFailed u.
(** Neither the peer nor the network does anything more, and nothing that was read is refused. *)
Definition silent (l : list sact) : Prop := forall a, In a l -> match a with SArrive _ | SDrain _ | SRefuse => False | _ => True end.

(** Claimed: for every idle timeout there is a time within which the handshake is over, whatever the peer does. *)
Definition C136_statement : Prop := forall idle, exists bound, forall need t l s, since idle need t l s -> t + bound < s_now s -> exists u, over_at s u.

(** *** Lemmas *)

Definition sinv (idle : nat) (need : nat -> nat) (t : nat) (s : slow) : Prop :=
  match s_pc s with
  | STop i => i <= 3 /\ s_now s <= t + i * idle
  | SIn i got => i <= 3 /\ s_now s <= t + S i * idle /\ got <= need i /\ exists d, limit s i = Some d /\ s_now s <= d /\ d <= t + S i * idle
  | SReady u | SFailed u => u <= t + 4 * idle
  end.

Lemma sinv_step idle need t s a s' : 0 < idle -> sinv idle need t s -> sstep idle need s a = Some s' -> sinv idle need t s'.
Proof.
  intros P I H. unfold sinv in *. destruct s as [now pc rd wd inn room]. destruct a; cbn [sstep s_pc s_now s_rdl s_wdl s_in s_room] in H.
  - injection H as <-. exact I.
  - injection H as <-. exact I.
  - destruct pc as [i| | |]; try discriminate. injection H as <-. cbn [s_pc s_now] in I |- *. destruct (Nat.eqb_spec idle 0) as [Z|_]; [lia|].
    destruct I as [I1 I2]. split; [exact I1|]. split; [lia|]. split; [lia|]. exists (now + idle). unfold limit. cbn [s_wdl s_rdl s_now]. destruct (writes i); (split; [reflexivity | lia]).
  - destruct pc as [|i got| |]; try discriminate. destruct (0 <? k); [|discriminate]. destruct (k <=? can _ i); [|discriminate]. destruct (Nat.leb_spec (got + k) (need i)) as [G|]; [|discriminate].
    destruct (negb _); [|discriminate]. injection H as <-. cbn [s_pc s_now] in I |- *. destruct I as (I1 & I2 & _ & d & I3). split; [exact I1|]. split; [exact I2|]. split; [exact G|]. exists d. exact I3.
  - destruct pc as [|i got| |]; try discriminate. destruct (got =? need i); [|discriminate]. injection H as <-. cbn [s_pc s_now] in I |- *. destruct I as (I1 & I2 & _).
    destruct (Nat.eqb_spec i 3) as [-> |N]; cbn [s_pc s_now]; [lia|]. split; [lia|]. exact I2.
  - destruct pc as [|i got| |]; try discriminate. destruct (writes i); [discriminate|]. injection H as <-. cbn [s_pc s_now] in I |- *. destruct I as (I1 & I2 & _).
    assert (S i * idle <= 4 * idle) by (apply Nat.mul_le_mono_r; lia). lia.
  - destruct pc as [|i got| |]; try discriminate. destruct (_ && _); [|discriminate]. injection H as <-. cbn [s_pc s_now] in I |- *. destruct I as (I1 & I2 & _).
    assert (S i * idle <= 4 * idle) by (apply Nat.mul_le_mono_r; lia). lia.
  - destruct pc as [|i got| |]; try discriminate; try (injection H as <-; exact I).
    destruct (got <? need i), (can _ i =? 0); cbn [andb] in H; try discriminate. destruct (over now _) eqn:O; [discriminate|]. injection H as <-. cbn [s_pc s_now] in I |- *.
    destruct I as (I1 & I2 & I3 & d & L & B & C). unfold limit in *. cbn [s_wdl s_rdl] in *. rewrite L in O. cbn [over] in O. apply Nat.leb_gt in O.
    split; [exact I1|]. split; [lia|]. split; [exact I3|]. exists d. split; [exact L | lia].
Qed.
Lemma sinv_run idle need t l : forall s s', 0 < idle -> sinv idle need t s -> srun idle need s l = Some s' -> sinv idle need t s'.
Proof.
  induction l as [|a l IH]; cbn; intros s s' P I H; [congruence|]. destruct (sstep idle need s a) as [s1|] eqn:E; [|discriminate]. eauto using sinv_step.
Qed.
Lemma since_inv idle need t l s : 0 < idle -> since idle need t l s -> sinv idle need t s.
Proof. intros P H. apply (sinv_run idle need t l (s_start t) s P); [cbn; lia | exact H]. Qed.

Lemma srun_app idle need l1 : forall l2 s s1, srun idle need s l1 = Some s1 -> srun idle need s (l1 ++ l2) = srun idle need s1 l2.
Proof. induction l1 as [|a l1 IH]; cbn; intros l2 s s1 H; [congruence|]. destruct (sstep idle need s a); [auto | discriminate]. Qed.
Lemma silent_cons a l : (match a with SArrive _ | SDrain _ | SRefuse => False | _ => True end) -> silent l -> silent (a :: l).
Proof. intros A L b [<- |B]; [exact A | exact (L b B)]. Qed.
Lemma silent_app l1 l2 : silent l1 -> silent l2 -> silent (l1 ++ l2).
Proof. intros A B a H. apply in_app_or in H as [H|H]; [exact (A a H) | exact (B a H)]. Qed.

(** An operation that has begun ends by itself. *)
Lemma ends_in idle need m : forall s i got d, s_pc s = SIn i got -> got <= need i -> limit s i = Some d -> (need i - got) + (d - s_now s) <= m ->
  exists l s', silent l /\ srun idle need s l = Some s' /\ ((exists u, s_pc s' = SFailed u) \/ (s_pc s' = SIn i (need i))).
Proof.
  induction m as [|m IH]; intros s i got d Pc G L M.
  - exists [], s. split; [intros a []|]. split; [reflexivity|]. right. rewrite Pc. f_equal. lia.
  - destruct (Nat.eq_dec got (need i)) as [-> |N]; [exists [], s; split; [intros a []|]; split; [reflexivity|]; right; exact Pc|].
    assert (Lt : got <? need i = true) by (apply Nat.ltb_lt; lia).
    destruct (over (s_now s) (limit s i)) eqn:O.
    + exists [SExpire]. eexists. split; [apply silent_cons; [exact I | intros a []]|]. cbn [srun sstep]. rewrite Pc, Lt, O. cbn [andb]. split; [reflexivity|]. left. eexists. reflexivity.
    + pose proof O as O'. rewrite L in O'. cbn [over] in O'. apply Nat.leb_gt in O'. destruct (Nat.eq_dec (can s i) 0) as [Z|Z].
      * destruct (IH (mkS (S (s_now s)) (s_pc s) (s_rdl s) (s_wdl s) (s_in s) (s_room s)) i got d) as (l & s' & Sl & R & Q); auto; [cbn [s_now]; lia|].
        exists (STick :: l), s'. split; [apply silent_cons; [exact I | exact Sl]|]. split; [|exact Q]. cbn [srun sstep]. rewrite Pc, Lt, O, Z. cbn [Nat.eqb andb negb]. rewrite Pc in R. exact R.
      * set (k := Nat.min (can s i) (need i - got)).
        assert (K1 : (0 <? k) = true) by (apply Nat.ltb_lt; unfold k; lia). assert (K2 : (k <=? can s i) = true) by (apply Nat.leb_le; unfold k; lia).
        assert (K3 : (got + k <=? need i) = true) by (apply Nat.leb_le; unfold k; lia).
        destruct (IH (mkS (s_now s) (SIn i (got + k)) (s_rdl s) (s_wdl s) (if writes i then s_in s else s_in s - k) (if writes i then s_room s - k else s_room s)) i (got + k) d) as (l & s' & Sl & R & Q); auto.
        { apply Nat.leb_le, K3. } { cbn [s_now]. apply Nat.ltb_lt in K1. lia. }
        exists (SMove k :: l), s'. split; [apply silent_cons; [exact I | exact Sl]|]. split; [|exact Q]. cbn [srun sstep]. rewrite Pc, K1, K2, K3, O. cbn [andb negb]. exact R.
Qed.

Lemma ends_all idle need t m : forall s, 0 < idle -> sinv idle need t s -> (match s_pc s with STop i => 2 * (3 - i) + 2 | SIn i _ => 2 * (3 - i) + 1 | _ => 0 end) <= m ->
  exists l s' u, silent l /\ srun idle need s l = Some s' /\ over_at s' u.
Proof.
  induction m as [|m IH]; intros s P I M.
  - unfold over_at. destruct (s_pc s) as [i|i got|u|u] eqn:Pc; [lia | lia | |]; exists [], s, u; (split; [intros a []|]; split; [reflexivity|]); auto.
  - destruct (s_pc s) as [i|i got|u|u] eqn:Pc.
    + assert (E : exists s1, sstep idle need s SBegin = Some s1 /\ exists g, s_pc s1 = SIn i g) by (cbn [sstep]; rewrite Pc; eexists; split; [reflexivity | eexists; reflexivity]).
      destruct E as (s1 & E & g & Pc1). destruct (IH s1 P (sinv_step _ _ _ _ _ _ P I E)) as (l & s' & u & Sl & R & Q); [rewrite Pc1; lia|].
      exists (SBegin :: l), s', u. split; [apply silent_cons; [exact Logic.I | exact Sl]|]. split; [cbn [srun]; rewrite E; exact R | exact Q].
    + pose proof I as J. unfold sinv in J. rewrite Pc in J. destruct J as (J1 & _ & J3 & d & J4 & _).
      destruct (ends_in idle need _ s i got d Pc J3 J4 (le_n _)) as (l & s1 & Sl & R & [[u Q]|Q]).
      * exists l, s1, u. split; [exact Sl|]. split; [exact R|]. right. exact Q.
      * assert (E : exists s2, sstep idle need s1 SNext = Some s2 /\ s_pc s2 = if i =? 3 then SReady (s_now s1) else STop (S i)).
        { cbn [sstep]. rewrite Q, Nat.eqb_refl. eexists. split; reflexivity. }
        destruct E as (s2 & E & Pc2). pose proof (sinv_step _ _ _ _ _ _ P (sinv_run _ _ _ _ _ _ P I R) E) as I2.
        assert (M2 : (match s_pc s2 with STop i => 2 * (3 - i) + 2 | SIn i _ => 2 * (3 - i) + 1 | _ => 0 end) <= m) by (rewrite Pc2; destruct (Nat.eqb_spec i 3); lia).
        destruct (IH s2 P I2 M2) as (l2 & s' & u & Sl2 & R2 & Q2).
        exists (l ++ SNext :: l2), s', u. split; [apply silent_app; [exact Sl | apply silent_cons; [exact Logic.I | exact Sl2]]|]. split; [|exact Q2].
        rewrite (srun_app _ _ _ _ _ _ R). cbn [srun]. rewrite E. exact R2.
    + exists [], s, u. split; [intros a []|]. split; [reflexivity | left; exact Pc].
    + exists [], s, u. split; [intros a []|]. split; [reflexivity | right; exact Pc].
Qed.

(** *** Theorems *)

(** With an idle timeout: after four times it the handshake is over, completed or failed, whatever the peer and the network do, and it was over by then. *)
Theorem C136_partial : forall idle need t l s, 0 < idle -> since idle need t l s ->
  (t + 4 * idle < s_now s -> exists u, over_at s u) /\ forall u, over_at s u -> u <= t + 4 * idle.
Proof.
  intros idle need t l s P H. pose proof (since_inv _ _ _ _ _ P H) as I. unfold sinv, over_at in *. split.
  - intros L. destruct (s_pc s) as [i|i got|u|u]; eauto.
    + destruct I as [I1 I2]. assert (i * idle <= 4 * idle) by (apply Nat.mul_le_mono_r; lia). lia.
    + destruct I as (I1 & I2 & _). assert (S i * idle <= 4 * idle) by (apply Nat.mul_le_mono_r; lia). lia.
  - intros u [E|E]; rewrite E in I; exact I.
Qed.

(** And it does not stop before: from every state the handshake comes to its end in time, without the peer or the network doing anything. *)
Theorem C136_ends : forall idle need t l s, 0 < idle -> since idle need t l s ->
  exists l' s' u, silent l' /\ since idle need t (l ++ l') s' /\ over_at s' u /\ u <= t + 4 * idle.
Proof.
  intros idle need t l s P H. destruct (ends_all idle need t _ s P (since_inv _ _ _ _ _ P H) (le_n _)) as (l' & s' & u & Sl & R & Q).
  exists l', s', u. split; [exact Sl|]. assert (W : since idle need t (l ++ l') s') by (unfold since in *; rewrite (srun_app _ _ _ _ _ _ H); exact R).
  split; [exact W|]. split; [exact Q|]. exact (proj2 (C136_partial idle need t (l ++ l') s' P W) u Q).
Qed.

(** Without an idle timeout, which is the default, a peer that connects and says nothing is kept for any length of time. *)
Theorem C136_kept : forall need t n, 0 < need 1 -> exists l s, since 0 need t l s /\ s_now s = t + n /\ s_pc s = SIn 1 0.
Proof.
  intros need t n N1.
  assert (W : forall q s, s_pc s = SIn 1 0 -> s_in s = 0 -> s_rdl s = None -> exists s', srun 0 need s (repeat STick q) = Some s' /\ s_now s' = s_now s + q /\ s_pc s' = SIn 1 0).
  { induction q as [|m IH]; intros s Pc Z R; [exists s; split; [reflexivity|]; split; [lia | exact Pc]|].
    assert (E : sstep 0 need s STick = Some (mkS (S (s_now s)) (s_pc s) (s_rdl s) (s_wdl s) (s_in s) (s_room s))).
    { cbn [sstep]. rewrite Pc. unfold can, limit, writes. cbn [Nat.even]. rewrite Z, R. apply Nat.ltb_lt in N1. rewrite N1. reflexivity. }
    destruct (IH (mkS (S (s_now s)) (s_pc s) (s_rdl s) (s_wdl s) (s_in s) (s_room s)) Pc Z R) as (s' & R' & A & B). exists s'. split; [|split; [cbn [s_now] in A; lia | exact B]].
    cbn [repeat srun]. rewrite E. exact R'. }
  assert (S0 : exists l s, since 0 need t l s /\ s_now s = t /\ s_pc s = SIn 1 0 /\ s_in s = 0 /\ s_rdl s = None).
  { destruct (Nat.eq_dec (need 0) 0) as [Z|Z].
    - exists [SBegin; SNext; SBegin]. eexists. split; [unfold since; cbn [srun sstep s_start s_pc s_now s_in s_room s_rdl s_wdl writes Nat.even limit Nat.eqb]; rewrite Z; cbn [Nat.eqb s_pc]; reflexivity|]. cbn. auto.
    - exists [SDrain (need 0); SBegin; SMove (need 0); SNext; SBegin]. eexists. split.
      + unfold since. cbn [srun sstep s_start s_pc s_now s_in s_room s_rdl s_wdl writes Nat.even limit Nat.eqb over negb plus can]. rewrite Nat.leb_refl. assert ((0 <? need 0) = true) as -> by (apply Nat.ltb_lt; lia). cbn [andb]. cbn [s_pc]. rewrite Nat.eqb_refl. cbn [s_pc s_now s_in s_room s_rdl s_wdl Nat.eqb writes Nat.even limit]. reflexivity.
      + cbn. auto. }
  destruct S0 as (l & s & H & A & B & C & D). destruct (W n s B C D) as (s' & R & E & F). exists (l ++ repeat STick n), s'. split; [unfold since in *; rewrite (srun_app _ _ _ _ _ _ H); exact R|]. split; [lia | exact F].
Qed.

Theorem C136_refuted : ~ C136_statement.
Proof.
  intros H. destruct (H 0) as [b B]. destruct (C136_kept (fun _ => 100) 0 (S b) (Nat.lt_0_succ 99)) as (l & s & R & N & Pc).
  assert (L : 0 + b < s_now s) by lia. destruct (B _ _ _ _ R L) as (u & [E|E]); congruence.
Qed.

(** A handshake that completes, and one whose peer stops inside its second message; the idle timeout is 3. *)
Definition ex_need (i : nat) : nat := if i <? 2 then 10 else 20.
Example C136_nonvacuous :
  (exists s, since 3 ex_need 5 [SDrain 100; SBegin; SMove 10; SNext; SBegin; STick; SArrive 10; SMove 4; SMove 6; SNext; SBegin; SMove 20; SNext; SBegin; STick; STick; SArrive 20; SMove 20; SNext] s /\ over_at s 8) /\
  (exists s, since 3 ex_need 5 [SDrain 100; SBegin; SMove 10; SNext; SBegin; STick; STick; SArrive 12; SMove 10; SNext; SBegin; SMove 20; SNext; SBegin; SMove 2; STick; STick; STick; SExpire; STick] s /\
     s_pc s = SFailed 10 /\ s_now s = 11).
Proof. split; (eexists; split; [vm_compute; reflexivity|]); [left; reflexivity | split; reflexivity]. Qed.

Print Assumptions C136_partial.
Print Assumptions C136_ends.
Print Assumptions C136_kept.
Print Assumptions C136_refuted.
