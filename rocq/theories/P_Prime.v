(** * 2^255 - 19 is prime: Fermat's little theorem, Pocklington's criterion, and a certificate.
    Nothing here models code; it is used by the proofs about ecdh.go. *)
From Coq Require Import ZArith Znumtheory List Lia Sorting.Permutation.
Import ListNotations.
Local Open Scope Z_scope.

(** ** Congruences *)
Definition cong (m a b : Z) : Prop := (m | a - b).

Lemma cong_refl m a : cong m a a.
Proof. unfold cong. rewrite Z.sub_diag. apply Z.divide_0_r. Qed.
Lemma cong_sym m a b : cong m a b -> cong m b a.
Proof. unfold cong. intros [k H]. exists (- k). lia. Qed.
Lemma cong_trans m a b c : cong m a b -> cong m b c -> cong m a c.
Proof. unfold cong. intros [k H] [j G]. exists (k + j). lia. Qed.
Lemma cong_mul m a b c d : cong m a b -> cong m c d -> cong m (a * c) (b * d).
Proof. unfold cong. intros [k H] [j G]. exists (k * c + b * j). replace a with (b + k * m) by lia. replace c with (d + j * m) by lia. ring. Qed.
Lemma cong_mod m a : 0 < m -> cong m (a mod m) a.
Proof. intros H. unfold cong. exists (- (a / m)). rewrite (Z.div_mod a m) at 2 by lia. ring. Qed.
Lemma cong_eq m a b : 0 < m -> cong m a b <-> a mod m = b mod m.
Proof.
  intros H. unfold cong. split.
  - intros [k E]. replace a with (b + k * m) by lia. apply Z.mod_add. lia.
  - intros E. exists (a / m - b / m). rewrite (Z.div_mod a m), (Z.div_mod b m) at 1 by lia. rewrite E. ring.
Qed.
Lemma cong_div m n a b : (m | n) -> cong n a b -> cong m a b.
Proof. unfold cong. intros H G. eapply Z.divide_trans; eauto. Qed.
Lemma cong_pow m a b k : 0 <= k -> cong m a b -> cong m (a ^ k) (b ^ k).
Proof.
  intros Hk H. revert k Hk. apply natlike_ind; [apply cong_refl|]. intros k Hk IH. rewrite !Z.pow_succ_r by exact Hk. apply cong_mul; assumption.
Qed.
Lemma cong_cancel p a b c : prime p -> ~ (p | c) -> cong p (c * a) (c * b) -> cong p a b.
Proof.
  unfold cong. intros P N H. rewrite <- Z.mul_sub_distr_l in H. apply prime_mult in H; [|exact P]. tauto.
Qed.

(** ** Fermat's little theorem *)
Fixpoint prod (l : list Z) : Z := match l with [] => 1 | x :: r => x * prod r end.

Lemma prod_perm l l' : Permutation l l' -> prod l = prod l'.
Proof. induction 1; cbn; try lia. Qed.

Definition range (p : Z) : list Z := map Z.of_nat (seq 1 (Z.to_nat (p - 1))).
Lemma in_range p x : In x (range p) <-> 1 <= x < p.
Proof.
  unfold range. rewrite in_map_iff. split.
  - intros (n & <- & H). apply in_seq in H. lia.
  - intros H. exists (Z.to_nat x). split; [lia|]. apply in_seq. lia.
Qed.
Lemma range_nodup p : NoDup (range p).
Proof. unfold range. apply FinFun.Injective_map_NoDup; [|apply seq_NoDup]. intros x y. lia. Qed.

Lemma prod_not_div p l : prime p -> (forall x, In x l -> 1 <= x < p) -> ~ (p | prod l).
Proof.
  intros P. induction l as [|x l IH]; intros H; cbn.
  - intros D. apply Z.divide_1_r_nonneg in D; [|destruct P; lia]. destruct P. lia.
  - intros D. apply prime_mult in D; [|exact P]. destruct D as [D|D].
    + apply Z.divide_pos_le in D; [|specialize (H x (or_introl eq_refl)); lia]. specialize (H x (or_introl eq_refl)). lia.
    + apply IH; [|exact D]. intros y Hy. apply H. right. exact Hy.
Qed.

Lemma map_perm p a : prime p -> ~ (p | a) -> Permutation (map (fun x => (a * x) mod p) (range p)) (range p).
Proof.
  intros P N. assert (1 < p) by (destruct P; assumption).
  apply NoDup_Permutation_bis.
  - assert (G : forall l, NoDup l -> (forall x, In x l -> 1 <= x < p) -> NoDup (map (fun x => (a * x) mod p) l)).
    { induction l as [|x l IH]; intros ND Hl; cbn; constructor.
      - intros C. apply in_map_iff in C as (y & E & Hy). inversion ND as [|? ? N1 N2]; subst. apply N1.
        assert (cong p y x) as Q.
        { apply (cong_cancel p y x a P N). apply cong_eq; [lia | exact E]. }
        apply cong_eq in Q; [|lia]. rewrite !Z.mod_small in Q; [subst; exact Hy| |].
        + specialize (Hl x (or_introl eq_refl)). lia.
        + specialize (Hl y (or_intror Hy)). lia.
      - inversion ND; subst. apply IH; [assumption|]. intros y Hy. apply Hl. right. exact Hy. }
    apply G; [apply range_nodup|]. intros x. apply in_range.
  - rewrite map_length. lia.
  - intros y Hy. apply in_map_iff in Hy as (x & <- & Hx). apply in_range in Hx. apply in_range.
    pose proof (Z.mod_pos_bound (a * x) p ltac:(lia)) as B.
    destruct (Z.eq_dec ((a * x) mod p) 0) as [E|E]; [|lia]. exfalso.
    apply Z.mod_divide in E; [|lia]. apply prime_mult in E; [|exact P]. destruct E as [E|E]; [contradiction|].
    apply Z.divide_pos_le in E; lia.
Qed.

Lemma prod_map_mul p a l : 0 < p -> cong p (prod (map (fun x => (a * x) mod p) l)) (a ^ Z.of_nat (length l) * prod l).
Proof.
  intros H. induction l as [|x l IH].
  - cbn. apply cong_refl.
  - cbn [map prod length]. rewrite Nat2Z.inj_succ, Z.pow_succ_r by lia.
    replace (a * a ^ Z.of_nat (length l) * (x * prod l)) with ((a * x) * (a ^ Z.of_nat (length l) * prod l)) by ring.
    apply cong_mul; [apply cong_mod; exact H | exact IH].
Qed.

Theorem fermat p a : prime p -> ~ (p | a) -> cong p (a ^ (p - 1)) 1.
Proof.
  intros P N. assert (1 < p) by (destruct P; assumption).
  apply (cong_cancel p _ _ (prod (range p)) P).
  - apply prod_not_div; [exact P|]. intros x. apply in_range.
  - rewrite Z.mul_1_r, Z.mul_comm. rewrite <- (prod_perm _ _ (map_perm p a P N)) at 2.
    apply cong_sym. replace (p - 1) with (Z.of_nat (length (range p))); [apply prod_map_mul; lia|].
    unfold range. rewrite map_length, seq_length. lia.
Qed.

(** ** Pocklington *)

(** Every n > 1 has a prime divisor. *)
Lemma prime_divisor n : 1 < n -> exists q, prime q /\ (q | n).
Proof.
  intros H. assert (G : forall k, 0 <= k -> forall n, 1 < n < k -> exists q, prime q /\ (q | n)).
  { apply (natlike_ind (fun k => forall n, 1 < n < k -> exists q, prime q /\ (q | n))); [intros; lia|].
    intros k Hk IH m Hm. destruct (prime_dec m) as [P|P]; [exists m; split; [exact P | apply Z.divide_refl]|].
    destruct (not_prime_divide m ltac:(lia) P) as (d & Hd & D). destruct (IH d ltac:(lia)) as (q & Q & DQ).
    exists q. split; [exact Q | eapply Z.divide_trans; eauto]. }
  apply (G (n + 1)); lia.
Qed.

Lemma pow_cong_1 m b k j : 0 <= k -> 0 <= j -> cong m (b ^ k) 1 -> cong m (b ^ (k * j)) 1.
Proof. intros Hk Hj H. rewrite Z.pow_mul_r by assumption. apply (cong_pow m _ _ j Hj) in H. rewrite Z.pow_1_l in H by exact Hj. exact H. Qed.

(** If b^k = b^j = 1 then b^gcd(k,j) = 1. *)
Lemma pow_gcd m b k j : 0 < m -> rel_prime b m -> 0 < k -> 0 < j -> cong m (b ^ k) 1 -> cong m (b ^ j) 1 -> cong m (b ^ Z.gcd k j) 1.
Proof.
  intros Hm Hr Hk Hj Ek Ej.
  assert (B : exists u v, 0 <= u /\ 0 <= v /\ Z.gcd k j + v * j = u * k).
  { destruct (Z.gcd_bezout k j (Z.gcd k j) eq_refl) as (u0 & v0 & E).
    set (t := Z.abs u0 + Z.abs v0). exists (u0 + t * j), (t * k - v0). repeat split; nia. }
  destruct B as (u & v & Hu & Hv & E).
  pose proof (pow_cong_1 m b k u ltac:(lia) Hu Ek) as E1. pose proof (pow_cong_1 m b j v ltac:(lia) Hv Ej) as E2.
  rewrite (Z.mul_comm k u), <- E, Z.pow_add_r, (Z.mul_comm v j) in E1; [|apply Z.gcd_nonneg | nia].
  eapply cong_trans; [|exact E1]. replace (b ^ Z.gcd k j) with (b ^ Z.gcd k j * 1) at 1 by ring.
  apply cong_mul; [apply cong_refl | apply cong_sym; exact E2].
Qed.

(** One prime factor [r] of n - 1 with its witness: r divides q - 1 for every prime divisor q of n. *)
Lemma pocklington_factor n r a q : 1 < n -> prime r -> (r | n - 1) -> prime q -> (q | n) ->
  cong n (a ^ (n - 1)) 1 -> rel_prime (a ^ ((n - 1) / r) - 1) n -> (r | q - 1).
Proof.
  intros Hn R [m Em] Q Dq E G. assert (1 < r) by (destruct R; assumption). assert (1 < q) by (destruct Q; assumption).
  assert (0 < m) by nia.
  assert (Edr : (n - 1) / r = m) by (rewrite Em; apply Z.div_mul; lia). rewrite Edr in G.
  set (b := a ^ m). assert (Eb : cong q (b ^ r) 1).
  { unfold b. rewrite <- Z.pow_mul_r by lia. rewrite <- Em. eapply cong_div; eauto. }
  assert (Nb : ~ cong q b 1).
  { intros C. unfold cong in C. fold b in G. destruct G as [_ _ G]. specialize (G q C Dq). apply Z.divide_1_r_nonneg in G; lia. }
  assert (Nd : ~ (q | b)).
  { intros D. assert (q | 1) as D1.
    { replace 1 with (b ^ r - (b ^ r - 1)) by ring. apply Z.divide_sub_r; [|exact Eb].
      replace r with (1 + (r - 1)) by lia. rewrite Z.pow_add_r, Z.pow_1_r by lia. apply Z.divide_mul_l. exact D. }
    apply Z.divide_1_r_nonneg in D1; lia. }
  pose proof (fermat q b Q Nd) as F.
  assert (rel_prime b q) as RP by (apply rel_prime_sym, prime_rel_prime; assumption).
  pose proof (pow_gcd q b r (q - 1) ltac:(lia) RP ltac:(lia) ltac:(lia) Eb F) as W.
  destruct (Z.gcd_divide_l r (q - 1)) as [c Ec].
  assert (D : (Z.gcd r (q - 1) | r)) by apply Z.gcd_divide_l.
  destruct (prime_divisors r R _ D) as [Hg|[Hg|[Hg|Hg]]]; pose proof (Z.gcd_nonneg r (q - 1)) as NN; try lia.
  - exfalso. apply Nb. rewrite Hg, Z.pow_1_r in W. exact W.
  - rewrite <- Hg. apply Z.gcd_divide_r.
Qed.

Theorem pocklington n F (fs : list Z) a : 1 < n -> F = prod fs -> n < F * F -> 0 < F ->
  NoDup fs -> (forall r, In r fs -> prime r) ->
  (forall r, In r fs -> (r | n - 1) /\ rel_prime (a ^ ((n - 1) / r) - 1) n) ->
  cong n (a ^ (n - 1)) 1 -> prime n.
Proof.
  intros Hn EF HF F0 ND HP HW E.
  assert (D : forall q, prime q -> (q | n) -> (F | q - 1)).
  { intros q Q Dq. assert (G : forall r, In r fs -> (r | q - 1)).
    { intros r Hr. destruct (HW r Hr) as [D W]. apply (pocklington_factor n r a q); auto. }
    rewrite EF. clear EF HW HF F0. induction fs as [|r fs IH]; cbn; [apply Z.divide_1_l|].
    inversion ND as [|? ? N1 N2]; subst.
    assert (H1 : (r | q - 1)) by (apply G; left; reflexivity).
    assert (H2 : (prod fs | q - 1)).
    { apply IH; auto; [intros x Hx; apply HP; right; exact Hx | intros x Hx; apply G; right; exact Hx]. }
    assert (RP : rel_prime r (prod fs)).
    { apply prime_rel_prime; [apply HP; left; reflexivity|]. intros C.
      assert (exists x, In x fs /\ (r | x)) as (x & Hx & Dx).
      { clear - C HP. assert (R : prime r) by (apply HP; left; reflexivity). revert C HP.
        induction fs as [|y fs IH]; cbn; intros C HP.
        - apply Z.divide_1_r_nonneg in C; destruct R; lia.
        - apply prime_mult in C; [|exact R]. destruct C as [C|C]; [eauto|]. destruct (IH C) as (x & Hx & Dx); [|eauto].
          intros z [<- |Hz]; apply HP; auto. }
      assert (r = x) as ->; [|contradiction].
      assert (R : prime r) by (apply HP; left; reflexivity). assert (X : prime x) by (apply HP; right; exact Hx).
      destruct (prime_divisors x X r Dx) as [B|[B|[B|B]]]; destruct R, X; lia. }
    destruct H2 as [k Ek]. rewrite Ek in H1 |- *. rewrite Z.mul_comm in H1. apply Gauss in H1; [|exact RP].
    apply Z.mul_divide_mono_r. exact H1. }
  destruct (prime_dec n) as [P|P]; [exact P|]. exfalso.
  destruct (not_prime_divide n Hn P) as (d & Hd & Dd). destruct Dd as [e Ee].
  assert (Hmin : exists d', 1 < d' /\ d' * d' <= n /\ (d' | n)).
  { destruct (Z_le_gt_dec d e).
    - exists d. split; [lia|]. split; [nia|]. exists e. exact Ee.
    - exists e. split; [nia|]. split; [nia|]. exists d. lia. }
  destruct Hmin as (d' & H1 & H2 & H3). destruct (prime_divisor d' H1) as (q & Q & Dq).
  assert (1 < q) by (destruct Q; assumption).
  assert (F | q - 1) as DF by (apply D; [exact Q | eapply Z.divide_trans; eauto]).
  apply Z.divide_pos_le in DF; [|lia]. apply Z.divide_pos_le in Dq; [|lia]. nia.
Qed.

(** ** Deciding the hypotheses by computation *)

(** a^e mod m by squaring. *)
Fixpoint powmod (m a : Z) (e : positive) : Z :=
  match e with
  | xH => a mod m
  | xO e' => let r := powmod m a e' in (r * r) mod m
  | xI e' => let r := powmod m a e' in (((r * r) mod m) * a) mod m
  end.
Lemma powmod_ok m a e : 0 < m -> cong m (powmod m a e) (a ^ Zpos e).
Proof.
  intros H. induction e as [e IH|e IH|]; cbn [powmod].
  - rewrite Pos2Z.inj_xI, Z.pow_add_r, Z.pow_1_r, (Z.mul_comm 2), Z.pow_mul_r by lia.
    eapply cong_trans; [apply cong_mod; exact H|]. apply cong_mul; [|apply cong_refl].
    eapply cong_trans; [apply cong_mod; exact H|]. rewrite Z.pow_2_r. apply cong_mul; exact IH.
  - rewrite Pos2Z.inj_xO, (Z.mul_comm 2), Z.pow_mul_r by lia. eapply cong_trans; [apply cong_mod; exact H|]. rewrite Z.pow_2_r. apply cong_mul; exact IH.
  - rewrite Z.pow_1_r. apply cong_mod. exact H.
Qed.

Definition factor_ok (n r : Z) : bool :=
  ((n - 1) mod r =? 0) && match (n - 1) / r with Zpos e => Z.gcd (powmod n 2 e - 1) n =? 1 | _ => false end.
Definition cert_ok (n : Z) (fs : list Z) : bool :=
  (1 <? n) && (n <? prod fs * prod fs) && (0 <? prod fs) && forallb (factor_ok n) fs &&
  match n - 1 with Zpos e => powmod n 2 e =? 1 | _ => false end.

Lemma cert_prime n fs : cert_ok n fs = true -> NoDup fs -> (forall r, In r fs -> prime r) -> prime n.
Proof.
  unfold cert_ok. intros H ND HP. repeat rewrite Bool.andb_true_iff in H. destruct H as ((((H1 & H2) & H3) & H4) & H5).
  apply Z.ltb_lt in H1, H2, H3. rewrite forallb_forall in H4.
  apply (pocklington n (prod fs) fs 2); auto.
  - intros r Hr. specialize (H4 r Hr). unfold factor_ok in H4. apply Bool.andb_true_iff in H4 as [D W].
    assert (1 < r) by (destruct (HP r Hr); assumption).
    apply Z.eqb_eq in D. apply Z.mod_divide in D; [|lia]. split; [exact D|].
    destruct ((n - 1) / r) as [|e|e]; try discriminate. apply Z.eqb_eq in W.
    apply Zgcd_1_rel_prime. refine (eq_trans _ W). pose proof (powmod_ok n 2 e ltac:(lia)) as C.
    destruct C as [k C]. replace (2 ^ Z.pos e - 1) with (powmod n 2 e - 1 + (- k) * n) by lia.
    rewrite (Z.gcd_comm (powmod n 2 e - 1 + _) n), (Z.gcd_comm (powmod n 2 e - 1) n).
    rewrite Z.gcd_add_mult_diag_r. reflexivity.
  - destruct (n - 1) as [|e|e]; try discriminate. apply Z.eqb_eq in H5. apply cong_sym. pose proof (powmod_ok n 2 e ltac:(lia)) as C. rewrite H5 in C. exact C.
Qed.

(** Trial division up to [k], with k * k > n. *)
Fixpoint trial (k : nat) (n : Z) : bool :=
  match k with
  | O => true
  | S O => true
  | S k' => negb (n mod Z.of_nat k =? 0) && trial k' n
  end.
Lemma trial_prime k n : trial k n = true -> 1 < n -> n < Z.of_nat k * Z.of_nat k -> Z.of_nat k < n -> prime n.
Proof.
  intros T Hn Hk Hkn. assert (G : forall d, 1 < d <= Z.of_nat k -> ~ (d | n)).
  { clear Hk Hkn. induction k as [|k IH]; intros d Hd D; [lia|]. destruct k as [|k]; [lia|].
    change (trial (S (S k)) n) with (andb (negb (n mod Z.of_nat (S (S k)) =? 0)) (trial (S k) n)) in T.
    apply Bool.andb_true_iff in T as [T1 T2]. destruct (Z.eq_dec d (Z.of_nat (S (S k)))) as [-> |Ne].
    - apply Z.mod_divide in D; [|lia]. rewrite D in T1. discriminate.
    - apply (IH T2 d); [lia | exact D]. }
  destruct (prime_dec n) as [P|P]; [exact P|]. exfalso.
  destruct (not_prime_divide n Hn P) as (d & Hd & [e Ee]).
  destruct (Z_le_gt_dec d (Z.of_nat k)).
  - apply (G d); [lia|]. exists e. exact Ee.
  - apply (G e); [split; nia|]. exists d. lia.
Qed.

Ltac small := match goal with |- prime ?n => let k := eval vm_compute in (Z.to_nat (Z.sqrt n + 1)) in
  apply (trial_prime k n); [vm_compute; reflexivity | lia | vm_compute; reflexivity | vm_compute; reflexivity] end.

Lemma prime_8574133 : prime 8574133.
Proof. apply (cert_prime _ [991; 103]); [vm_compute; reflexivity | repeat constructor; cbn; intuition lia|].
  intros r [<- |[<- |[]]]; small. Qed.
Lemma prime_1919519569386763 : prime 1919519569386763.
Proof. apply (cert_prime _ [8574133; 127]); [vm_compute; reflexivity | repeat constructor; cbn; intuition lia|].
  intros r [<- |[<- |[]]]; [apply prime_8574133 | small]. Qed.
Lemma prime_75445702479781427272750846543864801 : prime 75445702479781427272750846543864801.
Proof. apply (cert_prime _ [1919519569386763; 75707]); [vm_compute; reflexivity | repeat constructor; cbn; intuition lia|].
  intros r [<- |[<- |[]]]; [apply prime_1919519569386763 | small]. Qed.
Lemma prime_31757755568855353 : prime 31757755568855353.
Proof. apply (cert_prime _ [430751; 4153]); [vm_compute; reflexivity | repeat constructor; cbn; intuition lia|].
  intros r [<- |[<- |[]]]; small. Qed.
Lemma prime_q1 : prime 74058212732561358302231226437062788676166966415465897661863160754340907.
Proof. apply (cert_prime _ [75445702479781427272750846543864801; 31757755568855353]); [vm_compute; reflexivity | repeat constructor; cbn; intuition lia|].
  intros r [<- |[<- |[]]]; [apply prime_75445702479781427272750846543864801 | apply prime_31757755568855353]. Qed.

Theorem prime_25519 : prime 57896044618658097711785492504343953926634992332820282019728792003956564819949.
Proof. apply (cert_prime _ [74058212732561358302231226437062788676166966415465897661863160754340907]);
  [vm_compute; reflexivity | repeat constructor; cbn; intuition lia|]. intros r [<- |[]]. apply prime_q1. Qed.
