(** * C116: two nodes that connect complete the handshake. *)
From Verif Require Import Base M_Duplex.
Local Open Scope nat_scope.

(** [x] is the beginning of [l]. *)
Definition prefix (x l : bytes) : Prop := exists y, l = x ++ y.
(** The other end's messages are not above this end's limit, nor above what the length field can express. *)
Definition readable (lim : N) (m : bytes) : Prop := (lim = 0 \/ N.of_nat (length m) <= lim)%N /\ (N.of_nat (length m) < 2 ^ 32)%N.

Section WithParties.
Variables (a b : party) (lim_a lim_b : N) (cap_ab cap_ba : nat).
Notation start := (d_start a b lim_a lim_b).
Notation step := (dstep a b lim_a lim_b cap_ab cap_ba).
Notation run := (drun a b lim_a lim_b cap_ab cap_ba).
(** The second messages of the two ends. *)
Definition second_a := answer a (hello b).
Definition second_b := answer b (hello a).
(** Both ends have finished; each has read the two messages that the other has written, and nothing is left over. *)
Definition finished (s : duplex) : Prop :=
  s_pc (d_a s) = HFin (hello b) second_b [] /\ s_pc (d_b s) = HFin (hello a) second_a [] /\ d_ab s = [] /\ d_ba s = [].
End WithParties.

(** ** Reading *)
Lemma take_frame : forall lim buf m x y, readable lim m -> buf ++ x = frame m ++ y ->
  (take lim buf = More /\ length buf < length (frame m)) \/ exists r, take lim buf = Got m r /\ buf = frame m ++ r.
Proof.
  intros lim buf m x y [R1 R2] E. unfold take. assert (LF : length (frame m) = 4 + length m) by (unfold frame; rewrite app_length, be_encode_length; reflexivity).
  destruct (Nat.ltb_spec (length buf) 4) as [S4|S4]; [left; split; [reflexivity|lia]|].
  assert (H4 : firstn 4 buf = be_encode 4 (N.of_nat (length m))).
  { transitivity (firstn 4 (buf ++ x)); [rewrite firstn_app; replace (4 - length buf) with 0 by lia; rewrite app_nil_r; reflexivity|].
    rewrite E. unfold frame. rewrite <- app_assoc. apply firstn_app_exact. apply be_encode_length. }
  assert (D : be_decode (firstn 4 buf) = N.of_nat (length m)) by (rewrite H4; apply be_decode_encode_small; exact R2).
  rewrite D. assert (((0 <? lim) && (lim <? N.of_nat (length m)))%N = false) as ->.
  { destruct R1 as [->|R1]; [reflexivity|]. apply andb_false_iff. right. apply N.ltb_ge. exact R1. }
  rewrite Nnat.Nat2N.id. destruct (Nat.ltb_spec (length buf) (4 + length m)) as [S5|S5]; [left; split; [reflexivity|lia]|]. right.
  assert (B : exists r, buf = frame m ++ r).
  { exists (skipn (4 + length m) buf). rewrite <- (firstn_skipn (4 + length m) buf) at 1. f_equal.
    transitivity (firstn (4 + length m) (buf ++ x)); [rewrite firstn_app; replace (4 + length m - length buf) with 0 by lia; rewrite app_nil_r; reflexivity|].
    rewrite E. rewrite <- LF. apply firstn_app_exact. reflexivity. }
  destruct B as (r & ->). exists r. split; [|reflexivity]. f_equal.
  - unfold frame. rewrite <- app_assoc. rewrite skipn_app_exact by apply be_encode_length. apply firstn_app_exact. reflexivity.
  - apply skipn_app_exact. exact LF.
Qed.
Lemma frame_nonempty : forall m, exists c t, frame m = c :: t.
Proof. intros m. unfold frame. pose proof (be_encode_length 4 (N.of_nat (length m))). destruct (be_encode 4 (N.of_nat (length m))) as [|c t]; [discriminate|]. cbn. eauto. Qed.
Lemma take_nil : forall lim, take lim [] = More.
Proof. reflexivity. Qed.

(** ** The invariant of one end *)
(** [p]: this end, [q]: the other. *)
Definition sinv (lim : N) (p q : party) (s : side) : Prop :=
  let F1 := frame (hello p) in let F2 := frame (answer p (hello q)) in
  let G1 := frame (hello q) in let G2 := frame (answer q (hello p)) in
  match s_pc s with
  | HW1 rest => s_out s ++ rest = F1 /\ rest <> [] /\ s_in s = []
  | HR1 buf => s_out s = F1 /\ s_in s = buf /\ take lim buf = More
  | HW2 saw rest buf => saw = hello q /\ (exists w, F2 = w ++ rest /\ s_out s = F1 ++ w) /\ rest <> [] /\ s_in s = G1 ++ buf
  | HR2 saw buf => saw = hello q /\ s_out s = F1 ++ F2 /\ s_in s = G1 ++ buf /\ take lim buf = More
  | HFin x y buf => x = hello q /\ y = answer q (hello p) /\ s_out s = F1 ++ F2 /\ s_in s = G1 ++ G2 ++ buf
  | HBig => False
  end.
Definition stream (p q : party) : bytes := frame (hello p) ++ frame (answer p (hello q)).

Lemma new_sinv : forall lim p q, sinv lim p q (new_side lim p).
Proof.
  intros lim p q. unfold sinv, new_side, after_write1. destruct (frame_nonempty (hello p)) as (c & t & E). rewrite E. cbn. repeat split. discriminate.
Qed.
Lemma sinv_out : forall lim p q s, sinv lim p q s -> prefix (s_out s) (stream p q).
Proof.
  intros lim p q s I. unfold sinv in I. unfold stream, prefix. destruct (s_pc s).
  - destruct I as (E & _). exists (rest ++ frame (answer p (hello q))). rewrite <- E, app_assoc. reflexivity.
  - destruct I as (-> & _). eauto.
  - destruct I as (_ & (w & E & ->) & _). exists rest. rewrite E, app_assoc. reflexivity.
  - destruct I as (_ & -> & _). exists []. rewrite app_nil_r. reflexivity.
  - destruct I as (_ & _ & -> & _). exists []. rewrite app_nil_r. reflexivity.
  - destruct I.
Qed.
Lemma after_read2_inv : forall lim p q s buf x, readable lim (answer q (hello p)) -> (s_in s ++ buf) ++ x = stream q p ->
  s_out s = frame (hello p) ++ frame (answer p (hello q)) -> forall b0, s_in s ++ buf = frame (hello q) ++ b0 ->
  sinv lim p q (mkSide (after_read2 lim (hello q) b0) (s_out s) (s_in s ++ buf)).
Proof.
  intros lim p q s buf x R P O b0 E. unfold after_read2. unfold stream in P. rewrite E, <- app_assoc in P. apply app_inv_head in P.
  destruct (take_frame lim b0 _ x [] R) as [(T & _)|(r & T & ->)]; [rewrite app_nil_r; exact P| |]; unfold sinv; cbn [s_pc s_out s_in]; rewrite T; cbn; rewrite ?E; auto.
Qed.
Lemma after_read1_inv : forall lim p q s buf x, readable lim (hello q) -> readable lim (answer q (hello p)) -> (s_in s ++ buf) ++ x = stream q p ->
  s_out s = frame (hello p) -> sinv lim p q (mkSide (after_read1 lim p (s_in s ++ buf)) (s_out s) (s_in s ++ buf)).
Proof.
  intros lim p q s buf x R1 R2 P O. unfold after_read1. unfold stream in P.
  destruct (take_frame lim (s_in s ++ buf) _ x (frame (answer q (hello p))) R1 P) as [(T & _)|(r & T & E)]; unfold sinv; rewrite T; cbn [s_pc s_out s_in].
  - cbn. auto.
  - unfold after_write2. destruct (frame_nonempty (answer p (hello q))) as (c & t & F). rewrite F. cbn. repeat split; auto; [|discriminate]. exists []. rewrite app_nil_r. auto.
Qed.

Lemma take_split {A} n (l : list A) : l = firstn n l ++ skipn n l.
Proof. symmetry. apply firstn_skipn. Qed.
Lemma skip_nonempty {A} n (l : list A) : skipn n l = [] -> firstn n l = l.
Proof. intros H. rewrite <- (firstn_skipn n l) at 2. rewrite H, app_nil_r. reflexivity. Qed.

(** A step of one end keeps its invariant, and moves bytes: what it writes comes out at the end of one direction, what it reads is taken from the head of the other. *)
Lemma side_ok : forall lim p q k cap s out inn s' out' inn', readable lim (hello q) -> readable lim (answer q (hello p)) -> sinv lim p q s -> prefix (s_in s ++ inn) (stream q p) ->
  side_step lim p k cap s out inn = Some (s', out', inn') ->
  sinv lim p q s' /\ exists w r, s_out s' = s_out s ++ w /\ out' = out ++ w /\ s_in s' = s_in s ++ r /\ inn = r ++ inn' /\ 0 < length w + length r.
Proof.
  intros lim p q k cap s out inn s' out' inn' R1 R2 I (z & P) H. unfold side_step in H. unfold sinv in I. destruct (s_pc s) as [rest|buf|saw rest buf|saw buf|x y buf|] eqn:PC.
  - destruct I as (E & NE & IN). destruct (Nat.min k (Nat.min (length rest) (cap - length out)) =? 0) eqn:Z; [discriminate|]. apply Nat.eqb_neq in Z.
    set (n := Nat.min k (Nat.min (length rest) (cap - length out))) in *. injection H as <- <- <-. split.
    + cbn [after_write1]. unfold after_write1. destruct (skipn n rest) eqn:SK.
      * assert (O' : s_out s ++ firstn n rest = frame (hello p)) by (rewrite (skip_nonempty _ _ SK); exact E).
        unfold after_read1. rewrite take_nil. unfold sinv. cbn. rewrite O', IN. auto.
      * unfold sinv. cbn. rewrite <- SK, <- app_assoc, firstn_skipn. repeat split; auto. rewrite SK. discriminate.
    + exists (firstn n rest), []. cbn. rewrite app_nil_r. repeat split; auto. rewrite firstn_length. assert (n <= length rest) by (unfold n; lia). lia.
  - destruct I as (O & IN & T). destruct (Nat.min k (length inn) =? 0) eqn:Z; [discriminate|]. apply Nat.eqb_neq in Z. set (n := Nat.min k (length inn)) in *. injection H as <- <- <-. split.
    + rewrite <- IN. apply (after_read1_inv lim p q s (firstn n inn) (skipn n inn ++ z)); auto. rewrite P, !app_assoc. f_equal. rewrite <- !app_assoc. rewrite firstn_skipn. reflexivity.
    + exists [], (firstn n inn). cbn. rewrite !app_nil_r, firstn_skipn. repeat split; auto. rewrite firstn_length. unfold n in *. lia.
  - destruct I as (-> & (w & F & O) & NE & IN). destruct (Nat.min k (Nat.min (length rest) (cap - length out)) =? 0) eqn:Z; [discriminate|]. apply Nat.eqb_neq in Z.
    set (n := Nat.min k (Nat.min (length rest) (cap - length out))) in *. injection H as <- <- <-. split.
    + unfold after_write2. destruct (skipn n rest) eqn:SK.
      * pose proof (after_read2_inv lim p q (mkSide HBig (s_out s ++ firstn n rest) (s_in s)) [] (inn ++ z) R2) as Q. cbn [s_in s_out] in Q. rewrite app_nil_r in Q. apply Q.
        -- rewrite P, app_assoc. reflexivity.
        -- rewrite (skip_nonempty _ _ SK), O, F, app_assoc. reflexivity.
        -- exact IN.
      * unfold sinv. cbn. repeat split; auto; [|discriminate]. exists (w ++ firstn n rest). rewrite <- SK. rewrite <- app_assoc, firstn_skipn. rewrite O, app_assoc. auto.
    + exists (firstn n rest), []. cbn. rewrite app_nil_r. repeat split; auto. rewrite firstn_length. assert (n <= length rest) by (unfold n; lia). lia.
  - destruct I as (-> & O & IN & T). destruct (Nat.min k (length inn) =? 0) eqn:Z; [discriminate|]. apply Nat.eqb_neq in Z. set (n := Nat.min k (length inn)) in *. injection H as <- <- <-. split.
    + apply (after_read2_inv lim p q s (firstn n inn) (skipn n inn ++ z)); auto.
      * rewrite P, !app_assoc. f_equal. rewrite <- !app_assoc. rewrite firstn_skipn. reflexivity.
      * rewrite IN, app_assoc. reflexivity.
    + exists [], (firstn n inn). cbn. rewrite !app_nil_r, firstn_skipn. repeat split; auto. rewrite firstn_length. unfold n in *. lia.
  - discriminate.
  - discriminate.
Qed.

(** ** The connection *)
Section Connection.
Variables (a b : party) (lim_a lim_b : N) (cap_ab cap_ba : nat).
Hypothesis readable_a : readable lim_a (hello b) /\ readable lim_a (second_b a b).
Hypothesis readable_b : readable lim_b (hello a) /\ readable lim_b (second_a a b).
Notation start := (d_start a b lim_a lim_b).
Notation step := (dstep a b lim_a lim_b cap_ab cap_ba).
Notation run := (drun a b lim_a lim_b cap_ab cap_ba).

Record dinv (s : duplex) : Prop := mkDI {
  di_a : sinv lim_a a b (d_a s);
  di_b : sinv lim_b b a (d_b s);
  di_ab : s_out (d_a s) = s_in (d_b s) ++ d_ab s;
  di_ba : s_out (d_b s) = s_in (d_a s) ++ d_ba s
}.
Lemma dinv_prefix : forall s, dinv s -> prefix (s_in (d_a s) ++ d_ba s) (stream b a) /\ prefix (s_in (d_b s) ++ d_ab s) (stream a b).
Proof. intros s [A B E F]. rewrite <- E, <- F. split; eapply sinv_out; eauto. Qed.

(** Bytes still to be written and still to be read. *)
Definition owing (s : duplex) : nat :=
  (length (stream a b) - length (s_out (d_a s))) + (length (stream a b) - length (s_in (d_b s)))
  + (length (stream b a) - length (s_out (d_b s))) + (length (stream b a) - length (s_in (d_a s))).
Lemma prefix_len : forall x l, prefix x l -> length x <= length l.
Proof. intros x l (y & ->). rewrite app_length. lia. Qed.
Lemma step_dinv : forall s x s', dinv s -> step s x = Some s' -> dinv s' /\ owing s' < owing s.
Proof.
  intros s x s' I H. destruct (dinv_prefix s I) as [PA PB]. destruct I as [A B E F].
  assert (G : dinv s' /\ exists w r, (s_out (d_a s') = s_out (d_a s) ++ w /\ s_in (d_a s') = s_in (d_a s) ++ r /\ s_out (d_b s') = s_out (d_b s) /\ s_in (d_b s') = s_in (d_b s)
        \/ s_out (d_b s') = s_out (d_b s) ++ w /\ s_in (d_b s') = s_in (d_b s) ++ r /\ s_out (d_a s') = s_out (d_a s) /\ s_in (d_a s') = s_in (d_a s)) /\ 0 < length w + length r).
  { destruct x as [k|k]; cbn in H.
    - destruct (side_step lim_a a k cap_ab (d_a s) (d_ab s) (d_ba s)) as [[[e out] inn]|] eqn:T; [|discriminate]. injection H as <-.
      destruct (side_ok _ _ _ _ _ _ _ _ _ _ _ (proj1 readable_a) (proj2 readable_a) A PA T) as (A' & w & r & O & OO & IN & II & L). split.
      + constructor; cbn; auto; [rewrite O, OO, E, app_assoc; reflexivity | rewrite F, IN, II, app_assoc; reflexivity].
      + exists w, r. cbn. split; [left; auto|exact L].
    - destruct (side_step lim_b b k cap_ba (d_b s) (d_ba s) (d_ab s)) as [[[e out] inn]|] eqn:T; [|discriminate]. injection H as <-.
      destruct (side_ok _ _ _ _ _ _ _ _ _ _ _ (proj1 readable_b) (proj2 readable_b) B PB T) as (B' & w & r & O & OO & IN & II & L). split.
      + constructor; cbn; auto; [rewrite E, IN, II, app_assoc; reflexivity | rewrite O, OO, F, app_assoc; reflexivity].
      + exists w, r. cbn. split; [right; auto|exact L]. }
  destruct G as (I' & w & r & D & L). split; [exact I'|]. destruct (dinv_prefix s' I') as [PA' PB'].
  pose proof (prefix_len _ _ (sinv_out _ _ _ _ (di_a _ I'))) as N1. pose proof (prefix_len _ _ (sinv_out _ _ _ _ (di_b _ I'))) as N2.
  apply prefix_len in PA', PB'. rewrite app_length in PA', PB'. unfold owing.
  destruct D as [(D1 & D2 & D3 & D4)|(D1 & D2 & D3 & D4)]; rewrite D1, ?D2, ?D3, ?D4 in *; rewrite ?app_length in *; lia.
Qed.
Lemma run_dinv : forall l s s', dinv s -> run s l = Some s' -> dinv s' /\ length l + owing s' <= owing s.
Proof.
  induction l as [|x l IH]; intros s s' I H; cbn in H; [injection H as <-; auto|]. destruct (step s x) as [s1|] eqn:E; [|discriminate].
  destruct (step_dinv _ _ _ I E) as [I1 L1]. destruct (IH _ _ I1 H) as [I2 L2]. split; [exact I2|cbn [length]; lia].
Qed.
Lemma start_dinv : dinv start.
Proof. constructor; [apply new_sinv|apply new_sinv|reflexivity|reflexivity]. Qed.
Lemma owing_start : owing start = 2 * (length (stream a b) + length (stream b a)).
Proof. unfold owing, d_start, new_side. cbn [d_a d_b s_out s_in length]. lia. Qed.

(** *** Progress *)
Lemma can_write : forall lim p cap s out inn, (exists rest, s_pc s = HW1 rest /\ rest <> []) \/ (exists x rest y, s_pc s = HW2 x rest y /\ rest <> []) -> length out < cap ->
  exists r, side_step lim p 1 cap s out inn = Some r.
Proof.
  intros lim p cap s out inn W C. unfold side_step. destruct W as [(rest & -> & NE)|(x & rest & y & -> & NE)]; (destruct rest as [|c t]; [congruence|]);
    (destruct (Nat.min 1 (Nat.min (length (c :: t)) (cap - length out)) =? 0) eqn:Z; [apply Nat.eqb_eq in Z; cbn [length] in Z; lia|]); eauto.
Qed.
Lemma can_read : forall lim p cap s out inn, (exists x, s_pc s = HR1 x) \/ (exists x y, s_pc s = HR2 x y) -> inn <> [] -> exists r, side_step lim p 1 cap s out inn = Some r.
Proof.
  intros lim p cap s out inn W C. unfold side_step. destruct W as [(x & ->)|(x & y & ->)]; (destruct inn as [|c t]; [congruence|]); cbn; eauto.
Qed.
Lemma move_a : forall s, (exists r, side_step lim_a a 1 cap_ab (d_a s) (d_ab s) (d_ba s) = Some r) -> exists x s', step s x = Some s'.
Proof. intros s ([[e o] i] & H). exists (SA 1). cbn. rewrite H. eauto. Qed.
Lemma move_b : forall s, (exists r, side_step lim_b b 1 cap_ba (d_b s) (d_ba s) (d_ab s) = Some r) -> exists x s', step s x = Some s'.
Proof. intros s ([[e o] i] & H). exists (SB 1). cbn. rewrite H. eauto. Qed.

Lemma lens : forall (x y z : bytes), x ++ y = z -> length x + length y = length z.
Proof. intros x y z <-. symmetry. apply app_length. Qed.
(** The direction from [a] to [b] can hold each message of [a]. *)
Lemma progress : forall s, dinv s -> length (frame (hello a)) <= cap_ab -> length (frame (second_a a b)) <= cap_ab -> 1 <= cap_ba ->
  finished a b s \/ exists x s', step s x = Some s'.
Proof.
  intros s I C1 C2 C3. destruct (dinv_prefix s I) as [PA PB]. destruct I as [A B E F]. unfold second_a in C2. unfold sinv in A.
  destruct readable_a as [RA1 RA2], readable_b as [RB1 RB2]. unfold second_a, second_b in *.
  assert (BW : (exists rest, s_pc (d_b s) = HW1 rest /\ rest <> []) \/ (exists x rest y, s_pc (d_b s) = HW2 x rest y /\ rest <> []) -> d_ba s = [] -> exists x s', step s x = Some s').
  { intros W Z. apply move_b. apply can_write; [exact W|]. rewrite Z. cbn. lia. }
  assert (BR : (exists x, s_pc (d_b s) = HR1 x) \/ (exists x y, s_pc (d_b s) = HR2 x y) -> d_ab s <> [] -> exists x s', step s x = Some s').
  { intros W Z. apply move_b. apply can_read; assumption. }
  destruct (s_pc (d_a s)) as [rest|buf|saw rest buf|saw buf|x y buf|] eqn:PC.
  - right. destruct A as (O & NE & IN). apply move_a, can_write; [left; eauto|].
    apply lens in O. apply (f_equal (@length byte)) in E. rewrite app_length in E. destruct rest; [congruence|]. cbn [length] in O. lia.
  - right. destruct A as (O & IN & T). destruct (d_ba s) as [|c t] eqn:Z; [|apply move_a, can_read; [left; eauto|rewrite Z; discriminate]].
    rewrite app_nil_r in F. apply BW; [|reflexivity]. unfold sinv in B. destruct PA as (z & PA). rewrite app_nil_r, IN in PA. unfold stream in PA. symmetry in PA.
    destruct (take_frame lim_a buf _ z _ RA1 PA) as [(_ & SH)|(r & T' & _)]; [|congruence].
    destruct (s_pc (d_b s)) as [rest|bu|sa rest bu|sa bu|xx yy bu|].
    + left. destruct B as (_ & NE & _). eauto.
    + exfalso. destruct B as (OB & _). rewrite F, IN in OB. rewrite OB in SH. lia.
    + right. destruct B as (_ & _ & NE & _). eauto 6.
    + exfalso. destruct B as (_ & OB & _). rewrite F, IN in OB. apply (f_equal (@length byte)) in OB. rewrite app_length in OB. lia.
    + exfalso. destruct B as (_ & _ & OB & _). rewrite F, IN in OB. apply (f_equal (@length byte)) in OB. rewrite app_length in OB. lia.
    + destruct B.
  - right. destruct A as (-> & (w & FE & O) & NE & IN).
    destruct (Nat.ltb_spec (length (d_ab s)) cap_ab) as [R|R]; [apply move_a, can_write; [right; eauto 6|exact R]|].
    assert (NZ : d_ab s <> []). { intros Z. rewrite Z in R. cbn [length] in R. unfold frame in C1. rewrite app_length, be_encode_length in C1. lia. }
    assert (FL : length (frame (answer a (hello b))) = length w + length rest) by (rewrite FE, app_length; reflexivity).
    assert (RL : 0 < length rest) by (destruct rest; [congruence|cbn; lia]).
    apply (f_equal (@length byte)) in E. rewrite O, !app_length in E.
    unfold sinv in B. destruct (s_pc (d_b s)) as [re|bu|sa re bu|sa bu|xx yy bu|].
    + exfalso. destruct B as (OB & NB & _). rewrite F, IN in OB. apply lens in OB. rewrite !app_length in OB. destruct re; [congruence|]. cbn [length] in OB. lia.
    + apply BR; [left; eauto|exact NZ].
    + exfalso. destruct B as (_ & _ & _ & IB). apply (f_equal (@length byte)) in IB. rewrite app_length in IB. lia.
    + exfalso. destruct B as (_ & _ & IB & _). apply (f_equal (@length byte)) in IB. rewrite app_length in IB. lia.
    + exfalso. destruct B as (_ & _ & _ & IB). apply (f_equal (@length byte)) in IB. rewrite !app_length in IB. lia.
    + destruct B.
  - right. destruct A as (-> & O & IN & T). destruct (d_ba s) as [|c t] eqn:Z; [|apply move_a, can_read; [right; eauto|rewrite Z; discriminate]].
    rewrite app_nil_r in F. destruct PA as (z & PA). rewrite app_nil_r, IN in PA. unfold stream in PA. rewrite <- app_assoc in PA. apply app_inv_head in PA. symmetry in PA.
    assert (SH : length buf < length (frame (answer b (hello a)))).
    { destruct (take_frame lim_a buf (answer b (hello a)) z [] RA2) as [(_ & SH)|(r & T' & _)]; [rewrite app_nil_r; exact PA|exact SH|congruence]. }
    unfold sinv in B. destruct (s_pc (d_b s)) as [re|bu|sa re bu|sa bu|xx yy bu|].
    + apply BW; [|reflexivity]. left. destruct B as (_ & NE & _). eauto.
    + apply BR; [left; eauto|]. intros Y. rewrite Y, app_nil_r in E. destruct B as (_ & IB & TB). rewrite O, IB in E.
      destruct (take_frame lim_b bu (hello a) [] (frame (answer a (hello b))) RB1) as [(_ & S1)|(r & T' & _)]; [rewrite app_nil_r; symmetry; exact E| |congruence].
      apply (f_equal (@length byte)) in E. rewrite app_length in E. lia.
    + apply BW; [|reflexivity]. right. destruct B as (_ & _ & NE & _). eauto 6.
    + exfalso. destruct B as (_ & OB & _). rewrite F, IN in OB. apply app_inv_head in OB. rewrite OB in SH. lia.
    + exfalso. destruct B as (_ & _ & OB & _). rewrite F, IN in OB. apply app_inv_head in OB. rewrite OB in SH. lia.
    + destruct B.
  - destruct A as (-> & -> & O & IN). assert (FL : length (s_out (d_b s)) <= length (stream b a)) by (apply prefix_len; eapply sinv_out; exact B). unfold stream in FL.
    assert (Z : d_ba s = [] /\ buf = [] /\ length (s_out (d_b s)) = length (frame (hello b)) + length (frame (answer b (hello a)))).
    { rewrite F, IN in FL. rewrite !app_length in FL. rewrite F, IN, !app_length. destruct (d_ba s), buf; cbn [length] in *; repeat split; lia. }
    destruct Z as (Z1 & -> & Z2). unfold sinv in B. destruct (s_pc (d_b s)) as [re|bu|sa re bu|sa bu|xx yy bu|] eqn:PB'.
    + exfalso. destruct B as (OB & NB & _). apply lens in OB. destruct (frame_nonempty (answer b (hello a))) as (c & t & FN). rewrite FN in Z2. cbn [length] in Z2. lia.
    + exfalso. destruct B as (OB & _). rewrite OB in Z2. destruct (frame_nonempty (answer b (hello a))) as (c & t & FN). rewrite FN in Z2. cbn [length] in Z2. lia.
    + exfalso. destruct B as (_ & (w & FE & OB) & NB & _). rewrite OB, app_length in Z2. rewrite FE, app_length in Z2. destruct re; [congruence|]. cbn [length] in Z2. lia.
    + right. apply BR; [right; eauto|]. intros Y. rewrite Y, app_nil_r in E. destruct B as (_ & _ & IB & TB). rewrite O, IB in E. apply app_inv_head in E. subst bu.
      destruct (take_frame lim_b (frame (answer a (hello b))) (answer a (hello b)) [] [] RB2 eq_refl) as [(_ & S1)|(r & T' & _)]; [lia|congruence].
    + left. destruct B as (-> & -> & OB & IB). rewrite O, IB in E.
      assert (bu = [] /\ d_ab s = []) as [-> Y].
      { apply (f_equal (@length byte)) in E. rewrite !app_length in E. destruct bu, (d_ab s); cbn [length] in E; split; auto; lia. }
      unfold finished, second_a, second_b. auto.
    + destruct B.
  - destruct A.
Qed.
End Connection.

(** ** Theorems *)
(** Whatever two honest ends do, and in whatever portions their bytes travel: if the connection can hold, in one of its directions, each of the two messages
    of the end that writes to it, then as long as the handshake is not finished at both ends some end can go on; there are at most so many steps as twice the bytes to be
    transferred; so every way of going on ends with both ends finished, each having read the other's messages. *)
Theorem C116_completes : forall a b lim_a lim_b cap_ab cap_ba sched s,
  readable lim_a (hello b) -> readable lim_a (second_b a b) -> readable lim_b (hello a) -> readable lim_b (second_a a b) ->
  (length (frame (hello a)) <= cap_ab /\ length (frame (second_a a b)) <= cap_ab /\ 1 <= cap_ba
   \/ length (frame (hello b)) <= cap_ba /\ length (frame (second_b a b)) <= cap_ba /\ 1 <= cap_ab) ->
  drun a b lim_a lim_b cap_ab cap_ba (d_start a b lim_a lim_b) sched = Some s ->
  (finished a b s \/ exists x s', dstep a b lim_a lim_b cap_ab cap_ba s x = Some s')
  /\ length sched <= 2 * (length (frame (hello a)) + length (frame (second_a a b)) + length (frame (hello b)) + length (frame (second_b a b))).
Proof.
  intros a b lim_a lim_b cap_ab cap_ba sched s RA1 RA2 RB1 RB2 C R.
  destruct (run_dinv a b lim_a lim_b cap_ab cap_ba (conj RA1 RA2) (conj RB1 RB2) _ _ _ (start_dinv a b lim_a lim_b) R) as [I L]. split.
  - destruct C as [(C1 & C2 & C3)|(C1 & C2 & C3)].
    + apply (progress a b lim_a lim_b cap_ab cap_ba); auto.
    + assert (I' : dinv b a lim_b lim_a (mkDup (d_b s) (d_a s) (d_ba s) (d_ab s))) by (destruct I; constructor; assumption).
      destruct (progress b a lim_b lim_a cap_ba cap_ab (conj RB1 RB2) (conj RA1 RA2) _ I' C1 C2 C3) as [(Q1 & Q2 & Q3 & Q4)|(x & s' & H)].
      * left. unfold finished. auto.
      * right. destruct x as [k|k]; cbn in H.
        -- exists (SB k). cbn. destruct (side_step lim_b b k cap_ba (d_b s) (d_ba s) (d_ab s)) as [[[e o] i]|]; [eauto|discriminate].
        -- exists (SA k). cbn. destruct (side_step lim_a a k cap_ab (d_a s) (d_ab s) (d_ba s)) as [[[e o] i]|]; [eauto|discriminate].
  - rewrite owing_start in L. unfold stream in L. rewrite !app_length in L. unfold second_a, second_b. lia.
Qed.

(** What each end takes for the other's messages is never anything else, and neither gives up, whatever the connection holds. *)
Theorem C116_agrees : forall a b lim_a lim_b cap_ab cap_ba sched s,
  readable lim_a (hello b) -> readable lim_a (second_b a b) -> readable lim_b (hello a) -> readable lim_b (second_a a b) ->
  drun a b lim_a lim_b cap_ab cap_ba (d_start a b lim_a lim_b) sched = Some s ->
  s_pc (d_a s) <> HBig /\ s_pc (d_b s) <> HBig
  /\ (forall x y r, s_pc (d_a s) = HFin x y r -> x = hello b /\ y = second_b a b)
  /\ (forall x y r, s_pc (d_b s) = HFin x y r -> x = hello a /\ y = second_a a b).
Proof.
  intros a b lim_a lim_b cap_ab cap_ba sched s RA1 RA2 RB1 RB2 R.
  destruct (run_dinv a b lim_a lim_b cap_ab cap_ba (conj RA1 RA2) (conj RB1 RB2) _ _ _ (start_dinv a b lim_a lim_b) R) as [[A B _ _] _].
  unfold sinv in A, B. repeat split.
  - intros Q. rewrite Q in A. exact A.
  - intros Q. rewrite Q in B. exact B.
  - rewrite H in A. apply A.
  - rewrite H in A. apply A.
  - rewrite H in B. apply B.
  - rewrite H in B. apply B.
Qed.

(** The room is needed: if neither direction can hold the first message, both ends may come to wait for room for ever. *)
Lemma write_all : forall lim p cap, 0 < cap < length (frame (hello p)) -> forall inn,
  side_step lim p cap cap (new_side lim p) [] inn = Some (mkSide (HW1 (skipn cap (frame (hello p)))) (firstn cap (frame (hello p))) [], firstn cap (frame (hello p)), inn).
Proof.
  intros lim p cap C inn. unfold side_step, new_side, after_write1. destruct (frame_nonempty (hello p)) as (c & t & E). rewrite E in *.
  cbn [s_pc s_out s_in]. replace (Nat.min cap (Nat.min (length (c :: t)) (cap - length (@nil byte)))) with cap by (cbn [length] in *; lia).
  destruct (Nat.eqb_spec cap 0) as [Z|_]; [lia|]. destruct (skipn cap (c :: t)) eqn:K; [|reflexivity].
  apply (f_equal (@length byte)) in K. rewrite skipn_length in K. cbn [length] in *. lia.
Qed.
Lemma full_stuck : forall lim p k cap s out inn rest, s_pc s = HW1 rest -> cap <= length out -> side_step lim p k cap s out inn = None.
Proof. intros lim p k cap s out inn rest E L. unfold side_step. rewrite E. replace (Nat.min k (Nat.min (length rest) (cap - length out))) with 0 by lia. reflexivity. Qed.
Theorem C116_room : forall a b lim_a lim_b cap_ab cap_ba, 0 < cap_ab < length (frame (hello a)) -> 0 < cap_ba < length (frame (hello b)) ->
  exists sched s, drun a b lim_a lim_b cap_ab cap_ba (d_start a b lim_a lim_b) sched = Some s /\ ~ finished a b s
    /\ forall x, dstep a b lim_a lim_b cap_ab cap_ba s x = None.
Proof.
  intros a b lim_a lim_b cap_ab cap_ba CA CB. exists [SA cap_ab; SB cap_ba]. cbn [drun dstep d_start d_a d_b d_ab d_ba].
  rewrite (write_all _ _ _ CA). cbn [drun dstep d_a d_b d_ab d_ba]. rewrite (write_all _ _ _ CB). eexists. split; [reflexivity|]. split.
  - intros (Q & _). discriminate.
  - intros [k|k]; cbn [dstep d_a d_b d_ab d_ba].
    + erewrite full_stuck; [reflexivity|reflexivity|]. rewrite firstn_length. lia.
    + erewrite full_stuck; [reflexivity|reflexivity|]. rewrite firstn_length. lia.
Qed.

(** Messages of the sizes that the code sends, answers that depend on what was read, a connection that holds 256 bytes one way and 300 the other. *)
Definition ex_a : party := mkParty (repeat Byte.x61 96) (fun m => firstn 40 m ++ repeat Byte.x62 90).
Definition ex_b : party := mkParty (repeat Byte.x63 96) (fun m => firstn 30 m ++ repeat Byte.x64 102).
Example C116_nonvacuous :
  readable 2048 (hello ex_b) /\ readable 2048 (second_b ex_a ex_b) /\ readable 0 (hello ex_a) /\ readable 0 (second_a ex_a ex_b)
  /\ length (frame (hello ex_a)) <= 256 /\ length (frame (second_a ex_a ex_b)) <= 256
  /\ exists s, drun ex_a ex_b 2048 0 256 300 (d_start ex_a ex_b 2048 0) [SA 60; SB 100; SB 7; SA 500; SA 41; SA 134; SB 500; SB 120; SA 3; SB 500; SA 500; SB 90; SA 500; SB 500] = Some s
       /\ finished ex_a ex_b s.
Proof.
  do 2 (split; [split; [right; vm_compute; discriminate|vm_compute; reflexivity]|]). do 2 (split; [split; [left; reflexivity|vm_compute; reflexivity]|]).
  do 2 (split; [apply Nat.leb_le; vm_compute; reflexivity|]).
  eexists. split; [vm_compute; reflexivity|]. vm_compute. auto.
Qed.

Print Assumptions C116_completes.
Print Assumptions C116_agrees.
Print Assumptions C116_room.
