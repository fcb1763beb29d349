(** * Properties of Find (C24-C26): every schedule of its goroutines, every behaviour of the network. *)
From Verif Require Import Base Spec M_ID M_Binary M_Table P_Binary P_Table M_Iter P_Iter Props_Kad.
From Coq Require Import Permutation.
Local Open Scope nat_scope.

(** [s] is a state that Find(target), run by a node whose routing table is [t], reaches under the schedule [sched]; the
    iterator has [n] disjoint lookups of [k] parallel requests. *)
Definition find_run (t : table) (target : pubkey) (n k : Z) (sched : list iaction) (s : istate) : Prop :=
  exists peers s0, Peers t = Ok peers /\ iter_init (id_key (t_self t)) target peers n k = Ok s0 /\ irun (Z.to_nat k) s0 sched = Some s.
(** Keys asked so far; peers that answered; keys named by their answers. *)
Definition queried (s : istate) : list pubkey := map (fun r => id_key (fst r)) (i_asked s).
Definition answering (s : istate) : list ID := map fst (i_answered s).
Definition named (s : istate) (k : pubkey) : Prop := exists a, In a (i_answered s) /\ In k (map id_key (snd a)).
(** Public keys are [32]byte. *)
Definition replies32 (sched : list iaction) : Prop := forall a, In a sched -> reply_ok (fun id => key32 (id_key id)) a.

Lemma cntp_has_in k l : 0 < cntp (has k) l <-> In k (map id_key l).
Proof.
  induction l as [|a l IH]; [cbn; split; [lia|tauto]|]. rewrite cntp_cons. cbn [map In]. unfold has at 1.
  change (cntp (fun id => bytes_eqb (id_key id) k) l) with (cntp (has k) l).
  destruct (bytes_eqb (id_key a) k) eqn:E; cbn [Nat.b2n].
  - apply bytes_eqb_eq in E. split; [auto|lia].
  - rewrite <- IH. split; [right; lia | intros [C|C]; [|lia]]. subst. rewrite bytes_eqb_refl in E. discriminate.
Qed.
Lemma nodup_cntp l : NoDup (map id_key l) <-> forall k, cntp (has k) l <= 1.
Proof.
  induction l as [|a l IH]; [split; [intros _ k; cbn; lia | intros _; constructor]|]. cbn [map]. split.
  - intros H k. inversion H as [|x y N D E]; subst. rewrite cntp_cons. pose proof (proj1 IH D k) as B.
    destruct (has k a) eqn:Ha; cbn; [|exact B]. apply bytes_eqb_eq in Ha. rewrite <- cntp_has_in, Ha in N. lia.
  - intros H. constructor.
    + intros C. rewrite <- cntp_has_in in C. specialize (H (id_key a)). rewrite cntp_cons in H. 
      assert (E : has (id_key a) a = true) by apply bytes_eqb_refl. rewrite E in H. cbn [Nat.b2n] in H. lia.
    + apply IH. intros k. specialize (H k). rewrite cntp_cons in H. lia.
Qed.

Lemma nodup_incl_map {A B} (f : A -> B) es l : NoDup (map f es) -> NoDup l -> incl l es -> NoDup (map f l).
Proof.
  intros NE NL I. assert (Inj : forall x y, In x es -> In y es -> f x = f y -> x = y).
  { clear NL I. induction es as [|e es IH]; intros x y Hx Hy E; [destruct Hx|]. cbn in NE. inversion NE as [|u v N1 N2]; subst.
    destruct Hx as [->|Hx], Hy as [->|Hy]; auto.
    - exfalso. apply N1. rewrite E. apply in_map. exact Hy.
    - exfalso. apply N1. rewrite <- E. apply in_map. exact Hx. }
  induction l as [|a l IH]; [constructor|]. cbn. inversion NL as [|u v N1 N2]; subst. constructor.
  - intros C. apply in_map_iff in C as (b & E & Hb). apply Inj in E; [subst; contradiction | apply I; right; exact Hb | apply I; left; reflexivity].
  - apply IH; [exact N2 | intros x Hx; apply I; right; exact Hx].
Qed.

Lemma peers_facts self ops t peers : table_of self ops t -> Peers t = Ok peers ->
  t_self t = self /\ NoDup (map id_key peers) /\ ~ In (id_key self) (map id_key peers) /\ forall x, In x peers -> key32 (id_key x).
Proof.
  intros H HP. destruct (table_of_inv self ops t H) as [I Es].
  destruct (Peers_spec t I) as (l & E & (K1 & K2 & K3 & _)). rewrite HP in E. injection E as <-. rewrite Es in K3.
  split; [exact Es|]. split; [|split].
  - apply (nodup_incl_map id_key (concat (t_entries t))); [apply entries_nodup; exact I | exact K2|].
    intros x Hx. apply K3 in Hx. apply filter_In in Hx as [Hx _]. exact Hx.
  - intros C. apply in_map_iff in C as (x & Ex & Hx). apply K3, filter_In in Hx as [_ Hx].
    unfold has_key in Hx. rewrite Ex, bytes_eqb_refl in Hx. discriminate.
  - intros x Hx. apply K3, filter_In in Hx as [Hx _]. apply entries_elem in Hx as [Hx _]; [|exact I]. apply Hx.
Qed.

Lemma init_pend self target peers n k s0 p : iter_init self target peers n k = Ok s0 -> s_pend p s0 = cntp p peers /\ s_flight p s0 = 0 /\
  s_got p s0 = 0 /\ sumf (l_ask p) (i_lookups s0) = 0 /\ sumf (l_res p) (i_lookups s0) = 0.
Proof.
  intros H. destruct (iter_init_inv _ _ _ _ _ _ H) as (Hn & Hv & (bs & El & Lb & Cb) & Er & Ec & Ef & Ed & Ea & Ew).
  unfold s_pend, s_flight, s_got. rewrite El, Ea, Ew, !sumf_map. cbn [map sumf]. rewrite cntp_nil. split; [|split; [|split; [|split]]]; try reflexivity.
  - rewrite <- Cb. unfold l_pend. cbn [l_bucket l_queue plus]. apply sumf_ext. intros x. rewrite cntp_nil. lia.
  - apply sumf_zero. intros b _. unfold l_flight. cbn [l_pc l_outq l_workers pc_ids sumf]. rewrite sumf_repeat. cbn. lia.
  - apply sumf_zero. intros b _. unfold l_ask. cbn [l_workers]. rewrite sumf_repeat. cbn. lia.
  - apply sumf_zero. intros b _. unfold l_res. cbn [l_workers]. rewrite sumf_repeat. cbn. lia.
Qed.

(** The one accounting equation behind C24 and C26. *)
Lemma pend_total t target n k sched s key : find_run t target n k sched s -> forall self ops peers, table_of self ops t -> Peers t = Ok peers ->
  s_pend (has key) s + (if visited (map id_key peers ++ [id_key self; target]) key then 1 else 0) = cntp (has key) peers + vis s key /\
  (visited (map id_key peers ++ [id_key self; target]) key = true -> vis s key = 1).
Proof.
  intros (peers & s0 & EP & EI & ER) self ops peers' T EP'. rewrite EP in EP'. injection EP' as <-.
  destruct (peers_facts self ops t peers T EP) as (Es & Nd & Ns & _). rewrite Es in EI.
  pose proof (run_pend _ _ _ _ key ER) as C. destruct (init_pend _ _ _ _ _ _ (has key) EI) as (P0 & _). rewrite P0 in C.
  destruct (iter_init_inv _ _ _ _ _ _ EI) as (_ & Hv & _).
  assert (V0 : vis s0 key = if visited (map id_key peers ++ [id_key self; target]) key then 1 else 0).
  { unfold vis. destruct (visited (map id_key peers ++ [id_key self; target]) key) eqn:V.
    - apply visited_in in V. rewrite (proj2 (visited_in (i_visited s0) key)); [reflexivity|]. apply Hv. apply in_app_or in V. cbn in V. intuition.
    - destruct (visited (i_visited s0) key) eqn:V'; [|reflexivity]. exfalso. apply visited_in, Hv in V'.
      assert (visited (map id_key peers ++ [id_key self; target]) key = true); [|congruence].
      apply visited_in, in_or_app. cbn. intuition. }
  rewrite <- V0. split; [lia|]. intros V. rewrite V in V0.
  assert (M : forall l x x', irun (Z.to_nat k) x l = Some x' -> vis x key = 1 -> vis x' key = 1).
  { intros l x x' R. apply (irun_inv (Z.to_nat k) (fun y => vis y key = 1) (fun _ => True)) with (l := l); auto.
    intros y a y' St _ E. unfold vis in *. destruct (visited (i_visited y') key) eqn:Z; [reflexivity|].
    destruct (got_step _ _ _ _ key St Z) as [Z' _]. rewrite Z' in E. discriminate. }
  exact (M _ _ _ ER V0).
Qed.

Lemma asked_le t target n k sched s self ops : find_run t target n k sched s -> table_of self ops t ->
  (forall key, s_pend (has key) s <= 1) /\ s_pend (has (id_key self)) s = 0.
Proof.
  intros R T. pose proof R as (peers & s0 & EP & EI & ER). destruct (peers_facts self ops t peers T EP) as (Es & Nd & Ns & _).
  split.
  - intros key. destruct (pend_total _ _ _ _ _ _ key R self ops peers T EP) as [E V].
    pose proof (proj1 (nodup_cntp peers) Nd key) as B. assert (V1 : vis s key <= 1) by (unfold vis; destruct (visited (i_visited s) key); cbn; lia).
    destruct (visited (map id_key peers ++ [id_key self; target]) key) eqn:W; [specialize (V eq_refl); lia|].
    assert (Z : cntp (has key) peers = 0).
    { destruct (cntp (has key) peers) eqn:Z; [reflexivity|]. assert (I : In key (map id_key peers)) by (apply cntp_has_in; lia).
      assert (X : visited (map id_key peers ++ [id_key self; target]) key = true) by (apply visited_in, in_or_app; auto). congruence. }
    lia.
  - destruct (pend_total _ _ _ _ _ _ (id_key self) R self ops peers T EP) as [E V].
    assert (W : visited (map id_key peers ++ [id_key self; target]) (id_key self) = true) by (apply visited_in, in_or_app; cbn; auto).
    rewrite W in E. specialize (V W). rewrite <- cntp_has_in in Ns. lia.
Qed.

(** ** C24 *)

(** No key is asked twice and the node never asks itself. *)
Theorem C24_queries : forall self ops t target n k sched s, table_of self ops t -> find_run t target n k sched s ->
  NoDup (queried s) /\ ~ In (id_key self) (queried s).
Proof.
  intros self ops t target n k sched s T R. destruct (asked_le _ _ _ _ _ _ self ops R T) as [A B].
  unfold queried. rewrite <- (map_map fst id_key). split.
  - apply nodup_cntp. intros key. specialize (A key). unfold s_pend in A. lia.
  - rewrite <- cntp_has_in. unfold s_pend in B. lia.
Qed.
Print Assumptions C24_queries.

Lemma answered_le t target n k sched s : find_run t target n k sched s -> forall p,
  cntp p (answering s) <= cntp p (map fst (i_asked s)) /\
  cntp p (i_found s) + cntp p (i_results s) + sumf (l_res p) (i_lookups s) = cntp p (answering s).
Proof.
  intros (peers & s0 & EP & EI & ER) p. unfold answering.
  destruct (iter_init_inv _ _ _ _ _ _ EI) as (Hn & Hv & _ & Er & Ec & Ef & Ed & Ea & Ew).
  destruct (init_pend _ _ _ _ _ _ p EI) as (P0 & P1 & P2 & P3 & P4). split.
  - enough (cntp p (map fst (i_answered s)) + sumf (l_ask p) (i_lookups s) <= cntp p (map fst (i_asked s))) by lia.
    refine (irun_inv _ (fun s => cntp p (map fst (i_answered s)) + sumf (l_ask p) (i_lookups s) <= cntp p (map fst (i_asked s))) (fun _ => True) _ _ _ _ ER (fun _ _ => Logic.I) _).
    + intros x a x' St _. exact (asked_answered_step _ _ _ _ p St).
    + rewrite P3, Ew. cbn. lia.
  - refine (irun_inv _ (fun s => cntp p (i_found s) + cntp p (i_results s) + sumf (l_res p) (i_lookups s) = cntp p (map fst (i_answered s))) (fun _ => True) _ _ _ _ ER (fun _ _ => Logic.I) _).
    + intros x a x' St _. exact (found_step _ _ _ _ p St).
    + rewrite P4, Ew, Er, Ef. reflexivity.
Qed.

Lemma exits_all ws : exits ws = length ws -> forall w, In w ws -> w = WExit.
Proof.
  intros E w Hw. apply In_nth_error in Hw as (j & N). destruct (is_exit w) eqn:X; [destruct w; try discriminate; reflexivity|].
  pose proof (exits_lt _ _ _ N X). lia.
Qed.

Lemma done_facts k s : sok k s -> i_done s = true -> i_results s = [] /\
  (forall p, sumf (l_res p) (i_lookups s) = 0) /\ (forall p, s_flight p s = 0) /\
  (0 < k -> forall p, sumf (l_pend p) (i_lookups s) = 0).
Proof.
  intros (I1 & I2 & I3) D. destruct (I3 D) as [C R]. specialize (I2 C). rewrite forallb_forall in I2. split; [exact R|].
  assert (F : forall l, In l (i_lookups s) -> lok k l /\ l_pc l = LDone /\ (forall w, In w (l_workers l) -> w = WExit) /\ l_queue l = [] /\ l_outq l = [] /\ (0 < k -> l_bucket l = [])).
  { intros l Hl. pose proof (I2 l Hl) as X. apply In_nth_error in Hl as (i & N). pose proof (I1 i l N) as L. unfold is_ldone in X.
    assert (P : l_pc l = LDone) by (destruct (l_pc l); try discriminate; reflexivity). split; [exact L|]. split; [exact P|].
    destruct L as [L1 L2 L3 L4 L5 L6 L7]. rewrite P in *. destruct (L5 eq_refl) as [Z B]. specialize (L7 eq_refl).
    split; [apply exits_all; congruence|]. destruct (l_queue l), (l_outq l); cbn in L3; try lia. auto. }
  split; [|split].
  - intros p. apply sumf_zero. intros l Hl. destruct (F l Hl) as (_ & _ & W & _). apply sumf_zero. intros w Hw. rewrite (W w Hw). reflexivity.
  - intros p. apply sumf_zero. intros l Hl. destruct (F l Hl) as (_ & P & W & _ & O & _). unfold l_flight. rewrite P, O. cbn [pc_ids sumf]. rewrite cntp_nil.
    cbn [plus]. apply sumf_zero. intros w Hw. rewrite (W w Hw). reflexivity.
  - intros Hk p. apply sumf_zero. intros l Hl. destruct (F l Hl) as (_ & _ & _ & Q & _ & B). unfold l_pend. rewrite Q, (B Hk). reflexivity.
Qed.

Lemma run_sok' t target n k sched s : find_run t target n k sched s -> sok (Z.to_nat k) s.
Proof. intros (peers & s0 & EP & EI & ER). exact (run_sok _ _ _ _ ER (init_sok _ _ _ _ _ _ EI)). Qed.

Lemma cntp_count_occ x l : cntp (fun y => if id_eq_dec y x then true else false) l = count_occ id_eq_dec l x.
Proof. induction l as [|a l IH]; [reflexivity|]. rewrite cntp_cons, IH. cbn. destruct (id_eq_dec a x); reflexivity. Qed.

Lemma found_perm t target n k sched s : find_run t target n k sched s -> i_done s = true -> Permutation (i_found s) (answering s).
Proof.
  intros R D. destruct (done_facts _ _ (run_sok' _ _ _ _ _ _ R) D) as (E & L & _).
  apply (Permutation_count_occ id_eq_dec). intros x. rewrite <- !cntp_count_occ.
  destruct (answered_le _ _ _ _ _ _ R (fun y => if id_eq_dec y x then true else false)) as [_ X].
  rewrite E, L, cntp_nil in X. lia.
Qed.

Lemma nodup_map_inv {A B} (f : A -> B) l : NoDup (map f l) -> NoDup l.
Proof. apply NoDup_map_inv. Qed.

Lemma run_zero t target n k sched s p : find_run t target n k sched s -> (forall peers, Peers t = Ok peers -> cntp p peers = 0) ->
  (forall a, In a sched -> reply_ok (fun id => p id = false) a) -> s_pend p s = 0 /\ s_flight p s = 0.
Proof.
  intros (peers & s0 & EP & EI & ER) Z Q. destruct (init_pend _ _ _ _ _ _ p EI) as (P0 & P1 & _).
  refine (irun_inv _ (fun s => s_pend p s = 0 /\ s_flight p s = 0) (reply_ok (fun id => p id = false)) _ _ _ _ ER Q _).
  - intros x a x' St R [A B]. exact (zero_step _ _ _ _ p St R A B).
  - split; [rewrite P0; exact (Z _ EP) | exact P1].
Qed.

Lemma answering32 self ops t target n k sched s : table_of self ops t -> find_run t target n k sched s -> replies32 sched ->
  forall x, In x (answering s) -> key32 (id_key x).
Proof.
  intros T R Q. set (p := fun id : ID => negb (length (id_key id) =? 32)).
  assert (Hp : forall id, p id = false <-> key32 (id_key id)).
  { intros id. unfold p, key32. rewrite negb_false_iff, Nat.eqb_eq. reflexivity. }
  destruct (run_zero _ _ _ _ _ _ p R) as [A _].
  - intros peers EP. destruct (peers_facts self ops t peers T EP) as (_ & _ & _ & K). apply cntp_zero. intros x Hx. apply Hp, K, Hx.
  - intros a Ha. specialize (Q a Ha). destruct a; try exact Logic.I. cbn in *. destruct r; [|exact Logic.I]. intros id Hid. apply Hp, Q, Hid.
  - destruct (answered_le _ _ _ _ _ _ R p) as [X _]. unfold s_pend in A. assert (Z : cntp p (answering s) = 0) by lia.
    rewrite cntp_zero in Z. intros x Hx. apply Hp, Z, Hx.
Qed.

(** What Find returns once its loop has ended: for a non-negative maximum, the maxNumResults peers nearest to the target among
    exactly those that answered (all of them if fewer), nearest first, with pairwise distinct keys. *)
Theorem C24_result : forall self ops t target n k max sched s, table_of self ops t -> key32 target ->
  find_run t target n k sched s -> replies32 sched -> i_done s = true -> (0 <= max)%Z ->
  exists l, find_result target max (i_found s) = Ok l /\
    k_smallest (fun e => dist (id_key e) target) (Z.to_nat max) (answering s) l /\ NoDup (map id_key l) /\
    incl (map id_key l) (queried s).
Proof.
  intros self ops t target n k max sched s T Kt R Q D Hm.
  pose proof (found_perm _ _ _ _ _ _ R D) as PF. pose proof (answering32 _ _ _ _ _ _ _ _ T R Q) as K32.
  destruct (C24_queries self ops t target n k sched s T R) as [NQ _].
  assert (NA : NoDup (map id_key (answering s))).
  { apply nodup_cntp. intros key. destruct (answered_le _ _ _ _ _ _ R (has key)) as [X _].
    unfold queried in NQ. rewrite <- (map_map fst id_key) in NQ. pose proof (proj1 (nodup_cntp _) NQ key). lia. }
  assert (IQ : incl (map id_key (answering s)) (queried s)).
  { intros key Hk. unfold queried. rewrite <- (map_map fst id_key). apply cntp_has_in. apply cntp_has_in in Hk.
    destruct (answered_le _ _ _ _ _ _ R (has key)) as [X _]. lia. }
  assert (L32 : forall x, In x (i_found s) -> length (id_key x) = length target).
  { intros x Hx. rewrite (K32 x (Permutation_in _ PF Hx)). symmetry. exact Kt. }
  destruct (C14_sort target (i_found s) L32) as [P1 S1].
  assert (P2 : Permutation (answering s) (SortByDistance target (i_found s))) by (transitivity (i_found s); [symmetry; exact PF | exact P1]).
  assert (KS : k_smallest (fun e => dist (id_key e) target) (Z.to_nat max) (answering s) (firstn (Z.to_nat max) (SortByDistance target (i_found s)))).
  { apply k_smallest_firstn; [exact P2 | exact (nodup_map_inv id_key _ NA) | exact S1]. }
  assert (FIN : exists l, find_result target max (i_found s) = Ok l /\ l = firstn (Z.to_nat max) (SortByDistance target (i_found s))).
  { unfold find_result. destruct (max <? Z.of_nat (length (SortByDistance target (i_found s))))%Z eqn:B.
    - destruct (Z.ltb_spec max 0); [lia|]. apply Z.ltb_lt in B. rewrite slice_to_ok by lia. eauto.
    - apply Z.ltb_ge in B. eexists. split; [reflexivity|]. symmetry. apply firstn_all2. lia. }
  destruct FIN as (l & E & ->). eexists. split; [exact E|]. split; [exact KS|]. destruct KS as (_ & N1 & I1 & _).
  split; [exact (nodup_incl_map id_key (answering s) _ NA N1 I1)|].
  intros key Hk. apply IQ. apply in_map_iff in Hk as (x & <- & Hx). apply in_map, I1, Hx.
Qed.
Print Assumptions C24_result.

(** Nobody is forgotten: when Find's loop has ended and requests were allowed at all, every key among the node's own nearest
    peers, and every key named in an answer, has been asked, except itself and the target. *)
Theorem C24_exhaustive : forall self ops t target n k sched s peers, table_of self ops t -> find_run t target n k sched s ->
  Peers t = Ok peers -> i_done s = true -> (0 < k)%Z ->
  (forall id, In id peers -> In (id_key id) (queried s)) /\
  (forall key, named s key -> key <> id_key self -> key <> target -> In key (queried s)).
Proof.
  intros self ops t target n k sched s peers T R EP D Hk.
  destruct (done_facts _ _ (run_sok' _ _ _ _ _ _ R) D) as (E & L & Fl & Pd). specialize (Pd ltac:(lia)).
  assert (Conv : forall key, 0 < s_pend (has key) s -> In key (queried s)).
  { intros key H. unfold s_pend in H. rewrite Pd in H. unfold queried. rewrite <- (map_map fst id_key). apply cntp_has_in. lia. }
  split.
  - intros id Hid. apply Conv. destruct (pend_total _ _ _ _ _ _ (id_key id) R self ops peers T EP) as [X V].
    assert (W : visited (map id_key peers ++ [id_key self; target]) (id_key id) = true) by (apply visited_in, in_or_app; left; apply in_map, Hid).
    rewrite W in X. specialize (V W). assert (0 < cntp (has (id_key id)) peers) by (apply cntp_has_in, in_map, Hid). lia.
  - intros key (a & Ha & Hn) N1 N2. apply Conv. destruct (pend_total _ _ _ _ _ _ key R self ops peers T EP) as [X V].
    assert (V1 : vis s key = 1).
    { unfold vis. destruct (visited (i_visited s) key) eqn:Z; [reflexivity|]. exfalso.
      destruct R as (peers' & s0 & EP' & EI & ER).
      assert (G : visited (i_visited s) key = false -> s_got (has key) s = s_flight (has key) s).
      { refine (irun_inv _ (fun s => visited (i_visited s) key = false -> s_got (has key) s = s_flight (has key) s) (fun _ => True) _ _ _ _ ER (fun _ _ => Logic.I) _).
        - intros x b x' St _ IH Zx. destruct (got_step _ _ _ _ key St Zx) as [Zy Eq]. specialize (IH Zy). lia.
        - intros _. destruct (init_pend _ _ _ _ _ _ (has key) EI) as (_ & P1 & P2 & _). congruence. }
      specialize (G Z). rewrite Fl in G. unfold s_got in G. apply In_nth_error in Ha as (i & Ni).
      pose proof (sumf_le (fun a => cntp (has key) (snd a)) _ _ _ Ni) as LE. apply cntp_has_in in Hn. cbn in LE. lia. }
    destruct (visited (map id_key peers ++ [id_key self; target]) key) eqn:W; [|lia].
    apply visited_in, in_app_or in W. destruct W as [W|W].
    + apply cntp_has_in in W. lia.
    + cbn in W. exfalso. destruct W as [W|[W|[]]]; [apply N1 | apply N2]; congruence.
Qed.
Print Assumptions C24_exhaustive.

(** Option values that make Find panic. *)
Theorem C24_options : forall self target peers n k,
  (iter_init self target peers n k = Panic <-> (n < 0 \/ (n = 0 /\ peers <> []) \/ (0 < n /\ k < 0))%Z) /\
  (forall max found, find_result target max found = Panic <-> (max < 0)%Z).
Proof.
  intros self target peers n k. split.
  - unfold iter_init. destruct (Z.ltb_spec n 0); [split; [intros _; lia | reflexivity]|].
    destruct (Z.ltb_spec k 0).
    + destruct (Z.eqb_spec n 0) as [->|Hn]; [|split; [intros _; right; right; lia | reflexivity]].
      destruct peers; split; intros X; try discriminate; try reflexivity.
      * exfalso. destruct X as [X|[[_ X]|X]]; [lia | apply X; reflexivity | lia].
      * right. left. split; [reflexivity|discriminate].
    + destruct (Z.to_nat n) eqn:En.
      * assert (n = 0%Z) as -> by lia. destruct peers; split; intros X; try discriminate; try reflexivity.
        -- exfalso. destruct X as [X|[[_ X]|X]]; [lia | apply X; reflexivity | lia].
        -- right. left. split; [reflexivity|discriminate].
      * split; [discriminate|]. intros X. exfalso. destruct X as [X|[[X _]|X]]; lia.
  - intros max found. unfold find_result. destruct (Z.ltb_spec max (Z.of_nat (length (SortByDistance target found)))).
    + destruct (Z.ltb_spec max 0); [split; auto|]. rewrite slice_to_ok by lia. split; [discriminate|lia].
    + split; [discriminate|lia].
Qed.
Print Assumptions C24_options.

(** ** Example runs: a scheduler that always takes the first enabled action, against a network given as a function. *)
Definition acts (s : istate) : list iaction :=
  flat_map (fun i => [AFill i; ARecv i; AMerge i; AJoin i] ++
    flat_map (fun j => [ATake i j; AExit i j; APub i j; APut i j]) (seq 0 (length (l_workers (nth i (i_lookups s) (mkL LDone [] [] [] 0 []))))))
    (seq 0 (length (i_lookups s))) ++ [ACollect; ACloseResults; AFindEnd].
Definition asks (s : istate) : list (nat * nat * ID) :=
  flat_map (fun i => flat_map (fun j => match nth_error (l_workers (nth i (i_lookups s) (mkL LDone [] [] [] 0 []))) j with Some (WAsk id) => [(i, j, id)] | _ => [] end)
    (seq 0 (length (l_workers (nth i (i_lookups s) (mkL LDone [] [] [] 0 [])))))) (seq 0 (length (i_lookups s))).
Definition enabled (k : nat) (s : istate) (a : iaction) : bool := match istep k s a with Some _ => true | None => false end.
Fixpoint drive (fuel k : nat) (net : ID -> option (list ID)) (s : istate) : list iaction :=
  match fuel with
  | O => []
  | S f => match find (enabled k s) (acts s ++ map (fun q => AReply (fst (fst q)) (snd (fst q)) (net (snd q))) (asks s)) with
           | Some a => match istep k s a with Some s' => a :: drive f k net s' | None => [] end
           | None => []
           end
  end.

(** Four peers known, one of which never answers; the others name new peers, the asker, themselves and each other. *)
Definition it_table : table := mk_table (ex_id 1 1) [OpUpdate (ex_id 4 4); OpUpdate (ex_id 5 5); OpUpdate (ex_id 6 6); OpUpdate (ex_id 7 7)].
Definition it_net (id : ID) : option (list ID) :=
  if has (ex_key 4 4) id then None
  else Some [ex_id 8 8; ex_id 1 1; id; ex_id 5 5; ex_id 9 9; ex_id 5 6].
Definition it_target : pubkey := ex_key 9 9.
Definition it_start (n k : Z) : istate :=
  match Peers it_table with
  | Ok peers => match iter_init (id_key (t_self it_table)) it_target peers n k with Ok s => s | _ => mkI [] [] [] false [] false [] [] end
  | _ => mkI [] [] [] false [] false [] []
  end.
Definition it_sched (n k : Z) : list iaction := drive 200 (Z.to_nat k) it_net (it_start n k).
Definition it_end (n k : Z) : istate := match irun (Z.to_nat k) (it_start n k) (it_sched n k) with Some s => s | None => it_start n k end.

Lemma iter_init_no_err self target peers n k e : iter_init self target peers n k <> Err e.
Proof. unfold iter_init. repeat (match goal with |- context [match ?x with _ => _ end] => destruct x end; try discriminate). Qed.

Lemma it_run n k : (exists peers s0, Peers it_table = Ok peers /\ iter_init (id_key (t_self it_table)) it_target peers n k = Ok s0 /\ it_start n k = s0) ->
  irun (Z.to_nat k) (it_start n k) (it_sched n k) <> None -> find_run it_table it_target n k (it_sched n k) (it_end n k).
Proof.
  intros (peers & s0 & E1 & E2 & E3) R. exists peers, s0. split; [exact E1|]. split; [exact E2|].
  unfold it_end. rewrite <- E3. destruct (irun (Z.to_nat k) (it_start n k) (it_sched n k)); [reflexivity|contradiction].
Qed.

Lemma it_table_of : table_of (ex_id 1 1) [OpUpdate (ex_id 4 4); OpUpdate (ex_id 5 5); OpUpdate (ex_id 6 6); OpUpdate (ex_id 7 7)] it_table.
Proof. apply mk_table_of; [reflexivity | repeat constructor]. Qed.

Lemma it_find_run : find_run it_table it_target 2 3 (it_sched 2 3) (it_end 2 3).
Proof.
  apply it_run; [|vm_compute; discriminate]. unfold it_start. destruct (Peers it_table) as [peers| |] eqn:E; [|vm_compute in E; discriminate..].
  exists peers. destruct (iter_init (id_key (t_self it_table)) it_target peers 2 3) as [s0| |] eqn:E2.
  - exists s0. auto.
  - exfalso. revert E2. apply iter_init_no_err.
  - exfalso. apply C24_options in E2. lia.
Qed.

Example C24_nonvacuous :
  table_of (ex_id 1 1) [OpUpdate (ex_id 4 4); OpUpdate (ex_id 5 5); OpUpdate (ex_id 6 6); OpUpdate (ex_id 7 7)] it_table /\
  find_run it_table it_target 2 3 (it_sched 2 3) (it_end 2 3) /\ replies32 (it_sched 2 3) /\ i_done (it_end 2 3) = true /\
  length (queried (it_end 2 3)) = 6 /\ length (answering (it_end 2 3)) = 5 /\
  find_result it_target 3 (i_found (it_end 2 3)) = Ok [ex_id 8 8; ex_id 5 5; ex_id 5 6].
Proof.
  split; [exact it_table_of|]. split; [exact it_find_run|]. split.
  - intros a Ha. assert (F : forallb (fun a => match a with AReply _ _ (Some ids) => forallb (fun id => length (id_key id) =? 32) ids | _ => true end) (it_sched 2 3) = true)
      by (vm_compute; reflexivity).
    rewrite forallb_forall in F. specialize (F a Ha). clear Ha. destruct a; try exact Logic.I. cbn [reply_ok]. destruct r; [|exact Logic.I].
    rewrite forallb_forall in F. intros id Hid. apply Nat.eqb_eq, F, Hid.
  - vm_compute. auto.
Qed.

(** ** C25 *)

Lemma progress' k s : sok k s -> i_done s = false -> exists a s', istep k s a = Some s' /\ forall i j ids, a <> AReply i j (Some ids).
Proof.
  intros I D. destruct (progress k s I D) as (a & s' & St & Q).
  destruct a as [i|i|i|i|i j|i j|i j r|i j|i j| | |]; try (eexists; exists s'; split; [exact St | intros; discriminate]).
  destruct r as [ids|]; [|exists (AReply i j None), s'; split; [exact St | intros; discriminate]].
  cbn [istep] in St. destruct (nth_error (i_lookups s) i) as [l|] eqn:N; [|discriminate].
  destruct (nth_error (l_workers l) j) as [w|] eqn:Nw; [|discriminate]. destruct w; try discriminate.
  exists (AReply i j None). cbn [istep]. rewrite N, Nw. eexists. split; [reflexivity | intros; discriminate].
Qed.

(** While Find's loop has not ended, some goroutine can take a step that does not depend on any answer from the network. *)
Theorem C25_progress : forall t target n k sched s, find_run t target n k sched s -> i_done s = false ->
  exists a s', istep (Z.to_nat k) s a = Some s' /\ forall i j ids, a <> AReply i j (Some ids).
Proof. intros t target n k sched s R D. exact (progress' _ _ (run_sok' _ _ _ _ _ _ R) D). Qed.
Print Assumptions C25_progress.

Lemma run_mu U k l : forall s s', irun k s l = Some s' -> s_pend (outside U) s = 0 -> s_flight (outside U) s = 0 ->
  (forall a, In a l -> reply_ok (fun id => outside U id = false) a) -> length l + mu U s' <= mu U s.
Proof.
  induction l as [|a l IH]; intros s s' H P F Q; cbn in H; [injection H as ->; cbn [length]; lia|].
  destruct (istep k s a) as [s1|] eqn:E; [|discriminate]. pose proof (mu_step U _ _ _ _ E F) as M.
  destruct (zero_step _ _ _ _ _ E (Q a (or_introl eq_refl)) P F) as [P1 F1].
  specialize (IH s1 s' H P1 F1 (fun x Hx => Q x (or_intror Hx))). cbn [length]. lia.
Qed.

(** Number of steps: bounded by the keys mentioned, whatever the schedule. *)
Theorem C25_bound : forall t target n k sched s U peers, find_run t target n k sched s -> Peers t = Ok peers ->
  (forall id, In id peers -> In (id_key id) U) ->
  (forall a, In a sched -> reply_ok (fun id => In (id_key id) U) a) ->
  length sched <= 10 * length U + 9 * length peers + Z.to_nat n * (2 + Z.to_nat k) + 2.
Proof.
  intros t target n k sched s U peers (peers' & s0 & EP & EI & ER) EP' HU Q. rewrite EP in EP'. injection EP' as ->.
  assert (Ho : forall id, outside U id = false <-> In (id_key id) U).
  { intros id. unfold outside. rewrite negb_false_iff. apply (visited_in U). }
  destruct (init_pend _ _ _ _ _ _ (outside U) EI) as (P0 & F0 & _).
  assert (L : length sched + mu U s <= mu U s0).
  { apply (run_mu U (Z.to_nat k)); [exact ER | | exact F0 |].
    - rewrite P0. apply cntp_zero. intros x Hx. apply Ho, HU, Hx.
    - intros a Ha. specialize (Q a Ha). destruct a; try exact Logic.I. cbn in *. destruct r; [|exact Logic.I]. intros id Hid. apply Ho, Q, Hid. }
  destruct (iter_init_inv _ _ _ _ _ _ EI) as (Hn & Hv & (bs & El & Lb & Cb) & Er & Ec & Ef & Ed & Ea & Ew).
  unfold mu at 2 in L. rewrite El, Er, Ec, Ed, sumf_map in L. cbn [negb Nat.b2n length] in L.
  assert (B : sumf (fun b => mu_l (mkL LFill b [] [] 0 (repeat WIdle (Z.to_nat k)))) bs = 9 * length peers + Z.to_nat n * (2 + Z.to_nat k)).
  { rewrite <- Lb, <- (cntp_true peers), <- Cb. clear. induction bs as [|b bs IH]; [cbn; lia|]. cbn [sumf length]. rewrite IH, cntp_true.
    unfold mu_l. cbn [l_pc l_bucket l_queue l_outq l_workers mu_c length]. rewrite sumf_repeat. cbn [mu_w]. lia. }
  assert (V : unv U (i_visited s0) <= length U) by (unfold unv; clear; induction U as [|u U IH]; cbn; [lia|]; destruct (negb _); cbn; lia).
  lia.
Qed.
Print Assumptions C25_bound.

(** There are finitely many 32-byte keys, so no network, however hostile, makes Find run forever. *)
Fixpoint all_keys (n : nat) : list bytes :=
  match n with O => [[]] | S n' => flat_map (fun k => map (fun i => n2b (N.of_nat i) :: k) (seq 0 256)) (all_keys n') end.
Lemma all_keys_in n : forall k, length k = n -> In k (all_keys n).
Proof.
  induction n as [|n IH]; intros k L.
  - destruct k; [left; reflexivity|discriminate].
  - destruct k as [|b k]; [discriminate|]. cbn [all_keys]. apply in_flat_map. exists k. split; [apply IH; cbn in L; lia|].
    apply in_map_iff. exists (N.to_nat (b2n b)). rewrite N2Nat.id. split; [rewrite n2b_b2n; reflexivity|].
    apply in_seq. pose proof (b2n_bound b). lia.
Qed.

Theorem C25_terminates : forall self ops t target n k, table_of self ops t ->
  exists bound, forall sched s, find_run t target n k sched s -> replies32 sched -> length sched <= bound.
Proof.
  intros self ops t target n k T. destruct (C15_structure self ops t T) as (es & _ & _ & _ & _ & _ & _ & _ & _ & _ & (peers & EP)).
  exists (10 * length (all_keys 32) + 9 * length peers + Z.to_nat n * (2 + Z.to_nat k) + 2). intros sched s R Q.
  apply (C25_bound t target n k sched s (all_keys 32) peers R EP).
  - intros id Hid. destruct (peers_facts self ops t peers T EP) as (_ & _ & _ & K). apply all_keys_in, K, Hid.
  - intros a Ha. specialize (Q a Ha). destruct a; try exact Logic.I. cbn [reply_ok] in *. destruct r; [|exact Logic.I]. intros id Hid. apply all_keys_in, Q, Hid.
Qed.
Print Assumptions C25_terminates.

(** ** C26 *)

(** As documented: peers are asked about the target, and the target is found when an answer names it. *)
Definition C26_statement : Prop := forall self ops t target n k sched s, table_of self ops t -> key32 target -> find_run t target n k sched s -> replies32 sched ->
  (forall id tgt, In (id, tgt) (i_asked s) -> tgt = target) /\
  (i_done s = true -> (0 < k)%Z -> named s target -> target <> id_key self -> In target (queried s)).

(** Every request asks a peer about that peer's own key... *)
Theorem C26_asks_own_key : forall t target n k sched s, find_run t target n k sched s ->
  forall id tgt, In (id, tgt) (i_asked s) -> tgt = id_key id.
Proof.
  intros t target n k sched s (peers & s0 & EP & EI & ER).
  refine (irun_inv _ (fun s => forall id tgt, In (id, tgt) (i_asked s) -> tgt = id_key id) (fun _ => True) _ _ _ _ ER (fun _ _ => Logic.I) _).
  - intros x a x' St _ IH. step_cases St; prep; try exact IH. intros id tgt [E|H]; [congruence | exact (IH _ _ H)].
  - destruct (iter_init_inv _ _ _ _ _ _ EI) as (_ & _ & _ & _ & _ & _ & _ & Ea & _). rewrite Ea. intros id tgt [].
Qed.
Print Assumptions C26_asks_own_key.

(** ... and a target outside the node's own nearest peers is never asked, hence never returned, whoever names it. *)
Theorem C26_target_never_found : forall self ops t target n k sched s peers, table_of self ops t -> find_run t target n k sched s -> Peers t = Ok peers ->
  ~ In target (map id_key peers) -> ~ In target (queried s) /\ ~ In target (map id_key (i_found s)).
Proof.
  intros self ops t target n k sched s peers T R EP N.
  destruct (pend_total _ _ _ _ _ _ target R self ops peers T EP) as [E V].
  assert (W : visited (map id_key peers ++ [id_key self; target]) target = true) by (apply visited_in, in_or_app; cbn; auto).
  rewrite W in E. specialize (V W). rewrite <- cntp_has_in in N. unfold s_pend in E.
  destruct (answered_le _ _ _ _ _ _ R (has target)) as [X Y].
  unfold queried. rewrite <- (map_map fst id_key), <- !cntp_has_in. lia.
Qed.
Print Assumptions C26_target_never_found.

Theorem C26_refuted : ~ C26_statement.
Proof.
  intros H. destruct C24_nonvacuous as (T & R & Q & D & _).
  destruct (H _ _ _ _ _ _ _ _ T (eq_refl : key32 it_target) R Q) as [_ B].
  destruct (Peers it_table) as [peers| |] eqn:E; [|vm_compute in E; discriminate..].
  destruct (C26_target_never_found _ _ _ _ _ _ _ _ peers T R E) as [C _].
  - assert (F : match Peers it_table with Ok peers => forallb (fun x => negb (bytes_eqb it_target (id_key x))) peers | _ => false end = true) by (vm_compute; reflexivity).
    rewrite E, forallb_forall in F. intros X. apply in_map_iff in X as (x & Ex & Hx). specialize (F x Hx). rewrite Ex, bytes_eqb_refl in F. discriminate.
  - apply C. apply B; [exact D | lia | | vm_compute; discriminate].
    assert (F : existsb (fun a => existsb (bytes_eqb it_target) (map id_key (snd a))) (i_answered (it_end 2 3)) = true) by (vm_compute; reflexivity).
    apply existsb_exists in F as (a & Ha & Hx). apply existsb_exists in Hx as (x & Hx & Ex). apply bytes_eqb_eq in Ex. subst x. exists a. split; [exact Ha | exact Hx].
Qed.
Print Assumptions C26_refuted.

(** What does hold: a target among the node's nearest peers is asked, and if it answers it heads the result. *)
Theorem C26_partial : forall self ops t target n k max sched s peers, table_of self ops t -> key32 target -> find_run t target n k sched s -> replies32 sched ->
  Peers t = Ok peers -> In target (map id_key peers) -> i_done s = true -> (0 < k)%Z -> (0 < max)%Z ->
  In target (queried s) /\
  (In target (map id_key (answering s)) -> exists x r, find_result target max (i_found s) = Ok (x :: r) /\ id_key x = target).
Proof.
  intros self ops t target n k max sched s peers T Kt R Q EP HI D Hk Hm. split.
  - apply in_map_iff in HI as (x & <- & Hx). destruct (C24_exhaustive _ _ _ _ _ _ _ _ _ T R EP D Hk) as [A _]. apply A, Hx.
  - intros HA. apply in_map_iff in HA as (y & Ey & Hy).
    destruct (C24_result self ops t target n k max sched s T Kt R Q D ltac:(lia)) as (l & E & (KL & KN & KI & KS & KF) & ND & _).
    pose proof (answering32 _ _ _ _ _ _ _ _ T R Q) as K32.
    destruct l as [|x r].
    + exfalso. destruct (answering s); [destruct Hy|]. cbn in KL. destruct (Z.to_nat max) eqn:Z; [lia|]. discriminate.
    + exists x, r. split; [exact E|].
      assert (Dy : dist (id_key y) target = 0%N) by (apply dist_zero; [rewrite Ey; reflexivity | exact Ey]).
      assert (Kx : key32 (id_key x)) by (apply K32, KI; left; reflexivity).
      apply dist_zero; [unfold key32 in *; congruence|].
      assert (LE : (dist (id_key x) target <= dist (id_key y) target)%N); [|lia].
      destruct (in_dec id_eq_dec y (x :: r)) as [I|N].
      * destruct I as [->|I]; [lia|]. inversion KS as [|u v HU HV]; subst. exact (HU y I).
      * apply KF; [left; reflexivity | exact Hy | exact N].
Qed.
Print Assumptions C26_partial.

Example C26_nonvacuous : In (ex_key 7 7) (map id_key (match Peers it_table with Ok l => l | _ => [] end)) /\ In (ex_key 7 7) (map id_key (answering (it_end 2 3))).
Proof. vm_compute. tauto. Qed.
