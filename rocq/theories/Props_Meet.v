(** * C110: nodes that have pinged each other discover each other *)
From Verif Require Import Base Spec M_ID M_Binary M_Table P_Binary P_Table P_Kad M_Iter P_Iter Props_Kad Props_Iter Props_Discover M_Meet.
From Coq Require Import Permutation.
Local Open Scope nat_scope.

(** ** The claim *)

(** At most sixteen nodes, each with a public key of its own. *)
Definition net (U : list ID) : Prop :=
  NoDup (map id_key U) /\ (forall e, In e U -> key32 (id_key e) /\ id_key e <> zeros 32) /\ length U <= 16.
Definition act_in (U : list ID) (a : mact) : Prop :=
  match a with MDial x y | MPing x y | MPong x y | MTalk x y => In x U /\ In y U | MAccept _ => True end.
(** [m] is what these nodes may have come to. *)
Definition meeting (U : list ID) (m : mstate) : Prop := exists acts, Forall (act_in U) acts /\ mrun m_start acts = Some m.

(** The routing table of a node that has acknowledged [l]. *)
Definition table_with (x : ID) (l : list ID) : table := mk_table x (map OpUpdate l).
(** Discover by [x], called when things are as in [m], has returned [l]: everybody asked has answered from a table that holds what they knew then, and maybe
    more by now. *)
Definition discovers (U : list ID) (m : mstate) (x : ID) (l : list ID) : Prop := exists n k sched s,
  (0 < k)%Z /\ find_run (table_with x (acked m x)) (id_key x) n k sched s /\ i_done s = true /\ find_result (id_key x) 16 (i_found s) = Ok l /\
  (forall q, In q (i_asked s) -> exists ids, In (fst q, ids) (i_answered s)) /\
  (forall a, In a (i_answered s) -> exists id later tgt, In id U /\ id_key id = id_key (fst a) /\ In (fst a, tgt) (i_asked s) /\
     incl (acked m id) later /\ incl later U /\ FindClosest (table_with id later) tgt 16 = Ok (snd a)).

Inductive path (R : ID -> ID -> Prop) (x : ID) : ID -> Prop :=
| path_one y : R x y -> path R x y
| path_next y z : path R x y -> R y z -> path R x z.

(** [x] and [y] have met: one of them has pinged the other. *)
Definition either (l : list (ID * ID)) (x y : ID) : Prop := In (x, y) l \/ In (y, x) l.

(** Discover returns everybody connected to the node by pings that have returned. *)
Definition C110_statement : Prop := forall U m x l y, net U -> meeting U m -> In x U -> discovers U m x l ->
  path (either (mt_pinged m)) x y -> y <> x -> In (id_key y) (map id_key l).

(** ** Meetings *)

Lemma net_same U x y : net U -> In x U -> In y U -> id_key x = id_key y -> x = y.
Proof.
  intros (N & _) Hx Hy E. induction U as [|z U IH]; [destruct Hx|]. cbn [map] in N. inversion N as [|? ? N1 N2]; subst.
  destruct Hx as [->|Hx], Hy as [->|Hy]; auto.
  - exfalso. apply N1. rewrite E. apply in_map. exact Hy.
  - exfalso. apply N1. rewrite <- E. apply in_map. exact Hx.
Qed.
Definition pairs_in (U : list ID) (l : list (ID * ID)) : Prop := forall x y, In (x, y) l -> In x U /\ In y U.
Lemma has_pair_in U l x y : net U -> pairs_in U l -> In x U -> In y U -> has_pair x y l = true -> In (x, y) l.
Proof.
  intros N P Hx Hy H. unfold has_pair in H. apply existsb_exists in H as ((a & b) & Hi & E). cbn in E. apply andb_true_iff in E as [E1 E2].
  apply bytes_eqb_eq in E1, E2. destruct (P _ _ Hi) as [Ha Hb]. rewrite (net_same U a x N Ha Hx E1), (net_same U b y N Hb Hy E2) in Hi. exact Hi.
Qed.

Record minv (U : list ID) (m : mstate) : Prop := mkMI {
  mi_known : pairs_in U (mt_known m);
  mi_half : pairs_in U (mt_half m);
  mi_dialled : incl (mt_dialled m) (mt_known m);
  mi_met : forall x y, In (x, y) (mt_met m) -> In (x, y) (mt_known m) /\ In (y, x) (mt_known m);
  mi_pend : forall x y, In (x, y) (mt_half m) -> In (x, y) (mt_dialled m);
  mi_settle : forall p, In p (mt_dialled m) -> In p (mt_half m) \/ In p (mt_met m);
  mi_pinged : incl (mt_pinged m) (mt_dialled m);
  mi_ponged : incl (mt_ponged m) (mt_met m)
}.
Lemma in_cut {A} (l : list A) : forall j x, In x (firstn j l ++ skipn (S j) l) -> In x l.
Proof. intros j x H. rewrite <- (firstn_skipn j l). apply in_or_app. apply in_app_or in H as [H|H]; [auto|]. right. revert l H. induction j as [|j IH]; intros [|y l] H; cbn in *; auto. Qed.
Lemma in_cut_back {A} (l : list A) : forall j x, In x l -> In x (firstn j l ++ skipn (S j) l) \/ nth_error l j = Some x.
Proof.
  induction l as [|y l IH]; intros [|j] x H; [destruct H|destruct H| |].
  - destruct H as [->|H]; [right; reflexivity|left; exact H].
  - destruct H as [->|H]; [left; left; reflexivity|]. destruct (IH j x H) as [I|I]; [left; right; exact I|right; exact I].
Qed.
Lemma pairs_snoc U l x y : pairs_in U l -> In x U -> In y U -> pairs_in U (l ++ [(x, y)]).
Proof. intros P Hx Hy a b H. apply in_app_or in H as [H|[E|[]]]; [auto|]. injection E as <- <-. auto. Qed.

Lemma minv_step U m a m' : net U -> minv U m -> act_in U a -> mstep m a = Some m' -> minv U m'.
Proof.
  intros N [K H D M Pe S Pi Po] A E. destruct a as [x y|j|x y|x y|x y]; cbn [mstep act_in] in *.
  - destruct A as [Hx Hy]. injection E as <-. split; cbn [mt_known mt_half mt_dialled mt_met mt_pinged mt_ponged]; auto using pairs_snoc.
    + apply incl_app; [apply incl_appl, D|apply incl_appr, incl_refl].
    + intros u v Hu. destruct (M u v Hu). split; apply in_or_app; auto.
    + intros u v Hu. apply in_or_app. apply in_app_or in Hu as [Hu|Hu]; auto.
    + intros p Hp. apply in_app_or in Hp as [Hp|Hp]; [destruct (S p Hp)|]; rewrite ?in_app_iff; auto.
    + apply incl_appl. exact Pi.
  - destruct (nth_error (mt_half m) j) as [[x y]|] eqn:Hj; [|discriminate]. injection E as <-. pose proof (nth_error_In _ _ Hj) as Hi. destruct (H _ _ Hi) as [Hx Hy].
    split; cbn [mt_known mt_half mt_dialled mt_met mt_pinged mt_ponged]; auto using pairs_snoc.
    + intros u v Hu. apply in_cut in Hu. auto.
    + apply incl_appl, D.
    + intros u v Hu. apply in_app_or in Hu as [Hu|[Eu|[]]]; [destruct (M u v Hu); split; apply in_or_app; auto|]. injection Eu as <- <-.
      split; apply in_or_app; [left; apply D, Pe, Hi|right; left; reflexivity].
    + intros u v Hu. apply in_cut in Hu. auto.
    + intros p Hp. destruct (S p Hp) as [Hq|Hq]; [|right; apply in_or_app; auto]. destruct (in_cut_back _ j p Hq) as [Hr|Hr]; [auto|].
      right. apply in_or_app. right. left. congruence.
    + apply incl_appl. exact Po.
  - destruct A as [Hx Hy]. destruct (has_pair x y (mt_dialled m)) eqn:Hp; [|discriminate]. injection E as <-.
    apply (has_pair_in U) in Hp; auto; [|intros u v Hu; apply K, D, Hu]. split; cbn [mt_known mt_half mt_dialled mt_met mt_pinged mt_ponged]; auto.
    intros p Hq. apply in_app_or in Hq as [Hq|[<- |[]]]; auto.
  - destruct A as [Hx Hy]. destruct (has_pair x y (mt_met m)) eqn:Hp; [|discriminate]. injection E as <-.
    apply (has_pair_in U) in Hp; auto; [|intros u v Hu; apply K, (M _ _ Hu)]. split; cbn [mt_known mt_half mt_dialled mt_met mt_pinged mt_ponged]; auto.
    intros p Hq. apply in_app_or in Hq as [Hq|[<- |[]]]; auto.
  - destruct A as [Hx Hy]. destruct (has_pair x y (mt_known m)); [|discriminate]. injection E as <-.
    split; cbn [mt_known mt_half mt_dialled mt_met mt_pinged mt_ponged]; auto using pairs_snoc.
    + apply incl_appl, D.
    + intros u v Hu. destruct (M u v Hu). split; apply in_or_app; auto.
Qed.
Lemma minv_meeting U m : net U -> meeting U m -> minv U m.
Proof.
  intros N (acts & F & R). assert (I : minv U m_start) by (split; cbn; try (intros ? ? []); intros ? []).
  revert I R F. generalize m_start. induction acts as [|a acts IH]; intros s I R F; cbn in R; [injection R as <-; exact I|].
  destruct (mstep s a) as [s1|] eqn:E; [|discriminate]. inversion F; subst. eapply IH; [|exact R|assumption]. eapply minv_step; eassumption.
Qed.

Lemma acked_in U m x y : net U -> minv U m -> In x U -> (In y (acked m x) <-> In (x, y) (mt_known m)).
Proof.
  intros N I Hx. unfold acked. split.
  - intros H. apply in_map_iff in H as ((a & b) & <- & H). apply filter_In in H as [H E]. cbn in *. apply bytes_eqb_eq in E.
    destruct (mi_known _ _ I _ _ H) as [Ha _]. rewrite (net_same U a x N Ha Hx E) in H. exact H.
  - intros H. apply in_map_iff. exists (x, y). split; [reflexivity|]. apply filter_In. split; [exact H|]. cbn. apply bytes_eqb_eq. reflexivity.
Qed.

(** ** Small tables hold everybody *)

Lemma table_with_of U x l : net U -> In x U -> incl l U -> table_of x (map OpUpdate l) (table_with x l).
Proof.
  intros (_ & K & _) Hx Hl. apply mk_table_of; [apply (proj1 (K x Hx))|]. apply Forall_forall. intros o Ho. apply in_map_iff in Ho as (e & <- & He). exact (proj1 (K e (Hl e He))).
Qed.
Lemma table_with_ents U x l : net U -> In x U -> incl l U -> forall e, In e (ents (table_with x l)) <-> e = x \/ In e l.
Proof.
  intros N Hx. induction l as [|y l IH] using rev_ind; intros Hl.
  - intros e. destruct N as (_ & K & _). destruct (K x Hx) as [K1 K2]. destruct (NewTable_ok x K1) as (t0 & E0 & I0 & _ & C0).
    unfold table_with, mk_table. cbn [map]. rewrite E0. cbn [table_run fold_left]. unfold ents. rewrite C0.
    destruct (bytes_eqb_spec (id_key x) ZeroPublicKey) as [C|_]; [contradiction|]. cbn [In]. split; [intros [H|[]]; auto|intros [H|[]]; auto].
  - assert (Hl0 : incl l U) by (intros e He; apply Hl, in_or_app; auto). assert (Hy : In y U) by (apply Hl, in_or_app; right; left; reflexivity).
    specialize (IH Hl0). pose proof (table_with_of U x l N Hx Hl0) as T. destruct (table_of_inv _ _ _ T) as [I Es].
    pose proof N as (Nd & K & Sz). destruct (K y Hy) as [K1 K2].
    assert (Et : table_with x (l ++ [y]) = fst (Update (table_with x l) y)).
    { unfold table_with, mk_table. rewrite map_app. destruct (NewTable_ok x (proj1 (K x Hx))) as (t1 & E1 & _). rewrite E1.
      unfold table_run. rewrite fold_left_app. reflexivity. }
    destruct (Update (table_with x l) y) as [t' [b er]] eqn:EU. cbn [fst] in Et. rewrite Et. intros e. rewrite (Update_ents _ _ _ _ _ e I K1 EU), IH, in_app_iff.
    assert (Cy : b = true \/ In y (ents (table_with x l))).
    { pose proof (Update_cases _ _ I K1) as UC. cbv zeta in UC. rewrite EU in UC.
      destruct UC as [(E & _)|[(E & l1 & z & l2 & Eb & Ek & UC)|[(E & NI & L & UC)|(E & NI & L & UC)]]].
      - contradiction.
      - right. assert (Hz : In z (ents (table_with x l))) by (apply (proj1 (in_bucket_at _ (bucket_of (id_key (t_self (table_with x l))) (id_key y)) _ I)); rewrite Eb; apply in_or_app; right; left; reflexivity).
        assert (z = y) as <-; [|exact Hz]. apply (net_same U z y N); auto. apply IH in Hz as [-> |Hz]; auto.
      - left. injection UC. auto.
      - exfalso. set (bk := bucket_at _ _) in *. assert (X : length (map id_key bk ++ [id_key y]) <= length (map id_key U)).
        { apply NoDup_incl_length.
          - apply NoDup_app_intro; [apply (inv_nodup _ I)|repeat constructor; intros []|]. intros k Hk [<- |[]]. exact (NI Hk).
          - intros k Hk. apply in_app_or in Hk as [Hk|[<- |[]]]; [|apply in_map; exact Hy]. apply in_map_iff in Hk as (z & <- & Hz). apply in_map.
            assert (Hz' : In z (ents (table_with x l))) by (apply (proj1 (in_bucket_at _ (bucket_of (id_key (t_self (table_with x l))) (id_key y)) _ I)); exact Hz).
            apply IH in Hz' as [-> |Hz']; auto. }
        rewrite app_length, !map_length in X. unfold BucketSize in L. cbn in X. lia. }
    cbn [In]. split; [intros [[-> |H]|[_ ->]]; auto|]. intros [->|[H|[<-|[]]]]; auto. destruct Cy as [->|Cy]; [auto|]. left. apply IH. exact Cy.
Qed.
Lemma table_with_entries U x l : net U -> In x U -> incl l U -> exists es, Entries (table_with x l) = Ok es /\ (forall e, In e es <-> e = x \/ In e l) /\
  (forall k, length (filter (other_than k) es) <= 16) /\ incl es U.
Proof.
  intros N Hx Hl. pose proof (table_with_of U x l N Hx Hl) as T. destruct (C15_structure _ _ _ T) as (es & E & _ & Nd & _). exists es.
  assert (Ee : es = ents (table_with x l)) by (unfold Entries in E; destruct (t_size _ <? 0)%Z; [discriminate|]; injection E as <-; reflexivity).
  assert (M : forall e, In e es <-> e = x \/ In e l) by (rewrite Ee; apply (table_with_ents U); assumption).
  assert (Iu : incl es U) by (intros e He; apply M in He as [-> |He]; auto).
  split; [exact E|]. split; [exact M|]. split; [|exact Iu]. intros k. destruct N as (_ & _ & Sz). transitivity (length U); [|exact Sz].
  apply NoDup_incl_length; [apply NoDup_filter; exact (nodup_map_inv id_key es Nd)|]. intros e He. apply filter_In in He as [He _]. auto.
Qed.

(** A node tells everybody it knows, but the one asked about. *)
Lemma answer_all U id later k l : net U -> In id U -> incl later U -> key32 k -> FindClosest (table_with id later) k 16 = Ok l ->
  (forall e, In e l -> In e U) /\ (forall e, In e later -> id_key e <> k -> In e l).
Proof.
  intros N Hi Hl K F. pose proof (table_with_of U id later N Hi Hl) as T. destruct (table_with_entries U id later N Hi Hl) as (es & E & M & B & Iu).
  destruct (C19_right_when _ _ _ es k 16 T E K ltac:(lia) (or_introl (B k))) as (l' & F' & KS). rewrite F in F'. injection F' as <-. split.
  - intros e He. destruct KS as (_ & _ & I & _). apply I, filter_In in He as [He _]. auto.
  - intros e He Ne. apply (smallest_all _ _ _ _ KS (B k)). apply filter_In. split; [apply M; auto|]. apply other_than_in. exact Ne.
Qed.

(** ** Whoever is connected by knowing is found *)

Definition knows (m : mstate) (x y : ID) : Prop := In (x, y) (mt_known m).

Lemma discover_facts U m x l : net U -> minv U m -> In x U -> discovers U m x l ->
  NoDup (map id_key l) /\ incl (map id_key l) (map id_key U) /\ ~ In (id_key x) (map id_key l) /\
  forall y, path (knows m) x y -> y = x \/ In (id_key y) (map id_key l).
Proof.
  intros N I Hx (n & k & sched & s & Hk & R & D & F & A1 & A2). pose proof N as (Nd & K & Sz).
  assert (Ha : incl (acked m x) U). { intros e He. apply (acked_in U m x e N I Hx) in He. exact (proj2 (mi_known _ _ I _ _ He)). }
  set (t := table_with x (acked m x)) in *. pose proof (table_with_of U x (acked m x) N Hx Ha) as T. fold t in T.
  destruct (table_with_entries U x (acked m x) N Hx Ha) as (es & E & M & B & Iu). fold t in E.
  destruct (C18_peers _ _ _ _ T E) as (peers & EP & KP).
  destruct (C98_closure _ _ _ _ _ _ _ _ _ T EP R) as [Sound Complete]. specialize (Complete D Hk).
  destruct (C24_queries _ _ _ _ _ _ _ _ T R) as [NdQ NoSelf].
  assert (A3 : forall a, In a (i_answered s) -> exists id later, In id U /\ id_key id = id_key (fst a) /\ incl (acked m id) later /\
     (forall e, In e (snd a) -> In e U) /\ (forall e, In e later -> id_key e <> id_key (fst a) -> In e (snd a))).
  { intros a Hi. destruct (A2 a Hi) as (id & later & tgt & Hu & Ek & Hq & Hm & Hl & Fc). pose proof (C26_asks_own_key _ _ _ _ _ _ R _ _ Hq) as ->.
    exists id, later. assert (K32 : key32 (id_key (fst a))) by (rewrite <- Ek; apply K, Hu). destruct (answer_all U id later _ _ N Hu Hl K32 Fc) as [Y Z]. auto 6. }
  assert (QU : forall key, In key (queried s) -> In key (map id_key U)).
  { intros key Hq. apply Sound in Hq. destruct Hq as [e He|a e Hi _ He _ _].
    - destruct KP as (_ & _ & I1 & _). apply I1, filter_In in He as [He _]. apply in_map. auto.
    - destruct (A3 a Hi) as (id & later & _ & _ & _ & Y & _). apply in_map. auto. }
  assert (Q : replies32 sched).
  { intros a Hi. destruct a; cbn; auto. destruct r as [ids|]; cbn; auto. intros e He. pose proof R as (p' & s0 & _ & _ & ER).
    destruct (reply_kept _ _ _ _ _ _ _ ER Hi) as (i0 & X). destruct (A3 _ X) as (id & later & _ & _ & _ & Y & _). apply K. exact (Y e He). }
  destruct (C24_result _ _ _ _ _ _ 16%Z _ _ T (proj1 (K x Hx)) R Q D ltac:(lia)) as (l' & Fl & KS & Ndl & Incl). rewrite F in Fl. injection Fl as <-.
  assert (AQ : forall key, In key (queried s) <-> In key (map id_key (answering s))).
  { intros key. split.
    - intros H. apply queried_in in H as (id & Hid & <-). apply in_map_iff in Hid as (q & <- & Hq). destruct (A1 q Hq) as (ids & Hans).
      apply in_map. unfold answering. apply in_map_iff. exists (fst q, ids). auto.
    - intros H. apply in_map_iff in H as (e & <- & He). unfold answering in He. apply in_map_iff in He as (a & <- & Hi).
      exact (answered_asked _ _ _ _ _ _ R a Hi). }
  assert (NdA : NoDup (map id_key (answering s))).
  { apply nodup_cntp. intros key. destruct (answered_le _ _ _ _ _ _ R (has key)) as [X _].
    unfold queried in NdQ. rewrite <- (map_map fst id_key) in NdQ. pose proof (proj1 (nodup_cntp _) NdQ key). lia. }
  assert (All : incl (answering s) l).
  { apply (smallest_all _ _ _ _ KS). change (Z.to_nat 16) with 16. transitivity (length U); [|exact Sz]. rewrite <- (map_length id_key (answering s)), <- (map_length id_key U).
    apply NoDup_incl_length; [exact NdA|]. intros key Hi. apply QU, AQ. exact Hi. }
  split; [exact Ndl|]. split; [intros key Hi; apply QU, Incl, Hi|]. split; [intros C; apply NoSelf, Incl, C|].
  assert (Found : forall y, path (knows m) x y -> In y U /\ (y = x \/ In (id_key y) (queried s))).
  { intros y P. induction P as [y H|y z _ IH H].
    - assert (Hy : In y U) by (exact (proj2 (mi_known _ _ I _ _ H))). split; [exact Hy|].
      destruct (list_eq_dec Byte.byte_eq_dec (id_key y) (id_key x)) as [Eq|Ne]; [left; apply (net_same U); auto|]. right. apply Complete. apply learnt_peer.
      apply (smallest_all _ _ _ _ KP (B (id_key x))). apply filter_In. split; [apply M; right; apply (acked_in U); assumption|]. apply other_than_in. exact Ne.
    - destruct (mi_known _ _ I _ _ H) as [Hy Hz]. split; [exact Hz|]. destruct IH as [_ IH].
      destruct (list_eq_dec Byte.byte_eq_dec (id_key z) (id_key x)) as [Eq|Ne]; [left; apply (net_same U); auto|]. right.
      destruct IH as [->|IH].
      + apply Complete. apply learnt_peer. apply (smallest_all _ _ _ _ KP (B (id_key x))). apply filter_In. split; [apply M; right; apply (acked_in U); assumption|]. apply other_than_in. exact Ne.
      + apply queried_in in IH as (id & Hid & Eid). apply in_map_iff in Hid as (q & <- & Hq). destruct (A1 q Hq) as (ids & Hans).
        destruct (list_eq_dec Byte.byte_eq_dec (id_key z) (id_key (fst q))) as [Same|Diff].
        * rewrite Same. apply queried_in. exists (fst q). split; [apply in_map; exact Hq|reflexivity].
        * destruct (A3 _ Hans) as (id & later & Hu & Ek & Hm & _ & Y). cbn [fst snd] in *. assert (id = y) as -> by (apply (net_same U); auto; congruence).
          apply Complete. eapply (learnt_named _ _ _ _ (fst q, ids) z); try eassumption.
          -- cbn. apply Sound. apply queried_in. exists (fst q). split; [apply in_map; exact Hq|reflexivity].
          -- cbn. apply Y; [|exact Diff]. apply Hm. apply (acked_in U); assumption. }
  intros y P. destruct (Found y P) as [_ [->|H]]; [auto|]. right. apply AQ in H. apply in_map_iff in H as (e & <- & He). apply in_map. apply All. exact He.
Qed.

Lemma path_mono (R S : ID -> ID -> Prop) x y : (forall a b, R a b -> S a b) -> path R x y -> path S x y.
Proof. intros H P. induction P; [apply path_one; auto|eapply path_next; eauto]. Qed.

(** ** What holds *)

(** [y] is sure to be in the table of [x]: [x] has pinged it in either way, or it has pinged [x] and got a pong. *)
Definition sure (m : mstate) (x y : ID) : Prop := In (x, y) (mt_pinged m) \/ In (x, y) (mt_ponged m) \/ In (y, x) (mt_ponged m).

(** Discover returns everybody who can be reached along pings in their own direction, and along answered pings in both; nobody twice, and never the node
    itself. *)
Theorem C110_partial : forall U m x l, net U -> meeting U m -> In x U -> discovers U m x l ->
  NoDup (map id_key l) /\ incl (map id_key l) (map id_key U) /\ ~ In (id_key x) (map id_key l) /\
  forall y, path (sure m) x y -> y <> x -> In (id_key y) (map id_key l).
Proof.
  intros U m x l N Mt Hx Dl. pose proof (minv_meeting U m N Mt) as I. destruct (discover_facts U m x l N I Hx Dl) as (A & B & C & D).
  split; [exact A|]. split; [exact B|]. split; [exact C|]. intros y P Ne. destruct (D y) as [->|H]; [|contradiction|exact H].
  revert P. apply path_mono. intros a b [H|[H|H]].
  - apply (mi_dialled _ _ I), (mi_pinged _ _ I), H.
  - exact (proj1 (mi_met _ _ I _ _ (mi_ponged _ _ I _ H))).
  - exact (proj2 (mi_met _ _ I _ _ (mi_ponged _ _ I _ H))).
Qed.
Print Assumptions C110_partial.

(** Once every handshake has ended at both ends, the claim holds. *)
Theorem C110_settled : forall U m x l y, net U -> meeting U m -> In x U -> discovers U m x l -> mt_half m = [] ->
  path (either (mt_pinged m)) x y -> y <> x -> In (id_key y) (map id_key l).
Proof.
  intros U m x l y N Mt Hx Dl Hh P Ne. pose proof (minv_meeting U m N Mt) as I. destruct (discover_facts U m x l N I Hx Dl) as (_ & _ & _ & D).
  destruct (D y) as [->|H]; [|contradiction|exact H]. revert P. apply path_mono.
  assert (B : forall a b, In (a, b) (mt_pinged m) -> In (a, b) (mt_known m) /\ In (b, a) (mt_known m)).
  { intros a b Hp. apply (mi_met _ _ I). apply (mi_pinged _ _ I) in Hp. destruct (mi_settle _ _ I _ Hp) as [X|X]; [rewrite Hh in X; destruct X|exact X]. }
  intros a b [H|H]; apply B in H; unfold knows; tauto.
Qed.
Print Assumptions C110_settled.

(** If everybody can be reached so, Discover returns all others. *)
Theorem C110_count : forall U m x l, net U -> meeting U m -> In x U -> discovers U m x l ->
  (forall y, In y U -> y <> x -> path (sure m) x y \/ (mt_half m = [] /\ path (either (mt_pinged m)) x y)) -> length l = length U - 1.
Proof.
  intros U m x l N Mt Hx Dl All. destruct (C110_partial U m x l N Mt Hx Dl) as (Nl & Il & Ns & Fl). pose proof N as (Nd & _).
  assert (X : length (map id_key l ++ [id_key x]) = length (map id_key U)).
  { apply Nat.le_antisymm; apply NoDup_incl_length.
    - apply NoDup_app_intro; [exact Nl|repeat constructor; intros []|]. intros k Hk [<- |[]]. exact (Ns Hk).
    - intros k Hk. apply in_app_or in Hk as [Hk|[<- |[]]]; [auto|apply in_map; exact Hx].
    - exact Nd.
    - intros k Hk. apply in_map_iff in Hk as (y & <- & Hy). apply in_or_app.
      destruct (list_eq_dec Byte.byte_eq_dec (id_key y) (id_key x)) as [Eq|Ne]; [right; left; auto|]. assert (Ny : y <> x) by congruence. left.
      destruct (All y Hy Ny) as [P|[Hh P]]; [exact (Fl y P Ny)|]. exact (C110_settled U m x l y N Mt Hx Dl Hh P Ny). }
  rewrite app_length, !map_length in X. cbn in X. lia.
Qed.
Print Assumptions C110_count.

(** ** Runs of Discover in such networks *)

Definition m_know (m : mstate) (key : pubkey) : list ID := map snd (filter (fun p => bytes_eqb (id_key (fst p)) key) (mt_known m)).
Definition answers_b (U : list ID) (m : mstate) (s : istate) : bool :=
  forallb (fun q => existsb (fun a => id_eqb (fst a) (fst q)) (i_answered s)) (i_asked s) &&
  forallb (fun a => idin (fst a) U && existsb (fun q => id_eqb (fst q) (fst a) && bytes_eqb (snd q) (id_key (fst a))) (i_asked s) &&
    forallb (fun e => idin e U) (acked m (fst a)) &&
    match FindClosest (table_with (fst a) (acked m (fst a))) (id_key (fst a)) 16 with Ok l => ids_eqb l (snd a) | _ => false end) (i_answered s).
Lemma discovers_by U m x l k : net U -> minv U m -> In x U -> (0 < k)%Z ->
  irun (Z.to_nat k) (d_start x (m_know m) 3 k) (d_sched x (m_know m) 3 k 400) <> None ->
  i_done (d_end x (m_know m) 3 k 400) = true -> find_result (id_key x) 16 (i_found (d_end x (m_know m) 3 k 400)) = Ok l ->
  answers_b U m (d_end x (m_know m) 3 k 400) = true -> discovers U m x l.
Proof.
  intros N I Hx Hk R D F A. apply andb_true_iff in A as [A1 A2]. rewrite forallb_forall in A1, A2.
  exists 3%Z, k, (d_sched x (m_know m) 3 k 400), (d_end x (m_know m) 3 k 400). split; [exact Hk|]. split.
  - change (table_with x (acked m x)) with (d_table x (m_know m)). apply d_run; [lia|lia| |exact R].
    apply (table_with_of U x (acked m x) N Hx). intros e He. apply (acked_in U m x e N I Hx) in He. exact (proj2 (mi_known _ _ I _ _ He)).
  - split; [exact D|]. split; [exact F|]. split.
    + intros q Hq. specialize (A1 q Hq). apply existsb_exists in A1 as ((i & ids) & Ha & E). cbn in E. apply id_eqb_eq in E as ->. eauto.
    + intros a Ha. specialize (A2 a Ha). apply andb_true_iff in A2 as [A2 A6]. apply andb_true_iff in A2 as [A2 A5]. apply andb_true_iff in A2 as [A3 A4].
      apply existsb_exists in A4 as ((i & tgt) & Hq & E). cbn in E. apply andb_true_iff in E as [E1 E2]. apply id_eqb_eq in E1 as ->. apply bytes_eqb_eq in E2 as ->.
      rewrite forallb_forall in A5. destruct (FindClosest _ _ _) as [l'| |] eqn:Fc; try discriminate. apply ids_eqb_eq in A6 as ->.
      exists (fst a), (acked m (fst a)), (id_key (fst a)). split; [apply (proj1 (idin_in _ _)); exact A3|]. split; [reflexivity|]. split; [exact Hq|].
      split; [apply incl_refl|]. split; [|exact Fc]. intros e He. apply (proj1 (idin_in _ _)), A5, He.
Qed.

Lemma net2 : net [d_id 1; d_id 2].
Proof.
  split; [|split; [|cbn; lia]].
  - repeat constructor; cbn; intuition; discriminate.
  - intros e [<- |[<- |[]]]; split; try reflexivity; discriminate.
Qed.
Lemma net3 : net [d_id 1; d_id 2; d_id 3].
Proof.
  split; [|split; [|cbn; lia]].
  - repeat constructor; cbn; intuition; discriminate.
  - intros e [<- |[<- |[<- |[]]]]; split; try reflexivity; discriminate.
Qed.

(** Bob pings Alice: Ping returns, and Alice's end of the handshake is still to come.  Alice discovers nobody. *)
Definition meet_acts : list mact := [MDial (d_id 2) (d_id 1); MPing (d_id 2) (d_id 1)].
Definition meet_end : mstate := match mrun m_start meet_acts with Some m => m | None => m_start end.
Lemma meet_meeting : meeting [d_id 1; d_id 2] meet_end.
Proof. exists meet_acts. split; [repeat (apply Forall_cons; [cbn [act_in In]; auto 7|]); apply Forall_nil|vm_compute; reflexivity]. Qed.
Lemma meet_discovers : discovers [d_id 1; d_id 2] meet_end (d_id 1) [].
Proof.
  apply (discovers_by _ _ _ _ 8 net2 (minv_meeting _ _ net2 meet_meeting)); [left; reflexivity|lia|vm_compute; discriminate|vm_compute; reflexivity..].
Qed.

Theorem C110_refuted : ~ C110_statement.
Proof.
  intros H. specialize (H _ _ _ _ (d_id 2) net2 meet_meeting (or_introl eq_refl) meet_discovers). cbn [map] in H. apply H.
  - apply path_one. right. vm_compute. auto.
  - discriminate.
Qed.
Print Assumptions C110_refuted.

(** The example: Bob pings Alice, Charlie pings Bob, and every handshake ends (example_discovery_test.go:44-50).  Alice discovers both. *)
Definition three_acts : list mact := [MDial (d_id 2) (d_id 1); MAccept 0; MPing (d_id 2) (d_id 1); MDial (d_id 3) (d_id 2); MPing (d_id 3) (d_id 2); MAccept 0; MTalk (d_id 2) (d_id 3)].
Definition three_end : mstate := match mrun m_start three_acts with Some m => m | None => m_start end.
Lemma three_meeting : meeting [d_id 1; d_id 2; d_id 3] three_end.
Proof. exists three_acts. split; [repeat (apply Forall_cons; [cbn [act_in In]; auto 7|]); apply Forall_nil|vm_compute; reflexivity]. Qed.
Lemma three_discovers : exists l, discovers [d_id 1; d_id 2; d_id 3] three_end (d_id 1) l /\ length l = 2.
Proof.
  exists [d_id 3; d_id 2]. split; [|reflexivity].
  apply (discovers_by _ _ _ _ 8 net3 (minv_meeting _ _ net3 three_meeting)); [left; reflexivity|lia|vm_compute; discriminate|vm_compute; reflexivity..].
Qed.
Example C110_settled_nonvacuous : exists U m x l y, net U /\ meeting U m /\ In x U /\ discovers U m x l /\ mt_half m = [] /\
  path (either (mt_pinged m)) x y /\ y <> x.
Proof.
  destruct three_discovers as (l & Dl & _). exists [d_id 1; d_id 2; d_id 3], three_end, (d_id 1), l, (d_id 3).
  split; [exact net3|]. split; [exact three_meeting|]. split; [left; reflexivity|]. split; [exact Dl|]. split; [vm_compute; reflexivity|]. split; [|discriminate].
  apply (path_next _ _ (d_id 2)); [apply path_one|]; right; vm_compute; auto.
Qed.
(** With Protocol.Ping (protocol.go:61-72) in the place of Node.Ping, nothing need be waited for. *)
Definition pong_acts : list mact := [MDial (d_id 2) (d_id 1); MAccept 0; MPong (d_id 2) (d_id 1); MDial (d_id 2) (d_id 3); MPing (d_id 2) (d_id 3)].
Definition pong_end : mstate := match mrun m_start pong_acts with Some m => m | None => m_start end.
Lemma pong_meeting : meeting [d_id 1; d_id 2; d_id 3] pong_end.
Proof. exists pong_acts. split; [repeat (apply Forall_cons; [cbn [act_in In]; auto 7|]); apply Forall_nil|vm_compute; reflexivity]. Qed.
Example C110_count_nonvacuous : exists U m x l, net U /\ meeting U m /\ In x U /\ discovers U m x l /\ mt_half m <> [] /\
  (forall y, In y U -> y <> x -> path (sure m) x y) /\ length l = 2.
Proof.
  exists [d_id 1; d_id 2; d_id 3], pong_end, (d_id 1), [d_id 3; d_id 2].
  split; [exact net3|]. split; [exact pong_meeting|]. split; [left; reflexivity|]. split.
  - apply (discovers_by _ _ _ _ 8 net3 (minv_meeting _ _ net3 pong_meeting)); [left; reflexivity|lia|vm_compute; discriminate|vm_compute; reflexivity..].
  - split; [vm_compute; discriminate|]. split; [|reflexivity].
    assert (P : path (sure pong_end) (d_id 1) (d_id 2)) by (apply path_one; right; right; vm_compute; auto).
    intros y [<- |[<- |[<- |[]]]] Ne; [contradiction|exact P|]. apply (path_next _ _ (d_id 2)); [exact P|]. left. vm_compute. auto.
Qed.
