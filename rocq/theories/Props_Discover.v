(** * C98: which nodes Discover reaches. *)
From Verif Require Import Base Spec M_ID M_Binary M_Table P_Binary P_Table M_Iter P_Iter Props_Kad Props_Iter.
From Coq Require Import Permutation.
Local Open Scope nat_scope.

(** ** Spec *)

(** What may be learnt by asking: the starting peers, and whatever a peer so learnt of named in an answer, the asker itself and the target
    looked for left out. *)
Inductive learnt (self target : pubkey) (peers : list ID) (answers : list (ID * list ID)) : pubkey -> Prop :=
| learnt_peer e : In e peers -> learnt self target peers answers (id_key e)
| learnt_named a e : In a answers -> learnt self target peers answers (id_key (fst a)) -> In e (snd a) ->
    id_key e <> self -> id_key e <> target -> learnt self target peers answers (id_key e).

(** A network of nodes, [know k] being the entries of the routing table of the node of public key [k] (the node itself left out).  A key can
    be reached from a node that knows [start]: through its own entries, or through the entries of a node that can be reached. *)
Inductive reach (self : pubkey) (know : pubkey -> list ID) (start : list ID) : pubkey -> Prop :=
| reach_own e : In e start -> id_key e <> self -> reach self know start (id_key e)
| reach_next k e : reach self know start k -> In e (know k) -> id_key e <> self -> reach self know start (id_key e).

(** [ids] is what the node [id] of that network answers to a request for [tgt], as the protocol handler does (protocol.go:228-232): its table
    holds what it knows and, besides, at most itself and the asker. *)
Definition tells (self : pubkey) (know : pubkey -> list ID) (id : ID) (tgt : pubkey) (ids : list ID) : Prop :=
  exists id0 ops tb es, table_of id0 ops tb /\ id_key id0 = id_key id /\ Entries tb = Ok es /\
    (forall e, In e (know (id_key id)) -> In e es) /\
    (forall e, In e es -> In e (know (id_key id)) \/ id_key e = self \/ id_key e = id_key id) /\
    FindClosest tb tgt 16 = Ok ids.
(** Everybody asked has answered so, each to the request it got. *)
Definition all_tell (self : pubkey) (know : pubkey -> list ID) (s : istate) : Prop :=
  (forall q, In q (i_asked s) -> exists ids, In (fst q, ids) (i_answered s)) /\
  (forall a, In a (i_answered s) -> exists tgt, In (fst a, tgt) (i_asked s) /\ tells self know (fst a) tgt (snd a)).

(** Discover, that is Find of the own public key, reaches every node that can be reached. *)
Definition C98_statement : Prop := forall self ops t es know n k sched s, table_of self ops t -> Entries t = Ok es -> (0 < k)%Z ->
  find_run t (id_key self) n k sched s -> i_done s = true -> all_tell (id_key self) know s ->
  forall key, reach (id_key self) know es key -> In key (queried s).

(** ** Runs *)

Lemma answered_mono n s a s' : istep n s a = Some s' -> incl (i_answered s) (i_answered s').
Proof. intros H. step_cases H; prep; intros x Hx; cbn; auto; try (right; exact Hx). Qed.

Lemma answered_run n l : forall s s', irun n s l = Some s' -> incl (i_answered s) (i_answered s').
Proof.
  induction l as [|a l IH]; intros s s' H; cbn in H; [injection H as <-; apply incl_refl|].
  destruct (istep n s a) as [s1|] eqn:E; [|discriminate]. eapply incl_tran; [exact (answered_mono _ _ _ _ E) | exact (IH _ _ H)].
Qed.

Lemma reply_kept n l i j ids : forall s s', irun n s l = Some s' -> In (AReply i j (Some ids)) l -> exists id, In (id, ids) (i_answered s').
Proof.
  induction l as [|a l IH]; intros s s' H I; [destruct I|]. cbn in H.
  destruct (istep n s a) as [s1|] eqn:E; [|discriminate]. destruct I as [->|I]; [|exact (IH _ _ H I)].
  enough (exists id, In (id, ids) (i_answered s1)) as (id & X). { exists id. exact (answered_run _ _ _ _ H _ X). }
  cbn [istep] in E. destruct (nth_error (i_lookups s) i) as [l0|]; [|discriminate].
  destruct (nth_error (l_workers l0) j) as [[]|]; try discriminate. injection E as <-. cbn. eauto.
Qed.

Lemma irun_snoc n l a : forall s s', irun n s (l ++ [a]) = Some s' -> exists s1, irun n s l = Some s1 /\ istep n s1 a = Some s'.
Proof.
  induction l as [|b l IH]; intros s s' H; cbn in *.
  - destruct (istep n s a) as [s1|] eqn:E; [|discriminate]. injection H as <-. eauto.
  - destruct (istep n s b) as [s1|] eqn:E; [|discriminate]. exact (IH _ _ H).
Qed.

Lemma queried_in s key : In key (queried s) <-> exists id, In id (map fst (i_asked s)) /\ id_key id = key.
Proof.
  unfold queried. rewrite <- (map_map fst id_key), in_map_iff. split; intros (x & A & B); eauto.
Qed.

(** Whoever is asked was a starting peer, or was named. *)
Lemma asked_from self ops t peers target n k sched s : table_of self ops t -> Peers t = Ok peers -> find_run t target n k sched s ->
  forall key, In key (queried s) -> In key (map id_key peers) \/
    (key <> id_key self /\ key <> target /\ exists a e, In a (i_answered s) /\ In e (snd a) /\ id_key e = key).
Proof.
  intros T EP R key H. destruct (in_dec (list_eq_dec Byte.byte_eq_dec) key (map id_key peers)) as [|NP]; [left; assumption|]. right.
  destruct (asked_le _ _ _ _ _ _ self ops R T) as [_ B]. apply queried_in in H as (id & Hid & <-).
  assert (P0 : 0 < s_pend (has (id_key id)) s).
  { unfold s_pend. enough (0 < cntp (has (id_key id)) (map fst (i_asked s))) by lia. apply cntp_has_in. apply in_map. exact Hid. }
  split; [|split].
  - intros C. rewrite C in P0. lia.
  - intros C. destruct (pend_total _ _ _ _ _ _ (id_key id) R self ops peers T EP) as [E V].
    assert (W : visited (map id_key peers ++ [id_key self; target]) (id_key id) = true)
      by (apply visited_in; rewrite in_app_iff; right; right; left; symmetry; exact C).
    rewrite W in E. specialize (V W). assert (0 < cntp (has (id_key id)) peers) as X by lia. apply cntp_has_in in X. exact (NP X).
  - set (all := peers ++ flat_map snd (i_answered s)).
    set (p := fun x => if in_dec id_eq_dec x all then false else true).
    assert (Hp : forall x, p x = false <-> In x all).
    { intros x. unfold p. destruct (in_dec id_eq_dec x all); split; intros; auto; try discriminate. contradiction. }
    destruct (run_zero _ _ _ _ _ _ p R) as [Z _].
    + intros peers' EP'. rewrite EP in EP'. injection EP' as <-. apply cntp_zero. intros x Hx. apply Hp. apply in_or_app. left. exact Hx.
    + intros a Ha. destruct a; cbn; auto. destruct r as [ids|]; cbn; auto. intros x Hx. apply Hp. apply in_or_app. right.
      destruct R as (peers' & s0 & _ & _ & ER). destruct (reply_kept _ _ _ _ _ _ _ ER Ha) as (i0 & X). apply in_flat_map. eauto.
    + assert (Z1 : cntp p (map fst (i_asked s)) = 0) by (unfold s_pend in Z; lia).
      pose proof (proj1 (cntp_zero p _) Z1 id Hid) as F. apply Hp in F. apply in_app_or in F as [F|F].
      * exfalso. apply NP. apply in_map. exact F.
      * apply in_flat_map in F as (a & Ha & Hx). eauto.
Qed.

Lemma learnt_incl self target peers a b key : incl a b -> learnt self target peers a key -> learnt self target peers b key.
Proof. intros I H. induction H; [apply learnt_peer; assumption | eapply learnt_named; eauto]. Qed.

Lemma answered_asked t target n k sched s : find_run t target n k sched s -> forall a, In a (i_answered s) -> In (id_key (fst a)) (queried s).
Proof.
  intros R a Ha. destruct (answered_le _ _ _ _ _ _ R (has (id_key (fst a)))) as [X _]. apply queried_in.
  assert (Y : 0 < cntp (has (id_key (fst a))) (map fst (i_asked s))).
  { enough (0 < cntp (has (id_key (fst a))) (answering s)) by lia. apply cntp_has_in. apply in_map. unfold answering. apply in_map. exact Ha. }
  apply cntp_has_in, in_map_iff in Y as (x & E & I). eauto.
Qed.

(** ** Whoever is asked was learnt of, at any moment and whatever the network does; when Find ends, whoever was learnt of has been asked. *)
Theorem C98_closure : forall self ops t peers target n k sched s, table_of self ops t -> Peers t = Ok peers -> find_run t target n k sched s ->
  (forall key, In key (queried s) -> learnt (id_key self) target peers (i_answered s) key) /\
  (i_done s = true -> (0 < k)%Z -> forall key, learnt (id_key self) target peers (i_answered s) key -> In key (queried s)).
Proof.
  intros self ops t peers target n k sched s T EP R. split.
  - revert s R. induction sched as [|a sched IH] using rev_ind; intros s R key H.
    + destruct (asked_from self ops t peers target n k [] s T EP R key H) as [X|(_ & _ & a & e & Ha & _)].
      * apply in_map_iff in X as (x & <- & I). apply learnt_peer. exact I.
      * destruct R as (p' & s0 & _ & EI & ER). cbn in ER. injection ER as <-.
        destruct (iter_init_inv _ _ _ _ _ _ EI) as (_ & _ & _ & _ & _ & _ & _ & _ & Ew). rewrite Ew in Ha. destruct Ha.
    + pose proof R as (p' & s0 & EP' & EI & ER). destruct (irun_snoc _ _ _ _ _ ER) as (s1 & R1 & St).
      assert (R' : find_run t target n k sched s1) by (exists p', s0; auto). specialize (IH s1 R').
      pose proof (answered_mono _ _ _ _ St) as Mono.
      assert (C : i_answered s = i_answered s1 \/ i_asked s = i_asked s1).
      { clear - St. step_cases St; prep; auto. }
      destruct C as [C|C].
      * destruct (asked_from self ops t peers target n k _ s T EP R key H) as [X|(N1 & N2 & a0 & e & Ha & He & <-)].
        -- apply in_map_iff in X as (x & <- & I). apply learnt_peer. exact I.
        -- eapply learnt_named; try eassumption. rewrite C in Ha. eapply learnt_incl; [exact Mono|]. apply IH.
           exact (answered_asked _ _ _ _ _ _ R' _ Ha).
      * eapply learnt_incl; [exact Mono|]. apply IH. unfold queried in *. rewrite <- C. exact H.
  - intros D Hk key L. destruct (C24_exhaustive self ops t target n k sched s peers T R EP D Hk) as [A B].
    induction L as [e I | a e Ha _ _ He N1 N2]; [exact (A e I)|]. apply B; auto. exists a. split; [exact Ha|]. apply in_map. exact He.
Qed.
Print Assumptions C98_closure.

(** ** Networks *)

Lemma smallest_all {A} (f : A -> N) k pool l : k_smallest f k pool l -> length pool <= k -> incl pool l.
Proof.
  intros (L & Nd & I & _) Hk. apply NoDup_length_incl; [exact Nd | lia | exact I].
Qed.

Lemma entries32 self ops t es : table_of self ops t -> Entries t = Ok es -> forall e, In e es -> key32 (id_key e).
Proof.
  intros H HE. destruct (table_of_inv self ops t H) as [I Es]. unfold Entries in HE. destruct (t_size t <? 0)%Z; [discriminate|].
  assert (es = concat (t_entries t)) as -> by congruence. intros e He. apply entries_elem in He as [He _]; [|exact I]. apply He.
Qed.

Lemma other_than_in k e : other_than k e = true <-> id_key e <> k.
Proof.
  unfold other_than. rewrite negb_true_iff. split.
  - intros H C. rewrite C, bytes_eqb_refl in H. discriminate.
  - intros H. destruct (bytes_eqb (id_key e) k) eqn:E; [apply bytes_eqb_eq in E; contradiction | reflexivity].
Qed.

(** What is told is known to the node that tells it, or is the asker; and if the node knows few others, it tells all of them. *)
Lemma tells_facts self know id ids : tells self know id (id_key id) ids ->
  (forall e, In e ids -> key32 (id_key e) /\ (In e (know (id_key id)) \/ id_key e = self)) /\
  (length (know (id_key id)) <= 15 -> forall e, In e (know (id_key id)) -> id_key e <> id_key id -> In e ids).
Proof.
  intros (id0 & ops & tb & es & T & K & E & Up & Dn & F). assert (K32 : key32 (id_key id)) by (rewrite <- K; apply T). split.
  - intros e He. destruct (C19_partial id0 ops tb es (id_key id) 16 T E K32 ltac:(lia)) as (r & l & F' & (_ & _ & I & _) & _).
    rewrite F in F'. injection F' as <-. apply I in He. apply filter_In in He as [He N]. unfold near in N. apply andb_true_iff in N as [N _]. apply andb_true_iff in N as [N _].
    apply other_than_in in N.
    split; [exact (entries32 _ _ _ _ T E e He)|]. destruct (Dn e He) as [X|[X|X]]; auto. contradiction.
  - intros L e He N.
    assert (B : length (filter (other_than (id_key id)) es) <= 16).
    { rewrite <- (map_length id_key). destruct (C15_structure id0 ops tb T) as (es' & E' & _ & Nd & _). rewrite E in E'. injection E' as <-.
      assert (Nd' : NoDup (map id_key (filter (other_than (id_key id)) es))).
      { apply (nodup_incl_map id_key es); [exact Nd | apply NoDup_filter; exact (nodup_map_inv id_key es Nd)|].
        intros x Hx. apply filter_In in Hx. apply Hx. }
      transitivity (length (self :: map id_key (know (id_key id)))); [|cbn; rewrite map_length; lia].
      apply NoDup_incl_length; [exact Nd'|]. intros x Hx. apply in_map_iff in Hx as (y & <- & Hy). apply filter_In in Hy as [Hy Ny].
      apply other_than_in in Ny. destruct (Dn y Hy) as [X|[X|X]]; [right; apply in_map; exact X | left; auto | contradiction]. }
    destruct (C19_right_when id0 ops tb es (id_key id) 16 T E K32 ltac:(lia) (or_introl B)) as (l & F' & KS).
    rewrite F in F'. injection F' as <-. apply (smallest_all _ _ _ _ KS B). apply filter_In. split; [exact (Up e He)|].
    apply other_than_in. exact N.
Qed.

(** ** In a network of small tables Discover asks exactly the nodes that can be reached, and returns the closest of them. *)
Theorem C98_partial : forall self ops t es know n k sched s, table_of self ops t -> Entries t = Ok es ->
  find_run t (id_key self) n k sched s -> all_tell (id_key self) know s ->
  (forall key, In key (queried s) -> reach (id_key self) know es key) /\
  (length (filter (other_than (id_key self)) es) <= 16 -> (forall key, length (know key) <= 15) -> i_done s = true -> (0 < k)%Z ->
   (forall key, In key (queried s) <-> reach (id_key self) know es key) /\
   forall max, (0 <= max)%Z -> exists l, find_result (id_key self) max (i_found s) = Ok l /\ NoDup (map id_key l) /\
     length l = Nat.min (Z.to_nat max) (length (queried s)) /\ sorted_by (fun e => dist (id_key e) (id_key self)) l /\
     (forall e, In e l -> reach (id_key self) know es (id_key e)) /\
     (forall key, reach (id_key self) know es key -> ~ In key (map id_key l) ->
        forall e, In e l -> (dist (id_key e) (id_key self) <= dist key (id_key self))%N)).
Proof.
  intros self ops t es know n k sched s T E R [Tell1 Tell].
  assert (Tell2 : forall a, In a (i_answered s) -> tells (id_key self) know (fst a) (id_key (fst a)) (snd a)).
  { intros a Ha. destruct (Tell a Ha) as (tgt & Hq & Ht). rewrite (C26_asks_own_key _ _ _ _ _ _ R _ _ Hq) in Ht. exact Ht. }
  destruct (C18_peers self ops t es T E) as (peers & EP & KP).
  destruct (C98_closure self ops t peers (id_key self) n k sched s T EP R) as [Sound Complete].
  destruct (C24_queries self ops t (id_key self) n k sched s T R) as [NdQ NoSelf].
  assert (SoundR : forall key, In key (queried s) -> reach (id_key self) know es key).
  { intros key H. apply Sound in H. induction H as [e I | a e Ha _ IH He N1 N2].
    - destruct KP as (_ & _ & I1 & _). apply I1, filter_In in I as [I N]. apply other_than_in in N. apply reach_own; assumption.
    - destruct (tells_facts _ _ _ _ (Tell2 a Ha)) as [F _]. destruct (F e He) as [_ [X|X]]; [|contradiction].
      eapply reach_next; eauto. }
  split; [exact SoundR|]. intros Sm1 Sm2 D Hk.
  assert (CompR : forall key, reach (id_key self) know es key -> In key (queried s)).
  { intros key H. induction H as [e I N | k0 e _ IH He N].
    - apply (Complete D Hk). apply learnt_peer. apply (smallest_all _ _ _ _ KP Sm1). apply filter_In. split; [exact I|]. apply other_than_in. exact N.
    - apply queried_in in IH as (id & Hid & <-). apply in_map_iff in Hid as (q & <- & Hq). destruct (Tell1 q Hq) as (ids & Ha).
      destruct (list_eq_dec Byte.byte_eq_dec (id_key e) (id_key (fst q))) as [Same|Diff].
      + rewrite Same. apply queried_in. exists (fst q). split; [apply in_map; exact Hq | reflexivity].
      + destruct (tells_facts _ _ _ _ (Tell2 _ Ha)) as [_ F]. specialize (F (Sm2 _) e He Diff).
        apply (Complete D Hk). eapply learnt_named; try eassumption. cbn. apply Sound. apply queried_in. exists (fst q).
        split; [apply in_map; exact Hq | reflexivity]. }
  split; [split; auto|]. intros max Hm.
  assert (Q : replies32 sched).
  { intros a Ha. destruct a; cbn; auto. destruct r as [ids|]; cbn; auto. intros x Hx. pose proof R as (p' & s0 & _ & _ & ER).
    destruct (reply_kept _ _ _ _ _ _ _ ER Ha) as (i0 & X). destruct (tells_facts _ _ _ _ (Tell2 _ X)) as [F _]. exact (proj1 (F x Hx)). }
  assert (K32 : key32 (id_key self)) by apply T.
  destruct (C24_result self ops t (id_key self) n k max sched s T K32 R Q D Hm) as (l & Fl & KS & Ndl & Incl).
  exists l. split; [exact Fl|]. split; [exact Ndl|]. destruct KS as (L & _ & I2 & So & Le).
  assert (AQ : forall key, In key (queried s) <-> In key (map id_key (answering s))).
  { intros key. split.
    - intros H. apply queried_in in H as (id & Hid & <-). apply in_map_iff in Hid as (q & <- & Hq). destruct (Tell1 q Hq) as (ids & Ha).
      apply in_map. unfold answering. apply in_map_iff. exists (fst q, ids). auto.
    - intros H. apply in_map_iff in H as (x & <- & Hx). unfold answering in Hx. apply in_map_iff in Hx as (a & <- & Ha).
      exact (answered_asked _ _ _ _ _ _ R a Ha). }
  assert (NdA : NoDup (map id_key (answering s))).
  { apply nodup_cntp. intros key. destruct (answered_le _ _ _ _ _ _ R (has key)) as [X _].
    unfold queried in NdQ. rewrite <- (map_map fst id_key) in NdQ. pose proof (proj1 (nodup_cntp _) NdQ key). lia. }
  split; [|split; [exact So|split]].
  - rewrite L. f_equal. rewrite <- (map_length id_key). apply Nat.le_antisymm; apply NoDup_incl_length; auto; intros x Hx; apply AQ; exact Hx.
  - intros e He. apply SoundR, Incl. apply in_map. exact He.
  - intros key Hr Hn e He. apply CompR, AQ in Hr. apply in_map_iff in Hr as (x & <- & Hx). apply Le; auto.
    intros C. apply Hn. apply in_map. exact C.
Qed.
Print Assumptions C98_partial.

(** ** A checker for concrete networks: [tab id] is the list of updates that made the routing table of [id]. *)
Definition d_id (b : N) : ID := NewID (ex_key b b) [] (9000 + b).
Definition id_eqb (a b : ID) : bool :=
  bytes_eqb (id_key a) (id_key b) && bytes_eqb (id_host a) (id_host b) && (id_port a =? id_port b)%N && bytes_eqb (id_addr a) (id_addr b).
Lemma id_eqb_eq a b : id_eqb a b = true <-> a = b.
Proof.
  unfold id_eqb. rewrite !andb_true_iff, !bytes_eqb_eq, N.eqb_eq. destruct a, b; cbn. split.
  - intros [[[-> ->] ->] ->]. reflexivity.
  - intros [= -> -> -> ->]. auto.
Qed.
Fixpoint ids_eqb (a b : list ID) : bool :=
  match a, b with [], [] => true | x :: a, y :: b => id_eqb x y && ids_eqb a b | _, _ => false end.
Lemma ids_eqb_eq a : forall b, ids_eqb a b = true -> a = b.
Proof.
  induction a as [|x a IH]; intros [|y b] H; try discriminate; [reflexivity|]. cbn in H. apply andb_true_iff in H as [H1 H2].
  apply id_eqb_eq in H1. f_equal; auto.
Qed.
Definition idin (e : ID) (l : list ID) : bool := existsb (id_eqb e) l.
Lemma idin_in e l : idin e l = true <-> In e l.
Proof.
  unfold idin. rewrite existsb_exists. split.
  - intros (x & I & H). apply id_eqb_eq in H as ->. exact I.
  - intros I. exists e. split; [exact I|]. apply id_eqb_eq. reflexivity.
Qed.
Definition tells_b (self : pubkey) (know : pubkey -> list ID) (id : ID) (ids : list ID) : bool :=
  let tb := mk_table id (map OpUpdate (know (id_key id))) in
  (length (id_key id) =? 32) && forallb (fun e => length (id_key e) =? 32) (know (id_key id)) &&
  match Entries tb, FindClosest tb (id_key id) 16 with
  | Ok es, Ok l => forallb (fun e => idin e es) (know (id_key id)) &&
      forallb (fun e => idin e (know (id_key id)) || bytes_eqb (id_key e) self || bytes_eqb (id_key e) (id_key id)) es &&
      ids_eqb l ids
  | _, _ => false
  end.
Lemma tells_b_tells self know id ids : tells_b self know id ids = true -> tells self know id (id_key id) ids.
Proof.
  unfold tells_b. intros H. apply andb_true_iff in H as [H H3]. apply andb_true_iff in H as [H1 H2]. apply Nat.eqb_eq in H1.
  rewrite forallb_forall in H2.
  destruct (Entries _) as [es| |] eqn:E; try discriminate. destruct (FindClosest _ _ _) as [l| |] eqn:F; try discriminate.
  apply andb_true_iff in H3 as [H3 H5]. apply andb_true_iff in H3 as [H3 H4]. rewrite forallb_forall in H3, H4.
  apply ids_eqb_eq in H5 as ->.
  exists id, (map OpUpdate (know (id_key id))), (mk_table id (map OpUpdate (know (id_key id)))), es.
  split; [apply mk_table_of; [exact H1 | apply Forall_forall; intros o Ho; apply in_map_iff in Ho as (x & <- & Hx); apply Nat.eqb_eq, H2, Hx]|].
  split; [reflexivity|]. split; [exact E|]. split; [intros e He; apply idin_in, H3, He|]. split; [|exact F].
  intros e He. specialize (H4 e He). apply orb_true_iff in H4 as [H4|H4]; [apply orb_true_iff in H4 as [H4|H4]|].
  - left. apply idin_in, H4.
  - right. left. apply bytes_eqb_eq, H4.
  - right. right. apply bytes_eqb_eq, H4.
Qed.
Definition all_tell_b (self : pubkey) (know : pubkey -> list ID) (s : istate) : bool :=
  forallb (fun q => existsb (fun a => id_eqb (fst a) (fst q)) (i_answered s)) (i_asked s) &&
  forallb (fun a => existsb (fun q => id_eqb (fst q) (fst a) && bytes_eqb (snd q) (id_key (fst a))) (i_asked s) && tells_b self know (fst a) (snd a))
    (i_answered s).
Lemma all_tell_b_tell self know s : all_tell_b self know s = true -> all_tell self know s.
Proof.
  unfold all_tell_b. intros H. apply andb_true_iff in H as [H1 H2]. rewrite forallb_forall in H1, H2. split.
  - intros q Hq. specialize (H1 q Hq). apply existsb_exists in H1 as ((i & ids) & Ha & E). cbn in E. apply id_eqb_eq in E as ->. eauto.
  - intros a Ha. specialize (H2 a Ha). apply andb_true_iff in H2 as [H2 H3]. apply existsb_exists in H2 as ((i & tgt) & Hq & E).
    cbn in E. apply andb_true_iff in E as [E1 E2]. apply id_eqb_eq in E1 as ->. apply bytes_eqb_eq in E2 as ->.
    exists (id_key (fst a)). split; [exact Hq|]. apply tells_b_tells, H3.
Qed.

(** Discover by [self] in such a network, under the scheduler of Props_Iter. *)
Definition d_net (know : pubkey -> list ID) (id : ID) : option (list ID) :=
  match FindClosest (mk_table id (map OpUpdate (know (id_key id)))) (id_key id) 16 with Ok l => Some l | _ => None end.
Definition d_table (self : ID) (know : pubkey -> list ID) : table := mk_table self (map OpUpdate (know (id_key self))).
Definition d_start (self : ID) (know : pubkey -> list ID) (n k : Z) : istate :=
  match Peers (d_table self know) with
  | Ok peers => match iter_init (id_key (t_self (d_table self know))) (id_key self) peers n k with Ok s => s | _ => mkI [] [] [] false [] false [] [] end
  | _ => mkI [] [] [] false [] false [] []
  end.
Definition d_sched (self : ID) (know : pubkey -> list ID) (n k : Z) (fuel : nat) : list iaction := drive fuel (Z.to_nat k) (d_net know) (d_start self know n k).
Definition d_end (self : ID) (know : pubkey -> list ID) (n k : Z) (fuel : nat) : istate :=
  match irun (Z.to_nat k) (d_start self know n k) (d_sched self know n k fuel) with Some s => s | None => d_start self know n k end.
Lemma d_run self know n k fuel : (0 < n)%Z -> (0 <= k)%Z -> table_of self (map OpUpdate (know (id_key self))) (d_table self know) ->
  irun (Z.to_nat k) (d_start self know n k) (d_sched self know n k fuel) <> None ->
  find_run (d_table self know) (id_key self) n k (d_sched self know n k fuel) (d_end self know n k fuel).
Proof.
  intros Hn Hk T R. destruct (C15_structure _ _ _ T) as (es & _ & _ & _ & _ & _ & _ & _ & _ & _ & peers & EP).
  destruct (iter_init (id_key (t_self (d_table self know))) (id_key self) peers n k) as [s0| |] eqn:EI.
  - exists peers, s0. split; [exact EP|]. split; [exact EI|].
    assert (S0 : d_start self know n k = s0) by (unfold d_start; rewrite EP, EI; reflexivity).
    unfold d_end. rewrite <- S0. destruct (irun _ _ _); [reflexivity|contradiction].
  - exfalso. revert EI. apply iter_init_no_err.
  - exfalso. apply C24_options in EI. lia.
Qed.

(** A node knows one peer; that peer knows seventeen others, and each of them only that peer. *)
Definition big_know (key : pubkey) : list ID :=
  if bytes_eqb key (id_key (d_id 64)) then map (fun i => d_id (N.of_nat (128 + i))) (seq 0 16) ++ [d_id 65]
  else [d_id 64].
Lemma big_table : table_of (d_id 1) (map OpUpdate (big_know (id_key (d_id 1)))) (d_table (d_id 1) big_know).
Proof. apply mk_table_of; [reflexivity | repeat constructor]. Qed.

Theorem C98_refuted : ~ C98_statement.
Proof.
  intros H. destruct (C15_structure _ _ _ big_table) as (es & Ees & _).
  assert (Run := d_run (d_id 1) big_know 1 1 400 eq_refl ltac:(lia) big_table ltac:(vm_compute; discriminate)).
  specialize (H _ _ _ es big_know 1%Z 1%Z _ _ big_table Ees eq_refl Run ltac:(vm_compute; reflexivity)
    ltac:(apply all_tell_b_tell; vm_compute; reflexivity) (id_key (d_id 143))).
  assert (In64 : In (d_id 64) es).
  { assert (E : Entries (d_table (d_id 1) big_know) = Ok es) by exact Ees. vm_compute in E. injection E as <-. apply idin_in. vm_compute. reflexivity. }
  assert (X : In (id_key (d_id 143)) (queried (d_end (d_id 1) big_know 1 1 400))).
  { apply H. apply (reach_next _ _ _ (id_key (d_id 64)) (d_id 143)).
    - apply reach_own; [exact In64 | vm_compute; discriminate].
    - apply idin_in. vm_compute. reflexivity.
    - vm_compute. discriminate. }
  apply visited_in in X. vm_compute in X. discriminate.
Qed.
Print Assumptions C98_refuted.

(** A chain: 1 knows 2, which knows 1 and 3, which knows 2, 4 and 5, which know nobody but 3. *)
Definition chain_know (key : pubkey) : list ID :=
  if bytes_eqb key (id_key (d_id 1)) then [d_id 2]
  else if bytes_eqb key (id_key (d_id 2)) then [d_id 1; d_id 3]
  else if bytes_eqb key (id_key (d_id 3)) then [d_id 2; d_id 4; d_id 5] else [d_id 3].
Lemma chain_table : table_of (d_id 1) (map OpUpdate (chain_know (id_key (d_id 1)))) (d_table (d_id 1) chain_know).
Proof. apply mk_table_of; [reflexivity | repeat constructor]. Qed.
Definition chain_end : istate := d_end (d_id 1) chain_know 3 8 400.
Lemma chain_run : find_run (d_table (d_id 1) chain_know) (id_key (d_id 1)) 3 8 (d_sched (d_id 1) chain_know 3 8 400) chain_end.
Proof.
  exact (d_run (d_id 1) chain_know 3 8 400 eq_refl ltac:(lia) chain_table ltac:(vm_compute; discriminate)).
Qed.
Lemma chain_tell : all_tell (id_key (d_id 1)) chain_know chain_end.
Proof. apply all_tell_b_tell. vm_compute. reflexivity. Qed.
Lemma chain_small key : length (chain_know key) <= 15.
Proof. unfold chain_know. destruct (bytes_eqb _ _); [cbn; lia|]. destruct (bytes_eqb _ _); [cbn; lia|]. destruct (bytes_eqb _ _); cbn; lia. Qed.
Lemma chain_result : i_done chain_end = true /\ length (queried chain_end) = 4 /\
  find_result (id_key (d_id 1)) 16 (i_found chain_end) = Ok [d_id 3; d_id 2; d_id 5; d_id 4].
Proof. split; [vm_compute; reflexivity|]. split; vm_compute; reflexivity. Qed.
Lemma chain_entries : Entries (d_table (d_id 1) chain_know) = Ok [d_id 1; d_id 2] \/ Entries (d_table (d_id 1) chain_know) = Ok [d_id 2; d_id 1].
Proof. vm_compute. auto. Qed.

Example C98_partial_nonvacuous : exists es, table_of (d_id 1) (map OpUpdate (chain_know (id_key (d_id 1)))) (d_table (d_id 1) chain_know) /\
  Entries (d_table (d_id 1) chain_know) = Ok es /\ length (filter (other_than (id_key (d_id 1))) es) <= 16 /\
  (forall key, length (chain_know key) <= 15) /\
  find_run (d_table (d_id 1) chain_know) (id_key (d_id 1)) 3 8 (d_sched (d_id 1) chain_know 3 8 400) chain_end /\
  all_tell (id_key (d_id 1)) chain_know chain_end /\ i_done chain_end = true /\ length (queried chain_end) = 4 /\
  find_result (id_key (d_id 1)) 16 (i_found chain_end) = Ok [d_id 3; d_id 2; d_id 5; d_id 4].
Proof.
  destruct chain_entries as [E|E]; (eexists; split; [exact chain_table|]; split; [exact E|]; split; [vm_compute; repeat constructor|];
    split; [exact chain_small|]; split; [exact chain_run|]; split; [exact chain_tell|]; exact chain_result).
Qed.
Lemma chain_peers : Peers (d_table (d_id 1) chain_know) = Ok [d_id 2].
Proof. vm_compute. reflexivity. Qed.
Example C98_closure_nonvacuous :
  learnt (id_key (d_id 1)) (id_key (d_id 1)) [d_id 2] (i_answered chain_end) (id_key (d_id 5)).
Proof.
  apply (proj1 (C98_closure _ _ _ _ _ _ _ _ _ chain_table chain_peers chain_run)). apply (proj1 (visited_in _ _)). vm_compute. reflexivity.
Qed.
