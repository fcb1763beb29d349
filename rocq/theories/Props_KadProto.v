(** * The Kademlia protocol: Ack, events, Handle: C20, C21, C22, C60, C63. *)
From Verif Require Import Base Spec M_ID M_Msg M_Codec M_Table M_Kad P_Codec P_Binary P_Table P_Kad Props_Codec Props_Kad.
From Verif Require Props_Wire.
From Coq Require Import Strings.Byte.
Local Open Scope nat_scope.

(** ** C20 *)

(** The outcome Ack is documented to have, from the table before the call to the table after it. *)
Definition ack_policy (self : ID) (ping : ID -> ping_outcome) (t : table) (id : ID) (t' : table) (evs : list kad_event) : Prop :=
  let b := Bucket t (id_key id) in
  let only (b' : list ID) := forall k, key32 k ->
    Bucket t' k = if bucket_of (id_key self) k =? bucket_of (id_key self) (id_key id) then b' else Bucket t k in
  (exists l1 e l2, b = l1 ++ e :: l2 /\ id_key e = id_key id /\ only (e :: l1 ++ l2) /\ evs = [Activity id]) \/
  (~ In (id_key id) (map id_key b) /\ length b < 16 /\ only (id :: b) /\ evs = [Admitted id]) \/
  (exists l last, ~ In (id_key id) (map id_key b) /\ length b = 16 /\ b = l ++ [last] /\
     if match ping last with GotPong => true | _ => false end
     then t' = t /\ evs = [Evicted id]
     else only (id :: l) /\ evs = [Evicted last; Admitted id]).

Definition C20_statement : Prop := forall self ops t ping id t' evs, table_of self ops t -> key32 (id_key id) ->
  id_key id <> zeros 32 -> ack_alone ping t id t' evs -> ack_policy self ping t id t' evs.

(** Proved with one more hypothesis: no two recorded peers share an address, when a dial may fail. *)
Theorem C20_partial : forall self ops t es ping id t' evs, table_of self ops t -> Entries t = Ok es -> key32 (id_key id) ->
  id_key id <> zeros 32 ->
  (forall last x, In last es -> ping last = DialError -> In x es -> id_addr x = id_addr last -> x = last) ->
  ack_alone ping t id t' evs -> ack_policy self ping t id t' evs.
Proof.
  intros self ops t es ping id t' evs H HE Hk Hz Hd A. destruct (table_of_inv self ops t H) as [I Es].
  unfold Entries in HE. destruct (t_size t <? 0)%Z; [discriminate|]. assert (es = concat (t_entries t)) as -> by congruence.
  apply ack_alone_spec in A; [|exact I|exact Hk]. unfold ack_policy. cbv zeta.
  rewrite !(bucket_at_idx t) by assumption. rewrite <- Es in *.
  assert (Two : forall t1 i l b z1 z2, t_self t1 = t_self t -> table_inv t1 -> table_inv (set_bucket t1 i l z1) -> i < NumBuckets -> forall k, key32 k ->
            Bucket (set_bucket (set_bucket t1 i l z1) i b z2) k = if bucket_of (id_key (t_self t)) k =? i then b else Bucket t1 k).
  { intros t1 i l b z1 z2 S1 I1 I2 Hi k Hk'. rewrite (set_bucket_idx (set_bucket t1 i l z1)) by assumption.
    change (t_self (set_bucket t1 i l z1)) with (t_self t1). rewrite S1.
    destruct (Nat.eqb_spec (bucket_of (id_key (t_self t)) k) i) as [E|E]; [reflexivity|].
    rewrite set_bucket_idx by assumption. rewrite S1. destruct (Nat.eqb_spec (bucket_of (id_key (t_self t)) k) i); [contradiction | reflexivity]. }
  destruct A as [Z|i l1 e l2 Z Ei Eb Ek|i Z Ei NI L|i l last Z Ei NI L El P|i l last t1 Z Ei NI L El P|i l last v t1 l' Z Ei NI L El P D Nv B1].
  - exfalso. exact (Hz Z).
  - left. exists l1, e, l2. rewrite <- Ei. repeat split; auto. intros k Hk'. apply set_bucket_idx; auto. rewrite Ei. apply bucket_of_lt.
  - right. left. rewrite <- Ei. repeat split; auto. intros k Hk'. apply set_bucket_idx; auto. rewrite Ei. apply bucket_of_lt.
  - right. right. exists l, last. rewrite <- Ei, P. repeat split; auto.
  - right. right. exists l, last. rewrite <- Ei.
    assert (ping last <> GotPong) as NP by (destruct P as [P|[P|[P _]]]; congruence).
    assert (Hi : i < NumBuckets) by (rewrite Ei; apply bucket_of_lt).
    pose proof (remove_inv t i last l [] I Hi El) as R. rewrite app_nil_r in R.
    split; [exact NI|]. split; [exact L|]. split; [exact El|]. destruct (ping last); [congruence| | |].
    all: (split; [|reflexivity]); intros k Hk'; apply Two; auto.
  - exfalso. apply Nv.
    pose proof (DeleteByAddress_keys t (id_addr last) t1 v true (id_key v) I D) as (Ea & Hv & _).
    apply (Hd last v); auto.
    assert (In last (bucket_at t i)) as Hin by (rewrite El; apply in_or_app; right; left; reflexivity).
    apply in_entries; auto. rewrite (bucket_elem t i last I Hin). exact Hin.
Qed.
Print Assumptions C20_partial.

(** The call always returns (it pings at most one peer). *)
Theorem C20_returns : forall self ops t ping id, table_of self ops t -> key32 (id_key id) ->
  exists t' evs, ack_alone ping t id t' evs.
Proof.
  intros self ops t ping id H Hk. destruct (table_of_inv self ops t H) as [I Es].
  destruct (ack_result ping t id I Hk) as (t' & evs & n & E & _). exists t', evs, n. exact E.
Qed.
Print Assumptions C20_returns.

(** Two calls with the same outcomes end alike. *)
Theorem C20_deterministic : forall ping t id t1 e1 t2 e2, ack_alone ping t id t1 e1 -> ack_alone ping t id t2 e2 -> t1 = t2 /\ e1 = e2.
Proof. intros ping t id t1 e1 t2 e2 [n A] [m B]. eapply call_det; eassumption. Qed.
Print Assumptions C20_deterministic.

Example C20_nonvacuous : let t := mk_table (ex_id 1 1) ex_ops in let id := ex_id 255 40 in
  table_of (ex_id 1 1) ex_ops t /\ key32 (id_key id) /\
  length (Bucket t (id_key id)) = 16 /\ map id_key (skipn 15 (Bucket t (id_key id))) = [ex_key 255 1] /\
  exists t' , ack_alone (fun _ => ReqError) t id t' [Evicted (ex_id 255 1); Admitted id].
Proof.
  split; [apply mk_table_of; [reflexivity | repeat constructor]|]. split; [reflexivity|]. split; [vm_compute; reflexivity|].
  split; [vm_compute; reflexivity|]. eexists. exists 7. vm_compute. reflexivity.
Qed.

(** Refuted: a peer elsewhere in the table that was recorded under the same address as the unreachable tail entry is
    evicted along with it. *)
Definition shared_ops : list table_op :=
  map (fun i => OpUpdate (NewID (ex_key 255 i) [] (1000 + i))) [1;2;3;4;5;6;7;8;9;10;11;12;13;14;15;16]%N
  ++ [OpUpdate (NewID (ex_key 128 1) [] 1001); OpUpdate (NewID (ex_key 64 1) [] 1001)].

Theorem C20_refuted : ~ C20_statement.
Proof.
  intros H. set (self := NewID (ex_key 192 1) [] 9000). set (t := mk_table self shared_ops). set (id := ex_id 255 40).
  assert (T : table_of self shared_ops t) by (apply mk_table_of; [reflexivity | repeat constructor]).
  set (ping := fun _ : ID => DialError).
  destruct (C20_returns self shared_ops t ping id T eq_refl) as (t' & evs & A).
  assert (R : exists t2, ack_alone ping t id t2 [Evicted (NewID (ex_key 64 1) [] 1001); Evicted (NewID (ex_key 255 1) [] 1001); Admitted id]).
  { eexists. exists 9. vm_compute. reflexivity. }
  destruct R as [t2 A2].
  pose proof (H self shared_ops t ping id t2 _ T eq_refl ltac:(discriminate) A2) as P.
  destruct P as [(l1 & e & l2 & _ & _ & _ & P)|[(_ & _ & _ & P)|(l & last & _ & _ & _ & P)]]; try discriminate.
  destruct P as [_ P]. discriminate.
Qed.
Print Assumptions C20_refuted.

(** ** C21 *)

Theorem C21_own_entry_survives : forall self t0 calls t es, key32 (id_key self) -> id_key self <> zeros 32 ->
  NewTable self = Ok t0 -> ack_history t0 calls t -> Entries t = Ok es -> In self es.
Proof.
  intros self t0 calls t es Hk Hz N0 HA HE.
  destruct (NewTable_ok self Hk) as (t1 & E & I0 & S0 & C0). rewrite N0 in E. assert (t1 = t0) as -> by congruence.
  assert (G : table_inv t /\ t_self t = self /\ In self (ents t)).
  { clear HE es. induction HA as [|calls t ping id t' evs HA IH Hid A].
    - split; [exact I0|]. split; [exact S0|]. unfold ents. rewrite C0.
      destruct (bytes_eqb_spec (id_key self) ZeroPublicKey) as [Z|_]; [contradiction | left; reflexivity].
    - destruct IH as (I & Es & Hs). apply ack_alone_spec in A; [|exact I|exact Hid].
      pose proof (self_bucket t I) as Sb. rewrite Es in Sb.
      assert (Bs : In self (bucket_at t 255)).
      { apply in_entries in Hs; [|exact I]. rewrite Es, Sb in Hs. exact Hs. }
      assert (FN : forall i, i = bucket_of (id_key (t_self t)) (id_key id) -> length (bucket_at t i) = BucketSize -> i <> 255).
      { intros i -> L. apply full_not_last; assumption. }
      assert (Lt : bucket_of (id_key (t_self t)) (id_key id) < NumBuckets) by apply bucket_of_lt.
      (* the evicted tail and the entry found by its address are in an earlier bucket *)
      assert (Sub : forall t2 i l x, table_inv t2 -> t_self t2 = self -> In self (ents t2) -> i <> 255 -> i < NumBuckets ->
                bucket_at t2 i = l ++ [x] ->
                table_inv (set_bucket t2 i l (t_size t2 - 1)) /\ t_self (set_bucket t2 i l (t_size t2 - 1)) = self /\
                In self (ents (set_bucket t2 i l (t_size t2 - 1)))).
      { intros t2 i l x I2 S2 H2 Hi Hl El. pose proof (remove_inv t2 i x l [] I2 Hl El) as R. rewrite app_nil_r in R.
        split; [exact R|]. split; [exact S2|]. apply ents_set; auto.
        - intros e He. apply (bucket_elem t2); auto. rewrite El. apply in_or_app. auto.
        - rewrite S2, Sb. destruct (Nat.eqb_spec 255 i); [congruence | exact H2]. }
      assert (Add : forall t2 b, table_inv t2 -> t_self t2 = self -> In self (ents t2) -> key32 (id_key id) -> id_key id <> ZeroPublicKey ->
                b = bucket_at t2 (bucket_of (id_key self) (id_key id)) -> ~ In (id_key id) (map id_key b) -> length b < BucketSize ->
                let t3 := set_bucket t2 (bucket_of (id_key self) (id_key id)) (id :: b) (t_size t2 + 1) in
                table_inv t3 /\ t_self t3 = self /\ In self (ents t3)).
      { intros t2 b I2 S2 H2 K2 Z2 Eb NI L t3. pose proof (Update_room t2 id I2 K2 Z2) as U. cbv zeta in U. rewrite S2, <- Eb in U.
        specialize (U NI L). destruct (Update_inv t2 id I2 K2) as [I3 S3]. rewrite U in I3, S3. cbn [fst] in I3, S3.
        split; [exact I3|]. split; [exact S2|].
        pose proof (Update_keys t2 id t3 true None (id_key self) I2 K2 U) as (UK & _).
        apply ents_set; auto; [rewrite S2 in *; apply bucket_of_lt| |].
        - intros e [<- |He]; [rewrite S2; reflexivity|]. rewrite S2. rewrite Eb in He. pose proof (bucket_elem t2 _ e I2 He) as X. rewrite S2 in X. exact X.
        - rewrite S2. destruct (Nat.eqb_spec (bucket_of (id_key self) (id_key self)) (bucket_of (id_key self) (id_key id))) as [Eq|]; [|exact H2].
          right. rewrite Eb, <- Eq. apply in_entries in H2; [|exact I2]. rewrite S2 in H2. exact H2. }
      destruct A as [Z|i l1 e l2 Z Ei Eb Ek|i Z Ei NI L|i l last Z Ei NI L El P|i l last t1 Z Ei NI L El P|i l last v t1 l' Z Ei NI L El P D Nv B1].
      + auto.
      + pose proof (Update_inv t id I Hid) as [I' S'].
        assert (U : Update t id = (set_bucket t i (e :: l1 ++ l2) (t_size t), (false, None))).
        { pose proof (Update_cases t id I Hid) as UC. cbv zeta in UC. rewrite <- Ei in UC.
          destruct UC as [(C & _)|[(_ & m1 & y & m2 & Em & Ey & U)|[(_ & C & _)|(_ & C & _)]]].
          - congruence.
          - pose proof (Delete_at t i l1 e l2 I Eb) as D1. pose proof (Delete_at t i m1 y m2 I Em) as D2.
            assert (id_key y = id_key e) as Q by congruence. rewrite Q, D1 in D2.
            assert (y = e) as -> by congruence.
            rewrite U. do 2 f_equal.
            assert (set_bucket t i (l1 ++ l2) (t_size t - 1) = set_bucket t i (m1 ++ m2) (t_size t - 1)) as Q2 by congruence.
            apply (f_equal (fun t => bucket_at t i)) in Q2. rewrite !bucket_at_set, Nat.eqb_refl, (inv_len t I) in Q2.
            rewrite Ei in Q2. destruct (Nat.ltb_spec (bucket_of (id_key (t_self t)) (id_key id)) NumBuckets); [|lia]. cbn [andb] in Q2. rewrite Q2. reflexivity.
          - exfalso. apply C. rewrite Eb, <- Ek. apply in_map. apply in_or_app. right. left. reflexivity.
          - exfalso. apply C. rewrite Eb, <- Ek. apply in_map. apply in_or_app. right. left. reflexivity. }
        rewrite U in I', S'. cbn [fst] in I', S'. split; [exact I'|]. split; [rewrite S'; exact Es|].
        apply ents_set; auto; [rewrite Ei; exact Lt| |].
        * intros x Hx. apply (bucket_elem t); auto. rewrite Eb. cbn in Hx. rewrite in_app_iff in *. cbn. tauto.
        * rewrite Es, Sb. destruct (Nat.eqb_spec 255 i) as [Eq|]; [|exact Hs]. rewrite Eq, Eb in Bs.
          apply in_app_or in Bs. cbn in Bs |- *. rewrite in_app_iff. tauto.
      + rewrite Es in Ei. rewrite Ei. apply Add; auto; rewrite <- Ei; auto.
      + auto.
      + rewrite Es in Ei, Lt. assert (i <> 255) as Ni by (apply FN; [rewrite Es; exact Ei | exact L]).
        destruct (Sub t i l last I Es Hs Ni ltac:(rewrite Ei; exact Lt) El) as (I2 & S2 & H2).
        pose proof (Add _ l I2 S2 H2 Hid Z) as X. cbv zeta in X. rewrite <- Ei in X.
        replace (t_size t) with (t_size t - 1 + 1)%Z at 2 by lia.
        apply X.
        * rewrite bucket_at_set, Nat.eqb_refl, (inv_len t I). destruct (Nat.ltb_spec i NumBuckets); [reflexivity | lia].
        * intros C. apply NI. rewrite El, map_app. apply in_or_app. auto.
        * rewrite El, app_length in L. cbn in L. lia.
      + rewrite Es in Ei, Lt. assert (i <> 255) as Ni by (apply FN; [rewrite Es; exact Ei | exact L]).
        assert (Hi : i < NumBuckets) by (rewrite Ei; exact Lt).
        assert (Hl : In last (bucket_at t i)) by (rewrite El; apply in_or_app; right; left; reflexivity).
        destruct (DeleteByAddress_cases t (id_addr last) I) as [(bs1 & m1 & x & m2 & bs2 & Eb & Ea & Hf & D')|(Hn & D')];
          rewrite D in D'; [|discriminate]. assert (v = x) as -> by congruence. assert (t1 = _) as Et1 by (injection D'; intros; eassumption).
        pose proof (bucket_at_mid t bs1 _ bs2 Eb) as Bj.
        assert (Hj : length bs1 < NumBuckets) by (rewrite <- (inv_len t I), Eb, app_length; cbn; lia).
        assert (Nj : length bs1 <> 255).
        { intros Ej. apply (Hf last); [|reflexivity]. apply in_or_app. left. apply in_concat. exists (bucket_at t i). split; [|exact Hl].
          unfold bucket_at. rewrite Eb. rewrite app_nth1 by (unfold NumBuckets in *; lia). apply nth_In. unfold NumBuckets in *. lia. }
        destruct (DeleteByAddress_inv t (id_addr last) I) as [I1 S1]. rewrite D in I1, S1. cbn [fst] in I1, S1.
        assert (Hs1 : In self (ents t1)).
        { rewrite Et1. apply ents_set; auto.
          - intros e He. apply (bucket_elem t); auto. rewrite Bj. rewrite in_app_iff in *. cbn. tauto.
          - rewrite Es, Sb. destruct (Nat.eqb_spec 255 (length bs1)); [congruence | exact Hs]. }
        assert (S1' : t_self t1 = self) by congruence.
        destruct (Sub t1 i l' last I1 S1' Hs1 Ni Hi B1) as (I2 & S2 & H2).
        pose proof (Add _ l' I2 S2 H2 Hid Z) as X. cbv zeta in X. rewrite <- Ei in X. cbn [t_size set_bucket] in X. apply X.
        * rewrite bucket_at_set, Nat.eqb_refl, (inv_len t1 I1). destruct (Nat.ltb_spec i NumBuckets); [reflexivity | lia].
        * intros C. apply NI. apply in_map_iff in C as (y & Ey & Hy). rewrite <- Ey. apply in_map.
          assert (In y (bucket_at t1 i)) as Hy1 by (rewrite B1; apply in_or_app; auto).
          rewrite Et1, bucket_at_set in Hy1. destruct ((i =? length bs1) && _) eqn:Q; [|exact Hy1].
          apply andb_true_iff in Q as [Q _]. apply Nat.eqb_eq in Q. rewrite Q, Bj. rewrite in_app_iff in *. cbn. tauto.
        * assert (length (bucket_at t1 i) <= BucketSize) as Q by apply (inv_size t1 I1). rewrite B1, app_length in Q. cbn in Q. lia. }
  destruct G as (_ & _ & G). unfold Entries in HE. destruct (t_size t <? 0)%Z; [discriminate|]. unfold ents in G. congruence.
Qed.
Print Assumptions C21_own_entry_survives.

Example C21_nonvacuous : exists t0 t, NewTable (ex_id 1 1) = Ok t0 /\
  ack_history t0 [(fun _ => DialError, ex_id 255 1); (fun _ => GotPong, ex_id 255 2)] t /\ NumEntries t = 3%Z.
Proof.
  eexists. eexists. split; [vm_compute; reflexivity|]. split.
  - eapply (ah_ack _ [(fun _ => DialError, ex_id 255 1)] _ (fun _ => GotPong) (ex_id 255 2) _ [Admitted (ex_id 255 2)]).
    + eapply (ah_ack _ [] _ (fun _ => DialError) (ex_id 255 1) _ [Admitted (ex_id 255 1)]); [apply ah_nil | reflexivity | exists 2; vm_compute; reflexivity].
    + reflexivity.
    + exists 2. vm_compute. reflexivity.
  - vm_compute. reflexivity.
Qed.

(** Any interleaving of Acks and of OnPingFailed calls for other addresses: the own entry survives as long as no peer
    with another key claims this node's address. *)
Theorem C21_interleaved : forall self t0 acts s es, key32 (id_key self) -> id_key self <> zeros 32 -> NewTable self = Ok t0 ->
  Forall (fun a => match a with
     | KAck id => key32 (id_key id) /\ (id_addr id = id_addr self -> id_key id = id_key self)
     | KPingFailed a => a <> id_addr self
     | KStep _ _ => True end) acts ->
  kad_run (mkKS t0 [] []) acts = Ok s -> Entries (ks_table s) = Ok es -> In self es.
Proof.
  intros self t0 acts s es Hk Hz N0 Fa R HE.
  destruct (NewTable_ok self Hk) as (t1 & E & I0 & S0 & C0). rewrite N0 in E. assert (t1 = t0) as -> by congruence.
  destruct (bytes_eqb_spec (id_key self) ZeroPublicKey) as [Z|_]; [contradiction|].
  assert (H : In self (ents (ks_table s)) /\ table_inv (ks_table s)).
  { apply (kad_run_safe self acts (mkKS t0 [] []) s); cbn; auto. unfold self_safe, ents. rewrite C0, S0. split; [left; reflexivity|].
    intros e [<- |[]] _. reflexivity. }
  unfold Entries in HE. destruct (t_size (ks_table s) <? 0)%Z; [discriminate|]. unfold ents in H. destruct H as [H _]. congruence.
Qed.
Print Assumptions C21_interleaved.

(** The premise on addresses is needed: one failed dial to the node's own address removes the own entry. *)
Example C21_own_address_dial : exists t0 s, NewTable (NewID (ex_key 1 1) [] 9000) = Ok t0 /\
  kad_run (mkKS t0 [] []) [KPingFailed (id_addr (NewID (ex_key 1 1) [] 9000)); KStep 0 GotPong] = Ok s /\ Entries (ks_table s) = Ok [].
Proof. eexists. eexists. split; [vm_compute; reflexivity|]. split; vm_compute; reflexivity. Qed.

(** ** C22 *)

(** The state of a listener that adds admitted peers and removes evicted ones is [replay]. *)
Definition C22_statement : Prop := forall self t0 acts s es, key32 (id_key self) -> NewTable self = Ok t0 ->
  Forall (fun a => match a with KAck id => key32 (id_key id) | _ => True end) acts ->
  kad_run (mkKS t0 [] []) acts = Ok s -> Forall (fun pc => pc = KDone) (ks_threads s) -> Entries (ks_table s) = Ok es ->
  forall k, k <> id_key self -> (In k (replay [] (ks_log s)) <-> In k (map id_key es)).

(** Refuted: the callback of an insertion and that of a removal, both called after the table's lock was released, may
    come in the wrong order. *)
Theorem C22_refuted : ~ C22_statement.
Proof.
  intros H. set (self := ex_id 1 1). set (p := NewID (ex_key 2 2) [] 1234).
  set (acts := [KAck p; KStep 0 GotPong; KPingFailed (id_addr p); KStep 1 GotPong; KStep 1 GotPong; KStep 0 GotPong]).
  set (t0 := match NewTable self with Ok t => t | _ => mkTable [] self 0 end).
  set (s := match kad_run (mkKS t0 [] []) acts with Ok s => s | _ => mkKS t0 [] [] end).
  pose proof (H self t0 acts s [self] eq_refl eq_refl) as X.
  assert (R : kad_run (mkKS t0 [] []) acts = Ok s) by (vm_compute; reflexivity).
  assert (D : Forall (fun pc => pc = KDone) (ks_threads s)) by (vm_compute; repeat constructor).
  assert (E : Entries (ks_table s) = Ok [self]) by (vm_compute; reflexivity).
  specialize (X ltac:(repeat constructor) R D E (ex_key 2 2) ltac:(discriminate)).
  assert (L : replay [] (ks_log s) = [ex_key 2 2]) by (vm_compute; reflexivity). rewrite L in X.
  destruct (proj1 X (or_introl eq_refl)) as [C|[]]. discriminate.
Qed.
Print Assumptions C22_refuted.

(** True of calls that do not overlap, for any outcomes of their pings. *)
Theorem C22_partial : forall self t0 t evs es, key32 (id_key self) -> NewTable self = Ok t0 ->
  kad_history t0 t evs -> Entries t = Ok es ->
  forall k, k <> id_key self -> (In k (replay [] evs) <-> In k (map id_key es)).
Proof.
  intros self t0 t evs es Hk N0 HH HE.
  destruct (NewTable_ok self Hk) as (t1 & E & I0 & S0 & C0). rewrite N0 in E. assert (t1 = t0) as -> by congruence.
  assert (G : table_inv t /\ t_self t = self /\ forall k, k <> id_key self -> (In k (replay [] evs) <-> In k (keys t))).
  { clear HE es. induction HH as [|t ping id t' evs evs' HH IH Hid [n A]|t a t' evs evs' HH IH [n A]].
    - split; [exact I0|]. split; [exact S0|]. intros k Hn. unfold keys, ents. rewrite C0.
      destruct (bytes_eqb_spec (id_key self) ZeroPublicKey); cbn; [tauto|]. intuition.
    - destruct IH as (I & Es & IH).
      destruct (sync_call ping n t (KUpdate id) [] t' evs' (replay [] evs) I Hid) as (I' & S' & X); [cbn; rewrite Es; exact IH | exact A|].
      rewrite Es in *. split; [exact I'|]. split; [exact S'|]. intros k Hn. rewrite replay_app. apply X, Hn.
    - destruct IH as (I & Es & IH).
      destruct (sync_call (fun _ => GotPong) n t (KDelAddr a) [] t' evs' (replay [] evs) I Logic.I) as (I' & S' & X); [cbn; rewrite Es; exact IH | exact A|].
      rewrite Es in *. split; [exact I'|]. split; [exact S'|]. intros k Hn. rewrite replay_app. apply X, Hn. }
  destruct G as (_ & _ & G). unfold Entries in HE. destruct (t_size t <? 0)%Z; [discriminate|]. assert (es = concat (t_entries t)) as -> by congruence.
  exact G.
Qed.
Print Assumptions C22_partial.

Example C22_nonvacuous : exists t0 t, NewTable (ex_id 1 1) = Ok t0 /\
  kad_history t0 t [Admitted (NewID (ex_key 255 1) [] 1234); Evicted (NewID (ex_key 255 1) [] 1234)] /\ NumEntries t = 1%Z.
Proof.
  eexists. eexists. split; [vm_compute; reflexivity|]. split.
  - eapply (kh_fail _ _ (id_addr (NewID (ex_key 255 1) [] 1234)) _ [Admitted (NewID (ex_key 255 1) [] 1234)] [Evicted (NewID (ex_key 255 1) [] 1234)]).
    + eapply (kh_ack _ _ (fun _ => GotPong) (NewID (ex_key 255 1) [] 1234) _ [] [Admitted (NewID (ex_key 255 1) [] 1234)]); [apply kh_nil | reflexivity | exists 2; vm_compute; reflexivity].
    + exists 2. vm_compute. reflexivity.
  - vm_compute. reflexivity.
Qed.

(** ** C60 *)

(** A message with the opcode of registration number [i]. *)
Definition tagged (i : nat) (payload : bytes) : bytes := n2b (N.of_nat i / 256) :: n2b (N.of_nat i) :: payload.

Lemma nodup_app_disj {A} (l1 l2 : list A) x : NoDup (l1 ++ l2) -> In x l1 -> In x l2 -> False.
Proof.
  induction l1 as [|z l1 IH]; intros N H1 H2; [destruct H1|]. cbn [app] in N. inversion N as [|? ? N1 N2]; subst.
  destruct H1 as [<- |H1]; [apply N1; apply in_or_app; auto | auto].
Qed.
Lemma NoDup_app_remove_l {A} (l1 l2 : list A) : NoDup (l1 ++ l2) -> NoDup l2.
Proof. induction l1 as [|z l1 IH]; [auto|]. intros N. inversion N; auto. Qed.

Section C60.
Context (before after : list (gotype * decoder)) (c : codec) (os : list N).
Hypothesis REG : register_all newCodec (before ++ kad_registrations ++ after) = Ok (c, os).
Hypothesis SIZE : (N.of_nat (length (before ++ kad_registrations ++ after)) <= 65536)%N.
Let b := length before.

Lemma kad_nth j td : nth_error kad_registrations j = Some td -> nth_error (before ++ kad_registrations ++ after) (b + j) = Some td.
Proof.
  intros H. rewrite nth_error_app2 by (unfold b; lia). replace (b + j - length before) with j by (unfold b; lia).
  rewrite nth_error_app1; [exact H|]. apply nth_error_Some. congruence.
Qed.

Lemma kad_decode j t d payload : nth_error kad_registrations j = Some (TNamed t, d) ->
  decode c (tagged (b + j) payload) = d_run d payload /\
  encode c (Some (mkVal (TNamed t) payload)) = Ok (tagged (b + j) payload).
Proof.
  intros H. destruct (C05_roundtrip _ c os c os (b + j) (TNamed t) d (mkVal (TNamed t) payload) REG REG SIZE (kad_nth _ _ H)) as [E D];
    [discriminate | left; reflexivity | split; assumption].
Qed.

(** A ping request, whatever its payload, is answered with a pong (an empty message under the pong's opcode). *)
Theorem C60_ping : forall t payload, kad_handle c t true (tagged (b + 0) payload) = Ok (Some (tagged (b + 1) [])).
Proof.
  intros t payload. unfold kad_handle. destruct (kad_decode 0 1001 _ payload eq_refl) as [-> _].
  destruct (kad_decode 1 1002 _ [] eq_refl) as [_ E]. cbn [d_run bind UnmarshalPing v_type].
  change (TNamed 1001) with TPing. destruct (gotype_eq_dec TPing TPing); [|congruence].
  change (mkVal TPong Ping_marshal) with (mkVal (TNamed 1002) []). rewrite E. reflexivity.
Qed.

(** A find-node request is answered with at most 16 recorded peers other than the target, nearest first. *)
Theorem C60_find_node : forall self ops t es target, table_of self ops t -> Entries t = Ok es -> key32 target ->
  exists l, kad_handle c t true (tagged (b + 2) target) = Ok (Some (tagged (b + 3) (FindNodeResponse_marshal l))) /\
    length l = Nat.min 16 (length (filter (other_than target) es)) /\ NoDup l /\
    (forall e, In e l -> In e es /\ id_key e <> target) /\ sorted_by (fun e => dist (id_key e) target) l.
Proof.
  intros self ops t es target H HE Hk.
  destruct (C19_partial self ops t es target 16 H HE Hk ltac:(lia)) as (r & l & F & K & L & _).
  exists l. split.
  - unfold kad_handle. destruct (kad_decode 2 1003 _ target eq_refl) as [-> _]. cbn [d_run].
    rewrite (proj2 (Props_Wire.C03_UnmarshalFindNodeRequest target) Hk). cbn [bind v_type v_bytes].
    destruct (gotype_eq_dec TFindNodeRequest TPing); [discriminate|].
    destruct (gotype_eq_dec TFindNodeRequest TFindNodeRequest); [|congruence].
    unfold FindNodeRequest_marshal. change (Z.of_nat BucketSize) with 16%Z. rewrite F. cbn [bind].
    destruct (kad_decode 3 1004 _ (FindNodeResponse_marshal l) eq_refl) as [_ E].
    change TFindNodeResponse with (TNamed 1004). rewrite E. reflexivity.
  - split; [exact L|]. destruct K as (_ & KN & KI & KS & _). split; [exact KN|]. split; [|exact KS].
    intros e He. apply KI in He. apply filter_In in He as [He N]. split; [exact He|]. unfold near in N.
    apply andb_true_iff in N as [N _]. unfold other_than in N. destruct (bytes_eqb_spec (id_key e) target); [discriminate | assumption].
Qed.

(** The same messages outside a request are errors, which close the connection (node.go). *)
Theorem C60_not_a_request : forall t payload target, key32 target ->
  (exists e, kad_handle c t false (tagged (b + 0) payload) = Err e) /\ (exists e, kad_handle c t false (tagged (b + 2) target) = Err e).
Proof.
  intros t payload target Hk. unfold kad_handle. destruct (kad_decode 0 1001 _ payload eq_refl) as [-> _].
  destruct (kad_decode 2 1003 _ target eq_refl) as [-> _]. cbn [d_run].
  rewrite (proj2 (Props_Wire.C03_UnmarshalFindNodeRequest target) Hk). cbn [bind UnmarshalPing v_type v_bytes].
  destruct (gotype_eq_dec TPing TPing); [|congruence].
  destruct (gotype_eq_dec TFindNodeRequest TPing); [discriminate|].
  destruct (gotype_eq_dec TFindNodeRequest TFindNodeRequest); [|congruence]. split; eexists; reflexivity.
Qed.

(** Everything else is ignored: the data are neither a ping nor a well-formed find-node request, and decoders of
    user-registered messages return values of their own type, or errors. *)
Theorem C60_ignored : forall t isRequest data,
  (forall ty d x, In (ty, d) (before ++ after) -> match d_run d x with Ok v => v_type v = ty | Err _ => True | Panic => False end) ->
  (forall payload, data <> tagged (b + 0) payload) -> (forall target, key32 target -> data <> tagged (b + 2) target) ->
  kad_handle c t isRequest data = Ok None.
Proof.
  intros t isRequest data HU H0 H2. unfold kad_handle.
  destruct data as [|x [|y data]]; [reflexivity | reflexivity |].
  set (o := be_decode [x; y]).
  assert (Ho : (o < 65536)%N) by (unfold o; exact (be_decode_bound [x; y])).
  assert (Ex : x :: y :: data = n2b (o / 256) :: n2b o :: data).
  { unfold o. change (x :: y :: data) with ([x; y] ++ data). change (n2b (be_decode [x; y] / 256) :: n2b (be_decode [x; y]) :: data) with (be_encode 2 (be_decode [x; y]) ++ data).
    pose proof (be_encode_decode [x; y]) as Q. cbn [length] in Q. rewrite Q. reflexivity. }
  destruct (N.ltb_spec o (N.of_nat (length (before ++ kad_registrations ++ after)))) as [Lo|Lo].
  2: { rewrite Ex, (C05_unassigned_opcode_refused _ c os o data REG Ho Lo). reflexivity. }
  destruct (nth_error (before ++ kad_registrations ++ after) (N.to_nat o)) as [[ty d]|] eqn:En.
  2: { apply nth_error_None in En. lia. }
  assert (Ed : decode c (x :: y :: data) = d_run d data).
  { rewrite Ex. pose proof REG as G. apply register_all_ok in G as [_ G].
    change (n2b (o / 256) :: n2b o :: data) with (be_encode 2 o ++ data). rewrite G, decode_encoded by exact Ho. cbn [codec_of c_de].
    rewrite <- (N2Nat.id o) at 1. rewrite <- (N.mod_small (N.of_nat (N.to_nat o)) 65536) by lia. fold (opc (N.to_nat o)).
    rewrite (de_of_last _ 0 (N.to_nat o) ty d); [reflexivity|exact En|].
    intros j Hj Hl C. clear - Hj Hl C SIZE Lo Ho. cbn [Nat.add] in C. apply opc_inj in C; [lia| |].
    - lia.
    - lia. }
  rewrite Ed.
  assert (ND : NoDup (map fst (before ++ kad_registrations ++ after))).
  { pose proof REG as G. apply register_all_ok in G as [[G _] _]. exact G. }
  assert (Cases : In (ty, d) (before ++ after) \/ exists j, nth_error kad_registrations j = Some (ty, d) /\ N.to_nat o = b + j).
  { destruct (Nat.lt_ge_cases (N.to_nat o) b) as [C|C].
    - left. apply in_or_app. left. rewrite nth_error_app1 in En by exact C. eapply nth_error_In, En.
    - rewrite nth_error_app2 in En by exact C. fold b in En. destruct (Nat.lt_ge_cases (N.to_nat o - b) (length kad_registrations)) as [C2|C2].
      + right. exists (N.to_nat o - b). rewrite nth_error_app1 in En by exact C2. split; [exact En | lia].
      + left. apply in_or_app. right. rewrite nth_error_app2 in En by exact C2. eapply nth_error_In, En. }
  assert (Tag : forall j, N.to_nat o = b + j -> x :: y :: data = tagged (b + j) data).
  { intros j Ej. rewrite Ex. unfold tagged. rewrite <- Ej, N2Nat.id. reflexivity. }
  destruct Cases as [U|(j & Ej & Eo)].
  - specialize (HU ty d data U). destruct (d_run d data) as [v|e|]; [|reflexivity|contradiction]. subst ty.
    assert (NU : forall u, In u (map fst kad_registrations) -> v_type v <> u).
    { intros u Hu C. subst u. rewrite !map_app in ND. apply in_app_or in U.
      assert (In (v_type v) (map fst before) \/ In (v_type v) (map fst after)) as [Q|Q] by (destruct U as [U|U]; [left|right]; apply (in_map fst) in U; exact U).
      - apply (nodup_app_disj _ _ (v_type v) ND Q). apply in_or_app. left. exact Hu.
      - apply NoDup_app_remove_l in ND. exact (nodup_app_disj _ _ (v_type v) ND Hu Q). }
    destruct (gotype_eq_dec (v_type v) TPing) as [C|_]; [exfalso; apply (NU TPing); [left; reflexivity | exact C]|].
    destruct (gotype_eq_dec (v_type v) TFindNodeRequest) as [C|_]; [exfalso; apply (NU TFindNodeRequest); [right; right; left; reflexivity | exact C] | reflexivity].
  - destruct j as [|[|[|[|j]]]]; cbn in Ej.
    + exfalso. apply (H0 data). rewrite (Tag 0 Eo). reflexivity.
    + assert (d = _) as -> by (injection Ej; intros; symmetry; eassumption). cbn [d_run bind UnmarshalPing v_type]. reflexivity.
    + assert (d = _) as -> by (injection Ej; intros; symmetry; eassumption). cbn [d_run].
      destruct (Nat.eq_dec (length data) 32) as [El|El].
      * exfalso. apply (H2 data El). apply (Tag 2 Eo).
      * rewrite (proj1 (Props_Wire.C03_UnmarshalFindNodeRequest data) El). reflexivity.
    + assert (d = _) as -> by (injection Ej; intros; symmetry; eassumption). cbn [d_run].
      destruct (Props_Wire.C03_decoders_never_panic data) as (_ & _ & _ & NP & _).
      destruct (UnmarshalFindNodeResponse data) as [l|e|]; [reflexivity|reflexivity|congruence].
    + destruct j; discriminate.
Qed.
End C60.
Print Assumptions C60_ping.
Print Assumptions C60_find_node.
Print Assumptions C60_not_a_request.
Print Assumptions C60_ignored.

Example C60_nonvacuous : exists c os, register_all newCodec ([(TNamed 1, ex_dec (TNamed 1) 0)] ++ kad_registrations ++ []) = Ok (c, os) /\
  kad_handle c (mk_table (ex_id 1 1) ex_ops) true (tagged 1 [x01]) = Ok (Some (tagged 2 [])) /\
  kad_handle c (mk_table (ex_id 1 1) ex_ops) true (tagged 3 [x01]) = Ok None.
Proof.
  exists (codec_of ([(TNamed 1, ex_dec (TNamed 1) 0)] ++ kad_registrations ++ [])), (map N.of_nat (seq 0 5)).
  split; [|split; vm_compute; reflexivity].
  destruct (C05_register ([(TNamed 1, ex_dec (TNamed 1) 0)] ++ kad_registrations ++ [])) as [c E].
  - repeat (constructor; [cbn; intuition discriminate|]). constructor.
  - intros t d H. cbn in H. repeat destruct H as [H|H]; try (injection H as <- <-; reflexivity). destruct H.
  - vm_compute. discriminate.
  - pose proof (proj2 (register_all_ok _ _ _ E)) as ->. exact E.
Qed.

(** ** C63 *)

Definition C63_statement : Prop := forall self t0 acts, key32 (id_key self) -> NewTable self = Ok t0 ->
  Forall (fun a => match a with KAck id => key32 (id_key id) | _ => True end) acts ->
  kad_run (mkKS t0 [] []) acts <> Panic.

(** Refuted: between finding the bucket full and reading its last entry, failed dials may empty the bucket. *)
Theorem C63_refuted : ~ C63_statement.
Proof.
  intros H.
  set (p := fun i : N => NewID (ex_key 255 i) [] (1000 + i)).
  set (ns := [1;2;3;4;5;6;7;8;9;10;11;12;13;14;15;16]%N).
  set (fill := List.concat (map (fun i => [KAck (p i); KStep (N.to_nat i - 1) GotPong]) ns)).
  set (empty := List.concat (map (fun i => [KPingFailed (id_addr (p i)); KStep (N.to_nat i + 16) GotPong]) ns)).
  set (acts := fill ++ [KAck (p 17%N); KStep 16 GotPong] ++ empty ++ [KStep 16 GotPong]).
  set (t0 := match NewTable (ex_id 1 1) with Ok t => t | _ => mkTable [] (ex_id 1 1) 0 end).
  apply (H (ex_id 1 1) t0 acts eq_refl eq_refl).
  - apply Forall_forall. intros a Ha. repeat (destruct Ha as [<- |Ha]; [vm_compute; auto|]). destruct Ha.
  - vm_compute. reflexivity.
Qed.
Print Assumptions C63_refuted.

(** With no other call in between, Ack and OnPingFailed never panic and always return. *)
Theorem C63_alone_partial : forall self ops t ping id n pc addr, table_of self ops t -> key32 (id_key id) ->
  pc = KUpdate id \/ pc = KDelAddr addr -> exists r, call_run ping n t pc [] = Ok r.
Proof.
  intros self ops t ping id n pc addr H Hk Hpc. destruct (table_of_inv self ops t H) as [I Es].
  assert (T : exists m r, call_run ping m t pc [] = Ok r /\ snd (fst r) = KDone).
  { destruct Hpc as [-> | ->].
    - destruct (ack_result ping t id I Hk) as (t' & evs & m & E & _). exists m. eexists. split; [exact E | reflexivity].
    - exists 2. cbn. destruct (DeleteByAddress t addr) as [t1 [e [|]]]; eexists; split; reflexivity. }
  destruct T as (m & [[t' pc'] evs] & E & D). cbn in D. subst pc'.
  clear Hpc I H Es. revert t pc E n. generalize (@nil kad_event) as log.
  induction m as [|m IH]; intros log t pc E n; cbn [call_run] in E.
  - assert (pc = KDone) as -> by congruence. rewrite call_done. eauto.
  - destruct n as [|n]; [cbn; eauto|]. cbn [call_run].
    destruct (kad_step _ t pc) as [[[t1 pc1] ev]| |] eqn:K; cbn [bind] in E |- *; try discriminate. exact (IH _ _ _ E n).
Qed.
Print Assumptions C63_alone_partial.
