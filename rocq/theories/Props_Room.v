(** * C122: a peer that is gone makes room for those that arrive. *)
From Verif Require Import Base Spec M_ID M_Msg M_Codec M_Table P_Table M_Kad P_Kad M_Room Props_Kad Props_KadProto Props_Discover Props_Stay.
From Coq Require Import Strings.Byte.
Local Open Scope nat_scope.

(** ** Spec *)

(** Whoever answers at the peer's address is that peer. *)
Definition genuine (at_ : bytes -> option ID) (e : ID) : Prop := forall x, at_ (id_addr e) = Some x -> id_key x = id_key e.
(** Nobody, or somebody else, answers at the peer's address. *)
Definition gone (at_ : bytes -> option ID) (e : ID) : Prop := forall x, at_ (id_addr e) = Some x -> id_key x <> id_key e.
(** New peers that belong in the bucket of [d]. *)
Definition newcomers (self : ID) (es : list ID) (d : ID) (vs : list ID) : Prop :=
  NoDup (map id_key vs) /\
  forall v, In v vs -> key32 (id_key v) /\ id_key v <> zeros 32 /\ ~ In (id_key v) (map id_key es) /\
    bucket_of (id_key self) (id_key v) = bucket_of (id_key self) (id_key d).
(** No two peers have the same address. *)
Definition apart (l : list ID) : Prop := forall x y, In x l -> In y l -> id_addr x = id_addr y -> x = y.
(** Answers come from nodes; a ping of nobody fails. *)
Definition network (at_ : bytes -> option ID) (fail : ID -> ping_outcome) : Prop :=
  (forall a x, at_ a = Some x -> key32 (id_key x)) /\ (forall e, fail e <> GotPong).

Definition C122_statement : Prop := forall self ops t es at_ fail d vs t' es',
  table_of self ops t -> Entries t = Ok es -> network at_ fail -> In d es -> gone at_ d ->
  newcomers self es d vs -> apart (es ++ vs) -> (forall e, In e (es ++ vs) -> e <> d -> genuine at_ e) ->
  16 <= length vs -> arrive_all at_ fail t vs t' -> Entries t' = Ok es' -> ~ In d es'.

(** ** Proof *)

Lemma call_run_inv ping n : forall t pc log t' pc' log', table_inv t -> pc_wf pc -> call_run ping n t pc log = Ok (t', pc', log') ->
  table_inv t' /\ t_self t' = t_self t.
Proof.
  induction n as [|n IH]; intros t pc log t' pc' log' I W H; cbn [call_run] in H; [injection H as <- <- <-; auto|].
  destruct (kad_step _ t pc) as [[[t1 pc1] ev]| |] eqn:K; cbn [bind] in H; try discriminate.
  destruct (kad_step_wf _ _ _ _ _ _ I W K) as (I1 & S1 & W1). destruct (IH _ _ _ _ _ _ I1 W1 H) as [I2 S2]. split; [exact I2 | congruence].
Qed.
Lemma ack_inv ping t id t' evs : table_inv t -> key32 (id_key id) -> ack_alone ping t id t' evs -> table_inv t' /\ t_self t' = t_self t.
Proof. intros I Hk [n H]. exact (call_run_inv ping n t (KUpdate id) _ _ _ _ I Hk H). Qed.
Lemma ack_exists ping t id : table_inv t -> key32 (id_key id) -> exists t' evs, ack_alone ping t id t' evs.
Proof. intros I Hk. destruct (ack_result ping t id I Hk) as (t' & evs & n & H & _). exists t', evs, n. exact H. Qed.

Lemma in_bucket t e : table_inv t -> In e (ents t) -> In e (bucket_at t (bucket_of (id_key (t_self t)) (id_key e))).
Proof. intros I H. apply (in_entries t e I). exact H. Qed.
Lemma bucket_in t i e : table_inv t -> In e (bucket_at t i) -> In e (ents t).
Proof. intros I H. apply (in_entries t e I). rewrite (bucket_elem t i e I H). exact H. Qed.

Lemma set_same t i b z : table_inv t -> i < NumBuckets -> bucket_at (set_bucket t i b z) i = b.
Proof. intros I Hi. rewrite bucket_at_set, Nat.eqb_refl, (inv_len t I). destruct (Nat.ltb_spec i NumBuckets); [reflexivity | lia]. Qed.
Lemma set_other t i b z j : j <> i -> bucket_at (set_bucket t i b z) j = bucket_at t j.
Proof. intros H. rewrite bucket_at_set. apply Nat.eqb_neq in H. rewrite H. reflexivity. Qed.

Lemma two_ends {A} (l : list A) x l1 d l2 : l ++ [x] = l1 ++ d :: l2 -> (l2 = [] /\ d = x /\ l = l1) \/ exists l3, l2 = l3 ++ [x] /\ l = l1 ++ d :: l3.
Proof.
  intros H. destruct (exists_last (l := d :: l2)) as (m & y & E); [discriminate|].
  rewrite E, app_assoc in H. apply app_inj_tail in H as [H1 H2]. subst y. destruct m as [|d' m].
  - cbn in E. injection E as -> ->. left. rewrite app_nil_r in H1. auto.
  - cbn in E. injection E as <- ->. right. exists m. auto.
Qed.

(** A peer already in the table is only moved to the front. *)
Lemma ack_known ping t x t' evs : table_inv t -> key32 (id_key x) -> In (id_key x) (keys t) -> ack_alone ping t x t' evs ->
  exists e l1 l2, let i := bucket_of (id_key (t_self t)) (id_key x) in
    bucket_at t i = l1 ++ e :: l2 /\ id_key e = id_key x /\ bucket_at t' i = e :: l1 ++ l2 /\
    (forall j, j <> i -> bucket_at t' j = bucket_at t j) /\ (forall y, In y (ents t') <-> In y (ents t)).
Proof.
  intros I Hk Hin A. pose proof (ack_inv _ _ _ _ _ I Hk A) as [I' S']. apply in_keys in Hin as (e0 & He0 & Ek0).
  apply (in_bucket t e0 I) in He0. rewrite Ek0 in He0.
  assert (NI : In (id_key x) (map id_key (bucket_at t (bucket_of (id_key (t_self t)) (id_key x))))) by (apply in_map_iff; exists e0; auto).
  assert (NZ : id_key x <> ZeroPublicKey) by (rewrite <- Ek0; exact (proj1 (proj2 (inv_elem t I _ _ He0)))).
  apply (ack_alone_spec _ _ _ _ _ I Hk) in A.
  destruct A as [Z|i l1 e l2 Z Ei Eb Ek|i Z Ei N L|i l last Z Ei N L El P|i l last t1 Z Ei N L El P|i l last v t1 l' Z Ei N L El P D Nv B1]; try (subst i; contradiction); try contradiction.
  exists e, l1, l2. cbv zeta. rewrite <- Ei. assert (Hi : i < NumBuckets) by (rewrite Ei; apply bucket_of_lt).
  split; [exact Eb|]. split; [exact Ek|]. split; [apply set_same; assumption|]. split; [intros j Hj; apply set_other; exact Hj|].
  intros y. rewrite ents_set; [| exact I | exact Hi |].
  - destruct (Nat.eqb_spec (bucket_of (id_key (t_self t)) (id_key y)) i) as [E|E]; [|reflexivity].
    rewrite (in_entries t y I : In y (ents t) <-> _), E, Eb, in_app_iff. cbn [In]. rewrite in_app_iff. tauto.
  - intros z Hz. apply (bucket_elem t i z I). rewrite Eb. cbn [In] in Hz. rewrite in_app_iff in Hz |- *. cbn [In]. tauto.
Qed.

Section Room.
Variables (at_ : bytes -> option ID) (fail : ID -> ping_outcome).
Hypothesis NK : forall a x, at_ a = Some x -> key32 (id_key x).
Hypothesis NF : forall e, fail e <> GotPong.

(** The arrival of a peer that is not in the table. *)
Lemma arrives_new t v t' : table_inv t -> key32 (id_key v) -> id_key v <> ZeroPublicKey -> ~ In (id_key v) (keys t) ->
  (forall x y, In x (ents t) -> In y (ents t) -> id_addr x = id_addr y -> x = y) ->
  arrives at_ fail t v t' ->
  let i := bucket_of (id_key (t_self t)) (id_key v) in let b := bucket_at t i in
  (length b < 16 /\ bucket_at t' i = v :: b /\ (forall y, In y (ents t') <-> y = v \/ In y (ents t)) /\ table_inv t' /\ t_self t' = t_self t) \/
  (exists l last, length b = 16 /\ b = l ++ [last] /\ at_ (id_addr last) = None /\ bucket_at t' i = v :: l /\
     (forall y, In y (ents t') -> y = v \/ In y (ents t)) /\ ~ In last (ents t') /\ table_inv t' /\ t_self t' = t_self t) \/
  (exists l last x evs, length b = 16 /\ b = l ++ [last] /\ at_ (id_addr last) = Some x /\ ack_alone (net_ping at_ fail) t x t' evs).
Proof.
  intros I Hk Hz NI AP (t1 & evs & A & M). pose proof (ack_inv _ _ _ _ _ I Hk A) as [I1 S1]. cbv zeta.
  set (i := bucket_of (id_key (t_self t)) (id_key v)) in *. assert (Hi : i < NumBuckets) by apply bucket_of_lt.
  assert (NB : ~ In (id_key v) (map id_key (bucket_at t i))).
  { intros C. apply in_map_iff in C as (e & Ek & He). apply NI. apply in_keys. exists e. split; [exact (bucket_in t i e I He) | exact Ek]. }
  pose proof (Update_cases t v I Hk) as UC. cbv zeta in UC. fold i in UC.
  apply (ack_alone_spec _ _ _ _ _ I Hk) in A. unfold pinged in M.
  destruct UC as [(E & U)|[(E & l1 & e & l2 & Eb & Ek & U)|[(E & _ & L & U)|(E & _ & L & U)]]]; rewrite U in M.
  - contradiction.
  - exfalso. apply NB. rewrite Eb, <- Ek. apply in_map. apply in_or_app. right. left. reflexivity.
  - subst t'. left. unfold BucketSize in L. split; [exact L|].
    assert (t1 = set_bucket t i (v :: bucket_at t i) (t_size t + 1)) as ->.
    { destruct A as [Z|j l1 e l2 Z Ej Eb Ek|j Z Ej N L'|j l last Z Ej N L' El P|j l last t1' Z Ej N L' El P|j l last v' t1' l' Z Ej N L' El P D Nv B1]; fold i in Ej || idtac; try contradiction.
      - exfalso. apply NB. subst j. rewrite Eb, <- Ek. apply in_map. apply in_or_app. right. left. reflexivity.
      - subst j. reflexivity.
      - subst j. unfold BucketSize in L'. lia.
      - subst j. unfold BucketSize in L'. lia.
      - subst j. unfold BucketSize in L'. lia. }
    split; [apply set_same; assumption|]. split; [|split; assumption].
    intros y. rewrite ents_set; [|exact I|exact Hi|].
    + destruct (Nat.eqb_spec (bucket_of (id_key (t_self t)) (id_key y)) i) as [Ey|Ey].
      * cbn [In]. rewrite (in_entries t y I : In y (ents t) <-> _), Ey. split; intros [H|H]; auto.
      * split; [auto|]. intros [->|H]; [exfalso; apply Ey; reflexivity | exact H].
    + intros z [<-|Hz']; [reflexivity | exact (bucket_elem t i z I Hz')].
  - destruct (full_last _ L) as (l & last & El). rewrite (Last_of t (id_key v) l last I Hk El) in M. right.
    assert (Hlast : In last (bucket_at t i)) by (rewrite El; apply in_or_app; right; left; reflexivity).
    unfold net_ping in A. destruct (at_ (id_addr last)) as [x|] eqn:AT.
    + right. destruct M as (evs' & M). exists l, last, x, evs'. split; [exact L|]. split; [exact El|]. split; [exact AT|].
      replace t with t1; [exact M|].
      destruct A as [Z|j l1 e l2 Z Ej Eb Ek|j Z Ej N L'|j l' last' Z Ej N L' El' P|j l' last' t1' Z Ej N L' El' P|j l' last' v' t1' l'' Z Ej N L' El' P D Nv B1]; try contradiction; fold i in Ej; subst j.
      * exfalso. apply NB. rewrite Eb, <- Ek. apply in_map. apply in_or_app. right. left. reflexivity.
      * unfold BucketSize in *. lia.
      * reflexivity.
      * exfalso. rewrite El in El'. apply app_inj_tail in El' as [<- <-]. rewrite AT in P. destruct P as [P|[P|[P _]]]; discriminate.
      * exfalso. rewrite El in El'. apply app_inj_tail in El' as [<- <-]. rewrite AT in P. discriminate.
    + left. subst t'. exists l, last. split; [exact L|]. split; [exact El|]. split; [exact AT|].
      assert (F : bucket_at t1 i = v :: l /\ forall y, In y (ents t1) -> y = v \/ In y (ents t) /\ y <> last).
      { destruct A as [Z|j l1 e l2 Z Ej Eb Ek|j Z Ej N L'|j l' last' Z Ej N L' El' P|j l' last' t1' Z Ej N L' El' P|j l' last' v' t1' l'' Z Ej N L' El' P D Nv B1]; try contradiction; fold i in Ej; subst j.
        - exfalso. apply NB. rewrite Eb, <- Ek. apply in_map. apply in_or_app. right. left. reflexivity.
        - unfold BucketSize in *. lia.
        - exfalso. rewrite El in El'. apply app_inj_tail in El' as [<- <-]. rewrite AT in P. exact (NF _ P).
        - rewrite El in El'. apply app_inj_tail in El' as [<- <-].
          pose proof (remove_inv t i last l [] I Hi El) as R. rewrite app_nil_r in R.
          split; [apply set_same; assumption|]. intros y Hy. rewrite ents_set in Hy; [|exact R|exact Hi|].
          + cbn [set_bucket t_self] in Hy. destruct (Nat.eqb_spec (bucket_of (id_key (t_self t)) (id_key y)) i) as [Ey|Ey].
            * cbn [In] in Hy. destruct Hy as [<-|Hy]; [left; reflexivity|]. right. split; [apply (bucket_in t i y I); rewrite El; apply in_or_app; left; exact Hy|].
              intros ->. pose proof (inv_nodup t I i) as ND. rewrite El, map_app in ND. cbn [map] in ND. apply NoDup_remove_2 in ND. rewrite app_nil_r in ND. apply ND. apply in_map. exact Hy.
            * right. rewrite ents_set in Hy; [|exact I|exact Hi|].
              -- apply Nat.eqb_neq in Ey. rewrite Ey in Hy. split; [exact Hy|]. intros ->. apply Nat.eqb_neq in Ey. apply Ey. exact (bucket_elem t i last I Hlast).
              -- intros z Hz'. apply (bucket_elem t i z I). rewrite El. apply in_or_app. left. exact Hz'.
          + intros z [<-|Hz']; [reflexivity|]. cbn [set_bucket t_self]. apply (bucket_elem t i z I). rewrite El. apply in_or_app. left. exact Hz'.
        - exfalso. rewrite El in El'. apply app_inj_tail in El' as [<- <-]. apply Nv.
          pose proof (DeleteByAddress_keys t (id_addr last) t1' v' true (id_key v') I D) as (Ea & Hv & _).
          apply AP; [exact Hv | exact (bucket_in t i last I Hlast) | exact Ea]. }
      destruct F as [F1 F2]. split; [exact F1|]. split; [intros y Hy; destruct (F2 y Hy) as [->|[Hy' _]]; auto|].
      split; [|split; assumption]. intros C. destruct (F2 last C) as [->|[_ Hne]]; [|exact (Hne eq_refl)].
      apply NB. apply in_map. exact Hlast.
Qed.

(** With the addresses of the others answered by their owners, and nobody at the address of [d]. *)
Lemma waits d i : at_ (id_addr d) = None -> forall vs t t',
  table_inv t -> bucket_of (id_key (t_self t)) (id_key d) = i ->
  NoDup (map id_key vs) ->
  (forall v, In v vs -> key32 (id_key v) /\ id_key v <> ZeroPublicKey /\ ~ In (id_key v) (keys t) /\ bucket_of (id_key (t_self t)) (id_key v) = i) ->
  (forall x y, In x (ents t ++ vs) -> In y (ents t ++ vs) -> id_addr x = id_addr y -> x = y) ->
  (forall e, In e (ents t ++ vs) -> genuine at_ e) ->
  arrive_all at_ fail t vs t' -> In d (ents t') ->
  In d (ents t) \/ In d vs ->
  (In d vs \/ exists l1 l2, bucket_at t i = l1 ++ d :: l2 /\ length vs <= 16 - length (bucket_at t i) + length l2).
Proof.
  intros Hd. induction vs as [|v vs IH]; intros t t' I Hi ND NV AP GN A Ht' Hin.
  - cbn [arrive_all] in A. subst t'. right. apply (in_bucket t d I) in Ht'. rewrite Hi in Ht'. apply in_split in Ht' as (l1 & l2 & E). exists l1, l2. split; [exact E | cbn; lia].
  - destruct Hin as [Hin|Hin]; [|left; exact Hin]. right.
    cbn [arrive_all] in A. destruct A as (t1 & A1 & A2).
    inversion ND as [|? ? ND1 ND2]; subst.
    destruct (NV v (or_introl eq_refl)) as (Kv & Zv & Nv & Bv).
    set (i := bucket_of (id_key (t_self t)) (id_key d)) in *.
    assert (Hlt : i < NumBuckets) by apply bucket_of_lt.
    assert (Dv : d <> v) by (intros ->; apply Nv; apply in_keys; exists v; auto).
    assert (Dvs : ~ In d vs).
    { intros C. destruct (NV d (or_intror C)) as (_ & _ & N & _). apply N. apply in_keys. exists d. auto. }
    pose proof (arrives_new t v t1 I Kv Zv Nv) as X. rewrite Bv in X. cbv zeta in X. specialize (X ltac:(intros x y Hx Hy; apply AP; apply in_or_app; left; assumption) A1).
    assert (Fin : (forall y, In y (ents t1) -> y = v \/ In y (ents t)) -> table_inv t1 -> t_self t1 = t_self t ->
                  In d (ents t1) -> exists l1 l2, bucket_at t1 i = l1 ++ d :: l2 /\ length vs <= 16 - length (bucket_at t1 i) + length l2).
    { intros Sub I1 S1 Hd1. destruct (IH t1 t' I1) as [C|R]; auto; [rewrite S1; reflexivity | | | | contradiction].
      - intros w Hw. destruct (NV w (or_intror Hw)) as (K1 & K2 & K3 & K4). split; [exact K1|]. split; [exact K2|]. rewrite S1. split; [|exact K4].
        intros C. apply in_keys in C as (e & He & Ek). destruct (Sub e He) as [->|He']; [apply ND1; rewrite Ek; apply in_map; exact Hw|]. apply K3. apply in_keys. exists e. auto.
      - intros x y Hx Hy. apply AP; (rewrite in_app_iff in * ; cbn [In]); [destruct Hx as [Hx|Hx]; [destruct (Sub x Hx)|] | destruct Hy as [Hy|Hy]; [destruct (Sub y Hy)|]]; auto.
      - intros e He. apply GN. rewrite in_app_iff in *. cbn [In]. destruct He as [He|He]; [destruct (Sub e He)|]; auto. }
    assert (Stay : (forall y, In y (ents t1) -> y = v \/ In y (ents t)) -> table_inv t1 -> t_self t1 = t_self t -> In d (ents t1)).
    { intros Sub I1 S1. clear Fin X. 
      assert (G : forall ws s s', table_inv s -> NoDup (map id_key ws) ->
        (forall w, In w ws -> key32 (id_key w) /\ id_key w <> ZeroPublicKey /\ ~ In (id_key w) (keys s)) ->
        (forall x y, In x (ents s ++ ws) -> In y (ents s ++ ws) -> id_addr x = id_addr y -> x = y) ->
        (forall e, In e (ents s ++ ws) -> genuine at_ e) ->
        arrive_all at_ fail s ws s' -> forall y, In y (ents s') -> In y (ents s ++ ws)).
      { clear - NK NF. induction ws as [|w ws IH]; intros s s' I ND NV AP GN A y Hy; cbn [arrive_all] in A; [subst s'; rewrite app_nil_r; exact Hy|].
        destruct A as (s1 & A1 & A2). inversion ND as [|? ? ND1 ND2]; subst. destruct (NV w (or_introl eq_refl)) as (Kw & Zw & Nw).
        assert (Sub : (forall y, In y (ents s1) -> y = w \/ In y (ents s)) /\ table_inv s1).
        { destruct (arrives_new s w s1 I Kw Zw Nw ltac:(intros x z Hx Hz; apply AP; apply in_or_app; left; assumption) A1) as [(L & B & E & I1 & S1)|[(l & last & L & B & AT & B1 & E & NL & I1 & S1)|(l & last & x & evs & L & B & AT & M)]].
          - split; [intros z Hz; apply E; exact Hz | exact I1].
          - split; [exact E | exact I1].
          - assert (Hl : In last (ents s)) by (apply (bucket_in s (bucket_of (id_key (t_self s)) (id_key w)) last I); rewrite B; apply in_or_app; right; left; reflexivity).
            assert (Kx : id_key x = id_key last) by (apply (GN last); [apply in_or_app; left; exact Hl | exact AT]).
            destruct (ack_known (net_ping at_ fail) s x s1 evs I (NK _ _ AT)) as (e & l1 & l2 & Eb & Ek & Eb' & _ & Eq); [rewrite Kx; apply in_keys; exists last; auto | exact M|].
            split; [intros z Hz; right; apply Eq; exact Hz | exact (proj1 (ack_inv _ _ _ _ _ I (NK _ _ AT) M))]. }
        destruct Sub as [Sub I1].
        assert (R : In y (ents s1 ++ ws)).
        { apply (IH s1 s' I1 ND2); auto.
          - intros u Hu. destruct (NV u (or_intror Hu)) as (K1 & K2 & K3). split; [exact K1|]. split; [exact K2|]. intros C. apply in_keys in C as (e & He & Ek).
            destruct (Sub e He) as [->|He']; [apply ND1; rewrite Ek; apply in_map; exact Hu|]. apply K3. apply in_keys. exists e. auto.
          - intros x z Hx Hz. apply AP; (rewrite in_app_iff in * ; cbn [In]); [destruct Hx as [Hx|Hx]; [destruct (Sub x Hx)|] | destruct Hz as [Hz|Hz]; [destruct (Sub z Hz)|]]; auto.
          - intros e He. apply GN. rewrite in_app_iff in *. cbn [In]. destruct He as [He|He]; [destruct (Sub e He)|]; auto. }
        rewrite in_app_iff in *. cbn [In]. destruct R as [R|R]; [destruct (Sub y R)|]; auto. }
      assert (R : In d (ents t1 ++ vs)).
      { apply (G vs t1 t'); auto.
        - intros w Hw. destruct (NV w (or_intror Hw)) as (K1 & K2 & K3 & K4). split; [exact K1|]. split; [exact K2|].
          intros C. apply in_keys in C as (e & He & Ek). destruct (Sub e He) as [->|He']; [apply ND1; rewrite Ek; apply in_map; exact Hw|]. apply K3. apply in_keys. exists e. auto.
        - intros x y Hx Hy. apply AP; (rewrite in_app_iff in * ; cbn [In]); [destruct Hx as [Hx|Hx]; [destruct (Sub x Hx)|] | destruct Hy as [Hy|Hy]; [destruct (Sub y Hy)|]]; auto.
        - intros e He. apply GN. rewrite in_app_iff in *. cbn [In]. destruct He as [He|He]; [destruct (Sub e He)|]; auto. }
      apply in_app_iff in R as [R|R]; [exact R | contradiction]. }
    destruct X as [(L & B & E & I1 & S1)|[(l & last & L & B & AT & B1 & E & NL & I1 & S1)|(l & last & x & evs & L & B & AT & M)]].
    + destruct (Fin (fun y Hy => proj1 (E y) Hy) I1 S1 (proj2 (E d) (or_intror Hin))) as (l1 & l2 & Eb & Le). rewrite B in Eb, Le.
      destruct l1 as [|a l1]; cbn [app] in Eb; injection Eb as E1 E2; [congruence|]. exists l1, l2. split; [exact E2|].
      cbn [length] in *. lia.
    + pose proof (Stay E I1 S1) as Hd1. destruct (Fin E I1 S1 Hd1) as (l1 & l2 & Eb & Le). rewrite B1 in Eb, Le.
      destruct l1 as [|a l1]; cbn [app] in Eb; injection Eb as E1 E2; [congruence|].
      exists l1, (l2 ++ [last]). split; [rewrite B, E2, <- app_assoc; reflexivity|].
      rewrite L. rewrite B, app_length in L. cbn [length] in *. rewrite app_length. cbn [length]. lia.
    + assert (Hl : In last (ents t)) by (apply (bucket_in t i last I); rewrite B; apply in_or_app; right; left; reflexivity).
      assert (Kx : id_key x = id_key last) by (apply (GN last); [apply in_or_app; left; exact Hl | exact AT]).
      assert (Dl : d <> last) by (intros ->; congruence).
      assert (Bl : bucket_of (id_key (t_self t)) (id_key last) = i) by (apply (bucket_elem t i last I); rewrite B; apply in_or_app; right; left; reflexivity).
      destruct (ack_inv _ _ _ _ _ I (NK _ _ AT) M) as [I1 S1].
      destruct (ack_known (net_ping at_ fail) t x t1 evs I (NK _ _ AT)) as (e & m1 & m2 & Eb & Ek & Eb' & _ & Eq); [rewrite Kx; apply in_keys; exists last; auto | exact M|].
      cbv zeta in *. rewrite Kx, Bl in *.
      assert (e = last).
      { apply (in_unique_key t e last I); [apply (bucket_in t i e I); rewrite Eb; apply in_or_app; right; left; reflexivity | exact Hl | exact Ek]. } subst e.
      assert (m2 = [] /\ m1 = l) as [-> ->].
      { pose proof (inv_nodup t I i) as NDb. rewrite B in Eb, NDb. destruct (two_ends l last m1 last m2 Eb) as [(-> & _ & ->)|(l3 & -> & El)]; [auto|]. exfalso.
        rewrite El in NDb. rewrite map_app in NDb. cbn [map] in NDb. apply NoDup_remove_2 in NDb. apply NDb. rewrite app_nil_r, map_app. apply in_or_app. right. left. reflexivity. }
      rewrite app_nil_r in Eb'.
      destruct (Fin (fun y Hy => or_intror (proj1 (Eq y) Hy)) I1 S1 (proj2 (Eq d) Hin)) as (l1 & l2 & Eb1 & Le). rewrite Eb' in Eb1, Le.
      destruct l1 as [|a l1]; cbn [app] in Eb1; injection Eb1 as E1 E2; [congruence|].
      exists l1, (l2 ++ [last]). split; [rewrite B, E2, <- app_assoc; reflexivity|].
      rewrite L. rewrite B, app_length in L. cbn [length] in *. rewrite app_length. cbn [length]. lia.
Qed.

(** With somebody else at the address of the oldest entry. *)
Lemma blocks d x i : at_ (id_addr d) = Some x -> id_key x <> id_key d -> forall vs t t' l,
  table_inv t -> i = bucket_of (id_key (t_self t)) (id_key d) -> bucket_at t i = l ++ [d] -> length (bucket_at t i) = 16 ->
  In (id_key x) (keys t) ->
  (forall v, In v vs -> key32 (id_key v) /\ id_key v <> ZeroPublicKey /\ ~ In (id_key v) (keys t) /\ bucket_of (id_key (t_self t)) (id_key v) = i) ->
  (forall x y, In x (ents t) -> In y (ents t) -> id_addr x = id_addr y -> x = y) ->
  arrive_all at_ fail t vs t' -> forall y, In y (ents t') <-> In y (ents t).
Proof.
  intros AT NX. induction vs as [|v vs IH]; intros t t' l I Hi Eb L Hx NV AP A y; cbn [arrive_all] in A; [subst t'; reflexivity|].
  destruct A as (t1 & A1 & A2). destruct (NV v (or_introl eq_refl)) as (Kv & Zv & Nv & Bv).
  pose proof (arrives_new t v t1 I Kv Zv Nv AP A1) as X. rewrite Bv in X. cbv zeta in X.
  destruct X as [(L' & _)|[(l' & last & _ & B & AT' & _)|(l' & last & x' & evs & _ & B & AT' & M)]].
  - lia.
  - rewrite Eb in B. apply app_inj_tail in B as [_ <-]. congruence.
  - rewrite Eb in B. apply app_inj_tail in B as [_ <-]. assert (x' = x) as -> by congruence.
    destruct (ack_inv _ _ _ _ _ I (NK _ _ AT') M) as [I1 S1].
    destruct (ack_known (net_ping at_ fail) t x t1 evs I (NK _ _ AT') Hx M) as (e & m1 & m2 & Em & Ek & Em' & Oth & Eq). cbv zeta in *.
    assert (B1 : exists l1, bucket_at t1 i = l1 ++ [d] /\ length (bucket_at t1 i) = 16).
    { destruct (Nat.eq_dec i (bucket_of (id_key (t_self t)) (id_key x))) as [E|E].
      - rewrite <- E in *. rewrite Eb in Em. destruct (two_ends l d m1 e m2 Em) as [(_ & -> & _)|(l3 & -> & El)]; [congruence|].
        exists (e :: m1 ++ l3). rewrite Em'. split; [cbn [app]; rewrite <- app_assoc; reflexivity|].
        rewrite Eb, El, !app_length in L. cbn [length] in *. rewrite !app_length. cbn [length]. lia.
      - rewrite (Oth i E). exists l. auto. }
    destruct B1 as (l1 & B1 & L1).
    rewrite (IH t1 t' l1 I1); auto.
    + rewrite S1. exact Hi.
    + apply in_keys in Hx as (e0 & H0 & E0). apply in_keys. exists e0. split; [apply Eq; exact H0 | exact E0].
    + intros w Hw. destruct (NV w (or_intror Hw)) as (K1 & K2 & K3 & K4). split; [exact K1|]. split; [exact K2|]. rewrite S1. split; [|exact K4].
      intros C. apply K3. apply in_keys in C as (e0 & H0 & E0). apply in_keys. exists e0. split; [apply Eq; exact H0 | exact E0].
    + intros p q Hp Hq. apply AP; apply Eq; assumption.
Qed.

Lemma arrive_exists : forall vs t, table_inv t -> (forall v, In v vs -> key32 (id_key v)) -> exists t', arrive_all at_ fail t vs t'.
Proof.
  induction vs as [|v vs IH]; intros t I NV; [exists t; reflexivity|]. cbn [arrive_all].
  destruct (ack_exists (net_ping at_ fail) t v I (NV v (or_introl eq_refl))) as (t1 & evs & A).
  destruct (ack_inv _ _ _ _ _ I (NV v (or_introl eq_refl)) A) as [I1 _].
  assert (X : exists t2, arrives at_ fail t v t2 /\ table_inv t2).
  { unfold arrives. destruct (pinged t v) as [e|]; [destruct (at_ (id_addr e)) as [x|] eqn:AT|].
    - destruct (ack_exists (net_ping at_ fail) t1 x I1 (NK _ _ AT)) as (t2 & evs' & A'). exists t2. split; [exists t1, evs; split; [exact A | exists evs'; exact A']|].
      exact (proj1 (ack_inv _ _ _ _ _ I1 (NK _ _ AT) A')).
    - exists t1. split; [exists t1, evs; auto | exact I1].
    - exists t1. split; [exists t1, evs; auto | exact I1]. }
  destruct X as (t2 & X & I2). destruct (IH t2 I2 (fun w Hw => NV w (or_intror Hw))) as (t' & R). exists t', t2. auto.
Qed.
End Room.

Lemma entries_ents t es : Entries t = Ok es -> es = ents t.
Proof. unfold Entries, ents. destruct (t_size t <? 0)%Z; congruence. Qed.

(** ** C122, the part that holds *)

(** When nobody answers at its address, sixteen new peers of its bucket suffice, whoever else is there. *)
Theorem C122_partial : forall self ops t es at_ fail d vs t' es',
  table_of self ops t -> Entries t = Ok es -> network at_ fail -> In d es -> at_ (id_addr d) = None ->
  newcomers self es d vs -> apart (es ++ vs) -> (forall e, In e (es ++ vs) -> e <> d -> genuine at_ e) ->
  16 <= length vs -> arrive_all at_ fail t vs t' -> Entries t' = Ok es' -> ~ In d es'.
Proof.
  intros self ops t es at_ fail d vs t' es' T E (NK & NF) Hd Ad (ND & NV) AP GN L A E' C.
  destruct (table_of_inv self ops t T) as [I Es]. apply entries_ents in E, E'. subst es es' self.
  destruct (waits at_ fail NK NF d (bucket_of (id_key (t_self t)) (id_key d)) Ad vs t t' I eq_refl ND NV AP) as [Z|(l1 & l2 & Eb & Le)]; auto.
  - intros e He x Hx. destruct (bytes_eqb_spec (id_addr e) (id_addr d)) as [Ea|Ea]; [congruence|]. apply (GN e He); [intros ->; apply Ea; reflexivity | exact Hx].
  - destruct (NV d Z) as (_ & _ & N & _). apply N. apply in_map. exact Hd.
  - pose proof (inv_size t I (bucket_of (id_key (t_self t)) (id_key d))) as Sz. unfold BucketSize in Sz. rewrite Eb in *. rewrite app_length in *. cbn [length] in *. lia.
Qed.
Print Assumptions C122_partial.

(** ** C122, refuted *)

(** The oldest entry of a full bucket is gone, and somebody else, who is in the table, answers at its address.  However many new
    peers arrive, none is admitted, and the entry stays. *)
Theorem C122_blocked : forall self ops t es at_ fail d x vs,
  table_of self ops t -> Entries t = Ok es -> network at_ fail -> at_ (id_addr d) = Some x -> id_key x <> id_key d -> In (id_key x) (map id_key es) ->
  length (Bucket t (id_key d)) = 16 -> (exists l, Bucket t (id_key d) = l ++ [d]) ->
  newcomers self es d vs -> apart (es ++ vs) ->
  (exists t', arrive_all at_ fail t vs t') /\
  forall t' es', arrive_all at_ fail t vs t' -> Entries t' = Ok es' -> In d es' /\ forall v, In v vs -> ~ In (id_key v) (map id_key es').
Proof.
  intros self ops t es at_ fail d x vs T E (NK & NF) Ad Nx Hx L (l & El) (ND & NV) AP.
  destruct (table_of_inv self ops t T) as [I Es]. apply entries_ents in E. subst es self.
  split; [apply arrive_exists; auto; intros v Hv; apply (NV v Hv)|]. intros t' es' A E'. apply entries_ents in E'. subst es'.
  assert (Kd : key32 (id_key d)).
  { unfold Bucket in El. apply (inv_elem t I (getBucketIndex t (id_key d))). rewrite El. apply in_or_app. right. left. reflexivity. }
  rewrite (bucket_at_idx t _ I Kd) in L, El.
  pose proof (blocks at_ fail NK NF d x (bucket_of (id_key (t_self t)) (id_key d)) Ad Nx vs t t' l I eq_refl El L Hx NV
     ltac:(intros p q Hp Hq; apply AP; apply in_or_app; left; assumption) A) as Eq.
  split; [apply Eq; apply (bucket_in t (bucket_of (id_key (t_self t)) (id_key d)) d I); rewrite El; apply in_or_app; right; left; reflexivity|].
  intros v Hv C. destruct (NV v Hv) as (_ & _ & N & _). apply N. apply in_map_iff in C as (e & Ek & He). rewrite <- Ek. apply in_map. apply Eq. exact He.
Qed.
Print Assumptions C122_blocked.

(** Sixteen peers in one bucket, one in another, which answers at the address of the oldest; sixteen more arrive. *)
Definition rm_self := st_self.
Definition rm_x : ID := NewID (ex_key 7 3) [] 900.
Definition rm_d : ID := st_peer 1.
Definition rm_old : list ID := map (fun i => st_peer (N.of_nat i)) (seq 1 16).
Definition rm_new : list ID := map (fun i => st_peer (N.of_nat i)) (seq 17 16).
Definition rm_ops : list table_op := map OpUpdate (rm_x :: rm_old).
Definition rm_t : table := match NewTable rm_self with Ok t => table_run t rm_ops | _ => mkTable [] rm_self 0 end.
Definition rm_at (moved : option ID) (a : bytes) : option ID :=
  if bytes_eqb a (id_addr rm_d) then moved else find (fun e => bytes_eqb (id_addr e) a) (rm_self :: rm_x :: rm_old ++ rm_new).
Definition rm_fail (e : ID) : ping_outcome := DialError.

Lemma rm_table : table_of rm_self rm_ops rm_t.
Proof.
  assert (F : forallb (fun o => match o with OpUpdate id => length (id_key id) =? 32 | _ => false end) rm_ops = true) by (vm_compute; reflexivity).
  destruct (NewTable_ok rm_self eq_refl) as (t0 & E & _). unfold rm_t. rewrite E. split; [reflexivity|]. split; [|exists t0; auto].
  apply Forall_forall. intros o Ho. rewrite forallb_forall in F. specialize (F o Ho). destruct o; try discriminate. apply Nat.eqb_eq in F. exact F.
Qed.
Lemma rm_entries : Entries rm_t = Ok (ents rm_t).
Proof. unfold Entries. destruct (table_of_inv _ _ _ rm_table) as [I _]. pose proof (inv_count _ I). destruct (Z.ltb_spec (t_size rm_t) 0); [lia | reflexivity]. Qed.
Lemma rm_network m : (forall x, m = Some x -> key32 (id_key x)) -> network (rm_at m) rm_fail.
Proof.
  intros Hm. split; [|discriminate]. intros a x H. unfold rm_at in H. destruct (bytes_eqb a (id_addr rm_d)); [exact (Hm x H)|].
  apply find_some in H as [H _].
  assert (F : forallb (fun e => length (id_key e) =? 32) (rm_self :: rm_x :: rm_old ++ rm_new) = true) by (vm_compute; reflexivity).
  rewrite forallb_forall in F. apply Nat.eqb_eq. exact (F x H).
Qed.
Fixpoint nodupb (l : list bytes) : bool := match l with [] => true | x :: r => negb (existsb (bytes_eqb x) r) && nodupb r end.
Lemma nodupb_ok l : nodupb l = true -> NoDup l.
Proof.
  induction l as [|x l IH]; intros H; [constructor|]. cbn [nodupb] in H. apply andb_prop in H as [A B]. constructor; [|exact (IH B)].
  intros C. apply negb_true_iff in A. assert (existsb (bytes_eqb x) l = true) as D; [|congruence]. apply existsb_exists. exists x. split; [exact C | apply bytes_eqb_eq; reflexivity].
Qed.
Lemma rm_newcomers : newcomers rm_self (ents rm_t) rm_d rm_new.
Proof.
  split; [apply nodupb_ok; vm_compute; reflexivity|].
  assert (F : forallb (fun v => (length (id_key v) =? 32) && negb (bytes_eqb (id_key v) (zeros 32)) && negb (existsb (bytes_eqb (id_key v)) (map id_key (ents rm_t))) &&
                (bucket_of (id_key rm_self) (id_key v) =? bucket_of (id_key rm_self) (id_key rm_d))) rm_new = true) by (vm_compute; reflexivity).
  intros v Hv. rewrite forallb_forall in F. specialize (F v Hv). apply andb_prop in F as [F F4]. apply andb_prop in F as [F F3]. apply andb_prop in F as [F1 F2].
  split; [apply Nat.eqb_eq; exact F1|]. split; [|split; [|apply Nat.eqb_eq; exact F4]].
  - intros C. apply negb_true_iff in F2. rewrite C in F2. destruct (bytes_eqb_spec (zeros 32) (zeros 32)); congruence.
  - intros C. apply negb_true_iff in F3. assert (existsb (bytes_eqb (id_key v)) (map id_key (ents rm_t)) = true) as D; [|congruence].
    apply existsb_exists. exists (id_key v). split; [exact C | apply bytes_eqb_eq; reflexivity].
Qed.
Lemma nodup_apart (l : list ID) : NoDup (map id_addr l) -> apart l.
Proof.
  induction l as [|a l IH]; intros ND x y Hx Hy E; [contradiction|]. cbn [map] in ND. inversion ND as [|? ? N1 N2]; subst.
  destruct Hx as [<-|Hx], Hy as [<-|Hy]; auto.
  - exfalso. apply N1. rewrite E. apply in_map. exact Hy.
  - exfalso. apply N1. rewrite <- E. apply in_map. exact Hx.
  - exact (IH N2 x y Hx Hy E).
Qed.
Lemma rm_apart : apart (ents rm_t ++ rm_new).
Proof. apply nodup_apart. apply nodupb_ok. vm_compute. reflexivity. Qed.
Lemma rm_genuine m e : In e (ents rm_t ++ rm_new) -> e <> rm_d -> genuine (rm_at m) e.
Proof.
  intros He Nd x Hx. unfold rm_at in Hx. destruct (bytes_eqb_spec (id_addr e) (id_addr rm_d)) as [Ea|Ea].
  - exfalso. apply Nd. apply rm_apart; [exact He | | exact Ea].
    apply in_or_app. left. apply (proj1 (idin_in _ _)). vm_compute. reflexivity.
  - apply find_some in Hx as [Hx Ex]. apply bytes_eqb_eq in Ex.
    assert (F : forallb (fun e => idin e (ents rm_t ++ rm_new)) (rm_self :: rm_x :: rm_old ++ rm_new) = true) by (vm_compute; reflexivity).
    rewrite forallb_forall in F. specialize (F x Hx). apply (proj1 (idin_in _ _)) in F. rewrite (rm_apart x e F He Ex). reflexivity.
Qed.
Lemma rm_in : In rm_d (ents rm_t).
Proof. apply (proj1 (idin_in _ _)). vm_compute. reflexivity. Qed.
Lemma rm_full : length (Bucket rm_t (id_key rm_d)) = 16 /\ exists l, Bucket rm_t (id_key rm_d) = l ++ [rm_d].
Proof.
  split; [vm_compute; reflexivity|]. set (b := Bucket rm_t (id_key rm_d)).
  assert (X : match rev b with e :: _ => id_eqb e rm_d | [] => false end = true) by (vm_compute; reflexivity).
  destruct (rev b) as [|e r] eqn:E; [discriminate|]. apply id_eqb_eq in X. subst e. exists (rev r). rewrite <- (rev_involutive b), E. reflexivity.
Qed.
Lemma rm_xin : In (id_key rm_x) (map id_key (ents rm_t)).
Proof. apply in_map. apply (proj1 (idin_in _ _)). vm_compute. reflexivity. Qed.
Lemma rm_xd : id_key rm_x <> id_key rm_d.
Proof. intros C. assert (X : bytes_eqb (id_key rm_x) (id_key rm_d) = false) by (vm_compute; reflexivity). rewrite C in X. destruct (bytes_eqb_spec (id_key rm_d) (id_key rm_d)); congruence. Qed.
Lemma rm_at_d m : rm_at m (id_addr rm_d) = m.
Proof. unfold rm_at. destruct (bytes_eqb_spec (id_addr rm_d) (id_addr rm_d)); [reflexivity | contradiction]. Qed.

Theorem C122_refuted : ~ C122_statement.
Proof.
  intros H. assert (N : network (rm_at (Some rm_x)) rm_fail) by (apply rm_network; intros x E; assert (x = rm_x) as -> by congruence; reflexivity).
  destruct (C122_blocked rm_self rm_ops rm_t _ _ rm_fail rm_d rm_x rm_new rm_table rm_entries N (rm_at_d _) rm_xd rm_xin (proj1 rm_full) (proj2 rm_full) rm_newcomers rm_apart) as [(t' & A) B].
  assert (E' : exists es', Entries t' = Ok es').
  { assert (G : forall vs t t', table_inv t -> (forall v, In v vs -> key32 (id_key v)) -> arrive_all (rm_at (Some rm_x)) rm_fail t vs t' -> table_inv t').
    { clear - N. destruct N as [NK _]. induction vs as [|v vs IH]; intros t t' I KV A; cbn [arrive_all] in A; [subst t'; exact I|]. destruct A as (t1 & (t0 & evs & A1 & A2) & A3).
      apply (IH t1 t'); [|intros w Hw; apply KV; right; exact Hw | exact A3]. pose proof (proj1 (ack_inv _ _ _ _ _ I (KV v (or_introl eq_refl)) A1)) as I0.
      destruct (pinged t v) as [e|]; [|subst t1; exact I0]. destruct (rm_at (Some rm_x) (id_addr e)) as [x|] eqn:AT; [|subst t1; exact I0].
      destruct A2 as (evs' & A2). exact (proj1 (ack_inv _ _ _ _ _ I0 (NK _ _ AT) A2)). }
    assert (I' : table_inv t') by (apply (G rm_new rm_t t'); [exact (proj1 (table_of_inv _ _ _ rm_table)) | intros v Hv; exact (proj1 (proj2 rm_newcomers v Hv)) | exact A]).
    exists (ents t'). unfold Entries. pose proof (inv_count _ I'). destruct (Z.ltb_spec (t_size t') 0); [lia | reflexivity]. }
  destruct E' as (es' & E'). refine (H rm_self rm_ops rm_t _ _ rm_fail rm_d rm_new t' es' rm_table rm_entries N rm_in _ rm_newcomers rm_apart (rm_genuine _) _ A E' (proj1 (B t' es' A E'))).
  - intros x E. rewrite rm_at_d in E. assert (x = rm_x) as -> by congruence. exact rm_xd.
  - vm_compute. apply Nat.le_refl.
Qed.
Print Assumptions C122_refuted.

(** The same table meets the hypotheses of [C122_partial] when nobody has taken the address; after fifteen arrivals the entry is
    still there, after sixteen it is not, so that the number cannot be lowered. *)
Definition rm_first : ID := st_peer 16.
Definition rm_ack (at_ : bytes -> option ID) (t : table) (id : ID) : table :=
  match call_run (net_ping at_ rm_fail) 12 t (KUpdate id) [] with Ok (t', KDone, _) => t' | _ => t end.
Definition rm_arrive (at_ : bytes -> option ID) (t : table) (id : ID) : table :=
  match pinged t id with Some e => match at_ (id_addr e) with Some x => rm_ack at_ (rm_ack at_ t id) x | None => rm_ack at_ t id end | None => rm_ack at_ t id end.
Definition rm_at2 (a : bytes) : option ID := if bytes_eqb a (id_addr rm_first) then None else rm_at (Some rm_d) a.
Example C122_nonvacuous :
  table_of rm_self rm_ops rm_t /\ network (rm_at None) rm_fail /\ In rm_d (ents rm_t) /\ rm_at None (id_addr rm_d) = None /\ newcomers rm_self (ents rm_t) rm_d rm_new /\
  apart (ents rm_t ++ rm_new) /\ (forall e, In e (ents rm_t ++ rm_new) -> e <> rm_d -> genuine (rm_at None) e) /\ 16 <= length rm_new /\
  idin rm_first (ents (fold_left (rm_arrive rm_at2) (firstn 15 rm_new) rm_t)) = true /\ idin rm_first (ents (fold_left (rm_arrive rm_at2) rm_new rm_t)) = false /\
  idin rm_d (ents (fold_left (rm_arrive rm_at2) rm_new rm_t)) = true.
Proof.
  split; [exact rm_table|]. split; [apply rm_network; discriminate|]. split; [exact rm_in|]. split; [apply rm_at_d|]. split; [exact rm_newcomers|]. split; [exact rm_apart|].
  split; [exact (rm_genuine None)|]. split; [vm_compute; apply Nat.le_refl|]. repeat split; vm_compute; reflexivity.
Qed.
