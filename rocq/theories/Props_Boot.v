(** * C100: when a node with protocols may be used. *)
From Verif Require Import Base M_Codec M_Kad M_Gossip M_Boot.
Local Open Scope nat_scope.

(** ** Spec *)

(** The protocols and the message types that a sequence of calls asks for, before the node listens. *)
Definition binds (l : list use) : list proto := flat_map (fun u => match u with UBind ps => ps | _ => [] end) l.
Definition types (p : proto) : list gotype :=
  match p with PKad _ => [TPing; TPong; TFindNodeRequest; TFindNodeResponse] | PGossip _ _ => [TMessage] | PApp regs _ => map fst regs end.
Definition asked_types (l : list use) : list gotype :=
  flat_map (fun u => match u with URegister t _ => [t] | _ => [] end) l ++ flat_map types (binds l).
(** Its Bind succeeds, and the decoders fit. *)
Definition sound (p : proto) : Prop :=
  match p with PApp regs ok => ok = true /\ forall t d, In (t, d) regs -> d_result d = t | _ => True end.
(** Its Bind returns no error. *)
Definition binds_well (p : proto) : Prop := match p with PApp _ ok => ok = true | _ => True end.
Definition setup (u : use) : Prop := match u with UBind _ | URegister _ _ | UListen false | UClose => True | _ => False end.
(** Uses of protocols that [ps] has; registering messages is C05. *)
Definition fits (ps : list proto) (u : use) : Prop :=
  match u with
  | UKad i => In (PKad i) ps
  | UPush i o => In (PGossip i o) ps /\ In (PKad o) ps
  | URegister _ _ => False
  | _ => True
  end.

(** No call crashes the process: the protocols' own functions are called only if the protocols were registered, no two protocols or
    registrations have a type in common, and the protocols' Bind succeed. *)
Definition C100_statement : Prop := forall l, NoDup (asked_types l) -> Forall sound (binds l) -> Forall (fits (binds l)) l ->
  (forall i o, In (PGossip i o) (binds l) -> In (PKad o) (binds l)) ->
  use_run new_boot l <> Panic.

(** ** Registration *)

Definition known (c : codec) (t : gotype) : Prop := ser_get t (c_ser c) <> None.

Lemma register_known c t d c' o : register c t d = Ok (c', o) -> ~ known c t /\ forall u, known c' u <-> u = t \/ known c u.
Proof.
  unfold register, known. destruct (ser_get t (c_ser c)) eqn:E; [discriminate|]. destruct (gotype_eq_dec (d_result d) t); [|discriminate].
  intros [= <- _]. split; [intros C; apply C; reflexivity|]. intros u. cbn [c_ser ser_get]. destruct (gotype_eq_dec u t) as [->|N].
  - split; [auto | discriminate].
  - split; [auto|]. intros [C|C]; [contradiction | exact C].
Qed.
Lemma register_ok c t d : ~ known c t -> d_result d = t -> exists c' o, register c t d = Ok (c', o).
Proof.
  intros K D. unfold register. destruct (ser_get t (c_ser c)) eqn:E; [exfalso; apply K; unfold known; rewrite E; discriminate|].
  destruct (gotype_eq_dec (d_result d) t); [eauto | contradiction].
Qed.
Lemma register_not_err c t d e : register c t d <> Err e.
Proof. unfold register. destruct (ser_get t (c_ser c)); [discriminate|]. destruct (gotype_eq_dec _ _); discriminate. Qed.

Lemma register_all_known l : forall c c' os, register_all c l = Ok (c', os) ->
  (forall t, In t (map fst l) -> ~ known c t) /\ forall u, known c' u <-> In u (map fst l) \/ known c u.
Proof.
  induction l as [|[t d] l IH]; intros c c' os H; cbn in H.
  - injection H as <- _. split; [intros t []|]. intros u. cbn. tauto.
  - destruct (register c t d) as [[c1 o]|e|] eqn:R; try discriminate. cbn in H.
    destruct (register_all c1 l) as [[c2 os2]|e|] eqn:A; try discriminate. injection H as <- _.
    destruct (register_known _ _ _ _ _ R) as [N K]. destruct (IH _ _ _ A) as [N2 K2]. cbn [map fst In]. split.
    + intros u [<-|I]; [exact N|]. intros C. apply (N2 u I). apply K. auto.
    + intros u. rewrite K2, K. split; [intros [X|[->|X]] | intros [[<-|X]|X]]; auto.
Qed.
Lemma register_all_ok' l : forall c, NoDup (map fst l) -> (forall t d, In (t, d) l -> d_result d = t) -> (forall t, In t (map fst l) -> ~ known c t) ->
  exists c' os, register_all c l = Ok (c', os).
Proof.
  induction l as [|[t d] l IH]; intros c ND D K; [cbn; eauto|]. cbn [map fst] in ND. inversion ND as [|x y Nt Nd]; subst.
  destruct (register_ok c t d (K t (or_introl eq_refl)) (D t d (or_introl eq_refl))) as (c1 & o & R).
  destruct (register_known _ _ _ _ _ R) as [_ K1].
  destruct (IH c1 Nd (fun u e I => D u e (or_intror I))) as (c2 & os & A).
  { intros u I C. apply K1 in C as [->|C]; [contradiction|]. exact (K u (or_intror I) C). }
  cbn. rewrite R. cbn. rewrite A. cbn. eauto.
Qed.
Lemma register_all_not_err l : forall c e, register_all c l <> Err e.
Proof.
  induction l as [|[t d] l IH]; intros c e; [discriminate|]. cbn. destruct (register c t d) as [[c1 o]|e'|] eqn:R.
  - cbn. destruct (register_all c1 l) as [[c2 os]|e'|] eqn:A; cbn; try discriminate. exfalso. exact (IH _ _ A).
  - exfalso. exact (register_not_err _ _ _ _ R).
  - discriminate.
Qed.

(** ** Binding *)

Lemma kad_types : map fst kad_registrations = types (PKad 0). Proof. reflexivity. Qed.

(** Everything that the binding of one protocol does. *)
Lemma bind_one_spec b p b1 ok : bind_one b p = Ok (b1, ok) ->
  b_protos b1 = b_protos b /\ b_listening b1 = b_listening b /\ (ok = true <-> binds_well p) /\
  (forall t, In t (types p) -> ~ known (b_codec b) t) /\
  (forall t, known (b_codec b1) t <-> In t (types p) \/ known (b_codec b) t) /\
  (forall i, In i (b_kads b1) <-> p = PKad i \/ In i (b_kads b)) /\
  (forall i, In i (b_gossips b1) <-> (exists o, p = PGossip i o) \/ In i (b_gossips b)) /\
  (forall q, In q (b_handlers b1) -> q = p \/ In q (b_handlers b)) /\
  (forall i o, In (PGossip i o) (b_handlers b1) <-> p = PGossip i o \/ In (PGossip i o) (b_handlers b)).
Proof.
  destruct p as [i|i o|regs okp]; cbn [bind_one binds_well types]; intros H.
  - destruct (register_all (b_codec b) kad_registrations) as [[c os]|e|] eqn:A; try discriminate. injection H as <- <-.
    destruct (register_all_known _ _ _ _ A) as [N K]. rewrite kad_types in N, K. cbn [types] in N, K. cbn [b_protos b_listening b_codec b_kads b_gossips b_handlers].
    split; [reflexivity|]. split; [reflexivity|]. split; [tauto|]. split; [exact N|]. split; [exact K|]. split; [|split; [|split]].
    + intros j. cbn. split; intros [X|X]; auto; left; congruence.
    + intros j. split; [auto|]. intros [[o X]|X]; [discriminate | exact X].
    + intros q I. apply in_app_or in I as [I|[I|[]]]; auto.
    + intros j o. rewrite in_app_iff. cbn. split; [intros [X|[X|[]]]; [auto | discriminate] | intros [X|X]; [discriminate | auto]].
  - destruct (register_all (b_codec b) [gossip_registration]) as [[c os]|e|] eqn:A; try discriminate. injection H as <- <-.
    destruct (register_all_known _ _ _ _ A) as [N K]. cbn [map fst] in N, K. change (fst gossip_registration) with TMessage in *.
    cbn [b_protos b_listening b_codec b_kads b_gossips b_handlers].
    split; [reflexivity|]. split; [reflexivity|]. split; [tauto|]. split; [exact N|]. split; [exact K|]. split; [|split; [|split]].
    + intros j. split; [auto|]. intros [X|X]; [discriminate | exact X].
    + intros j. cbn. split; intros [X|X]; auto; [left; exists o; congruence | left; destruct X as [o' X]; congruence].
    + intros q I. apply in_app_or in I as [I|[I|[]]]; auto.
    + intros j o'. rewrite in_app_iff. cbn. split; [intros [X|[X|[]]]; auto | intros [X|X]; auto].
  - destruct (register_all (b_codec b) regs) as [[c os]|e|] eqn:A; try discriminate. injection H as <- <-.
    destruct (register_all_known _ _ _ _ A) as [N K]. cbn [b_protos b_listening b_codec b_kads b_gossips b_handlers].
    split; [reflexivity|]. split; [reflexivity|]. split; [tauto|]. split; [exact N|]. split; [exact K|]. split; [|split; [|split]].
    + intros j. split; [auto|]. intros [X|X]; [discriminate | exact X].
    + intros j. split; [auto|]. intros [[o X]|X]; [discriminate | exact X].
    + intros q I. auto.
    + intros j o. split; [auto|]. intros [X|X]; [discriminate | exact X].
Qed.
Lemma bind_one_ok b p : sound p -> NoDup (types p) -> (forall t, In t (types p) -> ~ known (b_codec b) t) -> exists b1, bind_one b p = Ok (b1, true).
Proof.
  intros Sp Nd N. destruct p as [i|i o|regs okp]; cbn [bind_one].
  - destruct (register_all_ok' kad_registrations (b_codec b)) as (c & os & ->); [exact Nd | | exact N | cbn; eauto].
    intros t d I. cbn in I. repeat destruct I as [I|I]; try (injection I as <- <-; reflexivity). destruct I.
  - destruct (register_all_ok' [gossip_registration] (b_codec b)) as (c & os & ->); [exact Nd | | exact N | cbn; eauto].
    intros t d [I|[]]. injection I as <- <-. reflexivity.
  - destruct Sp as [-> D]. destruct (register_all_ok' regs (b_codec b) Nd D N) as (c & os & ->). cbn. eauto.
Qed.
Lemma bind_one_not_err b p e : bind_one b p <> Err e.
Proof.
  destruct p as [i|i o|regs okp]; cbn [bind_one];
    (destruct (register_all _ _) as [[c os]|e'|] eqn:A; cbn; [discriminate | exfalso; exact (register_all_not_err _ _ _ A) | discriminate]).
Qed.

Lemma bind_all_spec l : forall b b1 ok, bind_all b l = Ok (b1, ok) ->
  b_protos b1 = b_protos b /\ b_listening b1 = b_listening b /\
  (forall t, known (b_codec b) t -> known (b_codec b1) t) /\
  (forall i, In i (b_kads b) -> In i (b_kads b1)) /\ (forall i, In i (b_gossips b) -> In i (b_gossips b1)) /\
  (forall i, In i (b_kads b1) -> In (PKad i) l \/ In i (b_kads b)) /\
  (forall i, In i (b_kads b1) -> (forall j, In j (b_kads b) -> known (b_codec b) TPing) -> known (b_codec b1) TPing) /\
  (forall i o, In (PGossip i o) (b_handlers b1) -> In (PGossip i o) l \/ In (PGossip i o) (b_handlers b)) /\
  (ok = true -> (forall i, In (PKad i) l -> In i (b_kads b1)) /\ (forall i o, In (PGossip i o) l -> In i (b_gossips b1)) /\
     (forall i o, In (PGossip i o) l -> In (PGossip i o) (b_handlers b1))) /\
  (forall i o, In (PGossip i o) (b_handlers b) -> In (PGossip i o) (b_handlers b1)).
Proof.
  induction l as [|p l IH]; intros b b1 ok H; cbn in H.
  - injection H as <- <-. split; [reflexivity|]. split; [reflexivity|]. split; [auto|]. split; [auto|]. split; [auto|]. split; [auto|].
    split; [intros i I F; exact (F i I)|]. split; [auto|]. split; [|auto]. intros _. split; [|split]; intros i; intros; contradiction.
  - destruct (bind_one b p) as [[b0 ok0]|e|] eqn:B; try discriminate. cbn in H.
    destruct (bind_one_spec _ _ _ _ B) as (A1 & A2 & A3 & A4 & A5 & A6 & A7 & A8 & A9).
    assert (Tp : forall i, p = PKad i -> known (b_codec b0) TPing) by (intros i ->; apply A5; left; cbn; auto).
    destruct ok0.
    + destruct (IH _ _ _ H) as (C1 & C2 & C3 & C4 & C5 & C6 & C7 & C8 & C9 & C10).
      split; [congruence|]. split; [congruence|]. split; [intros t K; apply C3, A5; auto|].
      split; [intros i I; apply C4, A6; auto|]. split; [intros i I; apply C5, A7; auto|].
      split; [intros i I; apply C6 in I as [I|I]; [left; right; exact I|]; apply A6 in I as [-> |I]; [left; left; reflexivity | auto]|].
      split; [|split; [|split]].
      * intros i I F. apply (C7 i I). intros j Ij. apply A6 in Ij as [E|Ij]; [exact (Tp j E)|]. apply A5. right. exact (F j Ij).
      * intros i o I. apply C8 in I as [I|I]; [left; right; exact I|]. apply A9 in I as [-> |I]; [left; left; reflexivity | auto].
      * intros ->. destruct (C9 eq_refl) as (D1 & D2 & D3). split; [|split].
        -- intros i [E|I]; [apply C4, A6; auto | auto].
        -- intros i o [E|I]; [apply C5, A7; eauto | eauto].
        -- intros i o [E|I]; [apply C10, A9; auto | auto].
      * intros i o I. apply C10, A9. auto.
    + injection H as <- <-.
      split; [congruence|]. split; [congruence|]. split; [intros t K; apply A5; auto|].
      split; [intros i I; apply A6; auto|]. split; [intros i I; apply A7; auto|].
      split; [intros i I; apply A6 in I as [-> |I]; [left; left; reflexivity | auto]|].
      split; [|split; [|split]].
      * intros i I F. apply A6 in I as [E|I]; [exact (Tp i E)|]. apply A5. right. exact (F i I).
      * intros i o I. apply A9 in I as [-> |I]; [left; left; reflexivity | auto].
      * discriminate.
      * intros i o I. apply A9. auto.
Qed.
Lemma bind_all_ok l : forall b, Forall sound l -> NoDup (flat_map types l) -> (forall t, In t (flat_map types l) -> ~ known (b_codec b) t) ->
  exists b1, bind_all b l = Ok (b1, true).
Proof.
  induction l as [|p l IH]; intros b Sd Nd N; [cbn; eauto|]. cbn [flat_map] in *. inversion Sd as [|x y S1 S2]; subst.
  destruct (bind_one_ok b p S1) as (b0 & B).
  { clear - Nd. induction (types p) as [|t ts IHt]; [constructor|]. cbn in Nd. inversion Nd as [|x y X Y]; subst. constructor; [|auto].
    intros I. apply X. apply in_or_app. auto. }
  { intros t I. apply N. apply in_or_app. auto. }
  destruct (bind_one_spec _ _ _ _ B) as (_ & _ & _ & _ & A5 & _). cbn. rewrite B. cbn. apply IH; [exact S2| |].
  - clear - Nd. induction (types p) as [|t ts IHt]; [exact Nd|]. cbn in Nd. inversion Nd; subst. auto.
  - intros t I C. apply A5 in C as [C|C]; [|exact (N t (in_or_app _ _ _ (or_intror I)) C)].
    clear - Nd C I. induction (types p) as [|u ts IHt]; [destruct C|]. cbn in Nd. inversion Nd as [|x y X Y]; subst.
    destruct C as [->|C]; [apply X, in_or_app; auto | auto].
Qed.
(** A protocol one of whose types is known makes Listen crash, unless a protocol before it reports an error. *)
Lemma bind_all_panics l1 : forall b p l2 t, Forall binds_well l1 -> In t (types p) -> known (b_codec b) t \/ (exists q, In q l1 /\ In t (types q)) ->
  bind_all b (l1 ++ p :: l2) = Panic.
Proof.
  induction l1 as [|q l1 IH]; intros b p l2 t W I K; cbn.
  - destruct K as [K|(q & [] & _)]. destruct (bind_one b p) as [[b0 ok]|e|] eqn:B; [|exfalso; exact (bind_one_not_err _ _ _ B) | reflexivity].
    destruct (bind_one_spec _ _ _ _ B) as (_ & _ & _ & A4 & _). exfalso. exact (A4 t I K).
  - inversion W as [|x y W1 W2]; subst. destruct (bind_one b q) as [[b0 ok]|e|] eqn:B; [|exfalso; exact (bind_one_not_err _ _ _ B) | reflexivity].
    destruct (bind_one_spec _ _ _ _ B) as (_ & _ & A3 & _ & A5 & _). cbn. assert (ok = true) as -> by (apply A3; exact W1).
    apply (IH b0 p l2 t W2 I). destruct K as [K|(r & [->|J] & T)]; [left; apply A5; auto | left; apply A5; auto | right; eauto].
Qed.

(** ** Calls *)

Lemma use_run_app l1 : forall b l2, use_run b (l1 ++ l2) = let! b1 := use_run b l1 in use_run b1 l2.
Proof. induction l1 as [|u l1 IH]; intros b l2; [reflexivity|]. cbn. destruct (use_step b u); cbn; auto. Qed.

Lemma bind_all_not_err l : forall b e, bind_all b l <> Err e.
Proof.
  induction l as [|p l IH]; intros b e; [discriminate|]. cbn. destruct (bind_one b p) as [[b0 ok]|e'|] eqn:B; cbn; [|exfalso; exact (bind_one_not_err _ _ _ B)|discriminate].
  destruct ok; [apply IH | discriminate].
Qed.
Lemma callbacks_not_err b l e : callbacks b l <> Err e.
Proof. induction l as [|p l IH]; [discriminate|]. cbn. destruct p; cbn; auto. destruct (has_nat _ _); [exact IH | discriminate]. Qed.
Lemma handlers_not_err b l e : handlers b l <> Err e.
Proof. induction l as [|p l IH]; [discriminate|]. cbn. destruct p; cbn; auto. destruct (has_nat _ _); [exact IH | discriminate]. Qed.
Lemma use_step_not_err b u e : use_step b u <> Err e.
Proof.
  destruct u; cbn; try discriminate.
  - destruct (b_listening b); discriminate.
  - destruct (register (b_codec b) t d) as [[c o]|e'|] eqn:R; cbn; [discriminate | exfalso; exact (register_not_err _ _ _ _ R) | discriminate].
  - destruct (b_listening b); [discriminate|]. destruct opened; [|discriminate].
    destruct (bind_all b (b_protos b)) as [[b1 ok]|e'|] eqn:A; cbn; [discriminate | exfalso; exact (bind_all_not_err _ _ _ A) | discriminate].
  - destruct (callbacks b (b_protos b)) as [x|e'|] eqn:A; cbn; [discriminate | exfalso; exact (callbacks_not_err _ _ _ A) | discriminate].
  - destruct (callbacks b (b_protos b)) as [x|e'|] eqn:A; cbn; [discriminate | exfalso; exact (callbacks_not_err _ _ _ A) | discriminate].
  - destruct (b_listening b); [|discriminate]. destruct (handlers b (b_handlers b)) as [x|e'|] eqn:A; cbn; [discriminate | exfalso; exact (handlers_not_err _ _ _ A) | discriminate].
  - destruct (has_nat i (b_kads b)); discriminate.
  - destruct (has_nat i (b_gossips b) && has_nat o (b_kads b)); discriminate.
Qed.
Lemma use_run_not_err l : forall b e, use_run b l <> Err e.
Proof.
  induction l as [|u l IH]; intros b e; [discriminate|]. cbn. destruct (use_step b u) as [b1|e'|] eqn:E; cbn; [apply IH | exfalso; exact (use_step_not_err _ _ _ E) | discriminate].
Qed.

Lemma has_nat_in i l : has_nat i l = true <-> In i l.
Proof.
  unfold has_nat. rewrite existsb_exists. split.
  - intros (x & I & E). apply Nat.eqb_eq in E as ->. exact I.
  - intros I. exists i. split; [exact I | apply Nat.eqb_refl].
Qed.
Lemma callbacks_panic b l i : In (PKad i) l -> ~ In i (b_kads b) -> callbacks b l = Panic.
Proof.
  intros I N. induction l as [|p l IH]; [destruct I|]. cbn. destruct I as [-> |I].
  - cbn. destruct (has_nat i (b_kads b)) eqn:E; [apply has_nat_in in E; contradiction | reflexivity].
  - destruct p; cbn; auto. destruct (has_nat i0 (b_kads b)); cbn; auto.
Qed.
Lemma callbacks_ok b l : (forall i, In (PKad i) l -> In i (b_kads b)) -> callbacks b l = Ok tt.
Proof.
  intros H. induction l as [|p l IH]; [reflexivity|]. cbn. assert (IH' := IH (fun i I => H i (or_intror I))). destruct p; cbn; auto.
  rewrite (proj2 (has_nat_in i (b_kads b)) (H i (or_introl eq_refl))). exact IH'.
Qed.
Lemma handlers_panic b l g o : In (PGossip g o) l -> ~ In o (b_kads b) -> handlers b l = Panic.
Proof.
  intros I N. induction l as [|p l IH]; [destruct I|]. cbn. destruct I as [-> |I].
  - cbn. destruct (has_nat o (b_kads b)) eqn:E; [apply has_nat_in in E; contradiction | reflexivity].
  - destruct p; cbn; auto. destruct (has_nat overlay (b_kads b)); cbn; auto.
Qed.
Lemma handlers_ok b l : (forall i o, In (PGossip i o) l -> In o (b_kads b)) -> handlers b l = Ok tt.
Proof.
  intros H. induction l as [|p l IH]; [reflexivity|]. cbn. assert (IH' := IH (fun i o I => H i o (or_intror I))). destruct p; cbn; auto.
  rewrite (proj2 (has_nat_in overlay (b_kads b)) (H i overlay (or_introl eq_refl))). exact IH'.
Qed.

(** Before the first Listen that gets as far as binding. *)
Lemma not_listened l : (forall u, In u l -> u <> UListen true) -> forall b0 b, use_run b0 l = Ok b -> b_listening b0 = false ->
  b_kads b = b_kads b0 /\ b_gossips b = b_gossips b0 /\ b_listening b = false /\ b_protos b = b_protos b0 ++ binds l /\ b_handlers b = b_handlers b0.
Proof.
  induction l as [|u l IH]; intros N b0 b H L; cbn in H.
  - injection H as <-. cbn. rewrite app_nil_r. auto.
  - destruct (use_step b0 u) as [b1|e|] eqn:E; try discriminate. cbn in H.
    assert (X : b_kads b1 = b_kads b0 /\ b_gossips b1 = b_gossips b0 /\ b_listening b1 = false /\
                b_protos b1 = b_protos b0 ++ match u with UBind ps => ps | _ => [] end /\ b_handlers b1 = b_handlers b0).
    { specialize (N u (or_introl eq_refl)). destruct u; cbn in E; rewrite ?L in E.
      - injection E as <-. auto.
      - destruct (register (b_codec b0) t d) as [[c o]|e|]; try discriminate. injection E as <-. cbn. rewrite app_nil_r. auto.
      - destruct opened; [congruence|]. injection E as <-. rewrite app_nil_r. auto.
      - destruct (callbacks b0 (b_protos b0)); try discriminate. injection E as <-. rewrite app_nil_r. auto.
      - destruct (callbacks b0 (b_protos b0)); try discriminate. injection E as <-. rewrite app_nil_r. auto.
      - injection E as <-. rewrite app_nil_r. auto.
      - destruct (has_nat i (b_kads b0)); try discriminate. injection E as <-. rewrite app_nil_r. auto.
      - destruct (has_nat i (b_gossips b0) && has_nat o (b_kads b0)); try discriminate. injection E as <-. rewrite app_nil_r. auto.
      - injection E as <-. cbn. rewrite app_nil_r. auto. }
    destruct X as (X1 & X2 & X3 & X4 & X5). destruct (IH (fun v I => N v (or_intror I)) b1 b H X3) as (Y1 & Y2 & Y3 & Y4 & Y5).
    rewrite Y1, Y2, Y4, Y5, X1, X2, X4, X5. split; [reflexivity|]. split; [reflexivity|]. split; [exact Y3|]. split; [|reflexivity].
    unfold binds. cbn [flat_map]. rewrite app_assoc. reflexivity.
Qed.

(** A connection, or a failed dial, crashes a node with Kademlia that has not listened; so does any function of a protocol. *)
Theorem C100_before_listen : forall l, (forall u, In u l -> u <> UListen true) ->
  (forall i, In (PKad i) (binds l) -> use_run new_boot (l ++ [UConnected]) = Panic /\ use_run new_boot (l ++ [UDialFailed]) = Panic) /\
  (forall i, use_run new_boot (l ++ [UKad i]) = Panic) /\ (forall i o, use_run new_boot (l ++ [UPush i o]) = Panic).
Proof.
  intros l N.
  assert (G : forall u, (forall b, b_kads b = [] -> b_gossips b = [] -> b_listening b = false -> b_protos b = binds l -> use_step b u = Panic) ->
    use_run new_boot (l ++ [u]) = Panic).
  { intros u Hu. rewrite use_run_app. destruct (use_run new_boot l) as [b|e|] eqn:E; [|exfalso; exact (use_run_not_err _ _ _ E)|reflexivity].
    destruct (not_listened l N new_boot b E eq_refl) as (K1 & K2 & K3 & K4 & _). cbn. rewrite (Hu b K1 K2 K3 K4). reflexivity. }
  split; [|split].
  - intros i I. split; apply G; intros b K1 K2 K3 K4; cbn; rewrite K4, (callbacks_panic b (binds l) i I) by (rewrite K1; auto); reflexivity.
  - intros i. apply G. intros b K1 _ _ _. cbn. rewrite K1. reflexivity.
  - intros i o. apply G. intros b _ K2 _ _. cbn. rewrite K2. reflexivity.
Qed.
Print Assumptions C100_before_listen.

(** Two protocols with a message type in common: Listen crashes. *)
Theorem C100_same_type : forall l before p between q after t, Forall setup l -> binds l = before ++ p :: between ++ q :: after ->
  Forall binds_well (before ++ p :: between) -> In t (types p) -> In t (types q) -> use_run new_boot (l ++ [UListen true]) = Panic.
Proof.
  intros l before p between q after t Su B W Tp Tq. rewrite use_run_app.
  destruct (use_run new_boot l) as [b|e|] eqn:E; [|exfalso; exact (use_run_not_err _ _ _ E)|reflexivity].
  assert (N : forall u, In u l -> u <> UListen true) by (intros u I ->; rewrite Forall_forall in Su; exact (Su _ I)).
  destruct (not_listened l N new_boot b E eq_refl) as (_ & _ & K3 & K4 & _). cbn. rewrite K3, K4. cbn [app b_protos new_boot]. rewrite B.
  change (before ++ p :: between ++ q :: after) with (before ++ (p :: between) ++ q :: after). rewrite app_assoc.
  rewrite (bind_all_panics (before ++ p :: between) b q after t W Tq); [reflexivity|]. right. exists p. split; [|exact Tp].
  apply in_or_app. right. left. reflexivity.
Qed.
Print Assumptions C100_same_type.

(** What only grows. *)
Lemma grows u b b1 : use_step b u = Ok b1 -> (forall t, known (b_codec b) t -> known (b_codec b1) t) /\ exists ps, b_protos b1 = b_protos b ++ ps.
Proof.
  intros E. destruct u; cbn in E.
  - destruct (b_listening b); injection E as <-; split; auto; [exists []; symmetry; apply app_nil_r | exists l; reflexivity].
  - destruct (register (b_codec b) t d) as [[c o]|e|] eqn:R; try discriminate. injection E as <-. cbn. split; [|exists []; symmetry; apply app_nil_r].
    intros u K. apply (proj2 (register_known _ _ _ _ _ R)). auto.
  - destruct (b_listening b); [injection E as <-; split; auto; exists []; symmetry; apply app_nil_r|].
    destruct opened; [|injection E as <-; split; auto; exists []; symmetry; apply app_nil_r].
    destruct (bind_all b (b_protos b)) as [[b2 ok]|e|] eqn:A; try discriminate. injection E as <-. cbn.
    destruct (bind_all_spec _ _ _ _ A) as (A1 & _ & A3 & _). split; [exact A3|]. exists []. rewrite app_nil_r. exact A1.
  - destruct (callbacks b (b_protos b)); try discriminate. injection E as <-. split; auto; exists []; symmetry; apply app_nil_r.
  - destruct (callbacks b (b_protos b)); try discriminate. injection E as <-. split; auto; exists []; symmetry; apply app_nil_r.
  - destruct (b_listening b); [destruct (handlers b (b_handlers b)); try discriminate|]; injection E as <-; (split; auto; exists []; symmetry; apply app_nil_r).
  - destruct (has_nat i (b_kads b)); try discriminate. injection E as <-. split; auto; exists []; symmetry; apply app_nil_r.
  - destruct (has_nat i (b_gossips b) && has_nat o (b_kads b)); try discriminate. injection E as <-. split; auto; exists []; symmetry; apply app_nil_r.
  - injection E as <-. split; auto; exists []; symmetry; apply app_nil_r.
Qed.
Lemma grows_run l : forall b b1, use_run b l = Ok b1 -> (forall t, known (b_codec b) t -> known (b_codec b1) t) /\ exists ps, b_protos b1 = b_protos b ++ ps.
Proof.
  induction l as [|u l IH]; intros b b1 H; cbn in H; [injection H as <-; split; auto; exists []; symmetry; apply app_nil_r|].
  destruct (use_step b u) as [b0|e|] eqn:E; try discriminate. destruct (grows _ _ _ E) as (G1 & ps & G2). destruct (IH _ _ H) as (F1 & qs & F2).
  split; [auto|]. exists (ps ++ qs). rewrite F2, G2, app_assoc. reflexivity.
Qed.
(** A protocol that Listen came to has its types registered for good. *)
Lemma bind_all_reaches l1 : forall b p l2 b1 ok, Forall binds_well l1 -> bind_all b (l1 ++ p :: l2) = Ok (b1, ok) ->
  forall t, In t (types p) -> known (b_codec b1) t.
Proof.
  induction l1 as [|q l1 IH]; intros b p l2 b1 ok W H t I; cbn in H.
  - destruct (bind_one b p) as [[b0 ok0]|e|] eqn:B; try discriminate. cbn in H.
    destruct (bind_one_spec _ _ _ _ B) as (_ & _ & _ & _ & A5 & _). assert (K : known (b_codec b0) t) by (apply A5; auto).
    destruct ok0; [|injection H as <- _; exact K]. destruct (bind_all_spec _ _ _ _ H) as (_ & _ & A3 & _). auto.
  - inversion W as [|x y W1 W2]; subst. destruct (bind_one b q) as [[b0 ok0]|e|] eqn:B; try discriminate. cbn in H.
    destruct (bind_one_spec _ _ _ _ B) as (_ & _ & A3 & _). assert (ok0 = true) as -> by (apply A3; exact W1). exact (IH _ _ _ _ _ W2 H t I).
Qed.

Lemma listen_again l1 l2 b before p after t : Forall setup l1 -> binds l1 = before ++ p :: after -> Forall binds_well before -> In t (types p) ->
  use_run new_boot (l1 ++ UListen true :: l2) = Ok b -> b_listening b = false -> use_step b (UListen true) = Panic.
Proof.
  intros Su B W Tp H L. rewrite use_run_app in H. destruct (use_run new_boot l1) as [b0|e|] eqn:E; try discriminate.
  assert (N : forall u, In u l1 -> u <> UListen true) by (intros u I ->; rewrite Forall_forall in Su; exact (Su _ I)).
  destruct (not_listened l1 N new_boot b0 E eq_refl) as (_ & _ & K3 & K4 & _). cbn [app b_protos new_boot] in K4. cbn [bind] in H. cbn [use_run] in H.
  destruct (use_step b0 (UListen true)) as [b1|e|] eqn:S1; try discriminate. cbn [bind] in H. cbn [use_step] in S1. rewrite K3 in S1.
  destruct (bind_all b0 (b_protos b0)) as [[b2 ok]|e|] eqn:A; try discriminate. cbn [bind] in S1. injection S1 as <-.
  rewrite K4, B in A. pose proof (bind_all_reaches _ _ _ _ _ _ W A t Tp) as K. destruct (bind_all_spec _ _ _ _ A) as (P & _).
  destruct (grows_run _ _ _ H) as (G1 & ps & G2). cbn [b_codec b_protos] in G1, G2. rewrite P, K4, B in G2.
  cbn [use_step]. rewrite L, G2, <- app_assoc. cbn [app]. rewrite (bind_all_panics before b p (after ++ ps) t W Tp); [reflexivity|]. left. apply G1, K.
Qed.

(** Listening again crashes once a protocol with messages has been bound: after a Listen that failed later on, and after Close. *)
Theorem C100_listen_again : forall l1 before p after t, Forall setup l1 -> binds l1 = before ++ p :: after -> Forall binds_well before -> In t (types p) ->
  (forall l2, use_run new_boot (l1 ++ UListen true :: l2 ++ [UClose; UListen true]) = Panic) /\
  (~ Forall binds_well after -> use_run new_boot (l1 ++ [UListen true; UListen true]) = Panic).
Proof.
  intros l1 before p after t Su B W Tp. split.
  - intros l2. change (l1 ++ UListen true :: l2 ++ [UClose; UListen true]) with (l1 ++ (UListen true :: l2) ++ [UClose] ++ [UListen true]).
    rewrite !app_assoc, use_run_app. rewrite <- app_assoc. cbn [app].
    destruct (use_run new_boot (l1 ++ UListen true :: (l2 ++ [UClose]))) as [b|e|] eqn:E; [|exfalso; exact (use_run_not_err _ _ _ E)|reflexivity].
    cbn [bind use_run]. rewrite (listen_again l1 (l2 ++ [UClose]) b before p after t Su B W Tp E); [reflexivity|].
    change (l1 ++ UListen true :: l2 ++ [UClose]) with (l1 ++ (UListen true :: l2) ++ [UClose]) in E. rewrite app_assoc, use_run_app in E.
    destruct (use_run new_boot (l1 ++ UListen true :: l2)) as [b1|e|]; try discriminate. injection E as <-. reflexivity.
  - intros F. change (l1 ++ [UListen true; UListen true]) with (l1 ++ [UListen true] ++ [UListen true]). rewrite app_assoc, use_run_app.
    destruct (use_run new_boot (l1 ++ [UListen true])) as [b|e|] eqn:E; [|exfalso; exact (use_run_not_err _ _ _ E)|reflexivity].
    cbn [bind use_run]. rewrite (listen_again l1 [] b before p after t Su B W Tp E); [reflexivity|].
    rewrite use_run_app in E. destruct (use_run new_boot l1) as [b0|e|] eqn:E0; try discriminate.
    assert (N : forall u, In u l1 -> u <> UListen true) by (intros u I ->; rewrite Forall_forall in Su; exact (Su _ I)).
    destruct (not_listened l1 N new_boot b0 E0 eq_refl) as (_ & _ & K3 & K4 & _). cbn [app b_protos new_boot] in K4. cbn [bind use_run use_step] in E.
    rewrite K3 in E. destruct (bind_all b0 (b_protos b0)) as [[b2 ok]|e|] eqn:A; try discriminate. cbn in E. injection E as <-. cbn.
    destruct ok; [exfalso|reflexivity]. apply F. rewrite K4, B in A. clear - A.
    assert (X : forall l b b2, bind_all b l = Ok (b2, true) -> Forall binds_well l).
    { induction l as [|q l IH]; intros b b3 H; [constructor|]. cbn in H. destruct (bind_one b q) as [[b4 ok]|e|] eqn:O; try discriminate. cbn in H.
      destruct ok; [|discriminate]. constructor; [apply (bind_one_spec _ _ _ _ O); reflexivity | eauto]. }
    apply X in A. apply Forall_app in A as [_ A]. inversion A; assumption.
Qed.
Print Assumptions C100_listen_again.

(** ** The calls that are safe *)

Lemma flat_app_nodup {A} (l1 l2 : list A) : NoDup (l1 ++ l2) -> NoDup l2 /\ forall x, In x l1 -> ~ In x l2.
Proof.
  induction l1 as [|y l1 IH]; cbn; intros H; [split; [exact H | intros x []]|]. inversion H as [|a b Nin Nd]; subst. destruct (IH Nd) as [H1 H2].
  split; [exact H1|]. intros x [<-|I]; [intros C; apply Nin, in_or_app; auto | auto].
Qed.
(** What is registered before Listen. *)
Lemma setup_known l : Forall setup l -> forall b0 b, use_run b0 l = Ok b -> b_listening b0 = false -> forall t, known (b_codec b) t ->
  known (b_codec b0) t \/ In t (flat_map (fun u => match u with URegister t _ => [t] | _ => [] end) l).
Proof.
  induction l as [|u l IH]; intros Su b0 b H L t K; cbn in H; [injection H as <-; auto|]. inversion Su as [|x y S1 S2]; subst.
  destruct (use_step b0 u) as [b1|e|] eqn:E; try discriminate. cbn in H.
  assert (L1 : b_listening b1 = false).
  { destruct (not_listened [u]) with (b0 := b0) (b := b1) as (_ & _ & X & _); [|cbn; rewrite E; reflexivity|exact L|exact X].
    intros v [<-|[]] ->. exact S1. }
  destruct (IH S2 b1 b H L1 t K) as [C|C]; [|right; cbn [flat_map]; apply in_or_app; auto].
  destruct u; cbn in S1, E; try contradiction; rewrite ?L in E.
  - injection E as <-. auto.
  - destruct (register (b_codec b0) t0 d) as [[c o]|e|] eqn:R; try discriminate. injection E as <-. cbn in C.
    apply (proj2 (register_known _ _ _ _ _ R)) in C as [-> |C]; [right; cbn; auto | auto].
  - destruct opened; [contradiction|]. injection E as <-. auto.
  - injection E as <-. auto.
Qed.

(** A node all of whose protocols are bound. *)
Definition bound (ps : list proto) (b : boot) : Prop :=
  b_protos b = ps /\ (forall i, In (PKad i) ps -> In i (b_kads b)) /\ (forall i o, In (PGossip i o) ps -> In i (b_gossips b)) /\
  (forall i o, In (PGossip i o) (b_handlers b) <-> In (PGossip i o) ps).

Lemma listens l : Forall setup l -> NoDup (asked_types l) -> Forall sound (binds l) ->
  (exists b0, use_run new_boot l = Ok b0) -> exists b, use_run new_boot (l ++ [UListen true]) = Ok b /\ bound (binds l) b /\ b_listening b = true /\
    forall i, In i (b_kads b) -> In (PKad i) (binds l).
Proof.
  intros Su Nd Sd (b0 & E).
  assert (N : forall u, In u l -> u <> UListen true) by (intros u I ->; rewrite Forall_forall in Su; exact (Su _ I)).
  destruct (not_listened l N new_boot b0 E eq_refl) as (K1 & K2 & K3 & K4 & K5). cbn [app b_protos new_boot b_kads b_gossips b_handlers] in *.
  unfold asked_types in Nd. apply flat_app_nodup in Nd as [Nd Dj].
  destruct (bind_all_ok (binds l) b0 Sd Nd) as (b1 & A).
  { intros t I K. destruct (setup_known l Su new_boot b0 E eq_refl t K) as [C|C]; [apply C; reflexivity | exact (Dj t C I)]. }
  rewrite use_run_app, E. cbn [bind use_run use_step]. rewrite K3, K4, A. cbn [bind].
  destruct (bind_all_spec _ _ _ _ A) as (P & _ & _ & _ & _ & P6 & _ & P8 & P9 & _). destruct (P9 eq_refl) as (Q1 & Q2 & Q3).
  eexists. split; [reflexivity|]. unfold bound. cbn [b_protos b_listening b_codec b_kads b_gossips b_handlers].
  split; [|split; [reflexivity|]].
  - split; [congruence|]. split; [exact Q1|]. split; [exact Q2|]. intros i o. split; [|apply Q3].
    intros I. apply P8 in I as [I|I]; [exact I|]. rewrite K5 in I. destruct I.
  - intros i I. apply P6 in I as [I|I]; [exact I|]. rewrite K1 in I. destruct I.
Qed.

Lemma bound_run ps rest : Forall (fits ps) rest -> (forall i o, In (PGossip i o) ps -> In (PKad o) ps) -> forall b,
  (b_listening b = true /\ (In UClose rest -> ~ In (UListen true) rest /\ forall qs, ~ In (UBind qs) rest) \/
   b_listening b = false /\ ~ In (UListen true) rest /\ forall qs, ~ In (UBind qs) rest) ->
  bound ps b -> exists b', use_run b rest = Ok b' /\ bound ps b'.
Proof.
  intros F Ov. induction rest as [|u rest IH]; intros b C B; [cbn; eauto|]. inversion F as [|x y F1 F2]; subst.
  assert (Bd := B). destruct B as (B1 & B2 & B3 & B4).
  assert (Next : forall b1, bound ps b1 -> b_listening b1 = b_listening b -> exists b', use_run b1 rest = Ok b' /\ bound ps b').
  { intros b1 X Y. apply (IH F2 b1); [|exact X]. rewrite Y. destruct C as [(C1 & C2)|(C1 & C2 & C3)]; [left | right].
    - split; [exact C1|]. intros I. destruct (C2 (or_intror I)) as [D1 D2]. split; [intros J; apply D1; right; exact J | intros qs J; apply (D2 qs); right; exact J].
    - split; [exact C1|]. split; [intros J; apply C2; right; exact J | intros qs J; apply (C3 qs); right; exact J]. }
  cbn [use_run]. destruct u; cbn [fits] in F1; cbn [use_step].
  - destruct (b_listening b) eqn:L; [cbn [bind]; apply Next; auto|]. exfalso. destruct C as [(C1 & _)|(_ & _ & C3)]; [discriminate|]. apply (C3 l). left. reflexivity.
  - contradiction.
  - destruct (b_listening b) eqn:L; [cbn [bind]; apply Next; auto|]. destruct opened; [|cbn [bind]; apply Next; auto].
    exfalso. destruct C as [(C1 & _)|(_ & C2 & _)]; [discriminate|]. apply C2. left. reflexivity.
  - rewrite (callbacks_ok b (b_protos b)) by (intros i I; apply B2; rewrite <- B1; exact I). cbn [bind]. apply Next; auto.
  - rewrite (callbacks_ok b (b_protos b)) by (intros i I; apply B2; rewrite <- B1; exact I). cbn [bind]. apply Next; auto.
  - destruct (b_listening b) eqn:L; [|cbn [bind]; apply Next; auto].
    rewrite (handlers_ok b (b_handlers b)) by (intros i o I; apply B2, (Ov i), B4, I). cbn [bind]. apply Next; auto.
  - rewrite (proj2 (has_nat_in i (b_kads b)) (B2 i F1)). cbn [bind]. apply Next; auto.
  - destruct F1 as [F1 F3]. rewrite (proj2 (has_nat_in i (b_gossips b)) (B3 i o F1)), (proj2 (has_nat_in o (b_kads b)) (B2 o F3)). cbn [bind andb]. apply Next; auto.
  - cbn [bind]. apply (IH F2).
    + right. cbn. split; [reflexivity|]. destruct C as [(C1 & C2)|(_ & C2 & C3)].
      * destruct (C2 (or_introl eq_refl)) as [D1 D2]. split; [intros J; apply D1; right; exact J | intros qs J; apply (D2 qs); right; exact J].
      * split; [intros J; apply C2; right; exact J | intros qs J; apply (C3 qs); right; exact J].
    + unfold bound. cbn. auto.
Qed.

(** A node that is set up, then listens, then is used, crashes in none of these calls; after Close it may be used but not set up anew. *)
Theorem C100_partial : forall l rest, Forall setup l -> NoDup (asked_types l) -> Forall sound (binds l) -> (exists b0, use_run new_boot l = Ok b0) ->
  (forall i o, In (PGossip i o) (binds l) -> In (PKad o) (binds l)) ->
  Forall (fits (binds l)) rest -> (In UClose rest -> ~ In (UListen true) rest /\ forall qs, ~ In (UBind qs) rest) ->
  exists b, use_run new_boot (l ++ UListen true :: rest) = Ok b.
Proof.
  intros l rest Su Nd Sd E Ov F C. destruct (listens l Su Nd Sd E) as (b & R & B & L & _).
  change (l ++ UListen true :: rest) with (l ++ [UListen true] ++ rest). rewrite app_assoc, use_run_app, R. cbn [bind].
  destruct (bound_run (binds l) rest F Ov b (or_introl (conj L C)) B) as (b' & R' & _). eauto.
Qed.
Print Assumptions C100_partial.

(** A gossip protocol over a Kademlia instance that was not given to Bind: the first gossip message that a peer sends crashes the node. *)
Theorem C100_overlay_missing : forall l g o, Forall setup l -> NoDup (asked_types l) -> Forall sound (binds l) -> (exists b0, use_run new_boot l = Ok b0) ->
  In (PGossip g o) (binds l) -> ~ In (PKad o) (binds l) ->
  (exists b, use_run new_boot (l ++ [UListen true]) = Ok b) /\ use_run new_boot (l ++ [UListen true; UGossip]) = Panic.
Proof.
  intros l g o Su Nd Sd E I N. destruct (listens l Su Nd Sd E) as (b & R & (B1 & B2 & B3 & B4) & L & K). split; [eauto|].
  change (l ++ [UListen true; UGossip]) with (l ++ [UListen true] ++ [UGossip]). rewrite app_assoc, use_run_app, R. cbn [bind use_run use_step].
  rewrite L, (handlers_panic b (b_handlers b) g o); [reflexivity | apply B4, I | intros J; exact (N (K o J))].
Qed.
Print Assumptions C100_overlay_missing.

Theorem C100_refuted : ~ C100_statement.
Proof.
  intros H. apply (H [UBind [PKad 0]; UDialFailed]); [| | | |vm_compute; reflexivity].
  - set (l := asked_types _). assert (E : nodup gotype_eq_dec l = l) by (vm_compute; reflexivity). rewrite <- E. apply NoDup_nodup.
  - repeat constructor.
  - repeat constructor.
  - intros i o [C|[]]. discriminate.
Qed.
Print Assumptions C100_refuted.

Lemma not_crashed (r : res boot) : match r with Panic => false | _ => true end = true -> r <> Panic.
Proof. intros H ->. discriminate H. Qed.
(** A node with Kademlia, gossip over it, an application protocol and a registered message: used, closed, used again. *)
Definition ex_boot : list use := [UBind [PKad 0; PGossip 1 0]; URegister (TNamed 50) (mkDec (TNamed 50) (fun _ => Panic)); UBind [PApp [(TNamed 60, mkDec (TNamed 60) (fun _ => Panic))] true]].
Example C100_nonvacuous :
  Forall setup ex_boot /\ NoDup (asked_types ex_boot) /\ Forall sound (binds ex_boot) /\
  use_run new_boot (ex_boot ++ UListen true :: [UConnected; UKad 0; UPush 1 0; UGossip; UDialFailed; UBind [PKad 9]; UListen true]) <> Panic /\
  use_run new_boot (ex_boot ++ UListen true :: [UConnected; UClose; UDialFailed; UKad 0]) <> Panic /\
  use_run new_boot (ex_boot ++ UListen true :: [UClose; UListen true]) = Panic.
Proof.
  split; [repeat constructor|]. split; [|split; [|split; [|split; [|vm_compute; reflexivity]]]].
  - assert (E : nodup gotype_eq_dec (asked_types ex_boot) = asked_types ex_boot) by (vm_compute; reflexivity). rewrite <- E. apply NoDup_nodup.
  - repeat constructor; cbn. intros t d [C|[]]. injection C as <- <-. reflexivity.
  - apply not_crashed. vm_compute. reflexivity.
  - apply not_crashed. vm_compute. reflexivity.
Qed.
(** The crashes do happen to nodes that are set up otherwise as [C100_partial] asks. *)
Example C100_crashes_nonvacuous :
  use_run new_boot [UBind [PGossip 1 0]; UListen true; UConnected; UGossip] = Panic /\
  use_run new_boot [UBind [PKad 0; PApp [] false]; UListen true; UListen true] = Panic /\
  use_run new_boot [UBind [PKad 0; PApp [] false]; UListen true] <> Panic /\
  use_run new_boot [UBind [PKad 0; PKad 1]; UListen true] = Panic.
Proof. split; [vm_compute; reflexivity|]. split; [vm_compute; reflexivity|]. split; [apply not_crashed|]; vm_compute; reflexivity. Qed.
