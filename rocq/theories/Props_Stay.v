(** * C105: a peer that answers stays in the routing table, however many others arrive. *)
From Verif Require Import Base Spec M_ID M_Msg M_Codec M_Table P_Table M_Kad P_Kad Props_Kad Props_KadProto Props_Discover.
From Coq Require Import Strings.Byte.
Local Open Scope nat_scope.

(** ** Spec *)

(** A call under way is about to take [e] out, or to take out whoever has its address. *)
Fixpoint removing (e : ID) (pc : kad_pc) : Prop :=
  match pc with
  | KDialFailed _ last => id_key last = id_key e \/ id_addr last = id_addr e
  | KDelete _ last => id_key last = id_key e
  | KDelAddr a => a = id_addr e
  | KEmit _ next => removing e next
  | _ => False
  end.
(** Pings to the address of [e] are answered. *)
Definition answers (e : ID) (s : kad_state) (a : kad_action) : Prop :=
  match a with
  | KStep i o => forall id last, nth_error (ks_threads s) i = Some (KPing id last) -> id_addr last = id_addr e -> o = GotPong
  | _ => True
  end.
(** No attempt to reach the address of [e] is given up. *)
Definition no_gave_up (e : ID) (a : kad_action) : Prop := match a with KPingFailed ad => ad <> id_addr e | _ => True end.
Definition act_wf (a : kad_action) : Prop := match a with KAck id => key32 (id_key id) | _ => True end.
Fixpoint answers_run (e : ID) (s : kad_state) (l : list kad_action) : Prop :=
  match l with [] => True | a :: r => answers e s a /\ match kad_act s a with Ok s1 => answers_run e s1 r | _ => True end end.

(** The table of a node with calls of Ack and OnPingFailed under way. *)
Definition node_state (self : ID) (s : kad_state) : Prop := exists t0 acts, key32 (id_key self) /\ NewTable self = Ok t0 /\ Forall act_wf acts /\ kad_run (mkKS t0 [] []) acts = Ok s.

Definition C105_statement : Prop := forall self s e es acts s1 es1, node_state self s -> Entries (ks_table s) = Ok es -> In e es ->
  Forall (fun pc => ~ removing e pc) (ks_threads s) -> Forall act_wf acts -> answers_run e s acts ->
  kad_run s acts = Ok s1 -> Entries (ks_table s1) = Ok es1 -> In e es1.

(** ** Proof *)

(** A ping of the owner of its key is a ping of it. *)
Fixpoint fresh_ping (e : ID) (pc : kad_pc) : Prop :=
  match pc with
  | KPing _ last => id_key last = id_key e -> id_addr last = id_addr e
  | KEmit _ next => fresh_ping e next
  | _ => True
  end.

Definition kwf (s : kad_state) : Prop := table_inv (ks_table s) /\ Forall pc_wf (ks_threads s).
Lemma kwf_act s a s1 : kwf s -> act_wf a -> kad_act s a = Ok s1 -> kwf s1.
Proof.
  intros [I W] A H. destruct a as [i o|id|ad]; cbn [kad_act] in H.
  - destruct (nth_error (ks_threads s) i) as [pc|] eqn:E; [|injection H as <-; split; assumption].
    destruct (kad_step o (ks_table s) pc) as [[[t' pc'] ev]| |] eqn:K; cbn [bind] in H; try discriminate. injection H as <-.
    pose proof (proj1 (Forall_forall _ _) W _ (nth_error_In _ _ E)) as Wp. destruct (kad_step_wf _ _ _ _ _ _ I Wp K) as (I' & _ & W').
    split; [exact I' | apply Forall_set_nth; assumption].
  - injection H as <-. split; [exact I|]. apply Forall_app. split; [exact W|]. constructor; [exact A | constructor].
  - injection H as <-. split; [exact I|]. apply Forall_app. split; [exact W|]. constructor; [exact Logic.I | constructor].
Qed.
Lemma kwf_run l : forall s s1, kwf s -> Forall act_wf l -> kad_run s l = Ok s1 -> kwf s1.
Proof.
  induction l as [|a l IH]; intros s s1 K F H; cbn [kad_run] in H; [injection H as <-; exact K|]. inversion F; subst.
  destruct (kad_act s a) as [s2| |] eqn:E; cbn [bind] in H; try discriminate. eapply IH; [eapply kwf_act; eauto | assumption | exact H].
Qed.
Lemma node_state_wf self s : node_state self s -> kwf s.
Proof.
  intros (t0 & acts & Hk & N & F & R). destruct (NewTable_ok self Hk) as (t1 & E & I0 & _). assert (t1 = t0) as -> by congruence.
  apply (kwf_run acts (mkKS t0 [] []) s); auto. split; [exact I0 | constructor].
Qed.

Lemma stay_step e o t pc t' pc' ev : table_inv t -> pc_wf pc -> In e (ents t) -> ~ removing e pc -> fresh_ping e pc ->
  (forall id last, pc = KPing id last -> id_addr last = id_addr e -> o = GotPong) ->
  kad_step o t pc = Ok (t', pc', ev) -> In e (ents t') /\ ~ removing e pc' /\ fresh_ping e pc'.
Proof.
  intros I W He Nr Fp An H. destruct pc as [id|id|id last|id last|id last|addr|ev0 next|]; cbn [kad_step] in H; cbn [removing fresh_ping pc_wf] in *.
  - destruct (Update t id) as [t1 [b oe]] eqn:U. assert (t' = t1) as -> by (destruct oe; congruence).
    split; [apply (Update_ents t id t1 b oe e I W U); auto|]. destruct oe; assert (pc' = _) as -> by (injection H; intros; symmetry; eassumption); cbn; auto.
  - destruct (Last t (id_key id)) as [x| |] eqn:E; cbn in H; try discriminate. assert (t' = t) as -> by congruence. assert (pc' = KPing id x) as -> by congruence.
    split; [exact He|]. split; [intros []|]. intros Ek. f_equal. apply (in_unique_key t); auto. apply Last_in in E; auto.
    apply in_entries; auto. rewrite (bucket_elem t _ x I E). exact E.
  - assert (t' = t) as -> by (destruct o; congruence). split; [exact He|].
    assert (A : o <> GotPong -> id_key last <> id_key e /\ id_addr last <> id_addr e) by (intros No; split; intros C; apply No; eapply An; eauto).
    destruct o; assert (pc' = _) as -> by (injection H; intros; symmetry; eassumption); cbn; split; auto; try tauto;
      destruct (A ltac:(discriminate)); tauto.
  - destruct (DeleteByAddress t (id_addr last)) as [t1 [x b]] eqn:D. assert (t' = t1) as -> by (destruct b; congruence).
    split; [apply (DeleteByAddress_ents_keep t (id_addr last) t1 x b e I D He); intros C; apply Nr; auto|].
    destruct b; assert (pc' = _) as -> by (injection H; intros; symmetry; eassumption); cbn; auto.
  - destruct W as [W1 W2]. destruct (Delete t (id_key last)) as [t1 [x b]] eqn:D. assert (t' = t1) as -> by (destruct b; congruence).
    split; [apply (Delete_ents t _ t1 x b e I W2 D); split; [exact He | intros C; apply Nr; auto]|].
    destruct b; assert (pc' = _) as -> by (injection H; intros; symmetry; eassumption); cbn; auto.
  - destruct (DeleteByAddress t addr) as [t1 [x b]] eqn:D. assert (t' = t1) as -> by (destruct b; congruence).
    split; [apply (DeleteByAddress_ents_keep t addr t1 x b e I D He); intros C; apply Nr; auto|].
    destruct b; assert (pc' = _) as -> by (injection H; intros; symmetry; eassumption); cbn; auto.
  - assert (t' = t) as -> by congruence. assert (pc' = next) as -> by congruence. auto.
  - assert (t' = t) as -> by congruence. assert (pc' = KDone) as -> by congruence. cbn. auto.
Qed.

Lemma stay_run e l : forall s s1, kwf s -> In e (ents (ks_table s)) -> Forall (fun pc => ~ removing e pc) (ks_threads s) -> Forall (fresh_ping e) (ks_threads s) ->
  Forall act_wf l -> Forall (no_gave_up e) l -> answers_run e s l -> kad_run s l = Ok s1 -> In e (ents (ks_table s1)).
Proof.
  induction l as [|a l IH]; intros s s1 K He Nr Fp F G An H; cbn [kad_run] in H; [injection H as <-; exact He|]. inversion F; inversion G; subst.
  cbn [answers_run] in An. destruct (kad_act s a) as [s2| |] eqn:E; cbn [bind] in H; try discriminate. destruct An as [A An]. pose proof (kwf_act s a s2 K ltac:(assumption) E) as K2.
  assert (X : In e (ents (ks_table s2)) /\ Forall (fun pc => ~ removing e pc) (ks_threads s2) /\ Forall (fresh_ping e) (ks_threads s2)).
  { destruct a as [i o|id|ad]; cbn [kad_act] in E.
    - destruct (nth_error (ks_threads s) i) as [pc|] eqn:Ei; [|injection E as <-; auto].
      destruct (kad_step o (ks_table s) pc) as [[[t' pc'] ev]| |] eqn:Ks; cbn [bind] in E; try discriminate. injection E as <-. cbn [ks_table ks_threads].
      destruct K as [I W]. pose proof (nth_error_In _ _ Ei) as Hi. rewrite Forall_forall in W, Nr, Fp.
      destruct (stay_step e o (ks_table s) pc t' pc' ev I (W _ Hi) He (Nr _ Hi) (Fp _ Hi)) as (X1 & X2 & X3); [intros id last ->; exact (A id last Ei) | exact Ks |].
      split; [exact X1|]. split; apply Forall_set_nth; auto; apply Forall_forall; assumption.
    - injection E as <-. cbn. split; [exact He|]. split; apply Forall_app; split; auto; constructor; auto.
    - injection E as <-. cbn. split; [exact He|]. split; apply Forall_app; split; auto; constructor; cbn; auto. }
  destruct X as (X1 & X2 & X3). exact (IH s2 s1 K2 X1 X2 X3 ltac:(assumption) ltac:(assumption) An H).
Qed.
Lemma entries_ents t es : Entries t = Ok es -> es = ents t.
Proof. unfold Entries, ents. destruct (t_size t <? 0)%Z; congruence. Qed.

(** However many others arrive, and whatever becomes of them: a peer stays if pings to its address are answered and no attempt to reach that address
    is given up.  One thing more is asked of the start: pings already under way to the owner of its key go to its address. *)
Theorem C105_partial : forall self s e es acts s1 es1, node_state self s -> Entries (ks_table s) = Ok es -> In e es ->
  Forall (fun pc => ~ removing e pc) (ks_threads s) -> Forall (fresh_ping e) (ks_threads s) -> Forall act_wf acts -> Forall (no_gave_up e) acts -> answers_run e s acts ->
  kad_run s acts = Ok s1 -> Entries (ks_table s1) = Ok es1 -> In e es1.
Proof.
  intros self s e es acts s1 es1 N E He Nr Fp F G An H E1. rewrite (entries_ents _ _ E1). rewrite (entries_ents _ _ E) in He.
  exact (stay_run e acts s s1 (node_state_wf _ _ N) He Nr Fp F G An H).
Qed.
Print Assumptions C105_partial.

(** Given up is given up: whoever's context ended (C104), the peer at that address is out, if no other entry has the address. *)
Theorem C105_gave_up : forall self s e es, node_state self s -> Entries (ks_table s) = Ok es -> In e es -> (forall x, In x es -> id_addr x = id_addr e -> x = e) ->
  exists s1 es1, kad_run s [KPingFailed (id_addr e); KStep (length (ks_threads s)) GotPong] = Ok s1 /\ Entries (ks_table s1) = Ok es1 /\ forall x, In x es1 <-> In x es /\ x <> e.
Proof.
  intros self s e es N E He U. destruct (node_state_wf _ _ N) as [I _]. pose proof (entries_ents _ _ E) as ->.
  cbn [kad_run kad_act bind ks_table ks_threads]. rewrite nth_error_app2, Nat.sub_diag by lia. cbn [nth_error kad_step].
  destruct (DeleteByAddress_cases (ks_table s) (id_addr e) I) as [(bs1 & l1 & y & l2 & bs2 & Eb & Ea & Hf & D)|(Hn & D)].
  - assert (Hl : length bs1 < NumBuckets) by (pose proof (inv_len _ I) as L; rewrite Eb, app_length in L; cbn [length] in L; lia).
    pose proof (bucket_at_mid (ks_table s) bs1 _ bs2 Eb) as Bj.
    assert (Hy : In y (ents (ks_table s))).
    { assert (In y (bucket_at (ks_table s) (length bs1))) as Q by (rewrite Bj; apply in_or_app; right; left; reflexivity).
      apply in_entries; auto. rewrite (bucket_elem _ _ y I Q). exact Q. }
    assert (y = e) as -> by (apply U; assumption). rewrite D. cbn [bind]. eexists. eexists. split; [reflexivity|]. cbn [ks_table].
    pose proof (remove_inv (ks_table s) _ e l1 l2 I Hl Bj) as I1. split.
    + unfold Entries. destruct (Z.ltb_spec (t_size (set_bucket (ks_table s) (length bs1) (l1 ++ l2) (t_size (ks_table s) - 1))) 0) as [L|_]; [|reflexivity].
      exfalso. pose proof (inv_count _ I1). lia.
    + intros x. fold (ents (set_bucket (ks_table s) (length bs1) (l1 ++ l2) (t_size (ks_table s) - 1))). rewrite (remove_ents (ks_table s) _ l1 e l2 x I Hl Bj). split; intros [A B]; split; auto.
      * intros ->. auto.
      * intros C. apply B. exact (in_unique_key _ x e I A He C).
  - exfalso. apply (Hn e He). reflexivity.
Qed.
Print Assumptions C105_gave_up.

(** ** Cases *)

Definition is_pong (o : ping_outcome) : bool := match o with GotPong => true | _ => false end.
Definition answersb (e : ID) (s : kad_state) (a : kad_action) : bool :=
  match a with
  | KStep i o => match nth_error (ks_threads s) i with Some (KPing _ last) => negb (bytes_eqb (id_addr last) (id_addr e)) || is_pong o | _ => true end
  | _ => true
  end.
Fixpoint answersb_run (e : ID) (s : kad_state) (l : list kad_action) : bool :=
  match l with [] => true | a :: r => answersb e s a && match kad_act s a with Ok s1 => answersb_run e s1 r | _ => true end end.
Lemma answersb_ok e l : forall s, answersb_run e s l = true -> answers_run e s l.
Proof.
  induction l as [|a l IH]; intros s H; cbn [answers_run answersb_run] in *; [exact Logic.I|]. apply andb_prop in H as [A B]. split.
  - destruct a as [i o| |]; cbn [answers answersb] in *; auto. intros id last E Ea. rewrite E, Ea in A. destruct (bytes_eqb_spec (id_addr e) (id_addr e)) as [_|C]; [|contradiction].
    destruct o; try discriminate. reflexivity.
  - destruct (kad_act s a); auto.
Qed.

(** Sixteen peers in one bucket, the oldest first.  A seventeenth arrives, and the node is about to ping the oldest. *)
Definition st_self := ex_id 1 1.
Definition st_peer (n : N) : ID := NewID (ex_key 255 n) [] (1000 + n).
Definition st_done (i : nat) : list kad_action := [KStep i GotPong; KStep i GotPong].
Definition st_full : list kad_action := flat_map (fun i => KAck (st_peer (N.of_nat (S i))) :: st_done i) (seq 0 16).
Definition st_crowd : list kad_action := st_full ++ [KAck (st_peer 17); KStep 16 GotPong; KStep 16 GotPong].
Definition st_of (l : list kad_action) : kad_state := match NewTable st_self with Ok t => match kad_run (mkKS t [] []) l with Ok s => s | _ => mkKS t [] [] end | _ => mkKS (mkTable [] st_self 0) [] [] end.

Lemma st_node l : forallb (fun a => match a with KAck id => (length (id_key id) =? 32)%nat | _ => true end) l = true ->
  (match NewTable st_self with Ok t => match kad_run (mkKS t [] []) l with Ok s => true | _ => false end | _ => false end) = true -> node_state st_self (st_of l).
Proof.
  intros F H. unfold node_state, st_of. destruct (NewTable st_self) as [t| |]; try discriminate. exists t, l. split; [reflexivity|]. split; [reflexivity|]. split.
  - apply Forall_forall. intros a Ha. rewrite forallb_forall in F. specialize (F a Ha). destruct a; cbn; auto. apply Nat.eqb_eq in F. exact F.
  - destruct (kad_run (mkKS t [] []) l); try discriminate. reflexivity.
Qed.
Definition in_ents (e : ID) (t : table) : bool := idin e (ents t).

(** The same conditions, computed. *)
Fixpoint removingb (e : ID) (pc : kad_pc) : bool :=
  match pc with
  | KDialFailed _ last => bytes_eqb (id_key last) (id_key e) || bytes_eqb (id_addr last) (id_addr e)
  | KDelete _ last => bytes_eqb (id_key last) (id_key e)
  | KDelAddr a => bytes_eqb a (id_addr e)
  | KEmit _ next => removingb e next
  | _ => false
  end.
Fixpoint fresh_pingb (e : ID) (pc : kad_pc) : bool :=
  match pc with
  | KPing _ last => negb (bytes_eqb (id_key last) (id_key e)) || bytes_eqb (id_addr last) (id_addr e)
  | KEmit _ next => fresh_pingb e next
  | _ => true
  end.
Lemma removingb_ok e l : forallb (fun pc => negb (removingb e pc)) l = true -> Forall (fun pc => ~ removing e pc) l.
Proof.
  intros H. apply Forall_forall. intros pc Hp. rewrite forallb_forall in H. specialize (H pc Hp). clear Hp. apply negb_true_iff in H.
  induction pc; cbn [removing removingb] in *; auto; try (intros C; rewrite C in H; destruct (bytes_eqb_spec (id_key e) (id_key e)); congruence).
  - apply orb_false_iff in H as [A B]. intros [C|C]; rewrite C in *; [destruct (bytes_eqb_spec (id_key e) (id_key e)) | destruct (bytes_eqb_spec (id_addr e) (id_addr e))]; congruence.
  - intros ->. destruct (bytes_eqb_spec (id_addr e) (id_addr e)); congruence.
Qed.
Lemma fresh_pingb_ok e l : forallb (fresh_pingb e) l = true -> Forall (fresh_ping e) l.
Proof.
  intros H. apply Forall_forall. intros pc Hp. rewrite forallb_forall in H. specialize (H pc Hp). clear Hp.
  induction pc; cbn [fresh_ping fresh_pingb] in *; auto. intros C. rewrite C in H. destruct (bytes_eqb_spec (id_key e) (id_key e)); [|congruence]. cbn in H. apply bytes_eqb_eq. exact H.
Qed.

(** The oldest answers the ping, and any number of others arrive: it stays; the newcomers are turned away. *)
Definition st_e := st_peer 1.
Definition st_more : list kad_action := KStep 16 GotPong :: flat_map (fun i => [KAck (st_peer (N.of_nat (S i))); KStep i GotPong; KStep i GotPong; KStep i GotPong; KStep i GotPong]) (seq 17 20).
Example C105_nonvacuous : node_state st_self (st_of st_crowd) /\ In st_e (ents (ks_table (st_of st_crowd))) /\
  Forall (fun pc => ~ removing st_e pc) (ks_threads (st_of st_crowd)) /\ Forall (fresh_ping st_e) (ks_threads (st_of st_crowd)) /\
  (exists id, nth_error (ks_threads (st_of st_crowd)) 16 = Some (KPing id st_e)) /\
  Forall act_wf st_more /\ Forall (no_gave_up st_e) st_more /\ answers_run st_e (st_of st_crowd) st_more /\
  match kad_run (st_of st_crowd) st_more with Ok s1 => idin st_e (ents (ks_table s1)) && (length (ents (ks_table s1)) =? 17) | _ => false end = true.
Proof.
  split; [apply st_node; vm_compute; reflexivity|]. split; [apply (proj1 (idin_in _ _)); vm_compute; reflexivity|].
  split; [apply removingb_ok; vm_compute; reflexivity|]. split; [apply fresh_pingb_ok; vm_compute; reflexivity|].
  split.
  { set (p := nth_error (ks_threads (st_of st_crowd)) 16). assert (X : match p with Some (KPing id last) => id_eqb last st_e | _ => false end = true) by (vm_compute; reflexivity).
    destruct p as [[]|]; try discriminate. apply id_eqb_eq in X as ->. eauto. }
  split; [repeat constructor|]. split; [repeat constructor|]. split; [apply answersb_ok; vm_compute; reflexivity|]. vm_compute. reflexivity.
Qed.

Lemma ok_pick {A} (r : res A) (f : A -> bool) : match r with Ok x => f x | _ => false end = true -> exists x, r = Ok x /\ f x = true.
Proof. destruct r; try discriminate. eauto. Qed.

(** The oldest is about to be pinged; its address is given up, and its owner, back at another address, is taken in again.  Then the ping of the old
    address fails: the node takes out the owner of the key, at whatever address. *)
Definition st_new := NewID (ex_key 255 1) [] 5000.
Definition st_back : list kad_action := st_crowd ++ [KPingFailed (id_addr st_e)] ++ st_done 17 ++ [KAck st_new] ++ st_done 18.
Definition st_late : list kad_action := [KStep 16 ReqError; KStep 16 GotPong].
Theorem C105_stale : exists s s1, node_state st_self s /\ In st_new (ents (ks_table s)) /\ Forall (fun pc => ~ removing st_new pc) (ks_threads s) /\
  Forall (no_gave_up st_new) st_late /\ answers_run st_new s st_late /\ kad_run s st_late = Ok s1 /\ Forall (fun x => id_key x <> id_key st_new) (ents (ks_table s1)).
Proof.
  destruct (ok_pick (kad_run (st_of st_back) st_late) (fun s1 => forallb (fun x => negb (bytes_eqb (id_key x) (id_key st_new))) (ents (ks_table s1)))) as (s1 & R & Z); [vm_compute; reflexivity|].
  exists (st_of st_back), s1.
  split; [apply st_node; vm_compute; reflexivity|]. split; [apply (proj1 (idin_in _ _)); vm_compute; reflexivity|].
  split; [apply removingb_ok; vm_compute; reflexivity|]. split; [repeat constructor|]. split; [apply answersb_ok; vm_compute; reflexivity|]. split; [exact R|].
  apply Forall_forall. intros x Hx. rewrite forallb_forall in Z. specialize (Z x Hx). apply negb_true_iff in Z. intros C. rewrite C in Z. destruct (bytes_eqb_spec (id_key st_new) (id_key st_new)); congruence.
Qed.
Print Assumptions C105_stale.

Theorem C105_refuted : ~ C105_statement.
Proof.
  intros H. destruct C105_stale as (s & s1 & N & He & Nr & _ & An & R & F).
  assert (E : Entries (ks_table s) = Ok (ents (ks_table s))) by (unfold Entries; destruct (node_state_wf _ _ N) as [I _]; pose proof (inv_count _ I); destruct (Z.ltb_spec (t_size (ks_table s)) 0); [lia | reflexivity]).
  pose proof (kwf_run st_late s s1 (node_state_wf _ _ N) ltac:(repeat constructor) R) as [I1 _].
  assert (E1 : Entries (ks_table s1) = Ok (ents (ks_table s1))) by (unfold Entries; pose proof (inv_count _ I1); destruct (Z.ltb_spec (t_size (ks_table s1)) 0); [lia | reflexivity]).
  pose proof (H st_self s st_new _ st_late s1 _ N E He Nr ltac:(repeat constructor) An R E1) as X. rewrite Forall_forall in F. exact (F _ X eq_refl).
Qed.
Print Assumptions C105_refuted.
