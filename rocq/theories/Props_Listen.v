(** * C115: Listen called on a node that is already listening. *)
From Verif Require Import Base M_Table M_Listen.
Local Open Scope nat_scope.

Definition reached (sched : list lact) (s : life) : Prop := lrun l_start sched = Some s.
Definition is_ok (p : lpc) : bool := match p with LRet b => b | _ => false end.
(** The number of calls of Listen that have returned without an error. *)
Definition succeeded (s : life) : nat := length (filter is_ok (l_listens s)).
(** The node's listener is a socket that is open. *)
Definition listens (s : life) : Prop := exists k, l_listener s = Some k /\ nth_error (l_socks s) k = Some true.

(** As long as Close has not been called: no panic; once a call of Listen has returned without an error, every further one returns an error; and the node
    goes on listening. *)
Definition C115_statement : Prop := forall sched s, reached sched s -> l_closes s = [] ->
  l_crash s = false /\ succeeded s <= 1 /\ (succeeded s = 1 -> listens s).

(** ** Lists *)
Lemma last_app {A} (x y : A) : forall l, removelast (l ++ [x]) = l.
Proof. intros l. rewrite removelast_app by discriminate. cbn. apply app_nil_r. Qed.
Lemma under_way_some : forall l p, under_way l = Some p -> exists l0, l = l0 ++ [p] /\ forall b, p <> LRet b.
Proof.
  intros l p H. unfold under_way in H. destruct (rev l) as [|q r] eqn:E; [discriminate|]. exists (rev r).
  assert (q = p /\ forall b, p <> LRet b) as (-> & Q) by (destruct q; try discriminate; injection H as <-; split; auto; discriminate).
  split; [|exact Q]. rewrite <- (rev_involutive l), E. reflexivity.
Qed.
Lemma under_way_snoc : forall l p, under_way (l ++ [p]) = match p with LRet _ => None | _ => Some p end.
Proof. intros. unfold under_way. rewrite rev_app_distr. cbn. destruct p; reflexivity. Qed.
Lemma to_last_snoc : forall l p q, to_last q (l ++ [p]) = l ++ [q].
Proof. intros. unfold to_last. rewrite (last_app p p). reflexivity. Qed.
Lemma ok_snoc : forall l p, length (filter is_ok (l ++ [p])) = length (filter is_ok l) + (if is_ok p then 1 else 0).
Proof. intros. rewrite filter_app, app_length. cbn. destruct (is_ok p); reflexivity. Qed.
Lemma open_app : forall a b, any_open (a ++ b) = any_open a || any_open b.
Proof. intros. unfold any_open. apply existsb_app. Qed.
Lemma closed_set : forall l k, any_open l = false -> any_open (set_nth k false l) = false.
Proof. induction l as [|[] l IH]; intros [|k] H; cbn in *; auto; discriminate. Qed.
Lemma close_last : forall l, any_open l = false -> any_open (set_nth (length l) false (l ++ [true])) = false.
Proof. induction l as [|[] l IH]; cbn; intros H; auto; discriminate. Qed.
Lemma nth_last {A} (x : A) : forall l, nth_error (l ++ [x]) (length l) = Some x.
Proof. intros. rewrite nth_error_app2, Nat.sub_diag; [reflexivity|lia]. Qed.
Lemma one_nth {A} (p x : A) i : nth_error [p] i = Some x -> i = 0 /\ x = p.
Proof. destruct i as [|[|i]]; cbn; intros H; try discriminate. injection H as ->. auto. Qed.

(** ** With the flag set in time *)
(** Listen is called again only when the accept goroutine has set the flag. *)
Fixpoint in_time (s : life) (l : list lact) : Prop :=
  match l with
  | [] => True
  | a :: l' => (a = LCall -> l_loops s = [] \/ l_flag s = true) /\ match lstep s a with Some s' => in_time s' l' | None => True end
  end.

Inductive tinv (s : life) : Prop :=
| TI0 : l_crash s = false -> l_closes s = [] -> l_loops s = [] -> succeeded s = 0 -> l_flag s = false ->
    (match under_way (l_listens s) with
     | Some LRest => exists l, l_socks s = l ++ [true] /\ l_listener s = Some (length l) /\ any_open l = false
     | _ => any_open (l_socks s) = false
     end) -> tinv s
| TI1 p k : l_crash s = false -> l_closes s = [] -> l_loops s = [p] -> succeeded s = 1 ->
    l_listener s = Some k -> nth_error (l_socks s) k = Some true ->
    (p = ASet /\ l_flag s = false /\ under_way (l_listens s) = None
     \/ (p = ANext \/ p = AIn k) /\ l_flag s = true /\ (under_way (l_listens s) = None \/ under_way (l_listens s) = Some LLoad)) -> tinv s.

Ltac last_call U := destruct (under_way_some _ _ U) as (l0 & U0 & _).
Lemma step_tinv : forall s a s', tinv s -> (a = LCall -> l_loops s = [] \/ l_flag s = true) -> a <> CCall -> lstep s a = Some s' -> tinv s'.
Proof.
  intros s a s' I T NC H. unfold lstep in H.
  assert (CR : l_crash s = false) by (destruct I; assumption). assert (CL : l_closes s = []) by (destruct I; assumption). rewrite CR in H.
  destruct a as [|ok| |i|i| |j].
  - destruct (under_way (l_listens s)) as [p|] eqn:U; [discriminate|]. injection H as <-. destruct I as [_ _ L K FL O|p k _ _ L K F N O].
    + apply TI0; auto; cbn; [unfold succeeded in *; cbn; rewrite ok_snoc, K; reflexivity | rewrite under_way_snoc; rewrite U in O; exact O].
    + apply (TI1 _ p k); auto; cbn; [unfold succeeded in *; cbn; rewrite ok_snoc, K; reflexivity|].
      rewrite under_way_snoc. destruct (T eq_refl) as [Q|Q]; [congruence|]. destruct O as [(_ & Q' & _)|(P & _)]; [congruence|right; auto].
  - unfold listen_step in H. destruct (under_way (l_listens s)) as [p|] eqn:U; [|discriminate]. last_call U. rewrite U0, ?to_last_snoc in H.
    destruct I as [_ _ L K FL O|q k _ _ L K F N O].
    + assert (K0 : length (filter is_ok l0) = 0) by (unfold succeeded in K; rewrite U0, ok_snoc in K; lia). rewrite U in O.
      destruct p; try discriminate.
      * rewrite FL in H. injection H as <-. apply TI0; auto; cbn; [unfold succeeded; cbn; rewrite ?to_last_snoc, ok_snoc, K0; reflexivity|].
        rewrite ?to_last_snoc, under_way_snoc. exact O.
      * destruct ok.
        -- rewrite O in H. injection H as <-. apply TI0; auto; cbn; [unfold succeeded; cbn; rewrite ?to_last_snoc, ok_snoc, K0; reflexivity|].
           rewrite ?to_last_snoc, under_way_snoc. exists (l_socks s). auto.
        -- injection H as <-. apply TI0; auto; cbn; [unfold succeeded; cbn; rewrite ?to_last_snoc, ok_snoc, K0; reflexivity|].
           rewrite ?to_last_snoc, under_way_snoc. exact O.
      * destruct O as (ls & E1 & E2 & E3). destruct ok.
        -- injection H as <-. apply (TI1 _ ASet (length ls)); auto; cbn.
           ++ rewrite L. reflexivity.
           ++ unfold succeeded; cbn. rewrite ?to_last_snoc, ok_snoc, K0. reflexivity.
           ++ rewrite E1. apply nth_last.
           ++ left. rewrite ?to_last_snoc, under_way_snoc. auto.
        -- rewrite E2 in H. injection H as <-. apply TI0; auto; cbn; [unfold succeeded; cbn; rewrite ?to_last_snoc, ok_snoc, K0; reflexivity|].
           rewrite ?to_last_snoc, under_way_snoc, E1. apply close_last, E3.
      * injection H as <-. apply TI0; auto; cbn; [unfold succeeded; cbn; rewrite ?to_last_snoc, ok_snoc, K0; reflexivity|].
        rewrite ?to_last_snoc, under_way_snoc. exact O.
    + assert (K0 : length (filter is_ok l0) + (if is_ok p then 1 else 0) = 1) by (unfold succeeded in K; rewrite U0, ok_snoc in K; exact K).
      rewrite U in O. destruct O as [(_ & _ & Q)|(P & FL & [Q|Q])]; try discriminate. injection Q as ->. rewrite FL in H. injection H as <-.
      apply (TI1 _ q k); auto; cbn; [unfold succeeded; cbn; rewrite ?to_last_snoc, ok_snoc; cbn in *; lia|].
      right. rewrite ?to_last_snoc, under_way_snoc. auto.
  - destruct (under_way (l_listens s)) as [p|] eqn:U; [|discriminate]. destruct p; try discriminate. last_call U. rewrite U0, ?to_last_snoc in H.
    destruct I as [_ _ L K FL O|q k _ _ L K F N O].
    + assert (K0 : length (filter is_ok l0) = 0) by (unfold succeeded in K; rewrite U0, ok_snoc in K; lia). rewrite U in O. destruct O as (ls & E1 & E2 & E3).
      rewrite E2 in H. injection H as <-. apply TI0; auto; cbn; [unfold succeeded; cbn; rewrite ?to_last_snoc, ok_snoc, K0; reflexivity|].
      rewrite ?to_last_snoc, under_way_snoc, E1. apply close_last, E3.
    + rewrite U in O. destruct O as [(_ & _ & Q)|(P & FL & [Q|Q])]; discriminate.
  - unfold loop_step in H. destruct I as [_ _ L K FL O|q k _ _ L K F N O]; [rewrite L in H; destruct i; discriminate|].
    destruct (nth_error (l_loops s) i) as [x|] eqn:E; [|discriminate]. rewrite L in E. apply one_nth in E as (-> & ->).
    destruct O as [(-> & FL & U)|([-> | ->] & FL & U)].
    + injection H as <-. apply (TI1 _ ANext k); auto; cbn; rewrite ?L; auto.
    + rewrite F in H. injection H as <-. apply (TI1 _ (AIn k) k); auto; cbn. rewrite L. reflexivity.
    + rewrite N in H. discriminate.
  - destruct I as [_ _ L K FL O|q k _ _ L K F N O]; [rewrite L in H; destruct i; discriminate|].
    destruct (nth_error (l_loops s) i) as [x|] eqn:E; [|discriminate]. rewrite L in E. apply one_nth in E as (-> & ->).
    destruct O as [(-> & FL & U)|([-> | ->] & FL & U)]; try discriminate.
    rewrite N in H. injection H as <-. apply (TI1 _ ANext k); auto; cbn; rewrite ?L; auto.
  - destruct (NC eq_refl).
  - unfold close_step in H. rewrite CL in H. destruct j; discriminate.
Qed.
Lemma closes_grow : forall s a s', lstep s a = Some s' -> length (l_closes s) <= length (l_closes s') /\ (a = CCall -> l_closes s' <> []).
Proof.
  assert (LS : forall (y : cpc) l i, length (set_nth i y l) = length l) by (induction l as [|a l IH]; intros [|i]; cbn; auto).
  intros s a s' H. unfold lstep in H. destruct (l_crash s); [discriminate|]. split.
  - destruct a; unfold listen_step, loop_step, close_step in H;
      repeat match type of H with
             | context [match ?x with _ => _ end] => destruct x; try discriminate
             end; injection H as <-; cbn; rewrite ?LS, ?app_length; lia.
  - intros ->. injection H as <-. cbn. destruct (l_closes s); discriminate.
Qed.
Lemma run_tinv : forall sched s s', tinv s -> in_time s sched -> lrun s sched = Some s' -> l_closes s' = [] -> tinv s'.
Proof.
  assert (G : forall l s s', lrun s l = Some s' -> length (l_closes s) <= length (l_closes s')).
  { induction l as [|a l IH]; intros s s' H; cbn in H; [injection H as <-; lia|]. destruct (lstep s a) as [s1|] eqn:E; [|discriminate].
    pose proof (closes_grow _ _ _ E). specialize (IH _ _ H). lia. }
  induction sched as [|a l IH]; intros s s' I T H C; cbn in H, T; [injection H as <-; exact I|].
  destruct (lstep s a) as [s1|] eqn:E; [|discriminate]. destruct T as [T1 T2]. apply (IH s1 s'); auto.
  apply (step_tinv s a s1); auto. intros ->. pose proof (G _ _ _ H) as L. rewrite C in L. cbn in L.
  apply (proj2 (closes_grow _ _ _ E) eq_refl). destruct (l_closes s1); [reflexivity|cbn in L; lia].
Qed.
Lemma start_tinv : tinv l_start.
Proof. apply TI0; reflexivity. Qed.

(** The claim holds if the accept goroutine has set the flag by the time that Listen is called again.  Missing for [C115_statement]: Listen may
    return before that. *)
Theorem C115_partial : forall sched s, reached sched s -> in_time l_start sched -> l_closes s = [] ->
  l_crash s = false /\ succeeded s <= 1 /\ (succeeded s = 1 -> listens s).
Proof.
  intros sched s R T C. destruct (run_tinv _ _ _ start_tinv T R C) as [CR _ L K FL O|p k CR _ L K F N O].
  - rewrite K. repeat split; auto. discriminate.
  - rewrite K. repeat split; auto. intros _. exists k. auto.
Qed.

(** ** Used as documented: no Listen once one has succeeded, any calls of Close *)
Fixpoint once (s : life) (l : list lact) : Prop :=
  match l with
  | [] => True
  | a :: l' => (a = LCall -> l_loops s = []) /\ match lstep s a with Some s' => once s' l' | None => True end
  end.
Definition early (p : loop) : Prop := match p with ASet | ANext | AIn _ | AFail => True | _ => False end.
Definition has_shut (l : list cpc) : Prop := In CShut l.
Inductive oinv (s : life) : Prop :=
| OI0 : l_crash s = false -> l_loops s = [] -> l_flag s = false -> l_over s = false -> l_buf s = false -> l_works s = [] -> ~ has_shut (l_closes s) ->
    (under_way (l_listens s) = Some LRest -> l_listener s <> None) -> oinv s
| OI1 p k : l_crash s = false -> l_loops s = [p] -> under_way (l_listens s) = None -> l_listener s = Some k -> l_work s = 0 ->
    (early p -> l_over s = false /\ l_buf s = false /\ l_works s = [true]) -> (p = AWork -> l_works s = [true]) -> (p <> AEnd -> l_over s = false) -> oinv s.
Lemma start_oinv : oinv l_start.
Proof. apply OI0; try reflexivity; [intros []|discriminate]. Qed.
Lemma shut_set : forall l j x, x <> CShut -> ~ has_shut l -> ~ has_shut (set_nth j x l).
Proof.
  unfold has_shut. induction l as [|a l IH]; intros j x X H.
  - destruct j; exact H.
  - destruct j as [|j]; intros [Q|Q].
    + exact (X Q).
    + apply H. right. exact Q.
    + apply H. left. exact Q.
    + apply (IH j x X); [|exact Q]. intros Y. apply H. right. exact Y.
Qed.
Ltac keep E OV := cbn; auto; try discriminate; try (intros []; fail); try (intros _; apply E; exact I); try (intros _; apply OV; discriminate); try tauto.
Lemma step_oinv : forall s a s', oinv s -> (a = LCall -> l_loops s = []) -> lstep s a = Some s' -> oinv s'.
Proof.
  intros s a s' I T H. unfold lstep in H. assert (CR : l_crash s = false) by (destruct I; assumption). rewrite CR in H.
  destruct a as [|ok| |i|i| |j].
  - destruct (under_way (l_listens s)) as [p|] eqn:U; [discriminate|]. injection H as <-. destruct I as [_ L F O B W S R|p k _ L]; [|rewrite T in L by reflexivity; discriminate].
    apply OI0; auto. cbn. rewrite under_way_snoc. discriminate.
  - unfold listen_step in H. destruct (under_way (l_listens s)) as [p|] eqn:U; [|discriminate].
    destruct I as [_ L F O B W S R|q k _ L Q]; [|congruence]. last_call U. rewrite U0, ?to_last_snoc in H.
    destruct p; try discriminate.
    + rewrite F in H. injection H as <-. apply OI0; auto; cbn; rewrite ?to_last_snoc, ?under_way_snoc; discriminate.
    + destruct ok; [destruct (any_open (l_socks s)); [discriminate|]|]; injection H as <-; apply OI0; auto; cbn; rewrite ?to_last_snoc, under_way_snoc; discriminate.
    + rewrite U in R. specialize (R eq_refl). destruct ok.
      * injection H as <-. destruct (l_listener s) as [k|] eqn:K; [|congruence]. apply (OI1 _ ASet k); auto; cbn.
        -- rewrite L. reflexivity.
        -- rewrite ?to_last_snoc, under_way_snoc. reflexivity.
        -- rewrite W. reflexivity.
        -- intros _. rewrite W. auto.
        -- discriminate.
      * destruct (l_listener s) as [k|] eqn:K; [|discriminate]. injection H as <-. apply OI0; auto; cbn; rewrite ?to_last_snoc, ?under_way_snoc; discriminate.
    + injection H as <-. apply OI0; auto; cbn; rewrite ?to_last_snoc, ?under_way_snoc; discriminate.
  - destruct (under_way (l_listens s)) as [p|] eqn:U; [|discriminate]. destruct p; try discriminate.
    destruct I as [_ L F O B W S R|q k _ L Q]; [|congruence]. last_call U. rewrite U0, ?to_last_snoc in H.
    destruct (l_listener s) as [k|] eqn:K; [|discriminate]. injection H as <-. apply OI0; auto; cbn; rewrite ?to_last_snoc, ?under_way_snoc; discriminate.
  - unfold loop_step in H. destruct I as [_ L F O B W S R|q k _ L U K WK E WW OV]; [rewrite L in H; destruct i; discriminate|].
    destruct (nth_error (l_loops s) i) as [x|] eqn:X; [|discriminate]. rewrite L in X. apply one_nth in X as (-> & ->). rewrite L in H. cbn [set_nth] in H.
    destruct q.
    + injection H as <-. apply (OI1 _ ANext k); keep E OV.
    + rewrite K in H. injection H as <-. apply (OI1 _ (AIn k) k); keep E OV.
    + destruct (nth_error (l_socks s) k0) as [[]|]; try discriminate. injection H as <-. apply (OI1 _ AFail k); keep E OV.
    + destruct (E I) as (E1 & E2 & E3). rewrite E1, E2 in H. injection H as <-. apply (OI1 _ AWork k); keep E OV.
    + rewrite (WW eq_refl), WK in H. cbn in H. injection H as <-. apply (OI1 _ AWait k); keep E OV.
    + destruct (all_closed (l_works s)); [|discriminate]. injection H as <-. apply (OI1 _ AClear k); keep E OV.
    + injection H as <-. apply (OI1 _ ADone k); keep E OV.
    + rewrite OV in H by discriminate. injection H as <-. apply (OI1 _ AEnd k); keep E OV.
    + discriminate.
  - destruct I as [_ L F O B W S R|q k _ L U K WK E WW OV]; [rewrite L in H; destruct i; discriminate|].
    destruct (nth_error (l_loops s) i) as [x|] eqn:X; [|discriminate]. rewrite L in X. apply one_nth in X as (-> & ->). rewrite L in H. cbn [set_nth] in H.
    destruct q; try discriminate. destruct (nth_error (l_socks s) k0) as [[]|]; try discriminate. injection H as <-. apply (OI1 _ ANext k); keep E OV.
  - injection H as <-. destruct I as [_ L F O B W S R|q k _ L U K WK E WW OV]; [|apply (OI1 _ q k); auto].
    apply OI0; auto. cbn. unfold has_shut in *. rewrite in_app_iff. cbn. intros [Q|[Q|[]]]; [tauto|discriminate].
  - unfold close_step in H. destruct (nth_error (l_closes s) j) as [x|] eqn:X; [|discriminate]. apply nth_error_In in X.
    destruct I as [_ L F O B W S R|q k _ L U K WK E WW OV].
    + destruct x; try discriminate.
      * rewrite F in H. injection H as <-. apply OI0; auto. cbn. apply shut_set; [discriminate|exact S].
      * destruct (S X).
      * rewrite B, O in H. discriminate.
    + destruct x; try discriminate.
      * destruct (l_flag s); injection H as <-; apply (OI1 _ q k); auto.
      * rewrite K in H. destruct (nth_error (l_socks s) k) as [[]|]; injection H as <-; apply (OI1 _ q k); auto.
      * destruct (l_buf s) eqn:B.
        -- injection H as <-. apply (OI1 _ q k); auto. intros Q. destruct (E Q) as (_ & Q' & _). congruence.
        -- destruct (l_over s) eqn:V; [|discriminate]. injection H as <-. apply (OI1 _ q k); auto; cbn; rewrite ?B, ?V; auto.
Qed.

(** A node on which Listen is never called again once it has succeeded never panics, however often and whenever Close is called, and however often
    Listen has failed before. *)
Theorem C115_once : forall sched s, reached sched s -> once l_start sched -> l_crash s = false.
Proof.
  assert (G : forall l s s', oinv s -> once s l -> lrun s l = Some s' -> oinv s').
  { induction l as [|a l IH]; intros s s' I T H; cbn in H, T; [injection H as <-; exact I|]. destruct (lstep s a) as [s1|] eqn:E; [|discriminate].
    destruct T as [T1 T2]. apply (IH s1 s' (step_oinv _ _ _ I T1 E) T2 H). }
  intros sched s R T. destruct (G _ _ _ start_oinv T R); assumption.
Qed.

(** ** Listening again after Close *)
Definition at_end (p : loop) : bool := match p with AEnd => true | _ => false end.
Definition ends (s : life) : nat := length (filter at_end (l_loops s)).
Lemma ends_set : forall l i x y, nth_error l i = Some x -> at_end x = false ->
  length (filter at_end (set_nth i y l)) = length (filter at_end l) + (if at_end y then 1 else 0).
Proof.
  induction l as [|a l IH]; intros [|i] x y H X; cbn in *; try discriminate.
  - injection H as ->. rewrite X. destruct (at_end y); cbn; lia.
  - specialize (IH i x y H X). destruct (at_end a); cbn; lia.
Qed.
Lemma over_ends : forall sched s, reached sched s -> ends s = if l_over s then 1 else 0.
Proof.
  assert (P : forall s a s', ends s = (if l_over s then 1 else 0) -> lstep s a = Some s' -> ends s' = if l_over s' then 1 else 0).
  { intros s a s' I H. unfold lstep in H. destruct (l_crash s); [discriminate|]. unfold ends in *. destruct a as [|ok| |i|i| |j].
    - destruct (under_way (l_listens s)); [discriminate|]. injection H as <-. exact I.
    - unfold listen_step in H. destruct (under_way (l_listens s)) as [[]|]; try discriminate.
      + destruct (l_flag s); injection H as <-; exact I.
      + destruct ok; [destruct (any_open (l_socks s)); [discriminate|]|]; injection H as <-; exact I.
      + destruct ok; [|destruct (l_listener s); [|discriminate]]; injection H as <-; [|exact I]. cbn. rewrite filter_app, app_length. cbn. lia.
      + injection H as <-. exact I.
    - destruct (under_way (l_listens s)) as [[]|]; try discriminate. destruct (l_listener s); [|discriminate]. injection H as <-. exact I.
    - unfold loop_step in H. destruct (nth_error (l_loops s) i) as [x|] eqn:X; [|discriminate]. destruct x; try discriminate.
      + injection H as <-. cbn. rewrite (ends_set _ _ _ _ X) by reflexivity. cbn. lia.
      + destruct (l_listener s); injection H as <-; [|exact I]. cbn. rewrite (ends_set _ _ _ _ X) by reflexivity. cbn. lia.
      + destruct (nth_error (l_socks s) k) as [[]|]; try discriminate. injection H as <-. cbn. rewrite (ends_set _ _ _ _ X) by reflexivity. cbn. lia.
      + destruct (l_over s) eqn:O; [injection H as <-; cbn; rewrite O; exact I|]. destruct (l_buf s); [discriminate|]. injection H as <-. cbn.
        rewrite (ends_set _ _ _ _ X) by reflexivity. cbn. lia.
      + destruct (nth_error (l_works s) (l_work s)) as [[]|]; injection H as <-; try exact I. cbn. rewrite (ends_set _ _ _ _ X) by reflexivity. cbn. lia.
      + destruct (all_closed (l_works s)); [|discriminate]. injection H as <-. cbn. rewrite (ends_set _ _ _ _ X) by reflexivity. cbn. lia.
      + injection H as <-. cbn. rewrite (ends_set _ _ _ _ X) by reflexivity. cbn. lia.
      + destruct (l_over s) eqn:O; injection H as <-; [cbn; rewrite O; exact I|]. cbn. rewrite (ends_set _ _ _ _ X) by reflexivity. cbn. lia.
    - destruct (nth_error (l_loops s) i) as [x|] eqn:X; [|discriminate]. destruct x; try discriminate. destruct (nth_error (l_socks s) k) as [[]|]; try discriminate.
      injection H as <-. cbn. rewrite (ends_set _ _ _ _ X) by reflexivity. cbn. lia.
    - injection H as <-. exact I.
    - unfold close_step in H. destruct (nth_error (l_closes s) j) as [[]|]; try discriminate.
      + destruct (l_flag s); injection H as <-; exact I.
      + destruct (l_listener s) as [k|]; [destruct (nth_error (l_socks s) k) as [[]|]|]; injection H as <-; exact I.
      + destruct (l_buf s); [|destruct (l_over s) eqn:O; [|discriminate]]; injection H as <-; try exact I. cbn. rewrite O. exact I. }
  assert (G : forall l s s', ends s = (if l_over s then 1 else 0) -> lrun s l = Some s' -> ends s' = if l_over s' then 1 else 0).
  { induction l as [|a l IH]; intros s s' I H; cbn in H; [injection H as <-; exact I|]. destruct (lstep s a) eqn:E; [|discriminate]. exact (IH _ _ (P _ _ _ I E) H). }
  intros sched s R. apply (G sched l_start s); [reflexivity|exact R].
Qed.

(** Whatever is done to a node, at most one of the accept goroutines that it has had ends without a panic: once one has ended, the process panics as
    soon as another one's Accept has failed. *)
Theorem C115_again : forall sched s, reached sched s ->
  ends s <= 1
  /\ (ends s = 1 -> l_crash s = false -> forall i, nth_error (l_loops s) i = Some AFail -> exists s', lstep s (ALoop i) = Some s' /\ l_crash s' = true).
Proof.
  intros sched s R. pose proof (over_ends _ _ R) as O. split; [rewrite O; destruct (l_over s); lia|].
  intros E C i X. rewrite E in O. destruct (l_over s) eqn:V; [|discriminate]. exists (w_crash s). unfold lstep, loop_step. rewrite C, X, V. split; reflexivity.
Qed.

(** ** Refutation *)
Definition first : list lact := [LCall; LStep true; LStep true; LStep true].
(** Listen has returned, the accept goroutine has not run yet, and Listen is called again: the flag is not set, so it tries to bind, fails, and leaves
    n.listener nil. *)
Definition too_soon : list lact := first ++ [LCall; LStep true; LStep false; LStep true; ALoop 0; ALoop 0].
Theorem C115_refuted : ~ C115_statement.
Proof.
  intros H.
  assert (exists s, reached too_soon s /\ l_closes s = [] /\ l_crash s = true) as (s & R & C & K) by (eexists; split; [vm_compute; reflexivity|split; reflexivity]).
  destruct (H too_soon s R C) as [Q _]. congruence.
Qed.

(** Or the accept goroutine gets as far as Accept and the failing Listen then clears its flag: from then on, whatever happens short of another Listen, the
    process panics or Close never returns and the port stays taken. *)
Definition muted : list lact := first ++ [LCall; LStep true; ALoop 0; ALoop 0; LStep false; LStep true].
Definition no_listen (l : list lact) : Prop := ~ In LCall l.
Definition not_returned (p : cpc) : Prop := match p with CRet _ => False | _ => True end.
Definition hung (s : life) : Prop :=
  l_flag s = false /\ l_listener s = None /\ l_socks s = [true] /\ (l_loops s = [AIn 0] \/ l_loops s = [ANext]) /\ l_buf s = false /\ l_over s = false
  /\ under_way (l_listens s) = None /\ Forall (fun p => p = CCas \/ p = CWait) (l_closes s).
Lemma forall_set {A} (P : A -> Prop) x : P x -> forall l i, Forall P l -> Forall P (set_nth i x l).
Proof. intros X. induction l as [|a l IH]; intros [|i] H; cbn; inversion H; subst; constructor; auto. Qed.
Theorem C115_hang : exists s, reached muted s /\ l_closes s = [] /\ l_crash s = false /\
  forall sched s', lrun s sched = Some s' -> no_listen sched -> l_crash s' = true \/ (any_open (l_socks s') = true /\ Forall not_returned (l_closes s')).
Proof.
  eexists. split; [vm_compute; reflexivity|]. split; [reflexivity|]. split; [reflexivity|].
  assert (P : forall s a s', hung s -> a <> LCall -> lstep s a = Some s' -> l_crash s' = true \/ hung s').
  { intros s a s' (F & L & SO & LO & B & O & U & C) NC H. unfold lstep in H. destruct (l_crash s) eqn:CR; [discriminate|]. destruct a as [|ok| |i|i| |j].
    - destruct (NC eq_refl).
    - unfold listen_step in H. rewrite U in H. discriminate.
    - rewrite U in H. discriminate.
    - unfold loop_step in H. destruct (nth_error (l_loops s) i) as [x|] eqn:X; [|discriminate]. destruct LO as [LO|LO]; rewrite LO in X; apply one_nth in X as (-> & ->).
      + rewrite SO in H. discriminate.
      + rewrite L in H. injection H as <-. left. reflexivity.
    - destruct (nth_error (l_loops s) i) as [x|] eqn:X; [|discriminate]. destruct LO as [LO|LO]; rewrite LO in X; apply one_nth in X as (-> & ->); [|discriminate].
      rewrite SO in H. cbn in H. injection H as <-. right. unfold hung. cbn. rewrite LO. cbn. repeat split; auto.
    - injection H as <-. right. unfold hung. cbn. repeat split; auto. apply Forall_app. split; [exact C|repeat constructor].
    - unfold close_step in H. destruct (nth_error (l_closes s) j) as [x|] eqn:X; [|discriminate]. rewrite Forall_forall in C.
      destruct (C x (nth_error_In _ _ X)) as [-> | ->].
      + rewrite F in H. injection H as <-. right. unfold hung. cbn. repeat split; auto. apply forall_set; [auto|]. apply Forall_forall, C.
      + rewrite B, O in H. discriminate. }
  assert (Q : forall s, hung s -> any_open (l_socks s) = true /\ Forall not_returned (l_closes s)).
  { intros s (_ & _ & SO & _ & _ & _ & _ & C). rewrite SO. split; [reflexivity|]. eapply Forall_impl; [|exact C]. cbn. intros p [-> | ->]; exact I. }
  assert (G : forall l s s', hung s -> lrun s l = Some s' -> no_listen l -> l_crash s' = true \/ hung s').
  { induction l as [|a l IH]; intros s s' I H N; cbn in H; [injection H as <-; auto|]. destruct (lstep s a) as [s1|] eqn:E; [|discriminate].
    assert (NL : a <> LCall) by (intros Y; apply N; left; exact Y). destruct (P _ _ _ I NL E) as [C|I1].
    - destruct l as [|b l]; cbn in H; [injection H as <-; auto|]. unfold lstep in H. rewrite C in H. discriminate.
    - apply (IH s1 s' I1 H). intros Y. apply N. right. exact Y. }
  intros sched s' H N. apply G in H; [destruct H as [C|I]; [auto|right; apply Q, I] | unfold hung; cbn; repeat (split; [auto|]); constructor | exact N].
Qed.

(** Refused in time: Listen returns an error and a connection is accepted afterwards. *)
Definition refused : list lact := first ++ [ALoop 0; ALoop 0; LCall; LStep true; AConn 0; ALoop 0].
Example C115_nonvacuous : exists s, reached refused s /\ in_time l_start refused /\ l_closes s = [] /\ succeeded s = 1 /\ l_conns s = 1
  /\ l_listens s = [LRet true; LRet false].
Proof. eexists. split; [vm_compute; reflexivity|]. split; [vm_compute; repeat (split; [intros Y; first [discriminate Y | auto]|]); exact I|]. repeat split; reflexivity. Qed.
(** A failed Listen, one that succeeds, two Closes that overlap: everything ends. *)
Definition used : list lact :=
  [LCall; LStep true; LStep true; LStep false; LStep true] ++ first ++ [ALoop 0; CCall; CCall; CStep 0; CStep 1; CStep 0; ALoop 0; ALoop 0; ALoop 0; CStep 1; ALoop 0; ALoop 0; ALoop 0; ALoop 0; CStep 0].
Example C115_once_nonvacuous : exists s, reached used s /\ once l_start used /\ ends s = 1 /\ l_closes s = [CRet true; CRet true].
Proof. eexists. split; [vm_compute; reflexivity|]. split; [vm_compute; repeat (split; [intros Y; first [discriminate Y | auto]|]); exact I|]. split; reflexivity. Qed.
(** Closed and listening again: the next Close makes the process panic. *)
Definition reused : list lact := used ++ first ++ [ALoop 1; ALoop 1; CCall; CStep 2; CStep 2; ALoop 1].
Example C115_again_nonvacuous : exists s, reached reused s /\ ends s = 1 /\ l_crash s = false /\ nth_error (l_loops s) 1 = Some AFail.
Proof. eexists. split; [vm_compute; reflexivity|]. repeat split; reflexivity. Qed.

Print Assumptions C115_partial.
Print Assumptions C115_once.
Print Assumptions C115_again.
Print Assumptions C115_refuted.
Print Assumptions C115_hang.
