(** * C137: once Close has returned, the node accepts no more connections, and its port is free. *)
From Verif Require Import Base M_Table M_Listen Props_Listen.
Local Open Scope nat_scope.

(** ** Specification *)

(** Call [j] of Close has returned, without an error ([b = true]) or with one. *)
Definition close_returned (s : life) (j : nat) (b : bool) : Prop := nth_error (l_closes s) j = Some (CRet b).
(** None of the sockets that the node has ever bound is open. *)
Definition port_free (s : life) : Prop := forall k, nth_error (l_socks s) k <> Some true.

(** *** Lemmas *)

Definition calm (x : cpc) : Prop := x = CCas \/ x = CWait.
Definition calm' (x : cpc) : Prop := x = CCas \/ x = CWait \/ x = CRet true.
(** Only socket [k] may be open. *)
Definition only (k : nat) (l : list bool) : Prop := forall k', nth_error l k' = Some true -> k' = k.

Inductive dinv (s : life) : Prop :=
| D0 : l_loops s = [] -> l_flag s = false -> l_over s = false -> l_buf s = false -> Forall calm (l_closes s) ->
    (match under_way (l_listens s) with Some LRest => exists k, l_listener s = Some k /\ nth_error (l_socks s) k = Some true /\ only k (l_socks s) | _ => port_free s end) -> dinv s
| D1 k p : l_loops s = [p] -> l_over s = false -> l_buf s = false -> under_way (l_listens s) = None -> l_listener s = Some k ->
    nth_error (l_socks s) k = Some true -> only k (l_socks s) ->
    (p = ASet /\ l_flag s = false /\ Forall calm (l_closes s)
     \/ (p = ANext \/ p = AIn k) /\ l_flag s = true /\ Forall calm (l_closes s)
     \/ (p = ANext \/ p = AIn k) /\ l_flag s = false /\ exists j, nth_error (l_closes s) j = Some CShut /\ forall j' x, nth_error (l_closes s) j' = Some x -> j' = j \/ calm x) -> dinv s
| D2 k p : l_loops s = [p] -> p <> ASet -> l_flag s = false -> under_way (l_listens s) = None -> l_listener s = Some k ->
    port_free s -> Forall calm' (l_closes s) -> dinv s.

Lemma nth_set {A} (x : A) : forall l i j, nth_error (set_nth i x l) j = if Nat.eqb j i then match nth_error l j with Some _ => Some x | None => None end else nth_error l j.
Proof. induction l as [|a l IH]; intros [|i] [|j]; cbn; auto. destruct (j =? i); reflexivity. Qed.
Lemma calm_weak l : Forall calm l -> Forall calm' l.
Proof. apply Forall_impl. unfold calm, calm'. tauto. Qed.
Lemma calm_set l j x : calm x -> Forall calm l -> Forall calm (set_nth j x l).
Proof. intros. apply forall_set; assumption. Qed.
Lemma calm'_set l j x : calm' x -> Forall calm' l -> Forall calm' (set_nth j x l).
Proof. intros. apply forall_set; assumption. Qed.
Lemma free_closed (k : nat) l : only k l -> forall k', nth_error (set_nth k false l) k' <> Some true.
Proof. intros O k' H. rewrite nth_set in H. destruct (Nat.eqb_spec k' k) as [E|N]; [destruct (nth_error l k'); discriminate | exact (N (O _ H))]. Qed.
Lemma any_open_iff l : any_open l = false -> forall k, nth_error l k <> Some true.
Proof. induction l as [|[] l IH]; intros H [|k]; cbn in *; try discriminate; auto. Qed.
Lemma only_new l : (forall k, nth_error l k <> Some true) -> only (length l) (l ++ [true]).
Proof.
  intros F k H. destruct (Nat.lt_ge_cases k (length l)) as [L|L]; [rewrite nth_error_app1 in H by exact L; destruct (F k H)|].
  rewrite nth_error_app2 in H by exact L. destruct (k - length l) eqn:E; [lia | destruct n; discriminate].
Qed.

Lemma dinv_start : dinv l_start.
Proof. apply D0; try reflexivity; [constructor|]. intros [|k]; discriminate. Qed.

Lemma dinv_step s a s' : dinv s -> (a = LCall -> l_loops s = []) -> lstep s a = Some s' -> dinv s'.
Proof.
  intros I T H. unfold lstep in H. destruct (l_crash s); [discriminate|]. destruct a as [|ok| |i|i| |j].
  - destruct (under_way (l_listens s)) eqn:U; [discriminate|]. injection H as <-.
    destruct I as [L F O B C P|k p L|k p L]; [|rewrite T in L by reflexivity; discriminate|rewrite T in L by reflexivity; discriminate].
    apply D0; auto. cbn. rewrite under_way_snoc. rewrite U in P. exact P.
  - unfold listen_step in H. destruct (under_way (l_listens s)) as [p|] eqn:U; [|discriminate].
    destruct I as [L F O B C P|k q L O B U'|k q L N F U']; [|congruence|congruence]. rewrite U in P. pose proof U as U1. apply under_way_some in U1 as (l0 & E0 & _). rewrite E0 in H.
    destruct p; try discriminate.
    + rewrite F in H. injection H as <-. apply D0; auto; cbn; rewrite to_last_snoc, under_way_snoc; exact P.
    + destruct ok.
      * destruct (any_open (l_socks s)); [discriminate|]. injection H as <-. apply D0; auto; cbn. rewrite to_last_snoc, under_way_snoc. exists (length (l_socks s)).
        split; [reflexivity|]. split; [apply nth_last | apply only_new, P].
      * injection H as <-. apply D0; auto; cbn. rewrite to_last_snoc, under_way_snoc. exact P.
    + destruct P as (k & K & Op & On). destruct ok.
      * injection H as <-. apply (D1 _ k ASet); auto; cbn; [rewrite L; reflexivity | rewrite to_last_snoc, under_way_snoc; reflexivity].
      * rewrite K in H. injection H as <-. apply D0; auto; cbn. rewrite to_last_snoc, under_way_snoc. exact (free_closed _ _ On).
    + injection H as <-. apply D0; auto; cbn. rewrite to_last_snoc, under_way_snoc. exact P.
  - destruct (under_way (l_listens s)) as [p|] eqn:U; [|discriminate]. destruct p; try discriminate.
    destruct I as [L F O B C P|k q L O B U'|k q L N F U']; [|congruence|congruence]. rewrite U in P. pose proof U as U1. apply under_way_some in U1 as (l0 & E0 & _). rewrite E0 in H.
    destruct P as (k & K & Op & On). rewrite K in H. injection H as <-. apply D0; auto; cbn. rewrite to_last_snoc, under_way_snoc. exact (free_closed _ _ On).
  - unfold loop_step in H. destruct I as [L F O B C P|k q L O B U K Op On Q|k q L N F U K P C].
    + rewrite L in H. destruct i; discriminate.
    + destruct (nth_error (l_loops s) i) as [x|] eqn:X; [|discriminate]. rewrite L in X. apply one_nth in X as (-> & ->). rewrite L in H. cbn [set_nth] in H.
      destruct Q as [(-> & F & C)|[([-> | ->] & F & C)|([-> | ->] & F & C)]].
      * injection H as <-. apply (D1 _ k ANext); cbn; auto 8.
      * rewrite K in H. injection H as <-. apply (D1 _ k (AIn k)); cbn; auto 8.
      * rewrite Op in H. discriminate.
      * rewrite K in H. injection H as <-. apply (D1 _ k (AIn k)); cbn; auto 8.
      * rewrite Op in H. discriminate.
    + destruct (nth_error (l_loops s) i) as [x|] eqn:X; [|discriminate]. rewrite L in X. apply one_nth in X as (-> & ->). rewrite L in H. cbn [set_nth] in H.
      destruct q; [congruence| | | | | | | |discriminate].
      * rewrite K in H. injection H as <-. apply (D2 _ k (AIn k)); auto; discriminate.
      * destruct (nth_error (l_socks s) k0) as [[]|]; try discriminate. injection H as <-. apply (D2 _ k AFail); auto; discriminate.
      * destruct (l_over s); [injection H as <-; apply (D2 _ k AFail); auto|]. destruct (l_buf s); [discriminate|]. injection H as <-. apply (D2 _ k AWork); auto; discriminate.
      * destruct (nth_error (l_works s) (l_work s)) as [[]|]; injection H as <-; [apply (D2 _ k AWait) | apply (D2 _ k AWork) | apply (D2 _ k AWork)]; auto; discriminate.
      * destruct (all_closed (l_works s)); [|discriminate]. injection H as <-. apply (D2 _ k AClear); auto; discriminate.
      * injection H as <-. apply (D2 _ k ADone); auto; discriminate.
      * destruct (l_over s); injection H as <-; [apply (D2 _ k ADone) | apply (D2 _ k AEnd)]; auto; discriminate.
  - destruct I as [L F O B C P|k q L O B U K Op On Q|k q L N F U K P C].
    + rewrite L in H. destruct i; discriminate.
    + destruct (nth_error (l_loops s) i) as [x|] eqn:X; [|discriminate]. rewrite L in X. apply one_nth in X as (-> & ->). rewrite L in H. cbn [set_nth] in H.
      destruct q; try discriminate. destruct (nth_error (l_socks s) k0) as [[]|]; try discriminate. injection H as <-. apply (D1 _ k ANext); auto. cbn.
      destruct Q as [(E & _)|[(_ & F & C)|(_ & F & C)]]; [discriminate | right; left; auto | right; right; auto].
    + destruct (nth_error (l_loops s) i) as [x|] eqn:X; [|discriminate]. destruct x; try discriminate. destruct (nth_error (l_socks s) k0) as [[]|] eqn:Y; try discriminate. destruct (P _ Y).
  - injection H as <-. assert (W : forall l, Forall calm l -> Forall calm (l ++ [CCas])) by (intros l W; apply Forall_app; split; [exact W | constructor; [left; reflexivity | constructor]]).
    destruct I as [L F O B C P|k q L O B U K Op On Q|k q L N F U K P C].
    + apply D0; auto. cbn. auto.
    + apply (D1 _ k q); auto. cbn. destruct Q as [(E & F & C)|[(E & F & C)|(E & F & j & C1 & C2)]]; [left; auto | right; left; auto | right; right]. split; [exact E|]. split; [exact F|]. exists j. split.
      * rewrite nth_error_app1; [exact C1 | apply nth_error_Some; congruence].
      * intros j' x Hx. destruct (Nat.lt_ge_cases j' (length (l_closes s))) as [Lt|Ge]; [rewrite nth_error_app1 in Hx by exact Lt; eauto|].
        rewrite nth_error_app2 in Hx by exact Ge. destruct (j' - length (l_closes s)) as [|[|?]]; try discriminate. injection Hx as <-. right. left. reflexivity.
    + apply (D2 _ k q); auto. cbn. apply Forall_app. split; [exact C | constructor; [left; reflexivity | constructor]].
  - unfold close_step in H. destruct (nth_error (l_closes s) j) as [x|] eqn:X; [|discriminate].
    destruct I as [L F O B C P|k q L O B U K Op On Q|k q L N F U K P C].
    + destruct (proj1 (Forall_forall _ _) C x (nth_error_In _ _ X)) as [-> | ->].
      * rewrite F in H. injection H as <-. apply D0; auto. cbn. apply calm_set; [right; reflexivity | exact C].
      * rewrite B, O in H. discriminate.
    + destruct Q as [(E & F & C)|[(E & F & C)|(E & F & j0 & C1 & C2)]].
      * destruct (proj1 (Forall_forall _ _) C x (nth_error_In _ _ X)) as [-> | ->].
        -- rewrite F in H. injection H as <-. apply (D1 _ k q); auto. cbn. left. split; [exact E|]. split; [exact F|]. apply calm_set; [right; reflexivity | exact C].
        -- rewrite B, O in H. discriminate.
      * destruct (proj1 (Forall_forall _ _) C x (nth_error_In _ _ X)) as [-> | ->].
        -- rewrite F in H. injection H as <-. apply (D1 _ k q); auto. cbn. right. right. split; [exact E|]. split; [reflexivity|]. exists j. split.
           ++ rewrite nth_set, Nat.eqb_refl, X. reflexivity.
           ++ intros j' y Hy. rewrite nth_set in Hy. destruct (Nat.eqb_spec j' j) as [-> |Nj]; [left; reflexivity|]. right. exact (proj1 (Forall_forall _ _) C y (nth_error_In _ _ Hy)).
        -- rewrite B, O in H. discriminate.
      * destruct (C2 j x X) as [-> |Cx].
        -- rewrite C1 in X. injection X as <-. rewrite K, Op in H. injection H as <-. apply (D2 _ k q); auto; cbn.
           ++ destruct E as [-> | ->]; discriminate.
           ++ exact (free_closed _ _ On).
           ++ apply Forall_forall. intros y Hy. apply In_nth_error in Hy as [j' Hy]. rewrite nth_set in Hy. destruct (Nat.eqb_spec j' j0) as [Ej|Nj].
              ** rewrite Ej, C1 in Hy. injection Hy as <-. right. left. reflexivity.
              ** destruct (C2 _ _ Hy) as [Ej'|[-> | ->]]; [contradiction | left; reflexivity | right; left; reflexivity].
        -- destruct Cx as [-> | ->].
           ++ rewrite F in H. injection H as <-. apply (D1 _ k q); auto. cbn. right. right. split; [exact E|]. split; [exact F|]. exists j0.
              assert (Nj : j0 <> j) by (intros ->; congruence). split; [rewrite nth_set; apply Nat.eqb_neq in Nj; rewrite Nj; exact C1|].
              intros j' y Hy. rewrite nth_set in Hy. destruct (Nat.eqb_spec j' j) as [Ej|_]; [|eauto]. rewrite Ej, X in Hy. injection Hy as <-. right. right. reflexivity.
           ++ rewrite B, O in H. discriminate.
    + destruct (proj1 (Forall_forall _ _) C x (nth_error_In _ _ X)) as [-> |[-> | ->]].
      * rewrite F in H. injection H as <-. apply (D2 _ k q); auto. cbn. apply calm'_set; [right; left; reflexivity | exact C].
      * destruct (l_buf s); [injection H as <-; apply (D2 _ k q); auto; cbn; apply calm'_set; [right; right; reflexivity | exact C]|].
        destruct (l_over s); [|discriminate]. injection H as <-. apply (D2 _ k q); auto; cbn. apply calm'_set; [right; right; reflexivity | exact C].
      * discriminate.
Qed.

Lemma dinv_run : forall l s s', dinv s -> once s l -> lrun s l = Some s' -> dinv s'.
Proof.
  induction l as [|a l IH]; intros s s' I T H; cbn in H, T; [injection H as <-; exact I|]. destruct (lstep s a) as [s1|] eqn:E; [|discriminate].
  destruct T as [T1 T2]. exact (IH s1 s' (dinv_step _ _ _ I T1 E) T2 H).
Qed.
(** The state that is left once Close has returned. *)
Definition shut (s : life) : Prop := dinv s /\ exists k p, l_loops s = [p] /\ p <> ASet /\ l_flag s = false /\ under_way (l_listens s) = None /\ l_listener s = Some k /\ port_free s /\ Forall calm' (l_closes s).
Lemma returned_shut s j b : dinv s -> close_returned s j b -> shut s /\ b = true.
Proof.
  unfold close_returned, shut. intros I H. pose proof (nth_error_In _ _ H) as HI. pose proof I as I0. destruct I as [L F O B C P|k q L O B U K Op On Q|k q L N F U K P C].
  - destruct (proj1 (Forall_forall _ _) C _ HI); discriminate.
  - destruct Q as [(E & F & C)|[(E & F & C)|(E & F & j0 & C1 & C2)]]; [destruct (proj1 (Forall_forall _ _) C _ HI); discriminate | destruct (proj1 (Forall_forall _ _) C _ HI); discriminate|].
    destruct (C2 _ _ H) as [-> |[D|D]]; congruence.
  - split; [split; [exact I0|]; exists k, q; auto 10|]. destruct (proj1 (Forall_forall _ _) C _ HI) as [D|[D|D]]; congruence.
Qed.
Lemma returned_stays s a s' j b : lstep s a = Some s' -> close_returned s j b -> close_returned s' j b.
Proof.
  unfold close_returned, lstep. intros H R. destruct (l_crash s); [discriminate|]. destruct a as [|ok| |i|i| |j'].
  - destruct (under_way (l_listens s)); [discriminate|]. injection H as <-. exact R.
  - unfold listen_step in H. destruct (under_way (l_listens s)) as [[]|]; try discriminate.
    + destruct (l_flag s); injection H as <-; exact R.
    + destruct ok; [destruct (any_open (l_socks s)); [discriminate|]|]; injection H as <-; exact R.
    + destruct ok; [injection H as <-; exact R|]. destruct (l_listener s); [injection H as <-; exact R | discriminate].
    + injection H as <-; exact R.
  - destruct (under_way (l_listens s)) as [[]|]; try discriminate. destruct (l_listener s); [injection H as <-; exact R | discriminate].
  - unfold loop_step in H. destruct (nth_error (l_loops s) i) as [[]|]; try discriminate.
    + injection H as <-; exact R.
    + destruct (l_listener s); injection H as <-; exact R.
    + destruct (nth_error (l_socks s) k) as [[]|]; try discriminate. injection H as <-; exact R.
    + destruct (l_over s); [injection H as <-; exact R|]. destruct (l_buf s); [discriminate | injection H as <-; exact R].
    + destruct (nth_error (l_works s) (l_work s)) as [[]|]; injection H as <-; exact R.
    + destruct (all_closed (l_works s)); [injection H as <-; exact R | discriminate].
    + injection H as <-; exact R.
    + destruct (l_over s); injection H as <-; exact R.
  - destruct (nth_error (l_loops s) i) as [[]|]; try discriminate. destruct (nth_error (l_socks s) k) as [[]|]; try discriminate. injection H as <-; exact R.
  - injection H as <-. cbn. rewrite nth_error_app1; [exact R | apply nth_error_Some; congruence].
  - unfold close_step in H. assert (W : forall x, nth_error (l_closes s) j' <> Some (CRet b) \/ j <> j' -> nth_error (set_nth j' x (l_closes s)) j = Some (CRet b)).
    { intros x N. rewrite nth_set. destruct (Nat.eqb_spec j j') as [-> |]; [destruct N; congruence | exact R]. }
    destruct (nth_error (l_closes s) j') as [c|] eqn:X; [|discriminate]. assert (N : c <> CRet b -> Some c <> Some (CRet b) \/ j <> j') by (intros Nc; left; congruence).
    destruct c; try discriminate; specialize (fun x => W x (N ltac:(discriminate))).
    + destruct (l_flag s); injection H as <-; apply W.
    + destruct (l_listener s) as [k|]; [|injection H as <-; exact R]. destruct (nth_error (l_socks s) k) as [[]|]; injection H as <-; apply W.
    + destruct (l_buf s); [injection H as <-; apply W|]. destruct (l_over s); [injection H as <-; apply W | discriminate].
Qed.
Lemma shut_conns s a s' : shut s -> lstep s a = Some s' -> l_conns s' = l_conns s.
Proof.
  intros (_ & k & p & L & N & F & U & K & P & C) H. unfold lstep in H. destruct (l_crash s); [discriminate|]. destruct a as [|ok| |i|i| |j].
  - rewrite U in H. injection H as <-. reflexivity.
  - unfold listen_step in H. rewrite U in H. discriminate.
  - rewrite U in H. discriminate.
  - unfold loop_step in H. destruct (nth_error (l_loops s) i) as [[]|]; try discriminate.
    + injection H as <-; reflexivity.
    + destruct (l_listener s); injection H as <-; reflexivity.
    + destruct (nth_error (l_socks s) _) as [[]|]; try discriminate. injection H as <-; reflexivity.
    + destruct (l_over s); [injection H as <-; reflexivity|]. destruct (l_buf s); [discriminate | injection H as <-; reflexivity].
    + destruct (nth_error (l_works s) (l_work s)) as [[]|]; injection H as <-; reflexivity.
    + destruct (all_closed (l_works s)); [injection H as <-; reflexivity | discriminate].
    + injection H as <-; reflexivity.
    + destruct (l_over s); injection H as <-; reflexivity.
  - destruct (nth_error (l_loops s) i) as [[]|]; try discriminate. destruct (nth_error (l_socks s) _) as [[]|] eqn:Y; try discriminate. destruct (P _ Y).
  - injection H as <-. reflexivity.
  - unfold close_step in H. destruct (nth_error (l_closes s) j) as [[]|]; try discriminate.
    + destruct (l_flag s); injection H as <-; reflexivity.
    + rewrite K in H. destruct (nth_error (l_socks s) k) as [[]|]; injection H as <-; reflexivity.
    + destruct (l_buf s); [injection H as <-; reflexivity|]. destruct (l_over s); [injection H as <-; reflexivity | discriminate].
Qed.

(** *** Theorems *)

(** A node on which Listen is not called again once it has succeeded.  When some call of Close has returned, it has returned no error; no socket of the node is open, and
    whatever happens from then on, no connection is accepted and none is opened. *)
Theorem C137_deaf : forall sched s j b, reached sched s -> once l_start sched -> close_returned s j b ->
  b = true /\ port_free s /\ forall sched' s', once s sched' -> lrun s sched' = Some s' -> l_conns s' = l_conns s /\ port_free s'.
Proof.
  intros sched s j b R T H. pose proof (dinv_run _ _ _ dinv_start T R) as I. destruct (returned_shut _ _ _ I H) as [S ->]. split; [reflexivity|].
  split; [destruct S as (_ & k & p & S); apply S|]. intros sched'. clear R T sched. revert s I H S.
  induction sched' as [|a l IH]; intros s I H S s' T' H'; cbn in H', T'; [injection H' as <-; split; [reflexivity|]; destruct S as (_ & k & p & S); apply S|].
  destruct (lstep s a) as [s1|] eqn:E; [|discriminate]. destruct T' as [T1 T2]. pose proof (dinv_step _ _ _ I T1 E) as I1. pose proof (returned_stays _ _ _ _ _ E H) as H1.
  destruct (IH s1 I1 H1 (proj1 (returned_shut _ _ _ I1 H1)) s' T2 H') as [A B]. split; [rewrite A; exact (shut_conns _ _ _ S E) | exact B].
Qed.
(** No call of Close on such a node ever returns an error. *)
Theorem C137_no_error : forall sched s j, reached sched s -> once l_start sched -> ~ close_returned s j false.
Proof. intros sched s j R T H. destruct (C137_deaf _ _ _ _ R T H) as [Q _]. discriminate. Qed.

(** A node accepts two connections; two calls of Close, one of them before the node has begun to listen; both return. *)
Definition two_closes : list lact :=
  first ++ [CCall; CStep 0; ALoop 0; ALoop 0; AConn 0; ALoop 0; AConn 0; CCall; CStep 1; ALoop 0; CStep 1; ALoop 0; ALoop 0; CStep 0; ALoop 0; ALoop 0; ALoop 0; ALoop 0; CStep 1].
Example C137_nonvacuous : exists s, reached two_closes s /\ once l_start two_closes /\ close_returned s 0 true /\ close_returned s 1 true /\ l_conns s = 2.
Proof.
  eexists. split; [vm_compute; reflexivity|]. split; [|repeat split].
  vm_compute. repeat split; try discriminate; try reflexivity.
Qed.

Print Assumptions C137_deaf.
Print Assumptions C137_no_error.
