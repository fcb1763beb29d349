(** * The shutdown runs to its end, and every Close returns, unless one of the obstacles of Props_Return is there (C46) *)
From Verif Require Import P_Work.
From Verif Require Import Base Spec M_Table P_Table P_Iter P_Gossip P_Conn M_Maps M_Client P_Client Props_Maps M_Dial P_Dial Props_Dial M_Close P_Close Props_Close Props_Return.
Local Open Scope nat_scope.

(** ** Specification *)

(** close has run before the client had stored its connection. *)
Definition caught (q : client) : Prop := c_once (k_st q) = 2 /\ c_cclosed (k_st q) = false /\
  match c_main (k_st q) with MAccept | MHandshake | MReady | MCheck | MSpawn | MDispatch | MRead => True | _ => False end.
(** Some worker has not ended. *)
Definition alive (s : nstate) : Prop := exists x, In x (nd_workers s) /\ x <> KGone.
(** No message waits in vain for a worker. *)
Definition served (s : nstate) (q : client) : Prop := alive s \/ c_main (k_st q) <> MDispatch.
(** The listener is closed, or about to be, or accepting has failed. *)
Definition begun (s : nstate) : Prop := match nd_lst s with LNone | LStore => False | LAccept | LGet _ => nd_open s = false \/ In KListener (nd_closers s) | _ => True end.

(** ** More invariants *)
Definition inw (st : cstate) : Prop := c_side st = SideInbound /\ match c_main st with MDial => False | MHandshake | MReady | MCheck | MSpawn | MDispatch | MRead => c_conn st = true | _ => True end.
Lemma inw_step idle s1 a s2 : inw s1 -> cact idle s1 a = Some s2 -> inw s2.
Proof.
  intros [X Y] H. unfold inw in *. ccases H; cproj; subst; try contradiction; try (split; [reflexivity|]; auto; fail);
    repeat match goal with |- context [match ?x with _ => _ end] => destruct x end; auto.
Qed.
Lemma past_main st : past st = true -> c_main st = MDone \/ c_main st = MEnd.
Proof. unfold past. destruct (c_main st); auto; discriminate. Qed.

Record xinv (w : nat) (s : nstate) : Prop := {
  xi_get : forall i, nd_lst s = LGet i -> exists c, nth_error (ds_callers (nd_in s)) i = Some c /\ match d_pc c with DLoop 0 | DEvict _ _ _ _ | DOk _ _ => True | _ => False end;
  xi_todo : forall k, In k (todo_of (nd_lst s)) -> k < length (ds_clients (nd_in s));
  xi_queue : length (nd_queue s) <= w;
  xi_work : nd_workers s = [] \/ length (nd_workers s) = w;
  xi_in : forall q, In q (ds_clients (nd_in s)) -> inw (k_st q)
}.
Lemma inw_pool max idle isctx d a d' : dstep SideInbound max 1 0 idle isctx d a = Some d' -> (forall q, In q (ds_clients d) -> inw (k_st q)) -> (forall q, In q (ds_clients d') -> inw (k_st q)) /\ length (ds_clients d) <= length (ds_clients d').
Proof.
  intros E J. pose proof E as E0. assert (Rn : inw (newClient SideInbound)) by (split; cbn; auto). dcases E; auto.
  - destruct ex; [auto|]. split; [|rewrite app_length; lia]. intros q1 Hq1. apply in_app_or in Hq1 as [Hq1|[<-|[]]]; auto.
  - split; [|rewrite app_length; lia]. intros q1 Hq1. apply in_app_or in Hq1 as [Hq1|[<-|[]]]; auto.
  - destruct (client_shape _ _ _ _ _ _ _ _ _ _ _ _ E0 Hq Ha) as (Q1 & Q2 & _). rewrite Q2. split; [|rewrite set_nth_length; lia]. intros q1 Hq1. apply in_set_nth in Hq1 as [->|Hq1]; [|auto]. cbn [k_st].
    apply (inw_step idle (k_st q) aa st); [apply J, (nth_error_In _ _ Hq)|exact Ha].
Qed.
Lemma get_pcs max idle isctx d a d' i c : dstep SideInbound max 1 0 idle isctx d a = Some d' -> (match a with DaGet _ | DaEvicted _ | DaClient _ _ => True | _ => False end) ->
  nth_error (ds_callers d) i = Some c -> match d_pc c with DLoop 0 | DEvict _ _ _ _ | DOk _ _ => True | _ => False end ->
  exists c', nth_error (ds_callers d') i = Some c' /\ match d_pc c' with DLoop 0 | DEvict _ _ _ _ | DOk _ _ => True | _ => False end.
Proof.
  intros E A Hc1 Pc1. rename c into c1. pose proof E as E0. dcases E; try contradiction A.
  all: try (rewrite (nth_error_set _ _ _ _ i Hi); destruct (Nat.eqb_spec i j) as [Ej|Ej]; [eexists; split; [reflexivity|cbn; exact Logic.I]|eauto]; fail).
  destruct (client_shape _ _ _ _ _ _ _ _ _ _ _ _ E0 Hq Ha) as (Q1 & _). rewrite Q1. eauto.
Qed.
Lemma xinv_step w max att p idle isctx s a s' : 0 < max -> ninv max s -> xinv w s -> nstep w max att p idle isctx s a = Some s' -> xinv w s'.
Proof.
  intros M N [A B C D F] E. 
  assert (P : (forall q, In q (ds_clients (nd_in s')) -> inw (k_st q)) /\ length (ds_clients (nd_in s)) <= length (ds_clients (nd_in s'))).
  { destruct (moves _ _ _ _ _ _ _ _ _ E) as [[X|[(ad & _ & _ & _ & X)|[(da & _ & X & _)|(_ & _ & _ & X)]]] _]; [rewrite X; auto|exact (inw_pool _ _ _ _ _ _ X F)|exact (inw_pool _ _ _ _ _ _ X F)|rewrite X; auto]. }
  destruct P as [P1 P2]. constructor; [| | | |exact P1]; clear P1.
  - intros i L. ncases E; try discriminate; try (exact (A i L)); try congruence.
    + injection L as <-. cbn [dstep] in Sd. injection Sd as <-. cbn [ds_callers]. rewrite nth_error_app2, Nat.sub_diag by lia. eexists. split; [reflexivity|exact I].
    + destruct (A i L) as (c & Hc & Pc). exact (get_pcs _ _ _ _ _ _ _ _ Sd I Hc Pc).
    + destruct (A i L) as (c & Hc & Pc). exact (get_pcs _ _ _ _ _ _ _ _ Sd I Hc Pc).
    + destruct (A i L) as (c & Hc & Pc). exact (get_pcs _ _ _ _ _ _ _ _ Sd I Hc Pc).
    + destruct (A i L) as (c & Hc & Pc). exact (get_pcs _ _ _ _ _ _ _ _ Sd I Hc Pc).
  - intros k Hk. enough (In k (todo_of (nd_lst s)) \/ nd_lst s = LRelease /\ nd_in s' = mkDS (ds_callers (nd_in s)) (ds_clients (nd_in s)) (cm_release (ds_pool (nd_in s))) None (ds_gets (nd_in s)) (ds_failed (nd_in s)) (ds_late (nd_in s)) /\ nd_lst s' = LClosing (map snd (cm_entries (ds_pool (nd_in s))))) as [X|(X & Y & Z)]; [specialize (B k X); lia| |].
    + rewrite Y. cbn [ds_clients]. rewrite Z in Hk. cbn [todo_of] in Hk. destruct (pi_repr _ _ (ni_before _ _ N ltac:(rewrite X; reflexivity))) as (l & R & _ & Pr). destruct R as [R1 R2 R3 R4 R5].
      apply in_map_iff in Hk as ([ka kk] & Ek & Hk). cbn in Ek. subst kk. apply (in_find _ _ _ R5) in Hk. rewrite <- cm_get_find, R3 in Hk. apply (in_find _ _ _ R2) in Hk. apply Pr in Hk as (q & Hq & _). apply nth_error_Some. congruence.
    + clear P2. ncases E; try (left; exact Hk); try (destruct Hk; fail); try rewrite Ls in *; auto.
      2: left; right; exact Hk.
      left. cbn [todo_of] in *. destruct Hk as [<-|Hk]; [apply existsb_exists in Ex as (x & Hx & Ex); apply Nat.eqb_eq in Ex; subst; exact Hx|apply filter_In in Hk as [Hk _]; exact Hk].
  - clear P2 A B F. ncases E; auto; cbn [length] in *; try lia; try (rewrite Qu; cbn; lia); apply Nat.ltb_lt in Ql; rewrite app_length; cbn; lia.
  - clear P2 A B F. ncases E; auto; rewrite ?set_nth_length, ?repeat_length; auto; destruct D as [D|D]; auto; rewrite D in Hwj; destruct wj; discriminate.
Qed.
Lemma xinv_start w : xinv w n_start.
Proof. constructor; cbn; auto; try discriminate; try lia; intros k []. Qed.

Section Shut.
Variables (w max att p idle : nat) (isctx : nat -> bool).
Hypothesis M : 0 < max.
Notation nstep := (nstep w max att p idle isctx).
Notation alone := (alone w max att p idle isctx).
Notation life := (life w max att p idle isctx).

Definition ok (s : nstate) : Prop := ninv max s /\ kinv s /\ xinv w s /\ nd_panic s = false.
Lemma life_ok l s : life l s -> nd_panic s = false -> ok s.
Proof.
  intros H P. destruct (reach_kinv _ _ _ _ _ _ _ _ M H) as [A B]. split; [exact A|]. split; [exact B|]. split; [|exact P].
  clear P B A. cut (ninv max s /\ xinv w s); [tauto|]. revert H. apply (nrun_inv w max att p idle isctx (fun t => ninv max t /\ xinv w t)); [|split; [apply ninv_start|apply xinv_start]].
  intros t a t' [X Y] E. split; [exact (ninv_step _ _ _ _ _ _ M _ _ _ X E)|exact (xinv_step _ _ _ _ _ _ _ _ _ M X Y E)].
Qed.
Lemma ok_step s a s' : ok s -> nstep s a = Some s' -> nd_panic s' = false -> ok s'.
Proof. intros (A & B & C & _) E P. split; [exact (ninv_step _ _ _ _ _ _ M _ _ _ A E)|]. split; [exact (kinv_step _ _ _ _ _ _ _ _ _ M A B E)|]. split; [exact (xinv_step _ _ _ _ _ _ _ _ _ M A C E)|exact P]. Qed.

(** [goes s t]: the node gets from [s] to [t] by itself. *)
Definition goes (s t : nstate) : Prop := exists l, alone s l = Some t.
Lemma goes_refl s : goes s s.
Proof. exists []. reflexivity. Qed.
Lemma goes_trans s t u : goes s t -> goes t u -> goes s u.
Proof. intros (l1 & A) (l2 & B). exists (l1 ++ l2). rewrite alone_app, A. exact B. Qed.
Lemma goes_step s a t : nstep s a = Some t -> nown s a = true -> goes s t.
Proof. intros E O. exists [a]. cbn [Props_Return.alone]. rewrite O, E. reflexivity. Qed.

(** What working on client [k] leaves alone. *)
Record frame (k : nat) (s t : nstate) : Prop := {
  fr_goes : goes s t; fr_ok : ok t; fr_lst : nd_lst t = nd_lst s; fr_closers : nd_closers t = nd_closers s; fr_alive : alive s -> alive t;
  fr_others : forall j, j <> k -> nth_error (ds_clients (nd_in t)) j = nth_error (ds_clients (nd_in s)) j
}.
Lemma frame_refl k s : ok s -> frame k s s.
Proof. constructor; auto. apply goes_refl. Qed.
Lemma frame_trans k s t u : frame k s t -> frame k t u -> frame k s u.
Proof. intros [A1 A2 A3 A4 A5 A6] [B1 B2 B3 B4 B5 B6]. constructor; try congruence; auto. - exact (goes_trans _ _ _ A1 B1). - intros j N. rewrite (B6 j N), (A6 j N). reflexivity. Qed.

(** A step of inbound client [k] that hands nothing over. *)
Lemma act s k q a st : ok s -> ds_lock (nd_in s) = None -> nth_error (ds_clients (nd_in s)) k = Some q -> cact idle (k_st q) a = Some st -> handing (nd_in s) k a = false ->
  nown s (NaIn (DaClient k a)) = true -> exists t, frame k s t /\ nth_error (ds_clients (nd_in t)) k = Some (mkK (k_addr q) (k_ctx q) st).
Proof.
  intros K Lk Hk Ha Hd Ow. destruct (dstep SideInbound max 1 0 idle isctx (nd_in s) (DaClient k a)) as [d|] eqn:E.
  2: { cbn [dstep] in E. rewrite Hk, Ha, Lk in E. destruct (c_main (k_st q)), a; discriminate. }
  destruct (client_shape _ _ _ _ _ _ _ _ _ _ _ _ E Hk Ha) as (Q1 & Q2 & Q3 & _).
  assert (En : nstep s (NaIn (DaClient k a)) = Some (set_in s d)) by (unfold M_Close.nstep; destruct K as (_ & _ & _ & ->); rewrite E, Hd; reflexivity).
  exists (set_in s d). split.
  - constructor; nproj; auto; [exact (goes_step _ _ _ En Ow)|apply (ok_step _ _ _ K En); nproj; apply K|]. intros j N. rewrite Q2, (nth_error_set _ _ _ _ j Hk). apply Nat.eqb_neq in N. rewrite N. reflexivity.
  - nproj. rewrite Q2, (nth_error_set _ _ _ _ k Hk), Nat.eqb_refl. reflexivity.
Qed.
(** A worker makes room in the queue. *)
Lemma room s k : ok s -> alive s -> exists t, frame k s t /\ nd_in t = nd_in s /\ nd_wclosed t = nd_wclosed s /\ length (nd_queue t) < w.
Proof.
  intros K (x & Hx & Nx). pose proof K as (N & Kv & X & Pn). destruct (Nat.lt_ge_cases (length (nd_queue s)) w) as [Lt|Ge]; [exists s; split; [apply frame_refl, K|auto]|].
  pose proof (xi_queue _ _ X) as Q. apply In_nth_error in Hx as (j & Hj). assert (W : 0 < w) by (destruct (xi_work _ _ X) as [D|D]; [rewrite D in Hj; destruct j; discriminate|]; assert (j < length (nd_workers s)) by (apply nth_error_Some; congruence); lia).
  assert (Fr : forall s, ok s -> nth_error (nd_workers s) j = Some KIdle -> length (nd_queue s) = w -> exists t, frame k s t /\ nd_in t = nd_in s /\ nd_wclosed t = nd_wclosed s /\ length (nd_queue t) < w).
  { clear - M W. intros s K Hj Lq. pose proof K as (N & Kv & X & Pn). destruct (nd_queue s) as [|[qs qk] qq] eqn:Qu; [cbn in Lq; lia|].
    assert (E : nstep s (NaTake j) = Some (set_worker (set_queue s qq) j (KBusy qs qk))) by (unfold M_Close.nstep; rewrite Pn, Hj, Qu; reflexivity).
    exists (set_worker (set_queue s qq) j (KBusy qs qk)). split; [|nproj; cbn in Lq; split; [reflexivity|split; [reflexivity|lia]]]. constructor; nproj; auto; [exact (goes_step _ _ _ E eq_refl)|exact (ok_step _ _ _ K E Pn)|].
    intros _. exists (KBusy qs qk). split; [|discriminate]. apply (nth_error_In _ j). nproj. rewrite (nth_error_set _ _ _ _ j Hj), Nat.eqb_refl. reflexivity. }
  destruct x as [ |ws wk| ]; [apply Fr; auto; lia| |congruence].
  assert (E : nstep s (NaHandled j true) = Some (set_worker s j KIdle)) by (unfold M_Close.nstep; rewrite Pn, Hj; reflexivity).
  assert (Hj' : nth_error (nd_workers (set_worker s j KIdle)) j = Some KIdle) by (nproj; rewrite (nth_error_set _ _ _ _ j Hj), Nat.eqb_refl; reflexivity).
  pose proof (ok_step _ _ _ K E Pn) as K1. destruct (Fr _ K1 Hj') as (t & Ft & T1 & T2 & T3); [nproj; lia|]. exists t. split; [|auto].
  apply (frame_trans k s (set_worker s j KIdle) t); [|exact Ft]. constructor; nproj; auto; [exact (goes_step _ _ _ E eq_refl)|]. intros _. exists KIdle. split; [exact (nth_error_In _ _ Hj')|discriminate].
Qed.
(** The reader of inbound client [k] hands its message over. *)
Lemma hand s k q : ok s -> alive s -> ds_lock (nd_in s) = None -> nd_wclosed s = false -> nth_error (ds_clients (nd_in s)) k = Some q -> c_main (k_st q) = MDispatch ->
  exists t, frame k s t /\ nth_error (ds_clients (nd_in t)) k = Some (mkK (k_addr q) (k_ctx q) (with_main (k_st q) MRead)).
Proof.
  intros K Al Lk Wc Hk Mq. destruct (room s k K Al) as (t & Ft & T1 & T2 & T3). pose proof (fr_ok _ _ _ Ft) as Kt.
  assert (Ha : cact idle (k_st q) (AMain Fine) = Some (with_main (k_st q) MRead)) by (cbn [cact]; unfold main_step; rewrite Mq; reflexivity).
  rewrite <- T1 in Hk, Lk. destruct (dstep SideInbound max 1 0 idle isctx (nd_in t) (DaClient k (AMain Fine))) as [d|] eqn:E.
  2: { cbn [dstep] in E. rewrite Hk, Ha, Mq in E. discriminate. }
  destruct (client_shape _ _ _ _ _ _ _ _ _ _ _ _ E Hk Ha) as (Q1 & Q2 & Q3 & _).
  assert (En : nstep t (NaIn (DaClient k (AMain Fine))) = Some (set_queue (set_in t d) (nd_queue t ++ [(SideInbound, k)]))).
  { unfold M_Close.nstep. destruct Kt as (_ & _ & _ & ->). rewrite E. cbn [handing]. rewrite Hk, Mq, T2, Wc. apply Nat.ltb_lt in T3. rewrite T3. reflexivity. }
  assert (Ow : nown t (NaIn (DaClient k (AMain Fine))) = true) by (cbn; rewrite Hk, Mq; reflexivity).
  exists (set_queue (set_in t d) (nd_queue t ++ [(SideInbound, k)])). split; [apply (frame_trans k s t); [exact Ft|]; constructor; [exact (goes_step _ _ _ En Ow)|..]; nproj; auto; [apply (ok_step _ _ _ Kt En); nproj; apply Kt|]|].
  - intros j N. nproj. rewrite Q2, (nth_error_set _ _ _ _ j Hk). apply Nat.eqb_neq in N. rewrite N. reflexivity.
  - nproj. rewrite Q2, (nth_error_set _ _ _ _ k Hk), Nat.eqb_refl. reflexivity.
Qed.
Definition free (q : client) : Prop := c_once (k_st q) = 2 /\ match c_main (k_st q) with MDial => False | MAccept | MHandshake | MReady | MCheck | MSpawn | MDispatch | MRead => c_cclosed (k_st q) = true | _ => True end.
(** A closed client ends. *)
Lemma drive_in : forall r s k q, ok s -> served s q -> released (nd_lst s) = true -> drained (nd_lst s) = false -> nth_error (ds_clients (nd_in s)) k = Some q -> rank (c_main (k_st q)) <= r -> free q ->
  exists t q', frame k s t /\ nth_error (ds_clients (nd_in t)) k = Some q' /\ c_once (k_st q') = 2 /\ c_cdone (k_st q') = true.
Proof.
  induction r as [r IH] using lt_wf_ind. intros s k q K Al Rl Dr Hk Hr (U1 & U2). pose proof K as (N & _).
  destruct (ni_sig _ _ N q (nth_error_In _ _ Hk)) as [(_ & _ & _ & _ & _ & _ & Sg) _].
  assert (D : c_main (k_st q) = MEnd \/ c_main (k_st q) <> MEnd) by (destruct (c_main (k_st q)); auto; right; discriminate). destruct D as [D|D].
  { exists s, q. split; [apply frame_refl, K|]. rewrite Sg, D. auto. }
  assert (Lk : ds_lock (nd_in s) = None) by apply (ni_after _ _ N Rl). assert (Wc : nd_wclosed s = false) by (rewrite (ni_work _ _ N); exact Dr).
  assert (St : exists t st, frame k s t /\ nth_error (ds_clients (nd_in t)) k = Some (mkK (k_addr q) (k_ctx q) st) /\ rank (c_main st) < rank (c_main (k_st q)) /\ free (mkK (k_addr q) (k_ctx q) st) /\ c_main st <> MDispatch).
  { assert (D2 : c_main (k_st q) = MDispatch \/ c_main (k_st q) <> MDispatch) by (destruct (c_main (k_st q)); auto; right; discriminate). destruct D2 as [D2|D2].
    { destruct Al as [Al|Al]; [|congruence]. destruct (hand s k q K Al Lk Wc Hk D2) as (t & Ft & Ht). exists t, (with_main (k_st q) MRead). split; [exact Ft|]. split; [exact Ht|]. rewrite D2 in *. split; [cbn; lia|]. split; [split; [exact U1|exact U2]|discriminate]. }
    assert (St : exists st, cact idle (k_st q) (AMain (Fails 0)) = Some st /\ rank (c_main st) < rank (c_main (k_st q)) /\ c_once st = 2 /\ c_cclosed st = c_cclosed (k_st q) /\
     (match c_main st with MDial => False | MAccept | MHandshake | MReady | MCheck | MSpawn | MDispatch | MRead => c_cclosed (k_st q) = true | _ => True end) /\ c_main st <> MDispatch).
    { cbn [cact]. unfold main_step. destruct (c_main (k_st q)) eqn:Mq; try (contradiction D; reflexivity); rewrite ?U1; cbn [Nat.eqb]; try contradiction U2;
      try (eexists; split; [reflexivity|]; cbn; repeat split; auto; try lia; try discriminate; destruct (c_side (k_st q)); cbn; auto; try discriminate; lia).
      eexists. split; [reflexivity|]. cbn. repeat split; auto; destruct (c_err (k_st q)); cbn; auto; try discriminate; lia. }
    destruct St as (st & Ha & Rk & T1 & T2 & T3 & T4).
    destruct (act s k q (AMain (Fails 0)) st K Lk Hk Ha) as (t & Ft & Ht); [reflexivity|cbn; rewrite Hk; destruct (c_main (k_st q)); auto; try congruence; try contradiction U2; rewrite U2; reflexivity|].
    exists t, st. split; [exact Ft|]. split; [exact Ht|]. split; [exact Rk|]. split; [|exact T4]. split; [exact T1|]. cbn [k_st]. rewrite T2. exact T3. }
  destruct St as (t & st & Ft & Ht & Rk & Fq & Nd). destruct Ft as [F1 F2 F3 F4 F5 F6].
  destruct (IH (rank (c_main st)) ltac:(lia) t k (mkK (k_addr q) (k_ctx q) st) F2 (or_intror Nd) ltac:(rewrite F3; exact Rl) ltac:(rewrite F3; exact Dr) Ht (Nat.le_refl _) Fq) as (u & q' & Fu & X).
  exists u, q'. split; [|exact X]. apply (frame_trans k s t); [constructor; auto|exact Fu].
Qed.
(** close on a client that is not caught. *)
Lemma close_in s k q : ok s -> released (nd_lst s) = true -> nth_error (ds_clients (nd_in s)) k = Some q -> ~ caught q -> exists t q', frame k s t /\ nth_error (ds_clients (nd_in t)) k = Some q' /\ free q' /\ (served s q -> served t q').
Proof.
  intros K Rl Hk Nc. pose proof K as (N & _ & X & _). destruct (ni_sig _ _ N q (nth_error_In _ _ Hk)) as [_ (O1 & _)]. pose proof (xi_in _ _ X q (nth_error_In _ _ Hk)) as [Sd Wd].
  assert (LkA : forall t, ok t -> nd_lst t = nd_lst s -> ds_lock (nd_in t) = None) by (intros t (Nt & _) Lt; apply (ni_after _ _ Nt); rewrite Lt; exact Rl).
  destruct (Nat.eq_dec (c_once (k_st q)) 2) as [O2|O2].
  { exists s, q. split; [apply frame_refl, K|]. split; [exact Hk|]. split; [|auto]. split; [exact O2|]. destruct (c_main (k_st q)) eqn:Mq; auto; try contradiction; destruct (c_cclosed (k_st q)) eqn:Cq; auto; exfalso; apply Nc; unfold caught; rewrite Mq; auto. }
  (* past the storing of the connection *)
  assert (A : exists t q1, frame k s t /\ nth_error (ds_clients (nd_in t)) k = Some q1 /\ c_once (k_st q1) = c_once (k_st q) /\ c_main (k_st q1) <> MDial /\ c_main (k_st q1) <> MAccept /\ (c_main (k_st q1) = MDispatch -> c_main (k_st q) = MDispatch) /\
     match c_main (k_st q1) with MHandshake | MReady | MCheck | MSpawn | MDispatch | MRead => c_conn (k_st q1) = true | _ => True end).
  { assert (D : c_main (k_st q) = MAccept \/ c_main (k_st q) <> MAccept) by (destruct (c_main (k_st q)); auto; right; discriminate). destruct D as [D|D].
    - destruct (act s k q (AMain Fine) (set_conn (k_st q)) K (LkA s K eq_refl) Hk) as (t & Ft & Ht); [cbn [cact]; unfold main_step; rewrite D; reflexivity|cbn; rewrite Hk, D; reflexivity|cbn; rewrite Hk, D; reflexivity|].
      exists t, (mkK (k_addr q) (k_ctx q) (set_conn (k_st q))). split; [exact Ft|]. split; [exact Ht|]. cbn. repeat split; try discriminate; auto.
    - exists s, q. split; [apply frame_refl, K|]. split; [exact Hk|]. split; [reflexivity|]. split; [intros Y; rewrite Y in Wd; exact Wd|]. split; [exact D|]. split; [auto|]. destruct (c_main (k_st q)); auto. }
  destruct A as (s1 & q1 & F1 & H1 & E1 & M1 & M2 & Dp & C1). pose proof (fr_ok _ _ _ F1) as K1. pose proof (LkA s1 K1 (fr_lst _ _ _ F1)) as L1.
  (* the flag *)
  assert (B : exists t q2, frame k s1 t /\ nth_error (ds_clients (nd_in t)) k = Some q2 /\ c_once (k_st q2) = 1 /\ c_main (k_st q2) = c_main (k_st q1) /\ c_conn (k_st q2) = c_conn (k_st q1)).
  { destruct (Nat.eq_dec (c_once (k_st q1)) 1) as [O3|O3]; [exists s1, q1; split; [apply frame_refl, K1|auto]|].
    assert (O4 : c_once (k_st q1) = 0) by lia. destruct (act s1 k q1 ACloseFlag (close_flag (k_st q1)) K1 L1 H1) as (t & Ft & Ht); [cbn; rewrite O4; reflexivity|reflexivity|reflexivity|].
    exists t, (mkK (k_addr q1) (k_ctx q1) (close_flag (k_st q1))). split; [exact Ft|]. split; [exact Ht|]. cbn. auto. }
  destruct B as (s2 & q2 & F2 & H2 & E2 & M3 & C2). pose proof (fr_ok _ _ _ F2) as K2. pose proof (LkA s2 K2 ltac:(rewrite (fr_lst _ _ _ F2); exact (fr_lst _ _ _ F1))) as L2.
  destruct (act s2 k q2 ACloseConn (close_conn (k_st q2)) K2 L2 H2) as (t & Ft & Ht); [cbn; rewrite E2; reflexivity|reflexivity|reflexivity|].
  pose proof (frame_trans _ _ _ _ (frame_trans _ _ _ _ F1 F2) Ft) as Fa. exists t, (mkK (k_addr q2) (k_ctx q2) (close_conn (k_st q2))). split; [exact Fa|]. split; [exact Ht|].
  split; [|intros [Sa|Sa]; [left; exact (fr_alive _ _ _ Fa Sa)|right; cbn; rewrite M3; auto]]. split; [reflexivity|]. cbn. rewrite M3, C2. destruct (c_main (k_st q1)); auto; try congruence; rewrite C1; apply orb_true_r.
Qed.

(** The listener goroutine joins one client ... *)
Lemma join s k todo q : ok s -> served s q -> nd_lst s = LJoin k todo -> nth_error (ds_clients (nd_in s)) k = Some q -> ~ caught q ->
  exists t, goes s t /\ ok t /\ (alive s -> alive t) /\ nd_lst t = LClosing todo /\ nd_closers t = nd_closers s /\ (forall j, j <> k -> nth_error (ds_clients (nd_in t)) j = nth_error (ds_clients (nd_in s)) j) /\
    exists q', nth_error (ds_clients (nd_in t)) k = Some q' /\ c_main (k_st q') = MEnd.
Proof.
  intros K Al L Hk Nc. destruct (close_in s k q K ltac:(rewrite L; reflexivity) Hk Nc) as (s1 & q1 & F1 & H1 & Fr & Sv).
  destruct (drive_in _ s1 k q1 (fr_ok _ _ _ F1) (Sv Al) ltac:(rewrite (fr_lst _ _ _ F1), L; reflexivity) ltac:(rewrite (fr_lst _ _ _ F1), L; reflexivity) H1 (Nat.le_refl _) Fr) as (s2 & q2 & F2 & H2 & O2 & D2).
  pose proof (frame_trans _ _ _ _ F1 F2) as [G1 G2 G3 G4 G5 G6]. assert (E : nstep s2 NaJoined = Some (set_lst s2 (LClosing todo))) by (unfold M_Close.nstep; destruct G2 as (_ & _ & _ & ->); rewrite G3, L, H2, O2, D2; reflexivity).
  exists (set_lst s2 (LClosing todo)). split; [exact (goes_trans _ _ _ G1 (goes_step _ _ _ E eq_refl))|]. split; [apply (ok_step _ _ _ G2 E); nproj; apply G2|]. split; [exact G5|]. split; [reflexivity|]. split; [exact G4|]. split; [exact G6|]. exists q2. split; [exact H2|].
  destruct G2 as (N2 & _). destruct (ni_sig _ _ N2 q2 (nth_error_In _ _ H2)) as [(_ & _ & _ & _ & _ & _ & Sg) _]. rewrite Sg in D2. destruct (c_main (k_st q2)); auto; discriminate.
Qed.
(** ... and all of them. *)
Lemma join_all : forall n s todo, length todo <= n -> ok s -> nd_lst s = LClosing todo -> (forall k q, In k todo -> nth_error (ds_clients (nd_in s)) k = Some q -> ~ caught q /\ served s q) ->
  exists t, goes s t /\ ok t /\ nd_lst t = LClosing [] /\ nd_closers t = nd_closers s.
Proof.
  induction n as [|n IH]; intros s todo Ln K L Nc; (destruct todo as [|k todo]; [exists s; split; [apply goes_refl|auto]|cbn in Ln; try lia]).
  set (td := filter (fun j => negb (j =? k)) (k :: todo)).
  assert (E : nstep s (NaPick k) = Some (set_lst s (LJoin k td))) by (unfold M_Close.nstep; destruct K as (_ & _ & _ & ->); rewrite L; cbn [existsb]; rewrite Nat.eqb_refl; reflexivity).
  pose proof (ok_step _ _ _ K E ltac:(nproj; apply K)) as K1. assert (Hk : exists q, nth_error (ds_clients (nd_in s)) k = Some q).
  { destruct K as (_ & _ & X & _). assert (Y : k < length (ds_clients (nd_in s))) by (apply (xi_todo _ _ X); rewrite L; left; reflexivity). apply nth_error_Some in Y. destruct (nth_error (ds_clients (nd_in s)) k); [eauto|congruence]. }
  destruct Hk as (q & Hk). destruct (Nc k q (or_introl eq_refl) Hk) as [Nc1 Nc2]. destruct (join (set_lst s (LJoin k td)) k td q K1 Nc2 eq_refl Hk Nc1) as (t & G & Kt & At & Lt & Ct & Ot & _). nproj.
  destruct (IH t td) as (u & Gu & Ku & Lu & Cu); auto.
  - unfold td. cbn [filter]. rewrite Nat.eqb_refl. cbn [negb]. pose proof (filter_length_le (fun j => negb (j =? k)) todo). lia.
  - intros j qj Hj Hq. unfold td in Hj. apply filter_In in Hj as [Hj Nj]. apply negb_true_iff, Nat.eqb_neq in Nj. rewrite (Ot j Nj) in Hq. destruct (Nc j qj Hj Hq) as [X [Y|Y]]; split; auto; [left; exact (At Y)|right; exact Y].
  - exists u. split; [exact (goes_trans _ _ _ (goes_step _ _ _ E eq_refl) (goes_trans _ _ _ G Gu))|]. split; [exact Ku|]. split; [exact Lu|congruence].
Qed.

(** The workers empty the queue and end. *)
Definition wsize (x : wkpc) : nat := match x with KGone => 0 | KIdle => 1 | KBusy _ _ => 2 end.
Lemma wsum_set l : forall j x y, nth_error l j = Some x -> sumf wsize (set_nth j y l) + wsize x = sumf wsize l + wsize y.
Proof. induction l as [|z l IH]; intros [|j] x y H; cbn in *; try discriminate; [injection H as ->; lia|]. specialize (IH j x y H). lia. Qed.
Lemma quit_all : forall n s, 3 * length (nd_queue s) + sumf wsize (nd_workers s) <= n -> ok s -> nd_lst s = LWait ->
  exists t, goes s t /\ ok t /\ nd_lst t = LWait /\ nd_closers t = nd_closers s /\ forallb (fun k => match k with KGone => true | _ => false end) (nd_workers t) = true.
Proof.
  induction n as [n IH] using lt_wf_ind. intros s Ln K L. destruct (forallb (fun k => match k with KGone => true | _ => false end) (nd_workers s)) eqn:G; [exists s; split; [apply goes_refl|auto]|].
  assert (X : exists j x, nth_error (nd_workers s) j = Some x /\ x <> KGone).
  { assert (Y : exists x, In x (nd_workers s) /\ x <> KGone).
    { revert G. generalize (nd_workers s). induction l as [|x l IHl]; cbn; [discriminate|]. intros G. destruct x; [exists KIdle; split; [auto|discriminate]|exists (KBusy side k); split; [auto|discriminate]|]. destruct (IHl G) as (x & Hx & Nx). exists x. auto. }
    destruct Y as (x & Hx & Nx). apply In_nth_error in Hx as (j & Hj). eauto. }
  destruct X as (j & x & Hj & Nx). pose proof K as (N & _ & _ & Pn). assert (Wc : nd_wclosed s = true) by (rewrite (ni_work _ _ N), L; reflexivity).
  assert (Go : forall a t, nstep s a = Some t -> nown s a = true -> nd_panic t = false -> nd_lst t = LWait -> nd_closers t = nd_closers s -> 3 * length (nd_queue t) + sumf wsize (nd_workers t) < 3 * length (nd_queue s) + sumf wsize (nd_workers s) ->
     exists t, goes s t /\ ok t /\ nd_lst t = LWait /\ nd_closers t = nd_closers s /\ forallb (fun k => match k with KGone => true | _ => false end) (nd_workers t) = true).
  { intros a t E O P Lt Ct Lm. destruct (IH _ (Nat.lt_le_trans _ _ _ Lm Ln) t (Nat.le_refl _) (ok_step _ _ _ K E P) Lt) as (u & G1 & G2 & G3 & G4 & G5). exists u. split; [exact (goes_trans _ _ _ (goes_step _ _ _ E O) G1)|]. split; [exact G2|]. split; [exact G3|]. split; [congruence|exact G5]. }
  destruct x as [ |ws wk| ]; [| |congruence].
  - destruct (nd_queue s) as [|[qs qk] qq] eqn:Qu.
    + apply (Go (NaQuit j) (set_worker s j KGone)); nproj; auto; [unfold M_Close.nstep; rewrite Pn, Hj, Qu, Wc; reflexivity|]. pose proof (wsum_set _ _ _ KGone Hj) as Q. cbn [wsize] in Q. rewrite Qu. cbn [length]. lia.
    + apply (Go (NaTake j) (set_worker (set_queue s qq) j (KBusy qs qk))); nproj; auto; [unfold M_Close.nstep; rewrite Pn, Hj, Qu; reflexivity|]. pose proof (wsum_set _ _ _ (KBusy qs qk) Hj) as Q. cbn [wsize] in Q. cbn [length]. lia.
  - apply (Go (NaHandled j true) (set_worker s j KIdle)); nproj; auto; [unfold M_Close.nstep; rewrite Pn, Hj; reflexivity|]. pose proof (wsum_set _ _ _ KIdle Hj) as Q. cbn [wsize] in Q. lia.
Qed.

(** From here on to the end. *)
Definition ends (s : nstate) : Prop := exists t, goes s t /\ ok t /\ nd_lst t = LEnd /\ forall i, pending s i -> pending t i.
Lemma ends_step s a t : ok s -> nstep s a = Some t -> nown s a = true -> nd_panic t = false -> (forall i, pending s i -> pending t i) -> (ok t -> ends t) -> ends s.
Proof. intros K E O P Pd H. destruct (H (ok_step _ _ _ K E P)) as (u & G1 & G2 & G3 & G4). exists u. split; [exact (goes_trans _ _ _ (goes_step _ _ _ E O) G1)|auto]. Qed.
Lemma ends_goes s t : goes s t -> nd_closers t = nd_closers s -> ends t -> ends s.
Proof. intros G C (u & G1 & G2 & G3 & G4). exists u. split; [exact (goes_trans _ _ _ G G1)|]. split; [exact G2|]. split; [exact G3|]. intros i (x & Hx & X). apply G4. exists x. rewrite C. auto. Qed.
Lemma from_finish s : ok s -> nd_lst s = LFinish -> ends s.
Proof.
  intros K L. pose proof K as (N & _ & _ & Pn). eapply (ends_step s NaFinish); [exact K| |reflexivity|..].
  - unfold M_Close.nstep. rewrite Pn, L. destruct (ni_done _ _ N) as (_ & _ & ->). rewrite L. reflexivity.
  - first [exact Pn|reflexivity].
  - intros i H. exact H.
  - intros Kt. eexists. split; [apply goes_refl|]. split; [exact Kt|]. split; [reflexivity|auto].
Qed.
Lemma from_unset s : ok s -> nd_lst s = LUnset -> ends s.
Proof.
  intros K L. pose proof K as (N & _ & _ & Pn). eapply (ends_step s NaUnset); [exact K|unfold M_Close.nstep; rewrite Pn, L; reflexivity|reflexivity|first [exact Pn|reflexivity]|intros i H; exact H|].
  intros Kt. apply from_finish; [exact Kt|reflexivity].
Qed.
Lemma from_wait s : ok s -> nd_lst s = LWait -> ends s.
Proof.
  intros K L. destruct (quit_all _ s (Nat.le_refl _) K L) as (t & G & Kt & Lt & Ct & At). apply (ends_goes s t G Ct). pose proof Kt as (N & _ & _ & Pn).
  eapply (ends_step t NaWaited); [exact Kt|unfold M_Close.nstep; rewrite Pn, Lt, At; reflexivity|reflexivity|first [exact Pn|reflexivity]|intros i H; exact H|]. intros Ku. apply from_unset; [exact Ku|reflexivity].
Qed.
Lemma from_closing s todo : ok s -> nd_lst s = LClosing todo -> (forall k q, In k todo -> nth_error (ds_clients (nd_in s)) k = Some q -> ~ caught q /\ served s q) -> ends s.
Proof.
  intros K L Nc. destruct (join_all _ s todo (Nat.le_refl _) K L Nc) as (t & G & Kt & Lt & Ct). apply (ends_goes s t G Ct). pose proof Kt as (N & _ & _ & Pn).
  eapply (ends_step t NaCloseWork); [exact Kt|unfold M_Close.nstep; rewrite Pn, Lt, (ni_work _ _ N), Lt; reflexivity|reflexivity|first [exact Pn|reflexivity]|intros i H; exact H|]. intros Ku. apply from_wait; [exact Ku|reflexivity].
Qed.
Definition fine (s : nstate) : Prop := forall q, In q (ds_clients (nd_in s)) -> ~ caught q /\ served s q.
Lemma from_join s k todo : ok s -> nd_lst s = LJoin k todo -> fine s -> ends s.
Proof.
  intros K L Nc. pose proof K as (_ & _ & X & _). assert (Y : k < length (ds_clients (nd_in s))) by (apply (xi_todo _ _ X); rewrite L; left; reflexivity). apply nth_error_Some in Y. destruct (nth_error (ds_clients (nd_in s)) k) as [q|] eqn:Hk; [|congruence].
  destruct (Nc q (nth_error_In _ _ Hk)) as [N1 N2]. destruct (join s k todo q K N2 L Hk N1) as (t & G & Kt & At & Lt & Ct & Ot & q1 & Hq1 & E1). apply (ends_goes s t G Ct).
  apply (from_closing t todo Kt Lt). intros j qj _ Hj. destruct (Nat.eq_dec j k) as [->|Nj].
  - assert (qj = q1) as -> by congruence. split; [|right; congruence]. intros (_ & _ & Z). rewrite E1 in Z. exact Z.
  - rewrite (Ot j Nj) in Hj. destruct (Nc qj (nth_error_In _ _ Hj)) as [X1 [X2|X2]]; split; auto; [left; exact (At X2)|right; exact X2].
Qed.
Lemma from_release s : ok s -> nd_lst s = LRelease -> fine s -> ends s.
Proof.
  intros K L F. pose proof K as (N & _ & _ & Pn). pose proof (ni_before _ _ N ltac:(rewrite L; reflexivity)) as Iv.
  assert (Lk : ds_lock (nd_in s) = None).
  { destruct (ds_lock (nd_in s)) as [i|] eqn:Lk; [|reflexivity]. destruct (pi_held _ _ Iv i Lk) as (c & n & k & v & m & q & Hc & Pc & _). destruct (ni_calls _ _ N i c Hc) as [(k1 & e & Y)|Y]; congruence. }
  eapply (ends_step s NaRelease); [exact K|unfold M_Close.nstep; rewrite Pn, L, Lk; reflexivity|reflexivity|first [exact Pn|reflexivity]|intros i H; exact H|]. intros Kt. eapply from_closing; [exact Kt|reflexivity|]. nproj. intros k q _ Hk. exact (F q (nth_error_In _ _ Hk)).
Qed.
Lemma from_report s : ok s -> nd_lst s = LReport -> fine s -> ends s.
Proof.
  intros K L F. pose proof K as (N & _ & _ & Pn). destruct (ni_done _ _ N) as (D1 & _ & D2). rewrite L in D2. specialize (D1 ltac:(rewrite L; reflexivity) ltac:(rewrite L; discriminate)).
  eapply (ends_step s NaReport); [exact K|unfold M_Close.nstep; rewrite Pn, L, D1, D2; reflexivity|reflexivity|first [exact Pn|reflexivity]|intros i H; exact H|]. intros Kt. apply from_release; [exact Kt|reflexivity|exact F].
Qed.
Lemma from_accept s : ok s -> nd_lst s = LAccept -> nd_open s = false -> fine s -> ends s.
Proof.
  intros K L O F. pose proof K as (N & _ & _ & Pn). eapply (ends_step s NaAcceptFails); [exact K|unfold M_Close.nstep; rewrite Pn, L; reflexivity|cbn; rewrite O; reflexivity|first [exact Pn|reflexivity]|intros i H; exact H|].
  intros Kt. apply from_report; [exact Kt|reflexivity|exact F].
Qed.
(** The connection being accepted is already pooled, or there is room for it. *)
Definition roomy (s : nstate) : Prop := forall i c, nd_lst s = LGet i -> nth_error (ds_callers (nd_in s)) i = Some c -> ds_lock (nd_in s) = None /\
  (length (cm_slice (ds_pool (nd_in s))) < max \/ exists k q, nth_error (ds_clients (nd_in s)) k = Some q /\ k_addr q = d_addr c /\ ~ gone q).
Lemma get_room d i c : pinv max d -> ds_lock d = None -> nth_error (ds_callers d) i = Some c -> d_pc c = DLoop 0 ->
  (length (cm_slice (ds_pool d)) < max \/ exists k q, nth_error (ds_clients d) k = Some q /\ k_addr q = d_addr c /\ ~ gone q) ->
  exists d' k ex, dstep SideInbound max 1 0 idle isctx d (DaGet i) = Some d' /\ at_pc d' i (DOk k ex) /\ (ds_clients d' = ds_clients d \/ ds_clients d' = ds_clients d ++ [mkK (d_addr c) i (newClient SideInbound)]).
Proof.
  intros Iv Lk Hi Pc X. destruct (fetch_ok SideInbound max idle isctx M d (d_addr c) Iv) as (m & k & ex & ev & Fe & Y).
  cbn [dstep]. rewrite Hi, Pc, Lk, Fe. cbn [Nat.ltb Nat.leb]. destruct ev as [v|].
  - exfalso. destruct Y as (-> & -> & _ & No & (l0 & R & L & P)). destruct X as [X|(k & q & Hq & Aq & G)].
    + rewrite (slice_repr _ _ R), map_length in X. lia.
    + apply G. apply past_main. exact (No k q Hq Aq).
  - eexists _, k, ex. split; [reflexivity|]. dproj. split; [|destruct ex; auto]. eexists. dproj. rewrite (nth_error_set _ _ _ _ i Hi), Nat.eqb_refl. split; reflexivity.
Qed.
Lemma from_got s i k e : ok s -> nd_lst s = LGet i -> at_pc (nd_in s) i (DOk k e) -> nd_open s = false -> fine s -> ends s.
Proof.
  intros K L (c & Hc & Pc) O F. pose proof K as (N & _ & _ & Pn). eapply (ends_step s NaGot); [exact K|unfold M_Close.nstep; rewrite Pn, L, Hc, Pc; reflexivity|reflexivity|first [exact Pn|reflexivity]|intros j H; exact H|].
  intros Kt. apply from_accept; [exact Kt|reflexivity|exact O|exact F].
Qed.
Lemma from_get s i : ok s -> nd_lst s = LGet i -> nd_open s = false -> fine s -> roomy s -> ends s.
Proof.
  intros K L O F Rm. pose proof K as (N & _ & X & Pn). destruct (xi_get _ _ X i L) as (c & Hc & Pc). pose proof (ni_before _ _ N ltac:(rewrite L; reflexivity)) as Iv. destruct (Rm i c L Hc) as [Lk Rc].
  destruct (d_pc c) as [[|n]|n k v m| | | | |k e|] eqn:Pq; try contradiction Pc.
  - destruct (get_room _ i c Iv Lk Hc Pq Rc) as (d & k & ex & E & At & Cl).
    eapply (ends_step s (NaIn (DaGet i))); [exact K|unfold M_Close.nstep; rewrite Pn, E; reflexivity|reflexivity|first [exact Pn|reflexivity]|intros j H; exact H|]. intros Kt. apply (from_got _ i k ex); [exact Kt|exact L|exact At|exact O|].
    intros q Hq. nproj. destruct Cl as [Cl|Cl]; rewrite Cl in Hq; [exact (F q Hq)|]. apply in_app_or in Hq as [Hq|[<-|[]]]; [exact (F q Hq)|]. split; [intros (Y & _); discriminate|right; discriminate].
  - exfalso. assert (Y : ds_lock (nd_in s) = Some i) by (apply (pi_lock _ _ Iv i c Hc); unfold evicting; rewrite Pq; reflexivity). congruence.
  - apply (from_got s i k e); auto. exists c. auto.
Qed.
Lemma from_begun s : ok s -> begun s -> fine s -> roomy s -> ends s.
Proof.
  intros K B F Rm. pose proof K as (N & Kv & X & Pn).
  assert (Cl : nd_open s = false -> ends s).
  { intros O. unfold begun in B. destruct (nd_lst s) as [ | | |i| | |todo|k todo| | | | ] eqn:L; try contradiction.
    - apply from_accept; auto. - apply (from_get s i); auto. - apply from_report; auto. - apply from_release; auto. - apply (from_closing s todo); auto. intros k q _ Hk. exact (F q (nth_error_In _ _ Hk)). - apply (from_join s k todo); auto.
    - apply from_wait; auto. - apply from_unset; auto. - apply from_finish; auto. - exists s. split; [apply goes_refl|auto]. }
  destruct (nd_open s) eqn:O; [|apply Cl; reflexivity].
  destruct (in_dec (fun a b : kpc => ltac:(decide equality; apply Bool.bool_dec)) KListener (nd_closers s)) as [Hl|Hl].
  - apply In_nth_error in Hl as (j & Hj).
    assert (E : nstep s (NaCloser j) = Some (mkND (nd_in s) (nd_out s) (nd_lst s) (nd_listening s) false (nd_done s) (nd_dclosed s) (set_nth j KRecv (nd_closers s)) (nd_made s) (nd_wclosed s) (nd_queue s) (nd_workers s) (nd_stuck s) (nd_panic s))).
    { unfold M_Close.nstep. rewrite Pn, Hj, O. reflexivity. }
    eapply (ends_step s (NaCloser j)); [exact K|exact E|reflexivity|first [exact Pn|reflexivity]| |].
    + intros i (x & Hx & Y). unfold pending. nproj. rewrite (nth_error_set _ _ _ _ i Hj). destruct (Nat.eqb_spec i j) as [Ei|Ni]; [exists KRecv; split; [reflexivity|exact I]|exists x; auto].
    + intros Kt. clear Cl. assert (B' : match nd_lst s with LNone | LStore => False | _ => True end) by (unfold begun in B; destruct (nd_lst s); auto). set (t := mkND _ _ _ _ _ _ _ _ _ _ _ _ _ _) in *.
      assert (Lt : nd_lst t = nd_lst s) by reflexivity. assert (Ot : nd_open t = false) by reflexivity. assert (Ft : fine t) by exact F. assert (Rt : roomy t) by exact Rm. clearbody t. rewrite <- Lt in B'. clear - Kt B' Ot Ft Rt M.
      destruct (nd_lst t) as [ | | |i| | |todo|k todo| | | | ] eqn:L; try contradiction.
      * apply from_accept; auto.
      * apply (from_get t i); auto.
      * apply from_report; auto.
      * apply from_release; auto.
      * apply (from_closing t todo); auto. intros k q _ Hk. exact (Ft q (nth_error_In _ _ Hk)).
      * apply (from_join t k todo); auto.
      * apply from_wait; auto.
      * apply from_unset; auto.
      * apply from_finish; auto.
      * exists t. split; [apply goes_refl|auto].
  - unfold begun in B. destruct (nd_lst s) as [ | | |i| | |todo|k todo| | | | ] eqn:L; try contradiction; try (destruct B; [congruence|contradiction]).
    + apply from_report; auto.
    + apply from_release; auto.
    + apply (from_closing s todo); auto. intros k q _ Hk. exact (F q (nth_error_In _ _ Hk)).
    + apply (from_join s k todo); auto.
    + apply from_wait; auto.
    + apply from_unset; auto.
    + apply from_finish; auto.
    + exists s. split; [apply goes_refl|auto].
Qed.
(** Then every call of Close returns. *)
Lemma close_end s i : ok s -> nd_lst s = LEnd -> pending s i -> exists t, goes s t /\ ok t /\ nd_lst t = LEnd /\ closed t i /\ forall j, j <> i -> nth_error (nd_closers t) j = nth_error (nd_closers s) j.
Proof.
  intros K L Pd. assert (R : forall s, ok s -> nd_lst s = LEnd -> nth_error (nd_closers s) i = Some KRecv -> exists t, goes s t /\ ok t /\ nd_lst t = LEnd /\ closed t i /\ forall j, j <> i -> nth_error (nd_closers t) j = nth_error (nd_closers s) j).
  { clear - M. intros s K L Hi. pose proof K as (N & Kv & X & Pn). destruct (ni_done _ _ N) as (_ & _ & D). rewrite L in D.
    destruct (nstep s (NaCloser i)) as [t|] eqn:E; [|unfold M_Close.nstep in E; rewrite Pn, Hi, D in E; destruct (nd_done s); discriminate]. exists t. split; [exact (goes_step _ _ _ E eq_refl)|].
    pose proof E as E0. unfold M_Close.nstep in E. rewrite Pn, Hi, D in E. destruct (nd_done s) as [|n]; injection E as <-; (split; [exact (ok_step _ _ _ K E0 eq_refl)|]); nproj; (split; [exact L|]); unfold closed; nproj; rewrite (nth_error_set _ _ _ _ i Hi), Nat.eqb_refl; (split; [eexists; reflexivity|]);
      intros j Nj; rewrite (nth_error_set _ _ _ _ j Hi); apply Nat.eqb_neq in Nj; rewrite Nj; reflexivity. }
  pose proof K as (N & Kv & X & Pn). pose proof (ki_fresh _ Kv) as Fr. rewrite L in Fr.
  assert (St : forall t, nstep s (NaCloser i) = Some t -> nd_panic t = false -> nd_lst t = LEnd -> nd_closers t = set_nth i KRecv (nd_closers s) -> (exists x, nth_error (nd_closers s) i = Some x) -> exists t, goes s t /\ ok t /\ nd_lst t = LEnd /\ closed t i /\ forall j, j <> i -> nth_error (nd_closers t) j = nth_error (nd_closers s) j).
  { intros t E P Lt Ct (x & Hx). destruct (R t (ok_step _ _ _ K E P) Lt) as (u & G1 & G2 & G3 & G4 & G5); [rewrite Ct, (nth_error_set _ _ _ _ i Hx), Nat.eqb_refl; reflexivity|].
    exists u. split; [exact (goes_trans _ _ _ (goes_step _ _ _ E eq_refl) G1)|]. split; [exact G2|]. split; [exact G3|]. split; [exact G4|]. intros j Nj. rewrite (G5 j Nj), Ct, (nth_error_set _ _ _ _ j Hx). apply Nat.eqb_neq in Nj. rewrite Nj. reflexivity. }
  destruct Pd as (x & Hx & Px). destruct x; try contradiction.
  - eapply St; [unfold M_Close.nstep; rewrite Pn, Hx, Fr; reflexivity|reflexivity|exact L|reflexivity|eauto].
  - assert (O : nd_open s = true) by (apply (ki_open _ Kv); pose proof (cntb_pos isL _ _ (nth_error_In _ _ Hx) eq_refl); lia).
    eapply St; [unfold M_Close.nstep; rewrite Pn, Hx, O; reflexivity|reflexivity|exact L|reflexivity|eauto].
  - apply R; auto.
Qed.
Lemma close_all_end s : ok s -> nd_lst s = LEnd -> forall n, exists t, goes s t /\ ok t /\ nd_lst t = LEnd /\ (forall i, i < n -> pending s i -> closed t i) /\ forall i, n <= i -> nth_error (nd_closers t) i = nth_error (nd_closers s) i.
Proof.
  intros K L. induction n as [|n (t & G1 & G2 & G3 & G4 & G5)]; [exists s; split; [apply goes_refl|]; split; [exact K|]; split; [exact L|]; split; [intros i Li; lia|auto]|].
  assert (D : pending s n \/ ~ pending s n).
  { destruct (nth_error (nd_closers s) n) as [[ | | | | ]|] eqn:Hn; try (left; eexists; split; [exact Hn|exact I]); right; intros (x & Hx & Y); rewrite Hn in Hx; try discriminate; injection Hx as <-; contradiction. }
  destruct D as [D|D].
  - destruct (close_end t n G2 G3) as (u & H1 & H2 & H3 & H4 & H5); [destruct D as (x & Hx & Y); exists x; rewrite (G5 n (Nat.le_refl _)); auto|]. exists u. split; [exact (goes_trans _ _ _ G1 H1)|]. split; [exact H2|]. split; [exact H3|]. split.
    + intros i Li Pi. destruct (Nat.eq_dec i n) as [->|Ni]; [exact H4|]. destruct (G4 i ltac:(lia) Pi) as (e & He). exists e. rewrite (H5 i Ni). exact He.
    + intros i Li. rewrite (H5 i ltac:(lia)). apply G5. lia.
  - exists t. split; [exact G1|]. split; [exact G2|]. split; [exact G3|]. split; [|intros i Li; apply G5; lia]. intros i Li Pi. destruct (Nat.eq_dec i n) as [->|Ni]; [contradiction|]. apply G4; [lia|exact Pi].
Qed.
End Shut.

(** ** C46, partly *)

(** Every call of Close returns, and the listener goroutine and the workers end, by what the node does itself, from every state in which
    the listener is being closed (or accepting has failed), no eviction is under way or needed, close has not missed a connection, and no
    request waits for workers that have all ended. *)
Theorem C46_partial w max att p idle isctx l s : 0 < max -> life w max att p idle isctx l s -> ~ crashed s -> begun s -> roomy max s -> (forall q, In q (ds_clients (nd_in s)) -> ~ caught q /\ served s q) ->
  exists l' s', alone w max att p idle isctx s l' = Some s' /\ nd_lst s' = LEnd /\ (forall k, In k (nd_workers s') -> k = KGone) /\ forall i, pending s i -> closed s' i.
Proof.
  intros M H Cr B Rm F. assert (Pn : nd_panic s = false) by (destruct (nd_panic s) eqn:Pn; [exfalso; apply Cr; left; exact Pn|reflexivity]).
  destruct (from_begun w max att p idle isctx M s (life_ok _ _ _ _ _ _ M _ _ H Pn) B F Rm) as (t & (l1 & G) & Kt & Lt & Pt).
  destruct (close_all_end w max att p idle isctx M t Kt Lt (length (nd_closers t))) as (u & (l2 & Gu) & Ku & Lu & Cu & _).
  assert (R : alone w max att p idle isctx s (l1 ++ l2) = Some u) by (rewrite alone_app, G; exact Gu).
  exists (l1 ++ l2), u. split; [exact R|]. split; [exact Lu|]. split.
  - assert (Hu : life w max att p idle isctx (l ++ l1 ++ l2) u) by (unfold life; rewrite nrun_app, H; exact (alone_run _ _ _ _ _ _ _ _ _ R)). pose proof (reach_idle _ _ _ _ _ _ _ _ Hu) as Ig. unfold idle_gone in Ig. rewrite Lu in Ig. exact Ig.
  - intros i Pi. apply Cu; [|exact (Pt i Pi)]. destruct (Pt i Pi) as (x & Hx & _). apply nth_error_Some. congruence.
Qed.
(** A connection in use, requests queued, two calls of Close. *)
Example C46_partial_nonvacuous : exists s, life 2 3 1 0 0 (fun _ => false) (NaListen :: NaStore :: accepted ++ message ++ [NaIn (DaClient 0 (AMain Fine)); NaClose; NaClose; NaCloser 0; NaCloser 1]) s /\
  ~ crashed s /\ begun s /\ roomy 3 s /\ (forall q, In q (ds_clients (nd_in s)) -> ~ caught q /\ served s q) /\ pending s 0 /\ pending s 1 /\ length (ds_clients (nd_in s)) = 1 /\ length (nd_queue s) = 1.
Proof.
  eexists. split; [vm_compute; reflexivity|]. split; [intros [X|(q & [[<-|[]]|[]] & X)]; discriminate|]. split; [right; left; reflexivity|]. split; [intros i c X; discriminate|].
  split; [intros q [<-|[]]; split; [intros (X & _); discriminate|left; exists KIdle; split; [left; reflexivity|discriminate]]|]. split; [eexists; split; [reflexivity|exact I]|]. split; [eexists; split; [reflexivity|exact I]|]. auto.
Qed.
Print Assumptions C46_partial.
