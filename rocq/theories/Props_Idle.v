(** * C93: which connections the idle timeout ends. *)
From Verif Require Import Base Spec M_Idle.
Local Open Scope nat_scope.

(** ** Specification *)

(** A connection after the schedule [l]. *)
Definition conn_does (idle : nat) (frame : nat -> nat) (l : list iact) (s : istate) : Prop := irun idle frame i_start l = Some s.
(** Bytes came or went at time [t]. *)
Definition active_at (s : istate) (t : nat) : Prop := In t (i_arrived s) \/ In t (i_wrote s).

(** node_options.go:73-74: the connection times out should there be no subsequent reads/writes on it for that long.  So when it has timed out at
    [t], there have not been any since [t - idle]. *)
Definition C93_statement : Prop := forall idle frame l s t, conn_does idle frame l s -> i_pc s = IStopped t ->
  forall u, active_at s u -> u + idle <= t.

Lemma irun_app idle frame l1 : forall s l2, irun idle frame s (l1 ++ l2) = match irun idle frame s l1 with Some s' => irun idle frame s' l2 | None => None end.
Proof. induction l1 as [|a l1 IH]; intros s l2; cbn [irun app]; [reflexivity|]. destruct (istep idle frame s a); [apply IH|reflexivity]. Qed.
Lemma irun_inv idle frame (P : istate -> Prop) : (forall s a s', P s -> istep idle frame s a = Some s' -> P s') -> forall l s s', P s -> irun idle frame s l = Some s' -> P s'.
Proof.
  intros St. induction l as [|a l IH]; cbn [irun]; intros s s' H R; [injection R as <-; exact H|].
  destruct (istep idle frame s a) as [s1|] eqn:E; [|discriminate]. apply (IH s1 s'); [apply (St s a s1 H E)|exact R].
Qed.

(** ** Invariants *)
Definition iinv (idle : nat) (frame : nat -> nat) (s : istate) : Prop :=
  (forall u, In u (i_arrived s) \/ In u (i_wrote s) \/ In u (i_done s) -> u <= i_now s) /\
  (idle = 0 -> i_rdl s = None /\ i_wdl s = None) /\
  match i_pc s with
  | IBody => 0 < idle -> exists t0, i_rdl s = Some (t0 + idle) /\ t0 <= i_now s /\ forall u, In u (i_done s) -> u <= t0
  | IStopped t => t <= i_now s /\ 0 < idle /\ (forall u, In u (i_done s) -> u + idle <= t) /\ i_have s < frame (length (i_done s))
  | _ => True
  end.

Lemma iinv_step idle frame s a s' : iinv idle frame s -> istep idle frame s a = Some s' -> iinv idle frame s'.
Proof.
  intros (A & Z & P) E. unfold iinv. destruct a; cbn [istep] in E.
  - injection E as <-. cbn. split; [|split; [exact Z|]].
    + intros u H. specialize (A u H). lia.
    + destruct (i_pc s); auto.
      * intros H. destruct (P H) as (t0 & E0 & L & D). exists t0. auto.
      * destruct P as (X & Y). split; [lia|exact Y].
  - destruct (0 <? k); [|discriminate]. injection E as <-. cbn. split; [|split; [exact Z|exact P]]. intros u [[<- |H]|H]; [lia|apply A; auto|apply A; tauto].
  - destruct (i_pc s) eqn:Pc; try discriminate. injection E as <-. cbn. split; [exact A|]. split; [intros H; destruct (Z H) as [Zr Zw]; unfold deadline; rewrite H; auto|].
    intros H. exists (i_now s). unfold deadline. destruct (Nat.eqb_spec idle 0) as [->|_]; [lia|]. split; [reflexivity|]. split; [lia|]. intros u Hu. apply A. auto.
  - destruct (i_pc s) eqn:Pc; try discriminate. destruct (_ && _); [|discriminate]. injection E as <-. cbn. auto.
  - destruct (i_pc s) eqn:Pc; try discriminate. destruct (_ <=? _); [|discriminate]. injection E as <-. cbn. split; [|auto]. intros u [H|[H|[<- |H]]]; [apply A; tauto|apply A; tauto|lia|apply A; tauto].
  - destruct (i_pc s) eqn:Pc; try discriminate. destruct ((_ <? _) && _) eqn:B; [|discriminate]. injection E as <-. cbn. split; [exact A|]. split; [exact Z|].
    apply andb_prop in B as [B1 B2]. apply Nat.ltb_lt in B1. destruct (Nat.eq_dec idle 0) as [H|H].
    + destruct (Z H) as [Zr _]. rewrite Zr in B2. discriminate B2.
    + destruct (P ltac:(lia)) as (t0 & E0 & L & D). rewrite E0 in B2. cbn [expired] in B2. apply Nat.leb_le in B2. split; [lia|]. split; [lia|]. split; [|exact B1]. intros u Hu. specialize (D u Hu). lia.
  - destruct (i_pc s) eqn:Pc; try discriminate. injection E as <-. cbn. auto.
  - injection E as <-. cbn. split; [exact A|]. split; [|exact P]. intros H. destruct (Z H) as [Zr Zw]. unfold deadline. rewrite H. auto.
  - destruct (expired _ _); [discriminate|]. injection E as <-. cbn. split; [|auto]. intros u [H|[[<- |H]|H]]; [apply A; tauto|lia|apply A; tauto|apply A; tauto].
Qed.
Lemma conn_inv idle frame l s : conn_does idle frame l s -> iinv idle frame s.
Proof.
  intros R. apply (irun_inv idle frame (iinv idle frame) (iinv_step idle frame) l i_start s); [|exact R]. split; [intros u [[]|[[]|[]]]|]. cbn. auto.
Qed.

(** ** Writing does not keep a connection alive *)

(** The writer sends a message at every moment before [n]. *)
Fixpoint writing (n : nat) : list iact := match n with O => [] | S n' => writing n' ++ [IWriteTop; IWrite; ITick] end.
Lemma writing_run idle frame s : 0 < idle -> forall n, exists w ws, irun idle frame s (writing n) =
  Some (mkI (i_now s + n) (i_pc s) (i_rdl s) (i_sock s) (i_have s) w (i_arrived s) ws (i_done s)) /\ forall u, In u ws <-> In u (i_wrote s) \/ (i_now s <= u < i_now s + n).
Proof.
  intros H. induction n as [|n (w & ws & R & W)].
  - exists (i_wdl s), (i_wrote s). cbn. rewrite Nat.add_0_r. destruct s. cbn. split; [reflexivity|]. intros u. split; [auto|intros [X|X]; [exact X|lia]].
  - cbn [writing]. rewrite irun_app, R. cbn [irun istep i_now i_pc i_rdl i_sock i_have i_wdl i_arrived i_wrote i_done]. unfold deadline. destruct (Nat.eqb_spec idle 0) as [X|_]; [lia|].
    cbn [expired i_now i_pc i_rdl i_sock i_have i_wdl i_arrived i_wrote i_done]. destruct (Nat.leb_spec (i_now s + n + idle) (i_now s + n)) as [X|_]; [lia|]. cbn [istep i_now i_pc i_rdl i_sock i_have i_wdl i_arrived i_wrote i_done].
    eexists _, _. split; [rewrite Nat.add_succ_r; reflexivity|]. intros u. cbn [In]. rewrite W. split; [intros [<- |[X|X]]; [right; lia|auto|right; lia]|].
    intros [X|X]; [auto|]. destruct (Nat.eq_dec (i_now s + n) u) as [Y|Y]; [left; exact Y|right; right; lia].
Qed.

(** Whatever the timeout: a connection on which a message is sent at every single moment is ended at the timeout, when nothing has been received. *)
Theorem C93_writing_does_not_help : forall idle frame, 0 < idle -> 0 < frame 0 ->
  exists l s, conn_does idle frame l s /\ i_pc s = IStopped idle /\ (forall u, u < idle -> In u (i_wrote s)) /\ i_arrived s = [].
Proof.
  intros idle frame H F. destruct (writing_run idle frame (mkI 0 IBody (Some idle) 0 0 None [] [] []) H idle) as (w & ws & R & W). cbn [i_now i_pc i_rdl i_sock i_have i_arrived i_done i_wrote] in R, W.
  exists (IRead :: writing idle ++ [ITimeout]). eexists. split.
  - unfold conn_does. cbn [irun istep i_start i_pc i_now i_rdl i_sock i_have i_wdl i_arrived i_wrote i_done]. unfold deadline. destruct (Nat.eqb_spec idle 0) as [X|_]; [lia|]. cbn [plus].
    rewrite irun_app, R. cbn [irun istep i_pc i_now i_rdl i_sock i_have i_wdl i_arrived i_wrote i_done length]. cbn [expired plus]. apply Nat.ltb_lt in F. rewrite F, Nat.leb_refl. cbn [andb]. reflexivity.
  - cbn. split; [reflexivity|]. split; [|reflexivity]. intros u Hu. apply W. right. lia.
Qed.

(** ** Nor do bytes that are not yet a whole message *)

(** A byte of the frame arrives, and is read, at every moment before [n]. *)
Fixpoint trickle (n : nat) : list iact := match n with O => [] | S n' => trickle n' ++ [IArrive 1; IFill 1; ITick] end.
Lemma trickle_run idle frame : forall n, n <= idle -> n < frame 0 -> exists arr, irun idle frame (mkI 0 IBody (Some idle) 0 0 None [] [] []) (trickle n) =
  Some (mkI n IBody (Some idle) 0 n None arr [] []) /\ forall u, u < n -> In u arr.
Proof.
  induction n as [|n IH]; intros L F.
  - exists []. split; [reflexivity|]. intros u Hu. lia.
  - destruct (IH ltac:(lia) ltac:(lia)) as (arr & R & W). cbn [trickle]. rewrite irun_app, R. exists (n :: arr). split; [|intros u Hu; destruct (Nat.eq_dec n u) as [X|X]; [left; exact X|right; apply W; lia]].
    cbn [irun istep i_pc i_now i_rdl i_sock i_have i_wdl i_arrived i_wrote i_done length Nat.ltb Nat.leb plus expired].
    assert (F1 : match frame 0 with 0 => false | S m' => n <=? m' end = true) by (destruct (frame 0) eqn:F0; [lia|apply Nat.leb_le; lia]). rewrite F1.
    destruct (Nat.leb_spec idle n) as [X|_]; [lia|]. cbn [andb negb]. cbn [istep i_now i_pc i_rdl i_sock i_have i_wdl i_arrived i_wrote i_done]. rewrite Nat.add_1_r. reflexivity.
Qed.
Theorem C93_slow_message_does_not_help : forall idle frame, 0 < idle -> idle < frame 0 ->
  exists l s, conn_does idle frame l s /\ i_pc s = IStopped idle /\ forall u, u < idle -> In u (i_arrived s).
Proof.
  intros idle frame H F. destruct (trickle_run idle frame idle (le_n _) F) as (arr & R & W). exists (IRead :: trickle idle ++ [ITimeout]). eexists. split.
  - unfold conn_does. cbn [irun istep i_start i_pc i_now i_rdl i_sock i_have i_wdl i_arrived i_wrote i_done]. unfold deadline. destruct (Nat.eqb_spec idle 0) as [X|_]; [lia|]. cbn [plus].
    rewrite irun_app, R. cbn [irun istep i_pc i_now i_rdl i_sock i_have i_wdl i_arrived i_wrote i_done length]. cbn [expired]. apply Nat.ltb_lt in F. rewrite F, Nat.leb_refl. cbn [andb]. reflexivity.
  - cbn. split; [reflexivity|exact W].
Qed.

Theorem C93_refuted : ~ C93_statement.
Proof.
  intros X. destruct (C93_writing_does_not_help 2 (fun _ => 4) (Nat.lt_0_succ _) (Nat.lt_0_succ _)) as (l & s & R & P & W & _).
  specialize (X 2 (fun _ => 4) l s 2 R P 1 (or_intror (W 1 ltac:(lia)))). lia.
Qed.

(** ** What holds *)

(** A timeout at [t] means that no message had become complete since [t - idle]; without an idle timeout there is none. *)
Theorem C93_partial : forall idle frame l s t, conn_does idle frame l s -> i_pc s = IStopped t ->
  0 < idle /\ (forall u, In u (i_done s) -> u + idle <= t) /\ i_have s < frame (length (i_done s)).
Proof. intros idle frame l s t R P. destruct (conn_inv idle frame l s R) as (_ & _ & I). rewrite P in I. tauto. Qed.

(** And a connection on which nothing arrives does time out: when its reader waits for a message that has not arrived completely, and [idle] has
    passed, all that the reader can do is stop; that it waits is so whatever else happens meanwhile. *)
Lemma waits_on idle frame : forall l s s', i_pc s = IBody -> i_have s + i_sock s < frame (length (i_done s)) -> (forall k, ~ In (IArrive k) l) -> irun idle frame s l = Some s' ->
  (i_pc s' = IBody /\ i_rdl s' = i_rdl s /\ i_have s' + i_sock s' = i_have s + i_sock s /\ i_done s' = i_done s) \/ exists t, i_pc s' = IStopped t.
Proof.
  intros l s s' P H N. revert l N.
  assert (G : forall l s1, (forall k, ~ In (IArrive k) l) -> ((i_pc s1 = IBody /\ i_rdl s1 = i_rdl s /\ i_have s1 + i_sock s1 = i_have s + i_sock s /\ i_done s1 = i_done s) \/ exists t, i_pc s1 = IStopped t) -> irun idle frame s1 l = Some s' ->
     (i_pc s' = IBody /\ i_rdl s' = i_rdl s /\ i_have s' + i_sock s' = i_have s + i_sock s /\ i_done s' = i_done s) \/ exists t, i_pc s' = IStopped t).
  { induction l as [|a l IH]; intros s1 N J R; cbn [irun] in R; [injection R as <-; exact J|]. destruct (istep idle frame s1 a) as [s2|] eqn:E; [|discriminate]. apply (IH s2); [intros k Hk; apply (N k); right; exact Hk| |exact R]. clear R IH.
    destruct J as [(J1 & J2 & J3 & J4)|(t & J)].
    - destruct a; cbn [istep] in E; rewrite ?J1, ?J4 in E; try discriminate E.
      + injection E as <-. left. cbn. auto.
      + destruct (N k). left. reflexivity.
      + destruct (_ && _) eqn:B; [|discriminate E]. injection E as <-. left. cbn. split; [reflexivity|]. split; [exact J2|]. split; [|reflexivity].
        apply andb_prop in B as [B _]. apply andb_prop in B as [B B2]. apply Nat.leb_le in B2. lia.
      + destruct (Nat.leb_spec (frame (length (i_done s))) (i_have s1)); [|discriminate E]. lia.
      + destruct (_ && _); [|discriminate E]. injection E as <-. right. eexists. reflexivity.
      + injection E as <-. left. cbn. auto.
      + destruct (expired _ _); [discriminate E|]. injection E as <-. left. cbn. auto.
    - right. exists t. destruct a; cbn [istep] in E; rewrite ?J in E; try discriminate E.
      + injection E as <-. reflexivity.
      + destruct (0 <? k); [|discriminate E]. injection E as <-. reflexivity.
      + injection E as <-. reflexivity.
      + destruct (expired _ _); [discriminate E|]. injection E as <-. reflexivity. }
  intros l N R. apply (G l s N); [left; auto|exact R].
Qed.
Theorem C93_times_out_partial : forall idle frame l s l' s', 0 < idle -> conn_does idle frame l s -> i_pc s = IBody -> i_have s + i_sock s < frame (length (i_done s)) ->
  irun idle frame s l' = Some s' -> (forall k, ~ In (IArrive k) l') -> i_now s + idle <= i_now s' ->
  (exists t, i_pc s' = IStopped t) \/
  ((exists s2, istep idle frame s' ITimeout = Some s2 /\ i_pc s2 = IStopped (i_now s')) /\ forall a s2, istep idle frame s' a = Some s2 -> i_pc s2 = i_pc s' \/ a = ITimeout).
Proof.
  intros idle frame l s l' s' H R P A R' N T. destruct (waits_on idle frame l' s s' P A N R') as [(J1 & J2 & J3 & J4)|X]; [right|left; exact X].
  destruct (conn_inv idle frame l s R) as (_ & _ & I). rewrite P in I. destruct (I H) as (t0 & Er & L & _). rewrite Er in J2.
  assert (X : expired (i_now s') (i_rdl s') = true) by (rewrite J2; cbn [expired]; apply Nat.leb_le; lia).
  assert (Hv : i_have s' < frame (length (i_done s'))) by (rewrite J4; lia). apply Nat.ltb_lt in Hv.
  split.
  - cbn [istep]. rewrite J1, Hv, X. eexists. split; reflexivity.
  - intros a s2 E. destruct a; cbn [istep] in E; rewrite ?J1 in E; try discriminate E; auto.
    + injection E as <-. auto.
    + destruct (0 <? k); [|discriminate E]. injection E as <-. auto.
    + rewrite X, andb_false_r in E. discriminate E.
    + apply Nat.ltb_lt in Hv. destruct (Nat.leb_spec (frame (length (i_done s'))) (i_have s')); [lia|discriminate E].
    + injection E as <-. auto.
    + destruct (expired _ (i_wdl s')); [discriminate E|]. injection E as <-. auto.
Qed.

(** A message that has arrived before the deadline can be read, and then the reader waits for the next with a new deadline. *)
Theorem C93_kept_alive_partial : forall idle frame l s, 0 < idle -> conn_does idle frame l s -> i_pc s = IBody -> frame (length (i_done s)) <= i_have s + i_sock s -> expired (i_now s) (i_rdl s) = false ->
  exists l' s', irun idle frame s l' = Some s' /\ (forall a, In a l' -> a <> ITick) /\ i_pc s' = IBody /\ i_done s' = i_now s :: i_done s /\ i_rdl s' = Some (i_now s + idle).
Proof.
  intros idle frame l s H R P A X.
  assert (Y : exists l1 s1, irun idle frame s l1 = Some s1 /\ (forall a, In a l1 -> a <> ITick) /\ i_pc s1 = IBody /\ i_now s1 = i_now s /\ i_done s1 = i_done s /\ frame (length (i_done s1)) <= i_have s1).
  { destruct (Nat.lt_ge_cases (i_have s) (frame (length (i_done s)))) as [B|B]; [|exists [], s; repeat split; auto].
    exists [IFill (i_sock s)]. cbn [irun istep]. rewrite P, X. pose proof B as B'. apply Nat.ltb_lt in B'. rewrite B', Nat.leb_refl. assert (Z : 0 <? i_sock s = true) by (apply Nat.ltb_lt; lia). rewrite Z. cbn [andb negb].
    eexists. split; [reflexivity|]. cbn. split; [intros a [<- |[]]; discriminate|]. repeat split; auto; lia. }
  destruct Y as (l1 & s1 & R1 & N1 & P1 & T1 & D1 & F1). exists (l1 ++ [IFrame; IHandled; IRead]). rewrite irun_app, R1. cbn [irun istep]. rewrite P1. apply Nat.leb_le in F1. rewrite F1.
  cbn [istep i_now i_pc i_rdl i_sock i_have i_wdl i_arrived i_wrote i_done]. eexists. split; [reflexivity|]. split; [|cbn; unfold deadline; destruct (Nat.eqb_spec idle 0); [lia|]; rewrite T1, D1; auto].
  intros a Ha. apply in_app_or in Ha as [Ha|[<- |[<- |[<- |[]]]]]; [exact (N1 a Ha)|discriminate|discriminate|discriminate].
Qed.

(** A node that sends at times 0, 1 and 2 with a timeout of 3; one whose first message is read at 1, and which is then idle. *)
Example C93_refuted_nonvacuous : exists s, conn_does 3 (fun _ => 10) (IRead :: writing 3 ++ [ITimeout]) s /\ i_pc s = IStopped 3 /\ i_wrote s = [2; 1; 0].
Proof. eexists. split; [vm_compute; reflexivity|]. split; reflexivity. Qed.
Example C93_partial_nonvacuous : exists s s', conn_does 3 (fun _ => 10) [IRead; IArrive 4; IFill 4; ITick; IArrive 9; IFill 9; IFrame; IHandled; IRead] s /\ i_pc s = IBody /\ i_done s = [1] /\ i_have s = 3 /\
  irun 3 (fun _ => 10) s [ITick; IWriteTop; ITick; ITick; ITimeout] = Some s' /\ i_pc s' = IStopped 4.
Proof. eexists _, _. split; [vm_compute; reflexivity|]. repeat split; vm_compute; reflexivity. Qed.
Example C93_kept_alive_nonvacuous : exists s, conn_does 3 (fun _ => 10) [IRead; IArrive 4; IFill 4; ITick; ITick; IArrive 9] s /\ i_pc s = IBody /\ i_have s + i_sock s = 13 /\ expired (i_now s) (i_rdl s) = false.
Proof. eexists. split; [vm_compute; reflexivity|]. repeat split; reflexivity. Qed.

Print Assumptions C93_writing_does_not_help.
Print Assumptions C93_slow_message_does_not_help.
Print Assumptions C93_refuted.
Print Assumptions C93_partial.
Print Assumptions C93_times_out_partial.
Print Assumptions C93_kept_alive_partial.
