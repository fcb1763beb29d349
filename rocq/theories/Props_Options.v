(** * C99: what the options of Find, of the Kademlia protocol and of gossip do. *)
From Verif Require Import Base Spec M_ID M_Table P_Table M_Iter P_Iter M_Options Props_Kad Props_Iter.
Local Open Scope Z_scope.

(** With whatever options, Find does not crash, returns no more peers than it was told, and asks every peer it starts from. *)
Definition C99_statement : Prop := forall self ops t target opts sched, table_of self ops t -> key32 target -> replies32 sched ->
  ~ find_crashes t target opts sched /\
  forall s, find_run t target (ic_lookups (NewIterator opts)) (ic_requests (NewIterator opts)) sched s -> i_done s = true ->
    forall peers id, Peers t = Ok peers -> In id peers -> In (id_key id) (queried s).

Definition or_else {A} (d : A) (o : option A) : A := match o with Some x => x | None => d end.

Lemma fold_last {C O A} (app : C -> O -> C) (g : C -> A) (f : O -> option A) :
  (forall c o, g (app c o) = or_else (g c) (f o)) -> forall os c, g (fold_left app os c) = or_else (g c) (last_some f os).
Proof.
  intros H os. induction os as [|o os IH]; intros c; [reflexivity|]. cbn [fold_left last_some]. rewrite IH, H.
  destruct (last_some f os); reflexivity.
Qed.

(** Each setting is the one given last, or else the documented default. *)
Theorem C99_settings : forall opts,
  let last {A} (f : iter_option -> option A) := last_some f opts in
  let c := NewIterator opts in
  ic_max c = or_else 16 (last (fun o => match o with WithIteratorMaxNumResults n => Some n | _ => None end)) /\
  ic_lookups c = or_else 3 (last (fun o => match o with WithIteratorNumParallelLookups n => Some n | _ => None end)) /\
  ic_requests c = or_else 8 (last (fun o => match o with WithIteratorNumParallelRequestsPerLookup n => Some n | _ => None end)) /\
  ic_timeout c = or_else 3000000000 (last (fun o => match o with WithIteratorLookupTimeout d => Some d | _ => None end)) /\
  ic_logger c = or_else 0%nat (last (fun o => match o with WithIteratorLogger l => Some l | _ => None end)).
Proof.
  intros opts last c. unfold last, c, NewIterator.
  split; [|split; [|split; [|split]]].
  - rewrite (fold_last apply_iter ic_max (fun o => match o with WithIteratorMaxNumResults n => Some n | _ => None end)); [reflexivity|]. intros [] []; reflexivity.
  - rewrite (fold_last apply_iter ic_lookups (fun o => match o with WithIteratorNumParallelLookups n => Some n | _ => None end)); [reflexivity|]. intros [] []; reflexivity.
  - rewrite (fold_last apply_iter ic_requests (fun o => match o with WithIteratorNumParallelRequestsPerLookup n => Some n | _ => None end)); [reflexivity|]. intros [] []; reflexivity.
  - rewrite (fold_last apply_iter ic_timeout (fun o => match o with WithIteratorLookupTimeout d => Some d | _ => None end)); [reflexivity|]. intros [] []; reflexivity.
  - rewrite (fold_last apply_iter ic_logger (fun o => match o with WithIteratorLogger l => Some l | _ => None end)); [reflexivity|]. intros [] []; reflexivity.
Qed.
Print Assumptions C99_settings.

Theorem C99_protocols : forall kopts gopts l,
  let c := kad_Bind l (kademlia_New kopts) in
  kc_ping c = or_else 3000000000 (last_some (fun o => match o with WithProtocolPingTimeout d => Some d | _ => None end) kopts) /\
  kc_events c = or_else 0%nat (last_some (fun o => match o with WithProtocolEvents e => Some e | _ => None end) kopts) /\
  kc_logger c = Some (or_else l (or_else None (last_some (fun o => match o with WithProtocolLogger x => Some x | _ => None end) kopts))) /\
  gossip_New gopts = or_else 0%nat (last_some (fun o => match o with WithEvents e => Some e end) gopts).
Proof.
  intros kopts gopts l c. unfold c, kad_Bind, kademlia_New, gossip_New. cbn [kc_ping kc_events kc_logger].
  split; [|split; [|split]].
  - rewrite (fold_last apply_kad kc_ping (fun o => match o with WithProtocolPingTimeout d => Some d | _ => None end)); [reflexivity|]. intros [] []; reflexivity.
  - rewrite (fold_last apply_kad kc_events (fun o => match o with WithProtocolEvents e => Some e | _ => None end)); [reflexivity|]. intros [] []; reflexivity.
  - rewrite (fold_last apply_kad kc_logger (fun o => match o with WithProtocolLogger x => Some x | _ => None end)); [reflexivity|]. intros [] []; reflexivity.
  - rewrite (fold_last _ (fun x : nat => x) (fun o => match o with WithEvents e => Some e end)); [reflexivity|]. intros c0 []. reflexivity.
Qed.
Print Assumptions C99_protocols.

(** A run in which nobody answers ends. *)
Lemma silent_run k U : forall m s, sok k s -> s_pend (outside U) s = 0%nat -> s_flight (outside U) s = 0%nat -> (mu U s <= m)%nat ->
  exists sched s', irun k s sched = Some s' /\ i_done s' = true.
Proof.
  induction m as [|m IH]; intros s W P F M.
  all: destruct (i_done s) eqn:D; [exists [], s; split; [reflexivity | exact D]|].
  all: destruct (progress k s W D) as (a & s1 & St & Q).
  all: pose proof (mu_step U k s a s1 St F) as L.
  - lia.
  - assert (Q' : reply_ok (fun id => outside U id = false) a) by (destruct a; auto; cbn in *; destruct r; auto; intros id Hid; destruct (Q id Hid)).
    destruct (zero_step _ _ _ _ _ St Q' P F) as [P1 F1].
    destruct (IH s1 (sok_step _ _ _ _ St W) P1 F1 ltac:(lia)) as (sched & s' & R & D').
    exists (a :: sched), s'. cbn. rewrite St. auto.
Qed.

Lemma ends self target peers n k s0 : iter_init self target peers n k = Ok s0 -> exists sched s, irun (Z.to_nat k) s0 sched = Some s /\ i_done s = true.
Proof.
  intros EI. destruct (init_pend _ _ _ _ _ _ (outside (map id_key peers)) EI) as (P0 & F0 & _).
  apply (silent_run (Z.to_nat k) (map id_key peers) (mu (map id_key peers) s0) s0 (init_sok _ _ _ _ _ _ EI)); [|exact F0|lia].
  rewrite P0. apply cntp_zero. intros x Hx. unfold outside. apply negb_false_iff. apply existsb_exists. exists (id_key x).
  split; [apply in_map; exact Hx | apply bytes_eqb_refl].
Qed.

(** When Find crashes: exactly for these options, whatever the network. *)
Theorem C99_crashes : forall self ops t peers target opts, table_of self ops t -> key32 target -> Peers t = Ok peers ->
  let c := NewIterator opts in
  ((exists sched, find_crashes t target opts sched) <->
   ic_lookups c < 0 \/ (ic_lookups c = 0 /\ peers <> []) \/ (0 < ic_lookups c /\ ic_requests c < 0) \/ ic_max c < 0).
Proof.
  intros self ops t peers target opts T K EP c. destruct (C24_options (id_key (t_self t)) target peers (ic_lookups c) (ic_requests c)) as [I R].
  unfold find_crashes. fold c. split.
  - intros (sched & [C|(p & EP' & [C|(s0 & s & _ & _ & _ & C)])]); [congruence| |apply R in C; auto].
    assert (p = peers) as -> by congruence. apply I in C. tauto.
  - intros H. assert (D : iter_init (id_key (t_self t)) target peers (ic_lookups c) (ic_requests c) = Panic \/
                          exists s0, iter_init (id_key (t_self t)) target peers (ic_lookups c) (ic_requests c) = Ok s0).
    { destruct (iter_init _ _ _ _ _) as [s0|e|] eqn:E; [right; eauto | exfalso; revert E; apply iter_init_no_err | left; reflexivity]. }
    destruct D as [D|[s0 D]].
    + exists []. right. exists peers. split; [exact EP|]. left. exact D.
    + assert (M : ic_max c < 0).
      { destruct H as [H|[H|[H|H]]]; [| | |exact H]; (assert (D' := proj2 I ltac:(tauto)); congruence). }
      destruct (ends _ _ _ _ _ _ D) as (sched & s & ER & Dn). exists sched. right. exists peers. split; [exact EP|]. right.
      exists s0, s. split; [exact D|]. split; [exact ER|]. split; [exact Dn|]. apply R. exact M.
Qed.
Print Assumptions C99_crashes.

(** Without parallel requests nobody is asked. *)
Theorem C99_nobody_asked : forall t target n sched s, find_run t target n 0 sched s -> queried s = [].
Proof.
  intros t target n sched s (peers & s0 & EP & EI & ER).
  enough (i_asked s = [] /\ sok 0 s) as [E _] by (unfold queried; rewrite E; reflexivity).
  refine (irun_inv _ (fun s => i_asked s = [] /\ sok 0 s) (fun _ => True) _ _ _ _ ER (fun _ _ => Logic.I) _).
  - clear. intros s a s' H _ [A W]. split; [|exact (sok_step _ _ _ _ H W)].
    destruct (i_asked s') as [|q r] eqn:E; [reflexivity|]. exfalso.
    assert (X : exists i j l w, nth_error (i_lookups s) i = Some l /\ nth_error (l_workers l) j = Some w).
    { clear W. step_cases H; prep; cbn in E; try congruence; eauto 8. }
    destruct X as (i & j & l & w & N1 & N2). destruct W as (W & _). pose proof (lok_workers _ _ (W i l N1)) as L.
    destruct (l_workers l); [destruct j; discriminate N2 | discriminate L].
  - destruct (iter_init_inv _ _ _ _ _ _ EI) as (_ & _ & _ & _ & _ & _ & _ & Ea & _). split; [exact Ea|]. exact (init_sok _ _ _ _ _ _ EI).
Qed.
Print Assumptions C99_nobody_asked.

Theorem C99_partial : forall self ops t target opts sched, table_of self ops t -> key32 target -> replies32 sched ->
  let c := NewIterator opts in 0 < ic_lookups c -> 0 < ic_requests c -> 0 <= ic_max c ->
  ~ find_crashes t target opts sched /\
  (forall l, find_returns t target opts sched l -> Z.of_nat (length l) <= ic_max c) /\
  forall s, find_run t target (ic_lookups c) (ic_requests c) sched s ->
    (i_done s = false -> exists a s', istep (Z.to_nat (ic_requests c)) s a = Some s') /\
    (i_done s = true -> (exists l, find_returns t target opts sched l) /\
      forall peers id, Peers t = Ok peers -> In id peers -> In (id_key id) (queried s)).
Proof.
  intros self ops t target opts sched T K Q c H1 H2 H3.
  destruct (C15_structure _ _ _ T) as (es & _ & _ & _ & _ & _ & _ & _ & _ & _ & peers & EP). split; [|split].
  - intros C. destruct (C99_crashes self ops t peers target opts T K EP) as [D _]. specialize (D (ex_intro _ sched C)). fold c in D. lia.
  - intros l (p & s0 & s & EP' & EI & ER & D & F). fold c in EI, ER, F.
    destruct (C24_result self ops t target (ic_lookups c) (ic_requests c) (ic_max c) sched s T K ltac:(exists p, s0; auto) Q D H3) as (l' & F' & (L & _) & _).
    rewrite F in F'. injection F' as <-. lia.
  - intros s R. split.
    + intros D. destruct (C25_progress _ _ _ _ _ _ R D) as (a & s' & St & _). eauto.
    + intros D. split.
      * pose proof R as (p & s0 & EP' & EI & ER).
        destruct (C24_result self ops t target (ic_lookups c) (ic_requests c) (ic_max c) sched s T K R Q D H3) as (l & F & _).
        exists l. exists p, s0, s. auto.
      * intros p id EP' Hid. exact (proj1 (C24_exhaustive self ops t target _ _ sched s p T R EP' D H2) id Hid).
Qed.
Print Assumptions C99_partial.

(** Looking up with no lookups at all crashes for a node that knows somebody. *)
Theorem C99_refuted : ~ C99_statement.
Proof.
  intros H. destruct (H _ _ _ it_target [WithIteratorNumParallelLookups 0] [] it_table_of eq_refl ltac:(intros a [])) as [N _]. apply N.
  right. destruct (Peers it_table) as [peers| |] eqn:EP; [|vm_compute in EP; discriminate..]. exists peers. split; [reflexivity|]. left.
  apply C24_options. right. left. split; [reflexivity|]. intros ->. vm_compute in EP. discriminate.
Qed.
Print Assumptions C99_refuted.

Example C99_nonvacuous :
  let opts := [WithIteratorMaxNumResults 2; WithIteratorNumParallelLookups 7; WithIteratorNumParallelRequestsPerLookup 3; WithIteratorNumParallelLookups 2] in
  let c := NewIterator opts in
  (ic_max c, ic_lookups c, ic_requests c, ic_timeout c) = (2, 2, 3, 3000000000) /\
  find_returns it_table it_target opts (it_sched 2 3) [ex_id 8 8; ex_id 5 5].
Proof.
  cbn zeta. split; [reflexivity|]. destruct it_find_run as (p & s0 & A & B & C). exists p, s0, (it_end 2 3).
  split; [exact A|]. split; [exact B|]. split; [exact C|]. split; vm_compute; reflexivity.
Qed.
Example C99_nobody_nonvacuous : exists sched s, find_run it_table it_target 3 0 sched s /\ i_done s = true.
Proof.
  destruct (Peers it_table) as [peers| |] eqn:EP; [|vm_compute in EP; discriminate..].
  destruct (iter_init (id_key (t_self it_table)) it_target peers 3 0) as [s0|e|] eqn:EI;
    [|exfalso; revert EI; apply iter_init_no_err | exfalso; apply C24_options in EI; lia].
  destruct (ends _ _ _ _ _ _ EI) as (sched & s & ER & D). exists sched, s. split; [exists peers, s0; auto | exact D].
Qed.
