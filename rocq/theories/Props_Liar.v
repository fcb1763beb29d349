(** * C118, C119: what peers that lie about others can make Find return and leave out. *)
From Verif Require Import Base Spec M_ID M_Binary M_Table P_Binary P_Table M_Iter P_Iter Props_Kad Props_Iter Props_Discover.
From Coq Require Import Permutation.
Local Open Scope nat_scope.

(** ** Spec *)

(** [at_addr a]: the public key of the node that answers at the address [a], if any does (its key is proved in the handshake, C49; lookupRequest, iterator.go:161-180, asks
    for no particular key).  An ID is genuine if the owner of its key is who answers at its address. *)
Definition genuine (at_addr : bytes -> option pubkey) (id : ID) : Prop := at_addr (id_addr id) = Some (id_key id).
(** Answers come from where somebody is; who does not lie names only genuine IDs. *)
Definition in_world (at_addr : bytes -> option pubkey) (liar : pubkey -> bool) (s : istate) : Prop :=
  forall a, In a (i_answered s) -> exists key, at_addr (id_addr (fst a)) = Some key /\ (liar key = false -> forall id, In id (snd a) -> genuine at_addr id).
(** Somebody who lies has named it. *)
Definition blamed (at_addr : bytes -> option pubkey) (liar : pubkey -> bool) (s : istate) (id : ID) : Prop :=
  exists a key, In a (i_answered s) /\ In id (snd a) /\ at_addr (id_addr (fst a)) = Some key /\ liar key = true.

(** Find, started from genuine peers, returns genuine IDs only. *)
Definition C118_statement : Prop := forall at_addr liar self ops t peers target n k max sched s l, table_of self ops t -> key32 target -> Peers t = Ok peers ->
  (forall id, In id peers -> genuine at_addr id) ->
  find_run t target n k sched s -> replies32 sched -> in_world at_addr liar s -> i_done s = true -> (0 <= max)%Z -> find_result target max (i_found s) = Ok l ->
  forall id, In id l -> genuine at_addr id.
(** Whoever has been named by an honest peer is asked at an address of theirs. *)
Definition C119_statement : Prop := forall at_addr liar self ops t peers target n k sched s, table_of self ops t -> Peers t = Ok peers ->
  (forall id, In id peers -> genuine at_addr id) -> (0 < k)%Z ->
  find_run t target n k sched s -> in_world at_addr liar s -> i_done s = true ->
  forall a key id, In a (i_answered s) -> at_addr (id_addr (fst a)) = Some key -> liar key = false -> In id (snd a) -> id_key id <> id_key self -> id_key id <> target ->
  exists id', In id' (map fst (i_asked s)) /\ id_key id' = id_key id /\ genuine at_addr id'.

(** ** Proofs *)

Lemma asked_id t peers target n k sched s : Peers t = Ok peers -> find_run t target n k sched s ->
  forall id, In id (map fst (i_asked s)) -> In id peers \/ exists a, In a (i_answered s) /\ In id (snd a).
Proof.
  intros EP R id Hid. set (all := peers ++ flat_map snd (i_answered s)).
  set (p := fun x => if in_dec id_eq_dec x all then false else true).
  assert (Hp : forall x, p x = false <-> In x all).
  { intros x. unfold p. destruct (in_dec id_eq_dec x all); split; intros; auto; try discriminate. contradiction. }
  destruct (run_zero _ _ _ _ _ _ p R) as [Z _].
  - intros peers' EP'. rewrite EP in EP'. injection EP' as <-. apply cntp_zero. intros x Hx. apply Hp. apply in_or_app. left. exact Hx.
  - intros a Ha. destruct a; cbn; auto. destruct r as [ids|]; cbn; auto. intros x Hx. apply Hp. apply in_or_app. right.
    destruct R as (peers' & s0 & _ & _ & ER). destruct (reply_kept _ _ _ _ _ _ _ ER Ha) as (i0 & X). apply in_flat_map. eauto.
  - assert (Z1 : cntp p (map fst (i_asked s)) = 0) by (unfold s_pend in Z; lia).
    pose proof (proj1 (cntp_zero p _) Z1 id Hid) as F. apply Hp in F. apply in_app_or in F as [F|F]; [left; exact F|]. right.
    apply in_flat_map in F as (a & Ha & Hx). eauto.
Qed.

Lemma answering_asked t target n k sched s : find_run t target n k sched s -> forall id, In id (answering s) -> In id (map fst (i_asked s)).
Proof.
  intros R id H. set (p := fun x => if id_eq_dec x id then true else false). destruct (answered_le _ _ _ _ _ _ R p) as [X _].
  destruct (in_dec id_eq_dec id (map fst (i_asked s))) as [|N]; [assumption|]. exfalso.
  assert (Z : cntp p (map fst (i_asked s)) = 0). { apply cntp_zero. intros y Hy. unfold p. destruct (id_eq_dec y id) as [->|]; [contradiction|reflexivity]. }
  assert (Z1 : cntp p (answering s) = 0) by lia. pose proof (proj1 (cntp_zero p _) Z1 id H) as F. unfold p in F. destruct (id_eq_dec id id); [discriminate|contradiction].
Qed.

(** An ID that has been asked is genuine, or somebody who lies has named it. *)
Lemma asked_genuine at_addr liar t peers target n k sched s : Peers t = Ok peers -> (forall id, In id peers -> genuine at_addr id) ->
  find_run t target n k sched s -> in_world at_addr liar s ->
  forall id, In id (map fst (i_asked s)) -> genuine at_addr id \/ blamed at_addr liar s id.
Proof.
  intros EP G R W id H. destruct (asked_id _ _ _ _ _ _ _ EP R id H) as [P|(a & Ha & Hi)]; [left; exact (G id P)|].
  destruct (W a Ha) as (key & At & Hon). destruct (liar key) eqn:L; [|left; exact (Hon eq_refl id Hi)]. right. exists a, key. auto.
Qed.

(** Whatever is returned, somebody answered at its address, and it is genuine unless somebody who lies has named it. *)
Theorem C118_partial : forall at_addr liar self ops t peers target n k max sched s l, table_of self ops t -> key32 target -> Peers t = Ok peers ->
  (forall id, In id peers -> genuine at_addr id) ->
  find_run t target n k sched s -> replies32 sched -> in_world at_addr liar s -> i_done s = true -> (0 <= max)%Z -> find_result target max (i_found s) = Ok l ->
  forall id, In id l -> (exists key, at_addr (id_addr id) = Some key) /\ (genuine at_addr id \/ blamed at_addr liar s id).
Proof.
  intros at_addr liar self ops t peers target n k max sched s l T K EP G R Q W D Hm E id Hid.
  destruct (C24_result self ops t target n k max sched s T K R Q D Hm) as (l' & E' & (_ & _ & Inc & _) & _). rewrite E in E'. injection E' as <-.
  pose proof (Inc id Hid) as A. split.
  - unfold answering in A. apply in_map_iff in A as (a & <- & Ha). destruct (W a Ha) as (key & At & _). eauto.
  - exact (asked_genuine at_addr liar t peers target n k sched s EP G R W id (answering_asked _ _ _ _ _ _ R id A)).
Qed.
Print Assumptions C118_partial.
(** If nobody lies, all that is returned is genuine. *)
Theorem C118_honest : forall at_addr self ops t peers target n k max sched s l, table_of self ops t -> key32 target -> Peers t = Ok peers ->
  (forall id, In id peers -> genuine at_addr id) ->
  find_run t target n k sched s -> replies32 sched -> in_world at_addr (fun _ => false) s -> i_done s = true -> (0 <= max)%Z -> find_result target max (i_found s) = Ok l ->
  forall id, In id l -> genuine at_addr id.
Proof.
  intros at_addr self ops t peers target n k max sched s l T K EP G R Q W D Hm E id Hid.
  destruct (C118_partial at_addr _ self ops t peers target n k max sched s l T K EP G R Q W D Hm E id Hid) as (_ & [H|(a & key & _ & _ & _ & F)]); [exact H|discriminate F].
Qed.
Print Assumptions C118_honest.

(** Whoever an honest peer names is asked, once; at an address of theirs, unless somebody who lies has named another address, at which they are not. *)
Theorem C119_partial : forall at_addr liar self ops t peers target n k sched s, table_of self ops t -> Peers t = Ok peers ->
  (forall id, In id peers -> genuine at_addr id) -> (0 < k)%Z ->
  find_run t target n k sched s -> in_world at_addr liar s -> i_done s = true ->
  forall a id, In a (i_answered s) -> In id (snd a) -> id_key id <> id_key self -> id_key id <> target ->
  exists id', In id' (map fst (i_asked s)) /\ id_key id' = id_key id /\ (genuine at_addr id' \/ blamed at_addr liar s id') /\
    forall id'', In id'' (map fst (i_asked s)) -> id_key id'' = id_key id -> id'' = id'.
Proof.
  intros at_addr liar self ops t peers target n k sched s T EP G Hk R W D a id Ha Hi N1 N2.
  destruct (C24_exhaustive self ops t target n k sched s peers T R EP D Hk) as [_ B].
  assert (Nm : named s (id_key id)) by (exists a; split; [exact Ha|apply in_map, Hi]).
  destruct (proj1 (queried_in s (id_key id)) (B _ Nm N1 N2)) as (id' & Hq & Ek). exists id'. split; [exact Hq|]. split; [exact Ek|].
  split; [exact (asked_genuine at_addr liar t peers target n k sched s EP G R W id' Hq)|].
  intros id'' Hq'' Ek''. destruct (C24_queries self ops t target n k sched s T R) as [ND _]. unfold queried in ND. rewrite <- (map_map fst id_key) in ND.
  revert Hq Hq'' ND. rewrite <- Ek in Ek''. revert Ek''. clear. generalize (map fst (i_asked s)) as q. intros q. induction q as [|x q IH]; intros Ek Ha Hb ND; [destruct Ha|].
  cbn [map] in ND. inversion ND as [|? ? Nin ND']; subst. destruct Ha as [->|Ha], Hb as [->|Hb].
  - reflexivity.
  - exfalso. apply Nin. rewrite <- Ek. apply in_map, Hb.
  - exfalso. apply Nin. rewrite Ek. apply in_map, Ha.
  - exact (IH Ek Ha Hb ND').
Qed.
Print Assumptions C119_partial.

(** ** Node 1 knows 3, which lies, and 2, which does not.  Asked first, 3 names the key of 4 with its own address; 2 names 4 as it is.  *)
Definition li_fake : ID := mkID (id_key (d_id 4)) (id_host (d_id 3)) (id_port (d_id 3)) (id_addr (d_id 3)).
Definition li_net (id : ID) : option (list ID) :=
  if bytes_eqb (id_addr id) (id_addr (d_id 3)) then Some [li_fake] else if bytes_eqb (id_addr id) (id_addr (d_id 2)) then Some [d_id 4; d_id 1] else Some [].
Definition li_at (a : bytes) : option pubkey :=
  option_map id_key (find (fun id => bytes_eqb (id_addr id) a) [d_id 1; d_id 2; d_id 3; d_id 4]).
Definition li_liar (key : pubkey) : bool := bytes_eqb key (id_key (d_id 3)).
Definition li_ops := [OpUpdate (d_id 3); OpUpdate (d_id 2)].
Definition li_table : table := mk_table (d_id 1) li_ops.
Definition li_start : istate := match iter_init (id_key (t_self li_table)) (id_key (d_id 1)) [d_id 3; d_id 2] 1 1 with Ok s => s | _ => mkI [] [] [] false [] false [] [] end.
Definition li_sched : list iaction := drive 200 1 li_net li_start.
Definition li_end : istate := match irun 1 li_start li_sched with Some s => s | None => li_start end.
Lemma li_table_of : table_of (d_id 1) li_ops li_table.
Proof. apply mk_table_of; [reflexivity | repeat constructor]. Qed.
Lemma li_peers : Peers li_table = Ok [d_id 3; d_id 2].
Proof. vm_compute. reflexivity. Qed.
Lemma li_run : find_run li_table (id_key (d_id 1)) 1 1 li_sched li_end.
Proof. exists [d_id 3; d_id 2], li_start. split; [exact li_peers|]. split; vm_compute; reflexivity. Qed.
Lemma li_genuine : forall id, In id [d_id 3; d_id 2] -> genuine li_at id.
Proof. intros id [<-|[<-|[]]]; vm_compute; reflexivity. Qed.
Lemma li_answered : i_answered li_end = [(d_id 2, [d_id 4; d_id 1]); (li_fake, [li_fake]); (d_id 3, [li_fake])] \/ i_answered li_end = [(li_fake, [li_fake]); (d_id 2, [d_id 4; d_id 1]); (d_id 3, [li_fake])].
Proof. vm_compute. auto. Qed.
Lemma li_world : in_world li_at li_liar li_end.
Proof.
  intros a Ha. assert (O : a = (d_id 2, [d_id 4; d_id 1]) \/ a = (li_fake, [li_fake]) \/ a = (d_id 3, [li_fake])).
  { destruct li_answered as [E|E]; rewrite E in Ha; destruct Ha as [<-|[<-|[<-|[]]]]; auto. }
  destruct O as [->|[->| ->]].
  - exists (id_key (d_id 2)). split; [vm_compute; reflexivity|]. intros _ id [<-|[<-|[]]]; vm_compute; reflexivity.
  - exists (id_key (d_id 3)). split; [vm_compute; reflexivity|]. intros X. vm_compute in X. discriminate.
  - exists (id_key (d_id 3)). split; [vm_compute; reflexivity|]. intros X. vm_compute in X. discriminate.
Qed.
Lemma li_32 : replies32 li_sched.
Proof.
  assert (B : forallb (fun a => match a with AReply _ _ (Some ids) => forallb (fun id => length (id_key id) =? 32) ids | _ => true end) li_sched = true) by (vm_compute; reflexivity).
  intros a Ha. pose proof (proj1 (forallb_forall _ _) B a Ha) as F. destruct a; try exact Logic.I. destruct r as [ids|]; [|exact Logic.I]. intros id Hid.
  apply Nat.eqb_eq. exact (proj1 (forallb_forall _ _) F id Hid).
Qed.
Lemma li_result : i_done li_end = true /\ find_result (id_key (d_id 1)) 16 (i_found li_end) = Ok [d_id 3; d_id 2; li_fake].
Proof. split; vm_compute; reflexivity. Qed.
Lemma li_asked : forall id, In id (map fst (i_asked li_end)) -> id_key id = id_key (d_id 4) -> id = li_fake.
Proof.
  assert (B : forallb (fun id => negb (bytes_eqb (id_key id) (id_key (d_id 4))) || id_eqb id li_fake) (map fst (i_asked li_end)) = true) by (vm_compute; reflexivity).
  intros id Hid Ek. pose proof (proj1 (forallb_forall _ _) B id Hid) as F. cbv beta in F. apply orb_prop in F as [F|F]; [|apply id_eqb_eq, F].
  rewrite Ek in F. vm_compute in F. discriminate.
Qed.
Lemma li_fake_not : ~ genuine li_at li_fake.
Proof. intros H. vm_compute in H. discriminate. Qed.

Theorem C118_refuted : ~ C118_statement.
Proof.
  intros H. apply li_fake_not. apply (H li_at li_liar (d_id 1) li_ops li_table [d_id 3; d_id 2] (id_key (d_id 1)) 1%Z 1%Z 16%Z li_sched li_end [d_id 3; d_id 2; li_fake]).
  - exact li_table_of.
  - reflexivity.
  - exact li_peers.
  - exact li_genuine.
  - exact li_run.
  - exact li_32.
  - exact li_world.
  - exact (proj1 li_result).
  - lia.
  - exact (proj2 li_result).
  - right; right; left; reflexivity.
Qed.
Print Assumptions C118_refuted.
Theorem C119_refuted : ~ C119_statement.
Proof.
  intros H. destruct (H li_at li_liar (d_id 1) li_ops li_table [d_id 3; d_id 2] (id_key (d_id 1)) 1%Z 1%Z li_sched li_end li_table_of li_peers li_genuine eq_refl li_run li_world (proj1 li_result)
    (d_id 2, [d_id 4; d_id 1]) (id_key (d_id 2)) (d_id 4)) as (id' & Hq & Ek & Hg).
  - destruct li_answered as [E|E]; rewrite E; [left|right; left]; reflexivity.
  - vm_compute. reflexivity.
  - vm_compute. reflexivity.
  - left. reflexivity.
  - vm_compute. discriminate.
  - vm_compute. discriminate.
  - rewrite (li_asked id' Hq Ek) in Hg. exact (li_fake_not Hg).
Qed.
Print Assumptions C119_refuted.

(** The hypotheses of the partial theorems hold there, and those of [C118_honest] in the run of Props_Discover, in which everybody tells the truth. *)
Example C118_partial_nonvacuous : table_of (d_id 1) li_ops li_table /\ Peers li_table = Ok [d_id 3; d_id 2] /\ find_run li_table (id_key (d_id 1)) 1 1 li_sched li_end /\ replies32 li_sched /\
  in_world li_at li_liar li_end /\ i_done li_end = true /\ blamed li_at li_liar li_end li_fake /\ genuine li_at (d_id 2).
Proof.
  split; [exact li_table_of|]. split; [exact li_peers|]. split; [exact li_run|]. split; [exact li_32|]. split; [exact li_world|]. split; [exact (proj1 li_result)|]. split; [|vm_compute; reflexivity].
  exists (d_id 3, [li_fake]), (id_key (d_id 3)). split; [destruct li_answered as [E|E]; rewrite E; right; right; left; reflexivity|]. split; [left; reflexivity|]. split; vm_compute; reflexivity.
Qed.
Definition ch_at (a : bytes) : option pubkey := option_map id_key (find (fun id => bytes_eqb (id_addr id) a) [d_id 1; d_id 2; d_id 3; d_id 4; d_id 5]).
Example C118_honest_nonvacuous : in_world ch_at (fun _ => false) chain_end /\ (forall id, In id [d_id 2] -> genuine ch_at id) /\ length (i_answered chain_end) = 4.
Proof.
  split; [|split; [intros id [<-|[]]; vm_compute; reflexivity|vm_compute; reflexivity]].
  assert (B : forallb (fun a => match ch_at (id_addr (fst a)) with Some _ => forallb (fun id => match ch_at (id_addr id) with Some key => bytes_eqb key (id_key id) | None => false end) (snd a) | None => false end)
    (i_answered chain_end) = true) by (vm_compute; reflexivity).
  intros a Ha. pose proof (proj1 (forallb_forall _ _) B a Ha) as F. cbv beta in F. destruct (ch_at (id_addr (fst a))) as [key|]; [|discriminate]. exists key. split; [reflexivity|].
  intros _ id Hid. pose proof (proj1 (forallb_forall _ _) F id Hid) as F1. cbv beta in F1. unfold genuine. destruct (ch_at (id_addr id)) as [k2|]; [|discriminate]. apply bytes_eqb_eq in F1. rewrite F1. exact (eq_refl _).
Qed.
