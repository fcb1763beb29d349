(** * Properties of the gossip protocol (C27-C29, C65, C66, C80). *)
From Verif Require Import Base Spec M_ID M_Msg M_Codec M_Table P_Table M_Iter P_Iter M_Gossip P_Gossip P_GossipNet Props_Codec.
From Coq Require Import Init.Byte.
Local Open Scope nat_scope.

(** The content fits the cache: 32 bytes of key and the content make less than 64 KB. *)
Definition fits (d : bytes) : Prop := (N.of_nat (length d) + 32 < 65536)%N.
(** The cache drops nothing. *)
Definition retained (l : list gaction) : Prop := forall k, ~ In (GEvict k) l.
(** Messages come from other nodes; keys are 32 bytes. *)
Definition proper (self : pubkey) (es : list ID) (l : list gaction) : Prop :=
  key32 self /\ Forall (fun id => key32 (id_key id)) es /\ forall a, In a l -> gok self a.
(** How often OnGossipReceived was called with [d]. *)
Definition deliveries (d : bytes) (s : gstate) : nat :=
  length (filter (fun e => match e with EvReceived _ d' => bytes_eqb d d' | _ => false end) (g_log s)).
(** Every Handle and Push has returned. *)
Definition quiet (s : gstate) : Prop := forall p, In p (g_threads s) -> p = GEnd.

Lemma fits_key k d : key32 k -> fits d -> (N.of_nat (length (hash k d)) < max_cache_key)%N.
Proof. unfold fits, hash, key32, max_cache_key. intros H F. rewrite app_length, H. lia. Qed.
Lemma retained_ok l : retained l -> forall a, In a l -> is_evict a = false.
Proof. intros R [] Ha; try reflexivity. elim (R k Ha). Qed.

(** ** C27: duplicates *)

(** The node's workers run at most [w] Handle calls at once; OnGossipReceived is called at most [w] times for a content,
    whatever arrives, from whomever, however the goroutines interleave. *)
Theorem C27_at_most_workers : forall self w es l s d,
  key32 self -> retained l -> fits d -> grun self w (gossip_new es) l = Some s -> deliveries d s <= w.
Proof.
  intros self w es l s d K R F H. unfold deliveries.
  assert (I : winv self w d s).
  { apply (grun_inv (winv self w d) (fun a => is_evict a = false) self w) with (l := l) (s := gossip_new es); [| |apply retained_ok, R|exact H].
    - intros s0 a s1 I0 Na H0. apply (winv_step self w d s0 a); try assumption. apply fits_key; assumption.
    - split; [cbn; lia|]. split; [right; split; reflexivity|cbn; lia]. }
  destruct I as (_ & _ & I). change (length (filter (is_received d) (g_log s)) <= w). rewrite cntb_filter. lia.
Qed.

(** One worker: at most once. *)
Theorem C27_partial : forall self es l s d,
  key32 self -> retained l -> fits d -> grun self 1 (gossip_new es) l = Some s -> deliveries d s <= 1.
Proof. intros self es l s d. apply C27_at_most_workers. Qed.

(** And it is not lost: a message handled from another node is delivered (once every call has returned), unless the
    application pushed that content itself.  This holds even when the cache drops entries. *)
Theorem C27_not_lost : forall self w es l s from d,
  proper self es l -> ~ In (GCall d) l -> grun self w (gossip_new es) l = Some s -> quiet s ->
  In (EvFrom from d) (g_log s) -> 1 <= deliveries d s.
Proof.
  intros self w es l s from d (K & Ke & G) NC H Q Hf.
  assert (I : ids_inv self s /\ own_inv s /\ pushed_inv s /\ (forall k, In k (g_cache s) -> marked self (g_log s) k) /\ lost_inv self d s).
  { apply (grun_inv (fun s => ids_inv self s /\ own_inv s /\ pushed_inv s /\ (forall k, In k (g_cache s) -> marked self (g_log s) k) /\ lost_inv self d s)
             (fun a => gok self a /\ not_call d a) self w) with (l := l) (s := gossip_new es).
    - intros s0 a s1 (I1 & I2 & I3 & I4 & I5) (Ga & Na) St.
      split; [apply (ids_step self w s0 a); assumption|]. split; [apply (own_step self w s0 a); assumption|].
      split; [apply (pushed_step self w s0 a); assumption|]. split; [apply (cache_sound_step self w s0 a); assumption|].
      apply (lost_step self w d s0 a); assumption.
    - split; [split; [exact Ke|split; constructor]|]. split; [intros p x []|]. split; [intros t x []|]. split; [intros k []|].
      split; [intros f []|]. split; [intros []|intros []].
    - intros a Ha. split; [apply G, Ha|]. intros ->. exact (NC Ha).
    - exact H. }
  destruct I as (_ & _ & _ & _ & (A & B & _)).
  assert (O : In (EvOwn d) (g_log s)).
  { destruct (A from Hf) as [(p & Hp & W)|O]; [|exact O]. rewrite (Q p Hp) in W. destruct W. }
  destruct (B O) as [(f & Hp)|(f & Hr)]; [specialize (Q _ Hp); discriminate|].
  unfold deliveries. change (1 <= length (filter (is_received d) (g_log s))). rewrite cntb_filter.
  apply (cntb_pos (is_received d) _ _ Hr). cbn. apply bytes_eqb_refl.
Qed.

(** The property as stated, with any number of workers. *)
Definition C27_statement : Prop := forall self w es l s d,
  key32 self -> retained l -> fits d -> grun self w (gossip_new es) l = Some s -> deliveries d s <= 1.

Definition gkey (b : Byte.byte) : pubkey := repeat b 32.
Definition gid (b : Byte.byte) : ID := mkID (gkey b) [] 0 [].
Definition g_self := gkey x01.
Definition g_es := [gid x01; gid x02; gid x03; gid x04].

(** Two workers handle the same content from two peers; both check before either marks. *)
Definition race : list gaction :=
  [GArrive (gid x02) [xaa]; GArrive (gid x03) [xaa]; GStep 0 true; GStep 0 true; GStep 1 true; GStep 1 true;
   GStep 0 true; GStep 0 true; GStep 1 true; GStep 1 true].
Theorem C27_refuted : ~ C27_statement.
Proof.
  intros H.
  assert (E : exists s, grun g_self 2 (gossip_new g_es) race = Some s /\ deliveries [xaa] s = 2) by (eexists; split; vm_compute; reflexivity).
  destruct E as (s & E & D). specialize (H g_self 2 g_es race s [xaa] eq_refl).
  assert (R : retained race) by (intros k C; cbn in C; repeat (destruct C as [C|C]; [discriminate|]); exact C).
  specialize (H R ltac:(unfold fits; cbn; lia) E). lia.
Qed.

(** Without retention one worker delivers the same content twice. *)
Example C27_eviction_matters : exists l s, grun g_self 1 (gossip_new []) l = Some s /\ deliveries [xaa] s = 2.
Proof.
  exists ([GArrive (gid x02) [xaa]; GStep 0 true; GStep 0 true; GStep 0 true; GStep 0 true; GEvict (hash g_self [xaa]);
      GArrive (gid x02) [xaa]; GStep 1 true; GStep 1 true; GStep 1 true; GStep 1 true]).
  eexists. split; vm_compute; reflexivity.
Qed.

(** ** C28: echoes *)

(** Distinct (peer, content) pairs have distinct cache keys. *)
Theorem C28_hash_injective : forall k d k' d', key32 k -> key32 k' -> hash k d = hash k' d' -> k = k' /\ d = d'.
Proof. exact hash_inj. Qed.

(** A generic form of invariants of the log. *)
Lemma log_split_step (P : list gev -> gev -> Prop) s a s' self w :
  (forall l1 e l2, g_log s = l1 ++ e :: l2 -> P l1 e) ->
  (forall e, g_log s' = g_log s ++ [e] -> P (g_log s) e) ->
  gact self w s a = Some s' ->
  forall l1 e l2, g_log s' = l1 ++ e :: l2 -> P l1 e.
Proof.
  intros I N H l1 e l2 E. destruct a as [i ok|from d|d|es|k].
  - destruct (gact_step _ _ _ _ _ _ H) as (p & c & p' & new & ev & _ & G & ->). cbn [g_log] in *.
    destruct (gstep_ev_len _ _ _ _ _ _ _ _ _ G) as [->|(e' & ->)].
    + rewrite app_nil_r in E. apply (I l1 e l2 E).
    + destruct (app_snoc_split _ _ _ _ _ E) as [(l2' & E')|(-> & <-)]; [apply (I l1 e l2' E')|apply N; reflexivity].
  - cbn [gact] in H. destruct (_ <? w); [|discriminate]. injection H as <-. apply (I l1 e l2 E).
  - injection H as <-. apply (I l1 e l2 E).
  - injection H as <-. apply (I l1 e l2 E).
  - injection H as <-. apply (I l1 e l2 E).
Qed.

(** When Push decides to send a content to a peer: the peer is not the node itself, no message with that content from that
    peer has been handled before, and no push of it to that peer has been completed before.  Peers are identified by key. *)
Theorem C28_no_echo : forall self w es l s before to d after,
  proper self es l -> retained l -> fits d -> grun self w (gossip_new es) l = Some s ->
  g_log s = before ++ EvDecide to d :: after ->
  id_key to <> self /\
  (forall from, In (EvFrom from d) before -> id_key from <> id_key to) /\
  (forall to', In (EvPushed to' d) before -> id_key to' <> id_key to).
Proof.
  intros self w es l s before to d after (K & Ke & G) R F H E.
  set (P := fun (l1 : list gev) (e : gev) => match e with
     | EvDecide t x => fits x -> key32 (id_key t) /\ In (EvOwn x) l1 /\ ~ marked self l1 (hash (id_key t) x) | _ => True end).
  assert (I : ids_inv self s /\ own_inv s /\ (forall k, (N.of_nat (length k) < max_cache_key)%N -> marked self (g_log s) k -> In k (g_cache s)) /\
              (forall l1 e l2, g_log s = l1 ++ e :: l2 -> P l1 e)).
  { apply (grun_inv (fun s => ids_inv self s /\ own_inv s /\ (forall k, (N.of_nat (length k) < max_cache_key)%N -> marked self (g_log s) k -> In k (g_cache s)) /\
              (forall l1 e l2, g_log s = l1 ++ e :: l2 -> P l1 e)) (fun a => gok self a /\ is_evict a = false) self w) with (l := l) (s := gossip_new es).
    - intros s0 a s1 (I1 & I2 & I3 & I4) (Ga & Na) St.
      split; [apply (ids_step self w s0 a); assumption|]. split; [apply (own_step self w s0 a); assumption|].
      split; [apply (cache_complete_step self w s0 a); assumption|].
      apply (log_split_step P s0 a s1 self w); [exact I4| |exact St].
      intros e Ee. destruct a as [i ok|f0 d0|d0|es0|k0].
      2:{ cbn [gact] in St. destruct (_ <? w); [|discriminate]. injection St as <-. cbn in Ee. exfalso. revert Ee. clear. 
          intros Ee. apply (f_equal (@length gev)) in Ee. rewrite app_length in Ee. cbn in Ee. lia. }
      2,3,4: (injection St as <-; cbn in Ee; exfalso; revert Ee; clear; intros Ee; apply (f_equal (@length gev)) in Ee; rewrite app_length in Ee; cbn in Ee; lia).
      destruct (gact_step _ _ _ _ _ _ St) as (p & c & p' & new & ev & Np & Eg & ->). cbn [g_log] in Ee. apply app_inv_head in Ee. subst ev.
      assert (Hp : In p (g_threads s0)) by (apply nth_error_In in Np; exact Np).
      destruct p; cbn in Eg; repeat match type of Eg with context [cache_has ?a ?b] => destruct (cache_has a b) eqn:Ch end;
        try match type of Eg with context [if ok then _ else _] => destruct ok end; inversion Eg; subst; try exact I.
      cbn. intros Fx. assert (Kt : key32 (id_key to0)) by (destruct I1 as (_ & I1 & _); rewrite Forall_forall in I1; exact (I1 _ Hp)).
      split; [exact Kt|]. split; [apply (I2 _ _ Hp); reflexivity|].
      intros M. apply I3 in M; [|apply fits_key; assumption]. apply cache_has_in in M. congruence.
    - split; [split; [exact Ke|split; constructor]|]. split; [intros p x []|]. split; [intros k _ (e & [] & _)|].
      intros [|] e l2 X; discriminate.
    - intros a Ha. split; [apply G, Ha|apply (retained_ok l R a Ha)].
    - exact H. }
  destruct I as (I1 & _ & _ & I4). specialize (I4 _ _ _ E F) as (Kt & O & M).
  split; [|split].
  - intros Eq. apply M. exists (EvOwn d). split; [exact O|]. cbn. rewrite Eq. reflexivity.
  - intros from Hf Eq. apply M. exists (EvFrom from d). split; [exact Hf|]. cbn. rewrite Eq. reflexivity.
  - intros t Ht Eq. apply M. exists (EvPushed t d). split; [exact Ht|]. cbn. rewrite Eq. reflexivity.
Qed.

(** Every message sent was decided: for any set of (peer, content) pairs, at most as many sends as decisions. *)
Theorem C28_sent_decided : forall self w es l s (q : ID -> bytes -> bool),
  grun self w (gossip_new es) l = Some s ->
  length (filter (fun e => match e with EvSent t d => q t d | _ => false end) (g_log s)) <=
  length (filter (fun e => match e with EvDecide t d => q t d | _ => false end) (g_log s)).
Proof.
  intros self w es l s q H. change (length (filter (ev_sent q) (g_log s)) <= length (filter (ev_decide q) (g_log s))). rewrite !cntb_filter.
  assert (I : cntb (ev_sent q) (g_log s) + cntb (at_send q) (g_threads s) <= cntb (ev_decide q) (g_log s)); [|lia].
  apply (grun_inv (fun s => cntb (ev_sent q) (g_log s) + cntb (at_send q) (g_threads s) <= cntb (ev_decide q) (g_log s)) (fun _ => True) self w)
    with (l := l) (s := gossip_new es); [|cbn; lia|auto|exact H].
  intros s0 a s1 I _ St. apply (decide_step self w q s0 a); assumption.
Qed.

(** A peer is recorded as having the content only after it was sent successfully. *)
Lemma recorded_sent : forall self w es l s t d before after, grun self w (gossip_new es) l = Some s -> g_log s = before ++ EvPushed t d :: after -> In (EvSent t d) before.
Proof.
  intros self w es l s t d before after H E.
  set (P := fun (l1 : list gev) (e : gev) => match e with EvPushed t x => In (EvSent t x) l1 | _ => True end).
  assert (I : (forall t x, In (GMark t x) (g_threads s) -> In (EvSent t x) (g_log s)) /\ (forall l1 e l2, g_log s = l1 ++ e :: l2 -> P l1 e)).
  { apply (grun_inv (fun s => (forall t x, In (GMark t x) (g_threads s) -> In (EvSent t x) (g_log s)) /\ (forall l1 e l2, g_log s = l1 ++ e :: l2 -> P l1 e)) (fun _ => True) self w)
      with (l := l) (s := gossip_new es); [| |auto|exact H].
    2:{ split; [intros ? ? []|]. intros [|] e l2 X; discriminate. }
    intros s0 a s1 (I1 & I2) _ St. split.
    - intros t0 x0 Hm. destruct a as [i ok|f0 d0|d0|es0|k0].
      + destruct (gact_step _ _ _ _ _ _ St) as (p & c & p' & new & ev & Np & Eg & ->). cbn [g_log g_threads] in *. apply in_app_iff. apply in_app_iff in Hm as [Hm|Hm].
        * apply in_set_nth in Hm as [Em|Hm]; [rewrite <- Em in Eg|left; apply I1, Hm]. destruct p; cbn in Eg; repeat match type of Eg with context [if ?b then _ else _] => destruct b end; inversion Eg; subst; right; left; reflexivity.
        * exfalso. destruct p; cbn in Eg; repeat match type of Eg with context [if ?b then _ else _] => destruct b end; inversion Eg; subst; try contradiction Hm. apply in_map_iff in Hm as (y & Hy & _). discriminate.
      + cbn [gact] in St. destruct (_ <? w); [|discriminate]. injection St as <-. cbn [g_log g_threads] in *. apply in_app_iff in Hm as [Hm|[Hm|[]]]; [apply I1, Hm|discriminate].
      + injection St as <-. cbn [g_log g_threads] in *. apply in_app_iff in Hm as [Hm|[Hm|[]]]; [apply I1, Hm|discriminate].
      + injection St as <-. apply I1, Hm.
      + injection St as <-. apply I1, Hm.
    - apply (log_split_step P s0 a s1 self w); [exact I2| |exact St].
      intros e Ee. destruct a as [i ok|f0 d0|d0|es0|k0].
      2:{ cbn [gact] in St. destruct (_ <? w); [|discriminate]. injection St as <-. cbn in Ee. exfalso. revert Ee. clear. 
          intros Ee. apply (f_equal (@length gev)) in Ee. rewrite app_length in Ee. cbn in Ee. lia. }
      2,3,4: (injection St as <-; cbn in Ee; exfalso; revert Ee; clear; intros Ee; apply (f_equal (@length gev)) in Ee; rewrite app_length in Ee; cbn in Ee; lia).
      destruct (gact_step _ _ _ _ _ _ St) as (p & c & p' & new & ev & Np & Eg & ->). cbn [g_log] in Ee. apply app_inv_head in Ee. subst ev.
      destruct p; cbn in Eg; repeat match type of Eg with context [if ?b then _ else _] => destruct b end; inversion Eg; subst; try exact I.
      cbn. apply I1. apply nth_error_In in Np. exact Np. }
  exact (proj2 I _ _ _ E).
Qed.

(** A peer is skipped only for a reason about that peer and that content: it is this node itself, has sent the content here, or has been sent it
    successfully.  No two pairs collide. *)
Theorem C28_skipped_for_a_reason : forall self w es l s before to d after,
  proper self es l -> grun self w (gossip_new es) l = Some s ->
  g_log s = before ++ EvSkip to d :: after ->
  id_key to = self \/ (exists from, In (EvFrom from d) before /\ id_key from = id_key to) \/
  (exists to', In (EvSent to' d) before /\ id_key to' = id_key to).
Proof.
  intros self w es l s before to d after (K & Ke & G) H E.
  set (P := fun (l1 : list gev) (e : gev) => match e with EvSkip t x => exists e', In e' l1 /\ about_pair self (id_key t) x e' | _ => True end).
  assert (I : ids_inv self s /\ (forall k, In k (g_cache s) -> marked self (g_log s) k) /\ (forall l1 e l2, g_log s = l1 ++ e :: l2 -> P l1 e)).
  { apply (grun_inv (fun s => ids_inv self s /\ (forall k, In k (g_cache s) -> marked self (g_log s) k) /\ (forall l1 e l2, g_log s = l1 ++ e :: l2 -> P l1 e))
        (gok self) self w) with (l := l) (s := gossip_new es).
    - intros s0 a s1 (I1 & I3 & I4) Ga St.
      split; [apply (ids_step self w s0 a); assumption|].
      split; [apply (cache_sound_step self w s0 a); assumption|].
      apply (log_split_step P s0 a s1 self w); [exact I4| |exact St].
      intros e Ee. destruct a as [i ok|f0 d0|d0|es0|k0].
      2:{ cbn [gact] in St. destruct (_ <? w); [|discriminate]. injection St as <-. cbn in Ee. exfalso. revert Ee. clear. 
          intros Ee. apply (f_equal (@length gev)) in Ee. rewrite app_length in Ee. cbn in Ee. lia. }
      2,3,4: (injection St as <-; cbn in Ee; exfalso; revert Ee; clear; intros Ee; apply (f_equal (@length gev)) in Ee; rewrite app_length in Ee; cbn in Ee; lia).
      destruct (gact_step _ _ _ _ _ _ St) as (p & c & p' & new & ev & Np & Eg & ->). cbn [g_log] in Ee. apply app_inv_head in Ee. subst ev.
      assert (Hp : In p (g_threads s0)) by (apply nth_error_In in Np; exact Np).
      destruct p; cbn in Eg; repeat match type of Eg with context [cache_has ?a ?b] => destruct (cache_has a b) eqn:Ch end;
        try match type of Eg with context [if ok then _ else _] => destruct ok end; inversion Eg; subst; try exact I.
      cbn. assert (Kt : key32 (id_key to0)) by (destruct I1 as (_ & I1 & _); rewrite Forall_forall in I1; exact (I1 _ Hp)).
      apply (marked_pair self s0 (id_key to0) d0 K Kt I1). apply I3. apply cache_has_in, Ch.
    - split; [split; [exact Ke|split; constructor]|]. split; [intros k []|]. intros [|] e l2 X; discriminate.
    - exact G.
    - exact H. }
  destruct I as (_ & _ & I4). specialize (I4 _ _ _ E) as (e & He & [(f & -> & Ef)|[(t & -> & Et)|(-> & Es)]]).
  - right. left. exists f. auto.
  - right. right. exists t. split; [|exact Et]. apply in_split in He as (b1 & b2 & ->). rewrite <- app_assoc in E. pose proof (recorded_sent self w es l s t d b1 _ H E). apply in_app_iff. auto.
  - left. exact Es.
Qed.

(** The decision and the send are not one step: two Push calls that overlap may both send to the same peer. *)
Example C28_overlapping_pushes : exists l s, grun g_self 1 (gossip_new [gid x02]) l = Some s /\ retained l /\
  length (filter (fun e => match e with EvSent _ _ => true | _ => false end) (g_log s)) = 2.
Proof.
  exists [GCall [xaa]; GCall [xaa]; GStep 0 true; GStep 0 true; GStep 1 true; GStep 1 true; GStep 2 true; GStep 3 true; GStep 2 true; GStep 3 true].
  eexists. split; [vm_compute; reflexivity|]. split; [|vm_compute; reflexivity].
  intros k C; cbn in C; repeat (destruct C as [C|C]; [discriminate|]); exact C.
Qed.

(** A push relayed: received from 02, the node forwards to 03 only (not to itself, not back), and when 03 echoes it, nothing. *)
Definition relay : list gaction :=
  [GArrive (gid x02) [xaa]] ++ repeat (GStep 0 true) 6 ++ flat_map (fun i => repeat (GStep i true) 3) [1; 2; 3] ++
  [GArrive (gid x03) [xaa]] ++ repeat (GStep 4 true) 2.
Example C28_nonvacuous : exists s, grun g_self 1 (gossip_new [gid x01; gid x02; gid x03]) relay = Some s /\
  proper g_self [gid x01; gid x02; gid x03] relay /\ retained relay /\ quiet s /\ deliveries [xaa] s = 1 /\
  g_log s = [EvFrom (gid x02) [xaa]; EvOwn [xaa]; EvReceived (gid x02) [xaa]; EvOwn [xaa]; EvSkip (gid x01) [xaa]; EvSkip (gid x02) [xaa];
             EvDecide (gid x03) [xaa]; EvSent (gid x03) [xaa]; EvPushed (gid x03) [xaa]; EvFrom (gid x03) [xaa]].
Proof.
  assert (E : exists s, grun g_self 1 (gossip_new [gid x01; gid x02; gid x03]) relay = Some s) by (eexists; vm_compute; reflexivity).
  destruct E as (s & E). exists s. split; [exact E|]. split; [|split].
  - split; [reflexivity|]. split; [repeat constructor|]. intros a Ha. cbn in Ha. 
    repeat (destruct Ha as [Ha|Ha]; [subst a; first [exact I | split; [reflexivity|vm_compute; discriminate]]|]). destruct Ha.
  - intros k C; cbn in C; repeat (destruct C as [C|C]; [discriminate|]); exact C.
  - vm_compute in E. injection E as <-. split; [|split; vm_compute; reflexivity].
    intros p C; cbn in C; repeat (destruct C as [C|C]; [auto|]); destruct C.
Qed.

(** ** C29: flooding *)

(** [peers]: for each node the nodes in its table; the nodes reachable from [o]. *)
Inductive reachable (peers : list (list nat)) (o : nat) : nat -> Prop :=
| reach_self : reachable peers o o
| reach_peer : forall i j, reachable peers o i -> In j (nth i peers []) -> reachable peers o j.
Definition topology (peers : list (list nat)) (o : nat) : Prop :=
  o < length peers /\ forall i j, In j (nth i peers []) -> j < length peers.
(** No message in flight and no goroutine running. *)
Definition at_rest (s : net) : Prop := nt_wire s = [] /\ nt_threads s = [].

(** Gossip terminates: there is a bound, depending only on the topology, on the number of steps of every schedule, and so on
    the number of messages. *)
Theorem C29_terminates : forall peers o, topology peers o ->
  exists bound, forall l s, nrun true peers (net_start true peers o) l = Some s -> length l <= bound /\ length (nt_sent s) <= bound.
Proof.
  intros peers o (Ho & Hp). exists (nmeasure peers (net_start true peers o)). intros l s H.
  pose proof (nmeasure_run peers o Ho Hp l _ _ (ninv_start peers o Ho Hp) H) as L. split; [lia|].
  assert (G : forall l s s', nrun true peers s l = Some s' -> length (nt_sent s') <= length l + length (nt_sent s)).
  { clear. induction l as [|a l IH]; cbn [nrun length]; intros s s' R; [injection R as <-; lia|].
    destruct (nact true peers s a) as [s1|] eqn:E; [|discriminate]. specialize (IH s1 s' R).
    assert (length (nt_sent s1) <= S (length (nt_sent s))); [|lia].
    destruct a as [m|k]; cbn in E.
    - destruct (nth_error (nt_wire s) m) as [[i j]|]; [|discriminate]. injection E as <-. cbn. lia.
    - destruct (nth_error (nt_threads s) k) as [[]|]; try discriminate; injection E as <-; cbn; lia. }
  specialize (G _ _ _ H). cbn [nt_sent net_start length] in G. lia.
Qed.

(** It only stops at rest. *)
Theorem C29_stops_at_rest : forall keep peers s, (forall a, nact keep peers s a = None) -> at_rest s.
Proof.
  intros keep peers s H. split.
  - destruct (nt_wire s) as [|[i j] r] eqn:E; [reflexivity|]. specialize (H (NDeliver 0)). cbn in H. rewrite E in H. discriminate.
  - destruct (nt_threads s) as [|t r] eqn:E; [reflexivity|]. specialize (H (NThread 0)). cbn in H. rewrite E in H. destruct t; discriminate.
Qed.

(** At rest, every node reachable from the origin has received the message (the origin itself is not told). *)
Theorem C29_reaches_all : forall peers o l s j, topology peers o ->
  nrun true peers (net_start true peers o) l = Some s -> at_rest s -> reachable peers o j -> j <> o -> In j (nt_received s).
Proof.
  intros peers o l s j (Ho & Hp) H (W & T) R Nj.
  pose proof (ninv_run peers o Ho Hp l _ _ (ninv_start peers o Ho Hp) H) as [_ _ _ _ Pu Re [Oo _]].
  assert (G : nseen s j j = true /\ j < length peers).
  { clear Nj. induction R as [|i j R [IH Hi] Hj]; [auto|]. split; [|apply (Hp i j Hj)].
    destruct (Pu i j Hi IH Hj) as [[Q|[Q|(c & Q)]]|[Q|Q]]; [exact Q| | | |]; rewrite ?W, ?T in Q; destruct Q. }
  destruct (Re j (proj1 G)); [contradiction|assumption].
Qed.

(** The origin never receives its own message back as gossip. *)
Theorem C29_origin_not_told : forall peers o l s, topology peers o ->
  nrun true peers (net_start true peers o) l = Some s -> ~ In o (nt_received s).
Proof.
  intros peers o l s (Ho & Hp) H. pose proof (ninv_run peers o Ho Hp l _ _ (ninv_start peers o Ho Hp) H) as [_ _ _ _ _ _ [_ Or]]. exact Or.
Qed.

(** When no node handles two copies at the same time: each node pushes at most once to each of its peers, and receives at
    most once.  [serial]: no copy is handled by a node between another Handle's check and its mark (lines 110-114). *)
Fixpoint serial (peers : list (list nat)) (s : net) (l : list naction) : Prop :=
  match l with
  | [] => True
  | a :: l' => match a with
               | NDeliver m => forall i j, nth_error (nt_wire s) m = Some (i, j) -> ~ In (NPass j) (nt_threads s)
               | NThread _ => True
               end /\ forall s', nact true peers s a = Some s' -> serial peers s' l'
  end.
Lemma cntb_nodup {A} (eqb : A -> A -> bool) (l : list A) : (forall x, eqb x x = true) ->
  (forall x, cntb (eqb x) l <= 1) -> NoDup l.
Proof.
  intros R. induction l as [|a l IH]; intros H; [constructor|]. constructor.
  - intros C. specialize (H a). unfold cntb in H. cbn [sumf] in H. rewrite R in H. pose proof (cntb_pos (eqb a) l a C (R a)) as P. unfold cntb in P. cbn [Nat.b2n] in H. lia.
  - apply IH. intros x. specialize (H x). unfold cntb in *. cbn [sumf] in H. lia.
Qed.
Theorem C29_links_once : forall peers o l s, topology peers o -> (forall i, NoDup (nth i peers [])) ->
  serial peers (net_start true peers o) l -> nrun true peers (net_start true peers o) l = Some s ->
  NoDup (nt_sent s) /\ NoDup (nt_received s).
Proof.
  intros peers o l s (Ho & Hp) Nd Sr H.
  assert (G : forall l s s', ninv peers o s -> sinv s -> serial peers s l -> nrun true peers s l = Some s' -> sinv s').
  { induction l0 as [|a l0 IH]; intros s0 s' I S0 Sl R; cbn in R; [injection R as <-; exact S0|].
    destruct (nact true peers s0 a) as [s1|] eqn:E; [|discriminate]. destruct Sl as [Sa Sl].
    apply (IH s1); [apply (ninv_step peers o Ho Hp s0 a); assumption| |apply Sl, E|exact R].
    apply (sinv_step peers o Ho Hp Nd s0 a s1 I S0); [|exact E]. destruct a; exact Sa. }
  destruct (G l _ s (ninv_start peers o Ho Hp) (sinv_start peers o Ho Hp Nd) Sr H) as (S1 & _ & _ & _ & S5).
  split.
  - apply (cntb_nodup (fun x y => is_link (fst x) (snd x) y)).
    + intros [a b]. unfold is_link. cbn. rewrite !Nat.eqb_refl. reflexivity.
    + intros [a b]. change (cntb (is_link a b) (nt_sent s) <= 1). specialize (S5 a b). lia.
  - apply (cntb_nodup is_node); [apply Nat.eqb_refl|]. intros a. specialize (S1 a). lia.
Qed.

(** A ring with a chord and self entries: a schedule to rest. *)
Definition ring : list (list nat) := [[0; 1]; [1; 2; 3]; [2; 0]; [3]].
Fixpoint play (fuel : nat) (s : net) : list naction :=
  match fuel with
  | O => []
  | S f =>
      let a := match nt_threads s with [] => NDeliver 0 | _ => NThread 0 end in
      match nact true ring s a with Some s' => a :: play f s' | None => [] end
  end.
Lemma play_serial fuel : forall s, serial ring s (play fuel s).
Proof.
  induction fuel as [|f IH]; intros s; [exact I|]. cbn [play]. destruct (nact true ring s _) as [s'|] eqn:E; [|exact I].
  cbn [serial]. split.
  - destruct (nt_threads s) as [|t r] eqn:T; [|exact I]. intros i j _ [].
  - intros s2 E2. assert (s2 = s') as -> by congruence. apply IH.
Qed.
Example C29_nonvacuous : topology ring 0 /\ (forall i, NoDup (nth i ring [])) /\ exists l s,
  nrun true ring (net_start true ring 0) l = Some s /\ serial ring (net_start true ring 0) l /\ at_rest s /\
  length l = 23 /\ reachable ring 0 3 /\ nt_received s = [3; 2; 1] /\ nt_sent s = [(2, 0); (1, 3); (1, 2); (0, 1)].
Proof.
  split; [split; [cbn; lia|]; intros [|[|[|[|i]]]] j; cbn; intros H; repeat (destruct H as [H|H]; [lia|]); try destruct H|].
  { destruct i; destruct H. }
  split.
  { intros [|[|[|[|i]]]]; cbn; repeat constructor; cbn; try lia; destruct i; constructor. }
  set (l := play 60 (net_start true ring 0)). assert (E : exists s, nrun true ring (net_start true ring 0) l = Some s) by (eexists; vm_compute; reflexivity).
  destruct E as (s & E). exists l, s. split; [exact E|]. split; [apply play_serial|].
  vm_compute in E. injection E as <-. split; [split; reflexivity|]. split; [vm_compute; reflexivity|]. split; [|split; reflexivity].
  apply (reach_peer _ _ 1 3); [|cbn; auto]. apply (reach_peer _ _ 0 1); [constructor|cbn; auto].
Qed.

(** ** C65: the cache drops large contents *)

(** Whether an entry for the content survives in the cache. *)
Definition keeps (d : bytes) : bool := (N.of_nat (length d) + 32 <? 65536)%N.
Theorem C65_not_remembered : forall k d c, key32 k -> keeps d = false -> cache_set (hash k d) c = c.
Proof.
  intros k d c K H. unfold cache_set, hash. rewrite app_length. unfold key32 in K. rewrite K. unfold keeps in H.
  replace (N.of_nat (32 + length d)) with (N.of_nat (length d) + 32)%N by lia. change max_cache_key with 65536%N. rewrite H. reflexivity.
Qed.

(** The property: whatever the content a node accepts (4 MB by default), gossip of it terminates. *)
Definition C65_statement : Prop := forall peers o d, topology peers o -> (N.of_nat (length d) < 4194304 - 1024)%N ->
  exists bound, forall l s, nrun (keeps d) peers (net_start (keeps d) peers o) l = Some s -> length l <= bound.

(** Two nodes that know each other pass a large content to and fro for ever. *)
Definition pair_peers : list (list nat) := [[1]; [0]].
Definition round : list naction := [NThread 0; NThread 0; NThread 0; NDeliver 0; NThread 0; NThread 0; NThread 0; NThread 0; NDeliver 0; NThread 0].
Lemma ping_pong n : forall r x, exists r' x',
  nrun false pair_peers (mkNet [[]; []] [NCheck 0 1] [] r x) (concat (repeat round n)) = Some (mkNet [[]; []] [NCheck 0 1] [] r' x') /\
  length x' = length x + 2 * n.
Proof.
  induction n as [|n IH]; intros r x; [exists r, x; split; [reflexivity|lia]|].
  cbn [repeat concat]. destruct (IH (0 :: 1 :: r) ((1, 0) :: (0, 1) :: x)) as (r' & x' & E & L). exists r', x'. split; [|cbn [length] in L; lia].
  rewrite <- E. reflexivity.
Qed.
Theorem C65_refuted : ~ C65_statement.
Proof.
  intros H. set (d := repeat x00 (N.to_nat 65504)).
  assert (L : N.of_nat (length d) = 65504%N) by (unfold d; rewrite repeat_length; apply N2Nat.id).
  assert (K : keeps d = false) by (unfold keeps; rewrite L; reflexivity).
  specialize (H pair_peers 0 d). rewrite K, L in H. destruct H as (b & H).
  - split; [cbn; lia|]. intros [|[|i]] j; cbn; intros X; try (destruct X as [X|[]]; lia). destruct i; destruct X.
  - reflexivity.
  - destruct (ping_pong (S b) [] []) as (r & x & E & _). specialize (H _ _ E).
    assert (G : forall n, length (concat (repeat round n)) = 10 * n) by (induction n as [|n IH]; [reflexivity|]; cbn [repeat concat]; rewrite app_length, IH; cbn [length round]; lia).
    rewrite G in H. lia.
Qed.
(** Up to the limit the property holds. *)
Theorem C65_partial : forall peers o d, topology peers o -> fits d ->
  exists bound, forall l s, nrun (keeps d) peers (net_start (keeps d) peers o) l = Some s -> length l <= bound.
Proof.
  intros peers o d T F. assert (keeps d = true) as -> by (unfold keeps, fits in *; apply N.ltb_lt; exact F).
  destruct (C29_terminates peers o T) as (b & H). exists b. intros l s R. apply (H l s R).
Qed.

(** ** C66: what Handle takes for gossip *)

(** Between nodes that registered the same types, with gossip's among them: a pushed content arrives as it was (unless it comes
    as a request), and a message of another registered type is not taken for gossip. *)
Theorem C66_content : forall h c os i d, register_all newCodec h = Ok (c, os) -> (N.of_nat (length h) <= 65536)%N ->
  nth_error h i = Some gossip_registration ->
  exists data, encode c (Some (mkVal TMessage (Message_marshal d))) = Ok data /\ gossip_accept c false data = Ok (Some d) /\ gossip_accept c true data = Ok None.
Proof.
  intros h c os i d R L N.
  destruct (C05_roundtrip h c os c os i TMessage (snd gossip_registration) (mkVal TMessage (Message_marshal d)) R R L N) as [E D].
  - discriminate.
  - left. reflexivity.
  - eexists. split; [exact E|]. split; [|reflexivity]. unfold gossip_accept. rewrite D. reflexivity.
Qed.
Theorem C66_other_types : forall h c os i t dec v, register_all newCodec h = Ok (c, os) -> (N.of_nat (length h) <= 65536)%N ->
  nth_error h i = Some (t, dec) -> (forall e, t <> TPtr e) -> v_type v = t -> t <> TMessage ->
  (forall b u, d_run dec b = Ok u -> v_type u = t) -> (forall b, d_run dec b <> Panic) ->
  exists data, encode c (Some v) = Ok data /\ gossip_accept c false data = Ok None.
Proof.
  intros h c os i t dec v R L N Np Tv Nt Ty Tot.
  destruct (C05_roundtrip h c os c os i t dec v R R L N Np (or_introl Tv)) as [E D].
  eexists. split; [exact E|]. unfold gossip_accept. rewrite D. destruct (d_run dec (v_bytes v)) as [u|e|] eqn:Q; [|reflexivity|elim (Tot _ Q)].
  destruct (gotype_eq_dec (v_type u) TMessage) as [X|X]; [|reflexivity]. rewrite (Ty _ _ Q) in X. contradiction.
Qed.
(** Nothing that arrives makes it fail, unless a registered decoder panics. *)
Theorem C66_total : forall c isReq data, (forall o d b, In (o, d) (c_de c) -> d_run d b <> Panic) -> exists r, gossip_accept c isReq data = Ok r.
Proof.
  intros c isReq data T. unfold gossip_accept. destruct isReq; [eauto|]. destruct (C05_decode_total c data) as [A B].
  destruct (Nat.lt_ge_cases (length data) 2) as [H|H]; [rewrite (A H); eauto|].
  destruct (B H) as [E|(o & d & Hi & E)]; rewrite E; [eauto|]. specialize (T o d (skipn 2 data) Hi).
  destruct (d_run d (skipn 2 data)) as [u|e|]; [|eauto|contradiction]. destruct (gotype_eq_dec (v_type u) TMessage); eauto.
Qed.
Example C66_nonvacuous : exists c os, register_all newCodec [(TNamed 7, mkDec (TNamed 7) (fun b => Ok (mkVal (TNamed 7) b))); gossip_registration] = Ok (c, os) /\
  encode c (Some (mkVal TMessage [xaa; xbb])) = Ok [x00; x01; xaa; xbb] /\ gossip_accept c false [x00; x01; xaa; xbb] = Ok (Some [xaa; xbb]) /\
  gossip_accept c false [x00; x00; xaa] = Ok None /\ gossip_accept c false [x00] = Ok None.
Proof. eexists. eexists. split; [reflexivity|]. repeat split; reflexivity. Qed.

(** ** C80: what is passed on *)

(** Every call to OnGossipReceived with [d] returned an error. *)
Definition rejected (self : pubkey) (w : nat) (s : gstate) (l : list gaction) (d : bytes) : Prop := forall l1 i l2 s1 from,
  l = l1 ++ GStep i true :: l2 -> grun self w s l1 = Some s1 -> nth_error (g_threads s1) i <> Some (GEvent from d).
(** Push does something with [d]. *)
Definition about (d : bytes) (e : gev) : bool := match e with EvSkip _ d' | EvDecide _ d' | EvSent _ d' | EvPushed _ d' => bytes_eqb d d' | _ => false end.
Definition pushing (d : bytes) (p : gpc) : bool := match p with GPush d' | GEntries d' | GCheck _ d' | GSend _ d' | GMark _ d' => bytes_eqb d d' | _ => false end.
Definition silent (d : bytes) (s : gstate) : Prop := (forall p, In p (g_threads s) -> pushing d p = false) /\ forall e, In e (g_log s) -> about d e = false.

Lemma silent_step self w s a s' d : gact self w s a = Some s' -> silent d s -> a <> GCall d -> (forall i from, a = GStep i true -> nth_error (g_threads s) i <> Some (GEvent from d)) -> silent d s'.
Proof.
  intros E (I1 & I2) Nc Nr. destruct a as [i ok|from d0|d0|es|k].
  - destruct (gact_step _ _ _ _ _ _ E) as (p & c & p' & new & ev & Hp & G & ->). pose proof (I1 p (nth_error_In _ _ Hp)) as Pp.
    assert (X : pushing d p' = false /\ (forall p, In p new -> pushing d p = false) /\ forall e, In e ev -> about d e = false).
    { destruct p as [f d1|f d1|f d1|f d1|d1|d1|t d1|t d1|t d1|].
      4:{ cbn [gstep] in G. injection G as <- <- <- <-. split; [|split; [intros ? []|intros e [<-|[]]; reflexivity]]. destruct ok; [|reflexivity]. cbn [pushing].
          destruct (bytes_eqb d d1) eqn:B; [|reflexivity]. apply bytes_eqb_eq in B. subst d1. elim (Nr i f eq_refl Hp). }
      all: cbn [gstep pushing] in *; repeat match type of G with context [if ?b then _ else _] => destruct b end;
        injection G as <- <- <- <-; cbn [pushing about]; split; auto; split; try (intros ? []; fail); try (intros e [<-|[]]; cbn [about]; auto; fail).
      intros p Hi. apply in_map_iff in Hi as (x & <- & _). exact Pp. }
    destruct X as (X1 & X2 & X3). split; cbn [g_threads g_log].
    + intros p0 H0. apply in_app_or in H0 as [H0|H0]; [|auto]. apply in_set_nth in H0 as [->|H0]; auto.
    + intros e H0. apply in_app_or in H0 as [H0|H0]; auto.
  - cbn [gact] in E. destruct (_ <? w); [|discriminate]. injection E as <-. split; [|exact I2]. cbn. intros p H0. apply in_app_or in H0 as [H0|[<-|[]]]; auto.
  - injection E as <-. split; [|exact I2]. cbn. intros p H0. apply in_app_or in H0 as [H0|[<-|[]]]; [auto|]. cbn. destruct (bytes_eqb d d0) eqn:B; [|reflexivity]. apply bytes_eqb_eq in B. congruence.
  - injection E as <-. split; assumption.
  - injection E as <-. split; assumption.
Qed.

(** A content that the application does not push itself, and that OnGossipReceived rejects each time it is called with it, is sent to nobody. *)
Theorem C80_rejected_not_relayed : forall self w es l s d, grun self w (gossip_new es) l = Some s -> ~ In (GCall d) l -> rejected self w (gossip_new es) l d ->
  forall to, ~ In (EvDecide to d) (g_log s) /\ ~ In (EvSent to d) (g_log s) /\ ~ In (EvPushed to d) (g_log s).
Proof.
  intros self w es l s d R Nc Rj to. assert (X : silent d s).
  { assert (I : silent d (gossip_new es)) by (split; intros ? []). revert R Nc Rj I. generalize (gossip_new es). induction l as [|a l IH]; intros s0 R Nc Rj I; cbn [grun] in R; [injection R as <-; exact I|].
    destruct (gact self w s0 a) as [s1|] eqn:E; [|discriminate]. apply (IH s1 R).
    - intros C. apply Nc. right. exact C.
    - intros l1 i l2 s2 from El R1. apply (Rj (a :: l1) i l2 s2 from); [cbn; congruence|]. cbn [grun]. rewrite E. exact R1.
    - apply (silent_step self w s0 a s1 d E I).
      + intros ->. apply Nc. left. reflexivity.
      + intros i from ->. apply (Rj [] i l s0 from); reflexivity. }
  destruct X as (_ & X). repeat split; intros C; specialize (X _ C); cbn [about] in X; rewrite bytes_eqb_refl in X; discriminate.
Qed.

(** Every peer that the table has is told of an accepted content, unless the node skips it (C28 says why it does). *)
Definition considered (d : bytes) (es : list ID) (s : gstate) : Prop :=
  g_entries s = es /\ (In (GPush d) (g_threads s) \/ In (GEntries d) (g_threads s) \/ forall to, In to es -> In (GCheck to d) (g_threads s) \/ In (EvSkip to d) (g_log s) \/ In (EvDecide to d) (g_log s)).
Lemma set_nth_other {A} (l : list A) : forall i x y z, nth_error l i = Some y -> In z l -> z = y \/ In z (set_nth i x l).
Proof. induction l as [|a l IH]; intros [|i] x y z H Hz; cbn in *; try discriminate; [injection H as ->; intuition|]. destruct Hz as [->|Hz]; [auto|]. destruct (IH i x y z H Hz); auto. Qed.
Lemma in_set_here {A} (l : list A) : forall i x y, nth_error l i = Some y -> In x (set_nth i x l).
Proof. induction l as [|a l IH]; intros [|i] x y H; cbn in *; try discriminate; eauto. Qed.
Lemma considered_step self w s a s' d es : gact self w s a = Some s' -> (forall es', a <> GTable es') -> considered d es s -> considered d es s'.
Proof.
  intros E Nt (He & I). destruct a as [i ok|from d0|d0|es0|k].
  - destruct (gact_step _ _ _ _ _ _ E) as (p & c & p' & new & ev & Hp & G & ->). split; [exact He|]. cbn [g_threads g_log].
    assert (K : forall z, In z (g_threads s) -> z = p \/ In z (set_nth i p' (g_threads s) ++ new)) by (intros z Hz; destruct (set_nth_other _ i p' p z Hp Hz); [auto|right; apply in_app_iff; auto]).
    destruct I as [I|[I|I]].
    + destruct (K _ I) as [<-|I']; [|auto]. cbn [gstep] in G. injection G as <- <- <- <-. right. left. apply in_app_iff. left. apply (in_set_here _ _ _ _ Hp).
    + destruct (K _ I) as [<-|I']; [|auto]. cbn [gstep] in G. injection G as <- <- <- <-. right. right. intros to Ht. left. apply in_app_iff. right. apply (in_map (fun id => GCheck id d)). congruence.
    + right. right. intros to Ht. destruct (I to Ht) as [J|[J|J]]; [|right; left; apply in_app_iff; auto|right; right; apply in_app_iff; auto].
      destruct (K _ J) as [<-|J']; [|auto]. cbn [gstep] in G. destruct (cache_has _ _); injection G as <- <- <- <-; right; [left|right]; apply in_app_iff; right; left; reflexivity.
  - cbn [gact] in E. destruct (_ <? w); [|discriminate]. injection E as <-. split; [exact He|]. cbn [g_threads g_log]. destruct I as [I|[I|I]]; [left|right; left|right; right]; try (apply in_app_iff; auto).
    intros to Ht. destruct (I to Ht) as [J|J]; [left; apply in_app_iff; auto|auto].
  - injection E as <-. split; [exact He|]. cbn [g_threads g_log]. destruct I as [I|[I|I]]; [left|right; left|right; right]; try (apply in_app_iff; auto).
    intros to Ht. destruct (I to Ht) as [J|J]; [left; apply in_app_iff; auto|auto].
  - elim (Nt es0 eq_refl).
  - injection E as <-. split; [exact He|exact I].
Qed.
Theorem C80_accepted_relayed : forall self w es l1 i l2 s1 s from d, (forall es', ~ In (GTable es') (l1 ++ l2)) ->
  grun self w (gossip_new es) l1 = Some s1 -> nth_error (g_threads s1) i = Some (GEvent from d) ->   (* OnGossipReceived is called, *)
  grun self w (gossip_new es) (l1 ++ GStep i true :: l2) = Some s -> quiet s ->                      (* and returns nil *)
  forall to, In to es -> In (EvSkip to d) (g_log s) \/ In (EvDecide to d) (g_log s).
Proof.
  intros self w es l1 i l2 s1 s from d Nt R1 Hi R Q.
  assert (Happ : forall l l' x, grun self w x (l ++ l') = match grun self w x l with Some y => grun self w y l' | None => None end).
  { induction l as [|a l IH]; intros l' x; cbn [grun app]; [reflexivity|]. destruct (gact self w x a); [apply IH|reflexivity]. }
  rewrite Happ, R1 in R. cbn [grun] in R. destruct (gact self w s1 (GStep i true)) as [s2|] eqn:E; [|discriminate].
  assert (He : g_entries s1 = es).
  { assert (Z : forall l x y, grun self w x l = Some y -> (forall es', ~ In (GTable es') l) -> g_entries y = g_entries x).
    { induction l as [|a l IH]; intros x y Rx Nx; cbn [grun] in Rx; [injection Rx as <-; reflexivity|]. destruct (gact self w x a) as [z|] eqn:Ez; [|discriminate]. rewrite (IH z y Rx); [|intros es' C; apply (Nx es'); right; exact C].
      destruct a as [j ok|f d0|d0|es0|k]; [destruct (gact_step _ _ _ _ _ _ Ez) as (? & ? & ? & ? & ? & _ & _ & ->); reflexivity| |injection Ez as <-; reflexivity|elim (Nx es0); left; reflexivity|injection Ez as <-; reflexivity].
      cbn [gact] in Ez. destruct (_ <? w); [|discriminate]. injection Ez as <-. reflexivity. }
    rewrite (Z _ _ _ R1); [reflexivity|]. intros es' C. apply (Nt es'), in_app_iff. auto. }
  assert (C2 : considered d es s2). { cbn [gact] in E. rewrite Hi in E. cbn [gstep] in E. injection E as <-. split; [exact He|]. left. cbn [g_threads]. apply in_app_iff. left. apply (in_set_here _ _ _ _ Hi). }
  assert (C : considered d es s).
  { assert (N2 : forall es', ~ In (GTable es') l2) by (intros es' C; apply (Nt es'), in_app_iff; auto). clear - R C2 N2. revert s2 R C2. induction l2 as [|a l IH]; intros x R C2; cbn [grun] in R; [injection R as <-; exact C2|].
    destruct (gact self w x a) as [y|] eqn:Ey; [|discriminate]. apply (IH ltac:(intros es' C; apply (N2 es'); right; exact C) y R). apply (considered_step _ _ _ _ _ _ _ Ey); [|exact C2]. intros es' ->. apply (N2 es'). left. reflexivity. }
  destruct C as (_ & [C|[C|C]]); [specialize (Q _ C); discriminate|specialize (Q _ C); discriminate|]. intros to Ht. destruct (C to Ht) as [D|D]; [specialize (Q _ D); discriminate|exact D].
Qed.
(** The same content, accepted and rejected. *)
Example C80_nonvacuous : let p := mkID (repeat x03 32) [] 0 [] in let o := mkID (repeat x02 32) [] 0 [] in
  let l ok := [GArrive o [xaa]; GStep 0 true; GStep 0 true; GStep 0 true; GStep 0 ok; GStep 0 true; GStep 0 true] in
  (exists s, grun g_self 1 (gossip_new [p]) (l true ++ [GStep 1 true; GStep 1 true; GStep 1 true]) = Some s /\ quiet s /\ In (EvSent p [xaa]) (g_log s)) /\
  exists s, grun g_self 1 (gossip_new [p]) (l false) = Some s /\ quiet s /\ deliveries [xaa] s = 1 /\ rejected g_self 1 (gossip_new [p]) (l false) [xaa].
Proof.
  intros p o l. split; [|]; eexists; (split; [vm_compute; reflexivity|]).
  - split; [intros x [<-|[<-|[]]]; reflexivity|]. vm_compute. do 5 right. left. reflexivity.
  - split; [intros x [<-|[]]; reflexivity|]. split; [vm_compute; reflexivity|]. intros l1 i l2 s1 from E R. subst l. cbv beta in E.
    do 7 (destruct l1 as [|? l1]; [cbn [app] in E; first [discriminate E | injection E as E1 E2; subst; vm_compute in R; injection R as <-; discriminate]|cbn [app] in E; injection E as E1 E; subst]).
    destruct l1; discriminate E.
Qed.

Print Assumptions C27_at_most_workers.
Print Assumptions C27_partial.
Print Assumptions C27_not_lost.
Print Assumptions C27_refuted.
Print Assumptions C28_hash_injective.
Print Assumptions C28_no_echo.
Print Assumptions C28_sent_decided.
Print Assumptions C28_skipped_for_a_reason.
Print Assumptions C29_terminates.
Print Assumptions C29_stops_at_rest.
Print Assumptions C29_reaches_all.
Print Assumptions C29_origin_not_told.
Print Assumptions C29_links_once.
Print Assumptions C65_refuted.
Print Assumptions C65_partial.
Print Assumptions C66_content.
Print Assumptions C66_other_types.
Print Assumptions C66_total.
Print Assumptions C80_rejected_not_relayed.
Print Assumptions C80_accepted_relayed.
