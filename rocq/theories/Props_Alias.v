(** * C125: whether the IDs that a node hands out are copies. *)
From Verif Require Import Base M_Addr M_ID M_Alias P_Wire.
From Coq Require Import Strings.Byte.
Local Open Scope nat_scope.

(** ** Spec *)

(** Worlds that can come about. *)
Definition reachable (w : world) : Prop := exists k host port ops, w = fold_left astep ops (listened k host port).

(** An ID that the node keeps: its own, one of a connection, one in the routing table. *)
Definition kept (w : world) (p : place) (v : idv) : Prop := find_place w p = Some v.

(** ** C125 *)

(** Whatever happens, and whatever the application does with IDs, an ID that the node keeps stays as it is. *)
Definition C125_statement : Prop := forall w o p v, reachable w -> kept w p v ->
  kept (astep w o) p v /\ see (astep w o) v = see w v.

(** *** Lemmas *)

Lemma upd_length {A} n (x : A) l : length (upd n x l) = length l.
Proof. revert n. induction l as [|y l IH]; intros [|n]; cbn; auto. Qed.
Lemma upd_other {A} n m (x d : A) l : n <> m -> nth m (upd n x l) d = nth m l d.
Proof. revert n m. induction l as [|y l IH]; intros [|n] [|m] H; cbn; auto; try congruence. Qed.
Lemma upd_same {A} n (x d : A) l : n < length l -> nth n (upd n x l) d = x.
Proof. revert n. induction l as [|y l IH]; intros [|n] H; cbn in *; try lia; auto. apply IH. lia. Qed.

(** Every reference is to an array; arrays that the application made are not those of kept IDs; IDs with the same array, unless the
    application made them, are the same. *)
Definition stored (w : world) (v : idv) : Prop := v = w_node w \/ In v (w_conns w) \/ In v (w_table w).
Record inv (w : world) : Prop := {
  i_stored : forall v, stored w v -> v_host v < length (w_heap w) /\ ~ In (v_host v) (w_slices w);
  i_held : forall v, In v (w_held w) -> v_host v < length (w_heap w);
  i_slices : forall r, In r (w_slices w) -> r < length (w_heap w);
  i_same : forall v u, stored w v -> stored w u \/ In u (w_held w) -> v_host u = v_host v -> u = v
}.

Lemma inv_listened k host port : inv (listened k host port).
Proof.
  constructor; unfold stored; cbn.
  - intros v [-> | [[] | [<- | []]]]; cbn; split; auto; try lia.
  - intros v [].
  - intros r [].
  - intros v u [-> | [[] | [<- | []]]] [[-> | [[] | [<- | []]]] | []] _; reflexivity.
Qed.

Lemma kept_stored w p v : find_place w p = Some v -> stored w v.
Proof.
  destruct p; cbn; intros H; [left; congruence | right; left; eapply nth_error_In; exact H | right; right; eapply nth_error_In; exact H].
Qed.

Lemma unmarshal_fresh heap buf h v : unmarshal_idv heap buf = Some (h, v) -> v_host v = length heap /\ exists b, h = heap ++ [b].
Proof. unfold unmarshal_idv. destruct (UnmarshalID buf); [|discriminate|discriminate]. intros E. injection E as <- <-. split; [reflexivity | eexists; reflexivity]. Qed.

Lemma inv_step w o : inv w -> inv (astep w o).
Proof.
  intros [I1 I2 I3 I4]. destruct o as [buf|i|buf|p|b|k s port|h i b]; cbn [astep].
  - destruct (unmarshal_idv (w_heap w) buf) as [[h v]|] eqn:U; [|constructor; auto]. destruct (unmarshal_fresh _ _ _ _ U) as [Hv [b ->]].
    assert (D : forall x, stored (mkW (w_heap w ++ [b]) (w_node w) (w_conns w ++ [v]) (w_table w) (w_slices w) (w_held w)) x -> stored w x \/ x = v).
    { unfold stored. cbn. intros x [-> | [J|J]]; auto. apply in_app_or in J as [J|[->|[]]]; auto. }
    constructor; cbn [w_heap w_slices w_held]; rewrite ?app_length; cbn [length].
    + intros x Hx. destruct (D x Hx) as [J | ->]; [destruct (I1 x J); split; auto; lia|]. split; [lia|]. intros K. apply I3 in K. lia.
    + intros x Hx. specialize (I2 x Hx). lia.
    + intros r Hr. specialize (I3 r Hr). lia.
    + intros x u Hx Hu E. destruct (D x Hx) as [J | ->].
      * destruct Hu as [Hu|Hu]; [destruct (D u Hu) as [J' | ->]|]; [apply I4; auto | | apply I4; auto]. destruct (I1 x J) as [K _]. lia.
      * destruct Hu as [Hu|Hu]; [destruct (D u Hu) as [J' | ->]|]; [destruct (I1 u J') as [K _]; lia | reflexivity | specialize (I2 u Hu); lia].
  - destruct (nth_error (w_conns w) i) as [v|] eqn:N; [|constructor; auto]. apply nth_error_In in N.
    assert (D : forall x, stored (mkW (w_heap w) (w_node w) (w_conns w) (w_table w ++ [v]) (w_slices w) (w_held w)) x -> stored w x).
    { unfold stored. cbn. intros x [-> | [J|J]]; auto. apply in_app_or in J as [J|[<-|[]]]; auto. }
    constructor; cbn [w_heap w_slices w_held]; auto. intros x u Hx [Hu|Hu] E; apply I4; auto.
  - destruct (unmarshal_idv (w_heap w) buf) as [[h v]|] eqn:U; [|constructor; auto]. destruct (unmarshal_fresh _ _ _ _ U) as [Hv [b ->]].
    constructor; cbn [w_heap w_slices w_held]; rewrite ?app_length; cbn [length].
    + intros x Hx. destruct (I1 x Hx). split; auto; lia.
    + intros x Hx. apply in_app_or in Hx as [Hx|[<-|[]]]; [specialize (I2 x Hx); lia | lia].
    + intros r Hr. specialize (I3 r Hr). lia.
    + intros x u Hx [Hu|Hu] E; [apply I4; auto|]. apply in_app_or in Hu as [Hu|[<-|[]]]; [apply I4; auto|]. destruct (I1 x Hx) as [K _]. lia.
  - destruct (find_place w p) as [v|] eqn:F; [|constructor; auto]. apply kept_stored in F.
    constructor; cbn [w_heap w_slices w_held]; auto.
    + intros x Hx. apply in_app_or in Hx as [Hx|[<-|[]]]; [auto | apply I1; exact F].
    + intros x u Hx [Hu|Hu] E; [apply I4; auto|]. apply in_app_or in Hu as [Hu|[<-|[]]]; apply I4; auto.
  - constructor; cbn [w_heap w_slices w_held]; rewrite ?app_length; cbn [length].
    + intros x Hx. destruct (I1 x Hx) as [K1 K2]. split; [lia|]. intros J. apply in_app_or in J as [J|[J|[]]]; [auto | lia].
    + intros x Hx. specialize (I2 x Hx). lia.
    + intros r Hr. apply in_app_or in Hr as [Hr|[<-|[]]]; [specialize (I3 r Hr); lia | lia].
    + exact I4.
  - destruct (nth_error (w_slices w) s) as [r|] eqn:N; [|constructor; auto]. apply nth_error_In in N.
    constructor; cbn [w_heap w_slices w_held]; auto.
    + intros x Hx. apply in_app_or in Hx as [Hx|[<-|[]]]; [auto | cbn; auto].
    + intros x u Hx [Hu|Hu] E; [apply I4; auto|]. apply in_app_or in Hu as [Hu|[<-|[]]]; [apply I4; auto|]. cbn in E. destruct (I1 x Hx) as [_ K]. congruence.
  - destruct (nth_error (w_held w) h) as [v|] eqn:N; [|constructor; auto].
    constructor; cbn [w_heap w_slices w_held]; rewrite ?upd_length; auto.
Qed.

Lemma reachable_inv w : reachable w -> inv w.
Proof.
  intros (k & host & port & ops & ->). assert (G : inv (listened k host port)) by apply inv_listened. revert G. generalize (listened k host port).
  induction ops as [|o ops IH]; intros w G; [exact G|]. cbn. apply IH, inv_step, G.
Qed.

Lemma kept_step w o p v : kept w p v -> kept (astep w o) p v.
Proof.
  unfold kept. intros H.
  destruct o as [buf|i|buf|q|b|k s port|h i b]; cbn [astep];
    repeat match goal with |- context [match ?e with Some _ => _ | None => _ end] => destruct e as [x|]; try destruct x; try exact H end;
    destruct p as [|j|j]; cbn in H |- *; auto; rewrite nth_error_app1; auto; apply nth_error_Some; rewrite H; discriminate.
Qed.

(** What one step does to how a kept ID looks. *)
Lemma see_step w o v : inv w -> stored w v ->
  see (astep w o) v = see w v \/
  exists h i b, o = OWrite h i b /\ nth_error (w_held w) h = Some v /\
    see (astep w o) v = mkID (v_key v) (upd i b (id_host (see w v))) (v_port v) (v_addr v).
Proof.
  intros [I1 I2 I3 I4] Hs. destruct (I1 v Hs) as [Lv _].
  destruct o as [buf|i|buf|q|b|k s port|h i b]; cbn [astep].
  - left. destruct (unmarshal_idv (w_heap w) buf) as [[h u]|] eqn:U; [|reflexivity]. destruct (unmarshal_fresh _ _ _ _ U) as [_ [b ->]].
    unfold see. cbn [w_heap]. rewrite app_nth1 by exact Lv. reflexivity.
  - left. destruct (nth_error (w_conns w) i); reflexivity.
  - left. destruct (unmarshal_idv (w_heap w) buf) as [[h u]|] eqn:U; [|reflexivity]. destruct (unmarshal_fresh _ _ _ _ U) as [_ [b ->]].
    unfold see. cbn [w_heap]. rewrite app_nth1 by exact Lv. reflexivity.
  - left. destruct (find_place w q); reflexivity.
  - left. unfold see. cbn [w_heap]. rewrite app_nth1 by exact Lv. reflexivity.
  - left. destruct (nth_error (w_slices w) s); reflexivity.
  - destruct (nth_error (w_held w) h) as [u|] eqn:N; [|left; reflexivity]. destruct (Nat.eq_dec (v_host u) (v_host v)) as [E|E].
    + right. assert (u = v) as -> by (apply I4; auto; right; eapply nth_error_In; exact N). exists h, i, b. split; [reflexivity|]. split; [exact N|].
      unfold see. cbn [w_heap id_host]. rewrite upd_same by exact Lv. reflexivity.
    + left. unfold see. cbn [w_heap]. rewrite upd_other by exact E. reflexivity.
Qed.

(** *** Theorems *)

(** What holds: a kept ID stays where it is with its key, port and address, and its host changes only when the application writes to the
    host of that very ID, as it was handed out; in particular never through an ID made with NewID, unmarshalled, or of another peer. *)
Theorem C125_partial : forall w o p v, reachable w -> kept w p v ->
  kept (astep w o) p v /\
  id_key (see (astep w o) v) = id_key (see w v) /\ id_port (see (astep w o) v) = id_port (see w v) /\ id_addr (see (astep w o) v) = id_addr (see w v) /\
  (see (astep w o) v = see w v \/
   exists h i b, o = OWrite h i b /\ nth_error (w_held w) h = Some v /\ id_host (see (astep w o) v) = upd i b (id_host (see w v))).
Proof.
  intros w o p v R K. apply reachable_inv in R. split; [apply kept_step, K|]. apply kept_stored in K.
  split; [reflexivity|]. split; [reflexivity|]. split; [reflexivity|].
  destruct (see_step w o v R K) as [E|(h & i & b & E1 & E2 & E3)]; [left; exact E | right]. exists h, i, b. rewrite E3. auto.
Qed.

(** So an application that never writes to Host sees the same IDs for ever. *)
Theorem C125_untouched : forall w ops p v, reachable w -> kept w p v -> (forall h i b, ~ In (OWrite h i b) ops) ->
  kept (fold_left astep ops w) p v /\ see (fold_left astep ops w) v = see w v.
Proof.
  intros w ops. revert w. induction ops as [|o ops IH]; intros w p v R K NW; [auto|]. cbn [fold_left].
  destruct (C125_partial w o p v R K) as (K' & _ & _ & _ & D). destruct (IH (astep w o) p v) as [A B]; auto.
  - destruct R as (k & host & port & ops0 & ->). exists k, host, port, (ops0 ++ [o]). rewrite fold_left_app. reflexivity.
  - intros h i b J. apply (NW h i b). right. exact J.
  - split; [exact A|]. rewrite B. destruct D as [D|(h & i & b & -> & _)]; [exact D|]. exfalso. apply (NW h i b). left. reflexivity.
Qed.

(** And what a write does: one who takes an ID that the node keeps, and writes [b] at place [i] of its host, changes what the node tells
    others of that peer from then on (of itself in every handshake, when it is the node's own ID): they get an ID with the written host,
    and with the address that goes with it, whereas the address in the node's copy stays the same. *)
Theorem C125_told : forall w p v i b, reachable w -> kept w p v -> length (v_key v) = 32 -> length (id_host (see w v)) = 16 -> (v_port v < 65536)%N ->
  let w' := fold_left astep [OTake p; OWrite (length (w_held w)) i b] w in
  UnmarshalID (tells w v) = Ok (NewID (v_key v) (id_host (see w v)) (v_port v)) /\
  UnmarshalID (tells w' v) = Ok (NewID (v_key v) (upd i b (id_host (see w v))) (v_port v)) /\
  kept w' p v /\ id_addr (see w' v) = id_addr (see w v).
Proof.
  intros w p v i b R K Lk Lh Lp w'. apply reachable_inv in R.
  assert (M : forall x, ID_marshal x = ID_marshal (NewID (id_key x) (id_host x) (id_port x))) by reflexivity.
  assert (Hn : v_host v < length (w_heap w)) by (apply (i_stored w R), (kept_stored w p), K).
  assert (Ew : see w' v = mkID (v_key v) (upd i b (id_host (see w v))) (v_port v) (v_addr v)).
  { unfold w'. cbn [fold_left astep]. red in K. rewrite K. cbn [w_held]. rewrite nth_error_app2, Nat.sub_diag by reflexivity. cbn [nth_error].
    unfold see. cbn [w_heap w_node id_host]. rewrite upd_same by exact Hn. reflexivity. }
  split; [|split; [|split]].
  - unfold tells. rewrite M. rewrite <- (app_nil_r (ID_marshal _)). apply id_roundtrip; assumption.
  - unfold tells. rewrite Ew, M. cbn [id_key id_host id_port]. rewrite <- (app_nil_r (ID_marshal _)). apply id_roundtrip; auto.
    rewrite upd_length. exact Lh.
  - unfold w'. cbn [fold_left]. apply kept_step, kept_step, K.
  - rewrite Ew. reflexivity.
Qed.

(** *** A node at 10.0.0.1 whose application changes a byte *)

Definition host_of (x : N) : bytes := zeros 10 ++ [n2b 255; n2b 255; n2b 10; n2b 0; n2b 0; n2b x].
Definition ex_w : world := listened (repeat Byte.x07 32) (host_of 1) 9000.

Theorem C125_refuted : ~ C125_statement.
Proof.
  intros X. set (w := astep ex_w (OTake PNode)).
  assert (R : reachable w) by (exists (repeat Byte.x07 32), (host_of 1), 9000%N, [OTake PNode]; reflexivity).
  destruct (X w (OWrite 0 15 (n2b 9)) PNode (w_node w) R eq_refl) as [_ E].
  assert (F : id_host (see (astep w (OWrite 0 15 (n2b 9))) (w_node w)) = id_host (see w (w_node w))) by (rewrite E; reflexivity).
  vm_compute in F. discriminate.
Qed.

(** The node also has a connection and an ID of the application's; the table's copy of the node's ID changes with it, the others do not. *)
Example C125_nonvacuous :
  let buf := ID_marshal (NewID (repeat Byte.x05 32) (host_of 2) 80) in
  let ops := [OHandshake buf; OAdmit 0; OSlice (host_of 3); ONewID (repeat Byte.x06 32) 0 81; OTake (PTable 0)] in
  let w := fold_left astep ops ex_w in
  let w' := astep w (OWrite 1 15 (n2b 9)) in
  reachable w /\ kept w PNode (w_node w) /\ length (v_key (w_node w)) = 32 /\ length (id_host (see w (w_node w))) = 16 /\
  id_host (see w' (w_node w')) = host_of 9 /\ map (fun v => id_host (see w' v)) (w_table w') = [host_of 9; host_of 2] /\
  map (fun v => id_host (see w' v)) (w_conns w') = [host_of 2] /\ map (fun v => id_host (see w' v)) (w_held w') = [host_of 3; host_of 9] /\
  UnmarshalID (tells w' (w_node w')) = Ok (NewID (repeat Byte.x07 32) (host_of 9) 9000) /\
  id_addr (see w' (w_node w')) = id_addr (NewID (repeat Byte.x07 32) (host_of 1) 9000) /\
  id_addr (NewID (repeat Byte.x07 32) (host_of 1) 9000) <> id_addr (NewID (repeat Byte.x07 32) (host_of 9) 9000).
Proof.
  cbv zeta. split; [eexists _, _, _, _; unfold ex_w; reflexivity|]. repeat (split; [vm_compute; reflexivity|]). vm_compute. discriminate.
Qed.

Print Assumptions C125_refuted.
Print Assumptions C125_partial.
Print Assumptions C125_untouched.
Print Assumptions C125_told.
