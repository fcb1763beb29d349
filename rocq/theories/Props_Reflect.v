(** * C108: what a call returns when somebody else carries the frames *)
From Verif Require Import Base M_Table M_Maps M_Gossip M_Reflect P_Conn.
Local Open Scope nat_scope.

(** ** The claim *)

(** Call [c] has returned [d]. *)
Definition got_back (c : xcall) (d : bytes) : Prop := xc_ret c = Some (Some d).
(** A handler of the other end was given [x] as a request with nonce [n], and answered [y]. *)
Definition peer_answered (ans : list (N * bytes * bytes)) (n : N) (x y : bytes) : Prop := In (n, x, y) ans.
(** Fewer requests than there are nonces. *)
Definition nonces_left (s : xstate) : Prop := (N.of_nat (length (x_calls s)) < MaxUint64)%N.

(** A call returns what the peer answered to that very request. *)
Definition C108_statement : Prop := forall acts s i c d,
  xrun true x_start acts = Some s -> nonces_left s -> nth_error (x_calls s) i = Some c -> got_back c d ->
  peer_answered (x_ans s) (xc_nonce c) (xc_data c) d.

(** [y] comes from [x] by the answers of the peer's handlers to messages with nonce [n]: none, one or several in a row. *)
Inductive second_hand (ans : list (N * bytes * bytes)) (n : N) (x : bytes) : bytes -> Prop :=
| sh_self : second_hand ans n x x
| sh_next : forall y z, second_hand ans n x y -> peer_answered ans n y z -> second_hand ans n x z.

(** ** The invariant *)

Definition asked (r : bool) (ans : list (N * bytes * bytes)) (n : N) (x y : bytes) : Prop := if r then second_hand ans n x y else x = y.
Definition told (r : bool) (ans : list (N * bytes * bytes)) (n : N) (x y : bytes) : Prop := if r then second_hand ans n x y else peer_answered ans n x y.

Definition bounded (L : nat) (l : list xmsg) : Prop := forall n x, In (n, x) l -> (n <= N.of_nat L)%N.

Record xinv (r : bool) (s : xstate) : Prop := mkXI {
  xi_nonce : rm_nonce (x_map s) = N.of_nat (length (x_calls s));
  xi_made : rm_made (x_map s) = length (x_calls s);
  xi_call : forall i c, nth_error (x_calls s) i = Some c -> xc_nonce c = (N.of_nat i + 1)%N;
  xi_bA : bounded (length (x_calls s)) (x_sealA s);
  xi_bB : bounded (length (x_calls s)) (x_sealB s);
  xi_wA : bounded (length (x_calls s)) (x_workA s);
  xi_wB : bounded (length (x_calls s)) (x_workB s);
  xi_ent : forall n ch, rm_get n (rm_entries (x_map s)) = Some ch -> n = (N.of_nat ch + 1)%N /\ ch < length (x_calls s);
  xi_pend : forall n ch c, rm_get n (rm_entries (x_map s)) = Some ch -> nth_error (x_calls s) ch = Some c ->
     (forall x, In (n, x) (x_sealA s) -> x = xc_data c) /\
     (forall x, ~ In (n, x) (x_workA s)) /\
     (forall y, In (n, y) (x_sealB s) -> told r (x_ans s) n (xc_data c) y) /\
     (forall x, In (n, x) (x_workB s) -> asked r (x_ans s) n (xc_data c) x);
  xi_got : forall i c d, nth_error (x_calls s) i = Some c -> xc_got c = Some d \/ xc_ret c = Some (Some d) -> told r (x_ans s) (xc_nonce c) (xc_data c) d
}.

Lemma xinv_start r : xinv r x_start.
Proof.
  split; cbn; try reflexivity; try discriminate; try (intros [|i]; discriminate); intros n x [].
Qed.

Lemma sh_mono s s' n x y : (forall t, In t s -> In t s') -> second_hand s n x y -> second_hand s' n x y.
Proof. intros M. induction 1; [constructor|]. eapply sh_next; [eassumption|]. apply M. assumption. Qed.
Lemma asked_mono r s s' n x y : (forall t, In t s -> In t s') -> asked r s n x y -> asked r s' n x y.
Proof. intros M. unfold asked. destruct r; [apply sh_mono, M|auto]. Qed.
Lemma told_mono r s s' n x y : (forall t, In t s -> In t s') -> told r s n x y -> told r s' n x y.
Proof. intros M. unfold told. destruct r; [apply sh_mono, M|apply M]. Qed.
Lemma asked_told r s n x y z : asked r s n x y -> peer_answered s n y z -> told r s n x z.
Proof. unfold asked, told. destruct r; [intros; eapply sh_next; eassumption|intros ->; auto]. Qed.
Lemma bounded_app L l n x : bounded L l -> (n <= N.of_nat L)%N -> bounded L (l ++ [(n, x)]).
Proof. intros B H m y Hi. apply in_app_or in Hi as [Hi|[E|[]]]; [eauto|]. injection E as <- <-. exact H. Qed.
Lemma bounded_le L L' l : L <= L' -> bounded L l -> bounded L' l.
Proof. intros H B n x Hi. apply B in Hi. lia. Qed.
Lemma in_remove {A} (x : A) l : forall j, In x (remove_nth j l) -> In x l.
Proof. induction l as [|y l IH]; intros [|j]; cbn; auto. intros [->|H]; eauto. Qed.
Lemma in_snoc {A} (x y : A) l : In x (l ++ [y]) -> In x l \/ x = y.
Proof. intros H. apply in_app_or in H as [H|[<- |[]]]; auto. Qed.
Lemma set_length {A} (l : list A) : forall i x, length (set_nth i x l) = length l.
Proof. induction l as [|y l IH]; intros [|i] x; cbn; auto. Qed.

Ltac xproj := cbn [x_map x_calls x_sealA x_sealB x_workA x_workB x_ans] in *.

Lemma fresh_nonce s : (rm_nonce (x_map s) < MaxUint64)%N -> (forall n ch, rm_get n (rm_entries (x_map s)) = Some ch -> (n <= rm_nonce (x_map s))%N) ->
  let n := (rm_nonce (x_map s) + 1)%N in
  nextNonce (x_map s) = (mkRM n ((n, rm_made (x_map s)) :: rm_entries (x_map s)) (S (rm_made (x_map s))), Some (rm_made (x_map s), n)).
Proof.
  intros B F n. unfold nextNonce. destruct (N.eqb_spec (rm_nonce (x_map s)) MaxUint64); [lia|].
  rewrite N.mod_small by (unfold MaxUint64 in *; lia). fold n.
  destruct (rm_get n (rm_entries (x_map s))) eqn:G; [|reflexivity]. apply F in G. unfold n in G. lia.
Qed.

Lemma xinv_step r s a s' : xinv r s -> nonces_left s -> xstep r s a = Some s' -> xinv r s'.
Proof.
  intros I BN E. destruct a as [d|i|[|] d|own j|own j|[|] j d|i|i]; cbn [xstep] in E.
  - (* XCall *)
    unfold nonces_left in BN. rewrite fresh_nonce in E.
    2: { rewrite (xi_nonce _ _ I). exact BN. }
    2: { intros n ch G. destruct (xi_ent _ _ I n ch G) as [-> Lc]. rewrite (xi_nonce _ _ I). lia. }
    injection E as <-. rewrite (xi_nonce _ _ I), (xi_made _ _ I). set (L := length (x_calls s)) in *.
    assert (LL : length (x_calls s ++ [mkXC d (N.of_nat L + 1) false None None]) = S L) by (rewrite app_length; cbn; fold L; lia).
    assert (NC : forall i c, nth_error (x_calls s ++ [mkXC d (N.of_nat L + 1) false None None]) i = Some c ->
                 nth_error (x_calls s) i = Some c \/ (i = L /\ c = mkXC d (N.of_nat L + 1) false None None)).
    { intros i c H. destruct (Nat.lt_ge_cases i L) as [H'|H'].
      - rewrite nth_error_app1 in H by exact H'. auto.
      - rewrite nth_error_app2 in H by exact H'. fold L in H. destruct (i - L) as [|k] eqn:K; cbn in H.
        + injection H as <-. right. split; [lia|reflexivity].
        + destruct k; discriminate. }
    split; xproj; rewrite ?LL; cbn [rm_nonce rm_made rm_entries rm_get].
    + lia.
    + reflexivity.
    + intros i c H. apply NC in H as [H|[-> ->]]; [exact (xi_call _ _ I i c H)|reflexivity].
    + eapply bounded_le; [|exact (xi_bA _ _ I)]. fold L; lia.
    + eapply bounded_le; [|exact (xi_bB _ _ I)]. fold L; lia.
    + eapply bounded_le; [|exact (xi_wA _ _ I)]. fold L; lia.
    + eapply bounded_le; [|exact (xi_wB _ _ I)]. fold L; lia.
    + intros n ch. destruct (N.eqb_spec n (N.of_nat L + 1)) as [->|Hn]; intros G.
      * injection G as <-. auto.
      * apply (xi_ent _ _ I) in G as [-> H]. fold L in H. auto.
    + intros n ch c. destruct (N.eqb_spec n (N.of_nat L + 1)) as [->|Hn]; intros G H.
      * repeat split; intros x Hx; exfalso; revert Hx.
        -- intros Hx. apply (xi_bA _ _ I) in Hx. fold L in Hx. lia.
        -- intros Hx. apply (xi_wA _ _ I) in Hx. fold L in Hx. lia.
        -- intros Hx. apply (xi_bB _ _ I) in Hx. fold L in Hx. lia.
        -- intros Hx. apply (xi_wB _ _ I) in Hx. fold L in Hx. lia.
      * destruct (xi_ent _ _ I _ _ G) as [_ Lc]. apply NC in H as [H|[-> _]]; [|fold L in Lc; lia]. exact (xi_pend _ _ I n ch c G H).
    + intros i c x H Q. apply NC in H as [H|[-> ->]]; [exact (xi_got _ _ I i c x H Q)|]. cbn in Q. destruct Q; discriminate.
  - (* XSend *)
    destruct (nth_error (x_calls s) i) as [[d n [|] g ret]|] eqn:Hi; try discriminate. injection E as <-. unfold set_call.
    pose proof (xi_call _ _ I _ _ Hi) as Hn. cbn in Hn.
    assert (Li : i < length (x_calls s)) by (apply nth_error_Some; congruence).
    assert (NC : forall k c, nth_error (set_nth i (mkXC d n true g ret) (x_calls s)) k = Some c -> exists c0, nth_error (x_calls s) k = Some c0 /\ xc_data c = xc_data c0 /\
                 xc_nonce c = xc_nonce c0 /\ xc_got c = xc_got c0 /\ xc_ret c = xc_ret c0).
    { intros k c. rewrite (nth_error_set _ _ _ _ k Hi). destruct (Nat.eqb_spec k i) as [->|]; [|eauto 8]. intros H. injection H as <-. eauto 8. }
    destruct I as [I1 I2 I3 I4 I5 I6 I7 I8 I9 I10]. split; xproj; rewrite ?set_length; auto.
    + intros k c H. apply NC in H as (c0 & H & _ & -> & _). eauto.
    + apply bounded_app; [exact I4|]. subst n. lia.
    + intros m ch c G H. apply NC in H as (c0 & H & Ed & En & _). rewrite Ed. destruct (I9 m ch c0 G H) as (A & B & C & D). repeat split; auto.
      intros x Hx. apply in_snoc in Hx as [Hx|Hx]; [auto|]. injection Hx as -> ->.
      destruct (I8 _ _ G) as [Em _]. assert (ch = i) as -> by lia. rewrite Hi in H. injection H as <-. reflexivity.
    + intros k c x H Q. apply NC in H as (c0 & H & -> & -> & Eg & Er). rewrite Eg, Er in Q. exact (I10 k c0 x H Q).
  - injection E as <-. destruct I as [I1 I2 I3 I4 I5 I6 I7 I8 I9 I10]. split; xproj; auto.
    + apply bounded_app; [exact I4|lia].
    + intros m ch c G H. destruct (I9 m ch c G H) as (A & B & C & D). repeat split; auto.
      intros x Hx. apply in_snoc in Hx as [Hx|Hx]; [auto|]. injection Hx as -> ->. destruct (I8 _ _ G). lia.
  - injection E as <-. destruct I as [I1 I2 I3 I4 I5 I6 I7 I8 I9 I10]. split; xproj; auto.
    + apply bounded_app; [exact I5|lia].
    + intros m ch c G H. destruct (I9 m ch c G H) as (A & B & C & D). repeat split; auto.
      intros x Hx. apply in_snoc in Hx as [Hx|Hx]; [exact (C x Hx)|]. injection Hx as -> ->. destruct (I8 _ _ G). lia.
  - (* XToB *)
    destruct (own && negb r) eqn:Ho; [discriminate|]. destruct (nth_error (if own then x_sealB s else x_sealA s) j) as [m|] eqn:Hm; [|discriminate]. injection E as <-.
    apply nth_error_In in Hm. destruct (N.eqb_spec (fst m) 0) as [E0|E0]; [destruct I; split; auto|].
    destruct m as [n x]. cbn [fst] in *. destruct I as [I1 I2 I3 I4 I5 I6 I7 I8 I9 I10]. split; xproj; auto.
    + apply bounded_app; [exact I7|]. destruct own; eauto.
    + intros m ch c G H. destruct (I9 m ch c G H) as (A & B & C & D). repeat split; auto.
      intros y Hy. apply in_snoc in Hy as [Hy|Hy]; [exact (D y Hy)|]. injection Hy as -> ->. destruct own.
      * destruct r; [|discriminate]. exact (C x Hm).
      * apply A in Hm as ->. unfold asked. destruct r; [constructor|reflexivity].
  - (* XToA *)
    destruct (own && negb r) eqn:Ho; [discriminate|]. destruct (nth_error (if own then x_sealA s else x_sealB s) j) as [[n x]|] eqn:Hm; [|discriminate]. cbn [fst snd] in E.
    apply nth_error_In in Hm. destruct (findRequest (x_map s) n) as [rm o] eqn:F. apply findRequest_spec in F as (Eo & En & Em & Eg).
    destruct o as [ch|].
    + destruct (nth_error (x_calls s) ch) as [c|] eqn:Hc; [|discriminate]. injection E as <-. unfold set_call. symmetry in Eo.
      set (c' := mkXC (xc_data c) (xc_nonce c) (xc_sent c) (Some x) (xc_ret c)).
      assert (NC : forall k q, nth_error (set_nth ch c' (x_calls s)) k = Some q -> exists q0, nth_error (x_calls s) k = Some q0 /\ xc_data q = xc_data q0 /\
                   xc_nonce q = xc_nonce q0 /\ xc_ret q = xc_ret q0 /\ (k <> ch -> q = q0)).
      { intros k q. rewrite (nth_error_set _ _ _ _ k Hc). destruct (Nat.eqb_spec k ch) as [->|Nk]; [|eauto 8]. intros H. injection H as <-. exists c. repeat split; auto. tauto. }
      destruct I as [I1 I2 I3 I4 I5 I6 I7 I8 I9 I10]. split; xproj; rewrite ?set_length; auto; try congruence.
      * intros k q H. apply NC in H as (q0 & H & _ & -> & _). eauto.
      * intros m h G. rewrite Eg in G. destruct (N.eqb m n); [discriminate|eauto].
      * intros m h q G H. rewrite Eg in G. destruct (N.eqb_spec m n) as [|Nn]; [discriminate|]. apply NC in H as (q0 & H & -> & _).
        exact (I9 m h q0 G H).
      * intros k q y H Q. destruct (Nat.eq_dec k ch) as [->|Nk].
        -- rewrite (nth_error_set _ _ _ _ ch Hc), Nat.eqb_refl in H. injection H as <-. subst c'. cbn [xc_got xc_ret xc_nonce xc_data] in *.
           destruct (I8 _ _ Eo) as [N0 _]. pose proof (I3 _ _ Hc) as N1. destruct Q as [Q|Q].
           ++ injection Q as <-. destruct (I9 _ _ _ Eo Hc) as (A & _ & C & _). rewrite N1, <- N0. destruct own.
              ** destruct r; [|discriminate]. apply A in Hm as ->. constructor.
              ** exact (C x Hm).
           ++ exact (I10 _ _ _ Hc (or_intror Q)).
        -- apply NC in H as (q0 & H & _ & _ & _ & Eq). rewrite (Eq Nk) in *. exact (I10 _ _ _ H Q).
    + injection E as <-. assert (Eg' : forall k, rm_get k (rm_entries rm) = rm_get k (rm_entries (x_map s))) by exact Eg.
      destruct I as [I1 I2 I3 I4 I5 I6 I7 I8 I9 I10]. split; xproj; auto; try congruence.
      * destruct (N.eqb n 0); [exact I6|]. apply bounded_app; [exact I6|]. destruct own; eauto.
      * intros m h G. rewrite Eg' in G. eauto.
      * intros m h q G H. rewrite Eg' in G. destruct (I9 m h q G H) as (A & B & C & D). repeat split; auto.
        intros y. destruct (N.eqb n 0); [apply B|]. intros Hy. apply in_snoc in Hy as [Hy|Hy]; [exact (B y Hy)|]. injection Hy as -> ->. congruence.
  - (* XAnswer, the first end *)
    destruct (nth_error (x_workA s) j) as [[n x]|] eqn:Hj; [|discriminate]. injection E as <-. apply nth_error_In in Hj.
    destruct I as [I1 I2 I3 I4 I5 I6 I7 I8 I9 I10]. split; xproj; auto.
    + apply bounded_app; [exact I4|eauto].
    + intros m y Hy. apply in_remove in Hy. eauto.
    + intros m h q G H. destruct (I9 m h q G H) as (A & B & C & D). repeat split; auto.
      * intros y Hy. apply in_snoc in Hy as [Hy|Hy]; [auto|]. injection Hy as -> ->. destruct (B x Hj).
      * intros y Hy. apply in_remove in Hy. exact (B y Hy).
  - (* XAnswer, the second end *)
    destruct (nth_error (x_workB s) j) as [[n x]|] eqn:Hj; [|discriminate]. apply nth_error_In in Hj.
    set (s1 := mkX _ _ _ _ _ _ _) in E. injection E as <-.
    assert (M : forall t, In t (x_ans s) -> In t (x_ans s1)) by (intros t Ht; unfold s1; cbn; apply in_or_app; auto).
    assert (PA : peer_answered (x_ans s1) n x d) by (unfold peer_answered, s1; cbn; apply in_or_app; right; left; reflexivity).
    destruct I as [I1 I2 I3 I4 I5 I6 I7 I8 I9 I10]. split; unfold s1 in *; xproj; auto.
    + apply bounded_app; [exact I5|eauto].
    + intros m y Hy. apply in_remove in Hy. eauto.
    + intros m h q G H. destruct (I9 m h q G H) as (A & B & C & D). repeat split; auto.
      * intros y Hy. apply in_snoc in Hy as [Hy|Hy]; [eapply told_mono; [exact M|auto]|]. injection Hy as -> ->.
        eapply asked_told; [eapply asked_mono; [exact M|exact (D x Hj)]|exact PA].
      * intros y Hy. apply in_remove in Hy. eapply asked_mono; [exact M|auto].
    + intros k q y H Q. eapply told_mono; [exact M|]. exact (I10 k q y H Q).
  - (* XReceive *)
    destruct (nth_error (x_calls s) i) as [[d n [|] [g|] [ret|]]|] eqn:Hi; try discriminate. injection E as <-. unfold set_call.
    destruct I as [I1 I2 I3 I4 I5 I6 I7 I8 I9 I10]. split; xproj; rewrite ?set_length; auto.
    + intros k c. rewrite (nth_error_set _ _ _ _ k Hi). destruct (Nat.eqb_spec k i) as [->|]; [|eauto]. intros H. injection H as <-. exact (I3 _ _ Hi).
    + intros m ch c G. rewrite (nth_error_set _ _ _ _ ch Hi). destruct (Nat.eqb_spec ch i) as [->|]; intros H; [|exact (I9 m ch c G H)]. injection H as <-. exact (I9 _ _ _ G Hi).
    + intros k c x. rewrite (nth_error_set _ _ _ _ k Hi). destruct (Nat.eqb_spec k i) as [->|]; intros H Q; [|exact (I10 k c x H Q)].
      injection H as <-. cbn in *. destruct Q as [Q|Q]; [discriminate|]. injection Q as <-. exact (I10 _ _ g Hi (or_introl eq_refl)).
  - (* XCancel *)
    destruct (nth_error (x_calls s) i) as [[d n [|] g [ret|]]|] eqn:Hi; try discriminate. injection E as <-. unfold set_call.
    destruct I as [I1 I2 I3 I4 I5 I6 I7 I8 I9 I10]. split; xproj; rewrite ?set_length; auto.
    + intros k c. rewrite (nth_error_set _ _ _ _ k Hi). destruct (Nat.eqb_spec k i) as [->|]; [|eauto]. intros H. injection H as <-. exact (I3 _ _ Hi).
    + intros m ch c G. rewrite (nth_error_set _ _ _ _ ch Hi). destruct (Nat.eqb_spec ch i) as [->|]; intros H; [|exact (I9 m ch c G H)]. injection H as <-. exact (I9 _ _ _ G Hi).
    + intros k c x. rewrite (nth_error_set _ _ _ _ k Hi). destruct (Nat.eqb_spec k i) as [->|]; intros H Q; [|exact (I10 k c x H Q)].
      injection H as <-. cbn in *. destruct Q as [Q|Q]; [|discriminate]. exact (I10 _ _ x Hi (or_introl Q)).
Qed.

Lemma calls_grow r s a s' : xstep r s a = Some s' -> length (x_calls s) <= length (x_calls s').
Proof.
  destruct a as [d|i|[|] d|own j|own j|[|] j d|i|i]; cbn [xstep]; intros E.
  - destruct (nextNonce (x_map s)) as [m [[ch n]|]]; injection E as <-; cbn; rewrite ?app_length; lia.
  - destruct (nth_error (x_calls s) i) as [[d n [|] g ret]|]; try discriminate. injection E as <-. cbn. unfold set_call. rewrite set_length. lia.
  - injection E as <-. cbn. lia.
  - injection E as <-. cbn. lia.
  - destruct (own && negb r); [discriminate|]. destruct (nth_error _ j); [|discriminate]. injection E as <-. cbn. lia.
  - destruct (own && negb r); [discriminate|]. destruct (nth_error _ j) as [m|]; [|discriminate]. destruct (findRequest (x_map s) (fst m)) as [rm [ch|]].
    + destruct (nth_error (x_calls s) ch); [|discriminate]. injection E as <-. cbn. unfold set_call. rewrite set_length. lia.
    + injection E as <-. cbn. lia.
  - destruct (nth_error _ j) as [[n x]|]; [|discriminate]. injection E as <-. cbn. lia.
  - destruct (nth_error _ j) as [[n x]|]; [|discriminate]. injection E as <-. cbn. lia.
  - destruct (nth_error (x_calls s) i) as [[d n [|] [g|] [ret|]]|]; try discriminate. injection E as <-. cbn. unfold set_call. rewrite set_length. lia.
  - destruct (nth_error (x_calls s) i) as [[d n [|] g [ret|]]|]; try discriminate. injection E as <-. cbn. unfold set_call. rewrite set_length. lia.
Qed.
Lemma run_grow r acts : forall s s', xrun r s acts = Some s' -> length (x_calls s) <= length (x_calls s').
Proof.
  induction acts as [|a acts IH]; intros s s' E; cbn in E; [injection E as <-; lia|].
  destruct (xstep r s a) as [s1|] eqn:E1; [|discriminate]. apply calls_grow in E1. apply IH in E. lia.
Qed.
Lemma xinv_run r acts : forall s s', xinv r s -> xrun r s acts = Some s' -> nonces_left s' -> xinv r s'.
Proof.
  induction acts as [|a acts IH]; intros s s' I E B; cbn in E; [injection E as <-; exact I|].
  destruct (xstep r s a) as [s1|] eqn:E1; [|discriminate]. eapply IH; [|exact E|exact B].
  eapply xinv_step; [exact I| |exact E1]. apply calls_grow in E1. apply run_grow in E. unfold nonces_left in *. lia.
Qed.

(** ** What holds *)

(** Whatever the network does, a call returns its own data, or the peer's answer to it, or the peer's answer to that answer, and so on: never anything
    that belongs to another call (the nonces of two calls differ), nor a message that was no response. *)
Theorem C108_partial : forall acts s i c d,
  xrun true x_start acts = Some s -> nonces_left s -> nth_error (x_calls s) i = Some c -> got_back c d ->
  second_hand (x_ans s) (xc_nonce c) (xc_data c) d /\
  (forall i' c', nth_error (x_calls s) i' = Some c' -> xc_nonce c' = xc_nonce c -> i' = i).
Proof.
  intros acts s i c d E B Hi G. pose proof (xinv_run true acts _ _ (xinv_start true) E B) as I. split.
  - exact (xi_got _ _ I i c d Hi (or_intror G)).
  - intros i' c' H' En. rewrite (xi_call _ _ I _ _ H'), (xi_call _ _ I _ _ Hi) in En. lia.
Qed.
Print Assumptions C108_partial.

(** If no end took back what it sealed itself, the claim would hold, even for a network that repeats, reorders and withholds messages. *)
Theorem C108_directed : forall acts s i c d,
  xrun false x_start acts = Some s -> nonces_left s -> nth_error (x_calls s) i = Some c -> got_back c d ->
  peer_answered (x_ans s) (xc_nonce c) (xc_data c) d.
Proof.
  intros acts s i c d E B Hi G. pose proof (xinv_run false acts _ _ (xinv_start false) E B) as I.
  exact (xi_got _ _ I i c d Hi (or_intror G)).
Qed.
Print Assumptions C108_directed.

(** ** What does not *)

(** A call that has been sent and has been given nothing is in the request map. *)
Record xlive (s : xstate) : Prop := mkXL {
  xl_sent : forall i c, nth_error (x_calls s) i = Some c -> xc_sent c = true -> In (xc_nonce c, xc_data c) (x_sealA s);
  xl_wait : forall i c, nth_error (x_calls s) i = Some c -> xc_got c = None -> (forall g, xc_ret c <> Some (Some g)) -> rm_get (xc_nonce c) (rm_entries (x_map s)) = Some i
}.
Lemma xlive_step r s a s' : xinv r s -> xlive s -> nonces_left s -> xstep r s a = Some s' -> xlive s'.
Proof.
  intros I [V W] BN E. destruct a as [d|i|[|] d|own j|own j|[|] j d|i|i]; cbn [xstep] in E.
  - unfold nonces_left in BN. rewrite fresh_nonce in E.
    2: { rewrite (xi_nonce _ _ I). exact BN. }
    2: { intros n ch G. destruct (xi_ent _ _ I n ch G) as [-> Lc]. rewrite (xi_nonce _ _ I). lia. }
    injection E as <-. rewrite (xi_nonce _ _ I), (xi_made _ _ I). set (L := length (x_calls s)) in *.
    assert (NC : forall i c, nth_error (x_calls s ++ [mkXC d (N.of_nat L + 1) false None None]) i = Some c ->
                 (i < L /\ nth_error (x_calls s) i = Some c) \/ (i = L /\ c = mkXC d (N.of_nat L + 1) false None None)).
    { intros i c H. destruct (Nat.lt_ge_cases i L) as [H'|H'].
      - rewrite nth_error_app1 in H by exact H'. auto.
      - rewrite nth_error_app2 in H by exact H'. fold L in H. destruct (i - L) as [|k] eqn:K; cbn in H.
        + injection H as <-. right. split; [lia|reflexivity].
        + destruct k; discriminate. }
    split; xproj; cbn [rm_entries rm_get].
    + intros i c H T. apply NC in H as [[_ H]|[-> ->]]; [eauto|discriminate].
    + intros i c H G R. apply NC in H as [[Li H]|[-> ->]].
      * rewrite (xi_call _ _ I _ _ H). destruct (N.eqb_spec (N.of_nat i + 1) (N.of_nat L + 1)); [lia|]. rewrite <- (xi_call _ _ I _ _ H). eauto.
      * cbn. rewrite N.eqb_refl. reflexivity.
  - destruct (nth_error (x_calls s) i) as [[d n [|] g ret]|] eqn:Hi; try discriminate. injection E as <-. unfold set_call. split; xproj.
    + intros k c. rewrite (nth_error_set _ _ _ _ k Hi). destruct (Nat.eqb_spec k i) as [->|]; intros H T; apply in_or_app; [|eauto]. injection H as <-. right. left. reflexivity.
    + intros k c. rewrite (nth_error_set _ _ _ _ k Hi). destruct (Nat.eqb_spec k i) as [->|]; intros H T R; [|eauto]. injection H as <-. exact (W _ _ Hi T R).
  - injection E as <-. split; xproj; [|eauto]. intros k c H T. apply in_or_app. eauto.
  - injection E as <-. split; xproj; eauto.
  - destruct (own && negb r); [discriminate|]. destruct (nth_error _ j); [|discriminate]. injection E as <-. split; xproj; eauto.
  - destruct (own && negb r); [discriminate|]. destruct (nth_error _ j) as [[n x]|] eqn:Hm; [|discriminate]. cbn [fst snd] in E.
    destruct (findRequest (x_map s) n) as [rm o] eqn:F. apply findRequest_spec in F as (Eo & En & Em & Eg). destruct o as [ch|].
    + destruct (nth_error (x_calls s) ch) as [c|] eqn:Hc; [|discriminate]. injection E as <-. unfold set_call. symmetry in Eo. split; xproj.
      * intros k q. rewrite (nth_error_set _ _ _ _ k Hc). destruct (Nat.eqb_spec k ch) as [->|]; intros H T; [|eauto]. injection H as <-. exact (V _ _ Hc T).
      * intros k q. rewrite (nth_error_set _ _ _ _ k Hc). destruct (Nat.eqb_spec k ch) as [->|Nk]; intros H T R; [injection H as <-; discriminate|].
        rewrite Eg. destruct (N.eqb_spec (xc_nonce q) n) as [Eq|]; [|eauto]. specialize (W _ _ H T R). congruence.
    + injection E as <-. split; xproj; [eauto|]. intros k q H T R. rewrite Eg. eauto.
  - destruct (nth_error _ j) as [[n x]|]; [|discriminate]. injection E as <-. split; xproj; [|eauto]. intros k c H T. apply in_or_app. eauto.
  - destruct (nth_error _ j) as [[n x]|]; [|discriminate]. injection E as <-. split; xproj; eauto.
  - destruct (nth_error (x_calls s) i) as [[d n [|] [g|] [ret|]]|] eqn:Hi; try discriminate. injection E as <-. unfold set_call. split; xproj.
    + intros k c. rewrite (nth_error_set _ _ _ _ k Hi). destruct (Nat.eqb_spec k i) as [->|]; intros H T; [|eauto]. injection H as <-. exact (V _ _ Hi eq_refl).
    + intros k c. rewrite (nth_error_set _ _ _ _ k Hi). destruct (Nat.eqb_spec k i) as [->|]; intros H T R; [|eauto]. injection H as <-. destruct (R g). reflexivity.
  - destruct (nth_error (x_calls s) i) as [[d n [|] g [ret|]]|] eqn:Hi; try discriminate. injection E as <-. unfold set_call. split; xproj.
    + intros k c. rewrite (nth_error_set _ _ _ _ k Hi). destruct (Nat.eqb_spec k i) as [->|]; intros H T; [|eauto]. injection H as <-. exact (V _ _ Hi eq_refl).
    + intros k c. rewrite (nth_error_set _ _ _ _ k Hi). destruct (Nat.eqb_spec k i) as [->|]; intros H T R; [|eauto]. injection H as <-. cbn in T. subst g. refine (W _ _ Hi eq_refl _). discriminate.
Qed.
Lemma xlive_run r acts : forall s s', xinv r s -> xlive s -> xrun r s acts = Some s' -> nonces_left s' -> xlive s'.
Proof.
  induction acts as [|a acts IH]; intros s s' I X E B; cbn in E; [injection E as <-; exact X|].
  destruct (xstep r s a) as [s1|] eqn:E1; [|discriminate].
  assert (B0 : nonces_left s). { pose proof (calls_grow _ _ _ _ E1). apply run_grow in E. unfold nonces_left in *. lia. }
  eapply IH; [|eapply xlive_step; eassumption|exact E|exact B]. eapply xinv_step; eassumption.
Qed.
Lemma xlive_start : xlive x_start.
Proof. split; intros [|i]; discriminate. Qed.

(** Call [i] has been sent, has been given nothing and has not returned. *)
Definition waiting (s : xstate) (i : nat) (c : xcall) : Prop :=
  nth_error (x_calls s) i = Some c /\ xc_sent c = true /\ xc_got c = None /\ xc_ret c = None.

(** Whoever carries the frames makes any call that waits return its own data, by handing its frame back; nobody else does anything. *)
Theorem C108_reflected : forall acts s i c, xrun true x_start acts = Some s -> nonces_left s -> waiting s i c ->
  exists j s' c', xrun true s [XToA true j; XReceive i] = Some s' /\ nth_error (x_calls s') i = Some c' /\ got_back c' (xc_data c) /\
    x_ans s' = x_ans s /\ x_sealB s' = x_sealB s.
Proof.
  intros acts s i c E B (Hi & Hs & Hg & Hr).
  pose proof (xinv_run true acts _ _ (xinv_start true) E B) as I. pose proof (xlive_run true acts _ _ (xinv_start true) xlive_start E B) as [V W].
  pose proof (V _ _ Hi Hs) as Hin. assert (G : rm_get (xc_nonce c) (rm_entries (x_map s)) = Some i). { apply (W _ _ Hi Hg). rewrite Hr. discriminate. }
  destruct (In_nth_error (A := xmsg) _ _ Hin) as [j Hj]. exists j. destruct c as [d n st g ret].
  cbn [xc_nonce xc_data xc_sent xc_got xc_ret] in *. subst st g ret. cbn [xrun xstep andb negb]. unfold findRequest. rewrite Hj. cbn [fst snd]. rewrite G, Hi. cbn [xc_data xc_nonce xc_sent xc_ret]. unfold set_call. xproj.
  rewrite (nth_error_set _ _ _ _ i Hi), Nat.eqb_refl. do 2 eexists. split; [reflexivity|]. xproj.
  erewrite (nth_error_set _ _ _ _ i); [|rewrite (nth_error_set _ _ _ _ i Hi), Nat.eqb_refl; reflexivity]. rewrite Nat.eqb_refl.
  split; [reflexivity|]. repeat split; reflexivity.
Qed.
Print Assumptions C108_reflected.

(** It may also have the peer answer its own answer: if the peer's handlers would answer [y] to the call's data and [z] to [y], the call may return [z]. *)
Definition net_or_peer (i : nat) (a : xact) : Prop :=
  match a with XToA _ _ | XToB _ _ | XAnswer false _ _ => True | XReceive k => k = i | _ => False end.

Lemma nth_last {A} (l : list A) x : nth_error (l ++ [x]) (length l) = Some x.
Proof. rewrite nth_error_app2 by lia. rewrite Nat.sub_diag. reflexivity. Qed.
Lemma remove_last {A} (l : list A) x : remove_nth (length l) (l ++ [x]) = l.
Proof. induction l as [|y l IH]; cbn; [reflexivity|]. now rewrite IH. Qed.

Theorem C108_second_hand : forall acts s i c y z, xrun true x_start acts = Some s -> nonces_left s -> waiting s i c ->
  exists more s' c', Forall (net_or_peer i) more /\ xrun true s more = Some s' /\ nth_error (x_calls s') i = Some c' /\ got_back c' z /\
    x_ans s' = x_ans s ++ [(xc_nonce c, xc_data c, y); (xc_nonce c, y, z)].
Proof.
  intros acts s i c y z E B (Hi & Hs & Hg & Hr).
  pose proof (xinv_run true acts _ _ (xinv_start true) E B) as I. pose proof (xlive_run true acts _ _ (xinv_start true) xlive_start E B) as [V W].
  pose proof (V _ _ Hi Hs) as Hin. assert (G : rm_get (xc_nonce c) (rm_entries (x_map s)) = Some i). { apply (W _ _ Hi Hg). rewrite Hr. discriminate. }
  destruct (In_nth_error (A := xmsg) _ _ Hin) as [j Hj]. pose proof (xi_call _ _ I _ _ Hi) as Hn.
  exists [XToB false j; XAnswer false (length (x_workB s)) y; XToB true (length (x_sealB s)); XAnswer false (length (x_workB s)) z; XToA false (S (length (x_sealB s))); XReceive i].
  destruct c as [d n st g ret]. cbn [xc_nonce xc_data xc_sent xc_got xc_ret] in *. subst st g ret.
  assert (N0 : N.eqb n 0 = false) by (apply N.eqb_neq; lia).
  cbn [xrun xstep andb negb]. rewrite Hj. cbn [fst snd]. rewrite N0. xproj. rewrite nth_last. xproj. rewrite nth_last. cbn [fst snd]. rewrite N0, remove_last. xproj. rewrite nth_last. xproj.
  rewrite remove_last. rewrite <- !app_assoc. cbn [app].
  assert (Q : nth_error (x_sealB s ++ [(n, y); (n, z)] : list xmsg) (S (length (x_sealB s))) = Some (n, z)).
  { rewrite nth_error_app2 by lia. replace (S (length (x_sealB s)) - length (x_sealB s)) with 1 by lia. reflexivity. }
  match goal with |- context [nth_error ?l (S ?k)] => change (nth_error l (S k)) with (nth_error (x_sealB s ++ [(n, y); (n, z)] : list xmsg) (S (length (x_sealB s)))) end.
  rewrite Q. cbn [fst snd]. unfold findRequest. rewrite G, Hi. cbn [xc_data xc_nonce xc_sent xc_ret]. unfold set_call. xproj.
  rewrite (nth_error_set _ _ _ _ i Hi), Nat.eqb_refl. do 2 eexists. split; [repeat constructor|]. split; [reflexivity|]. xproj.
  erewrite (nth_error_set _ _ _ _ i); [|rewrite (nth_error_set _ _ _ _ i Hi), Nat.eqb_refl; reflexivity]. rewrite Nat.eqb_refl.
  split; [reflexivity|]. repeat split; reflexivity.
Qed.
Print Assumptions C108_second_hand.

Definition msg_a : bytes := [Byte.x61]. Definition msg_b : bytes := [Byte.x62]. Definition msg_c : bytes := [Byte.x63].

Theorem C108_refuted : ~ C108_statement.
Proof.
  intros H. specialize (H [XCall msg_a; XSend 0; XToA true 0; XReceive 0] _ 0 _ msg_a eq_refl eq_refl eq_refl eq_refl). destruct H.
Qed.
Print Assumptions C108_refuted.

(** Two calls at once; the peer answers both, its answers are handed over in another order, and a second answer to one of them is
    taken for a request by the first end's own handlers, which answer it; a third call is cut short. *)
Definition ex_direct : list xact :=
  [XCall msg_a; XCall msg_b; XSend 1; XSend 0; XToB false 1; XToB false 0; XToB false 0; XAnswer false 0 msg_c; XAnswer false 0 msg_a; XAnswer false 0 msg_b;
   XToA false 2; XToA false 1; XToA false 0; XReceive 1; XReceive 0; XAnswer true 0 msg_c; XCall msg_c; XSend 2; XCancel 2].
Example C108_nonvacuous :
  match xrun false x_start ex_direct with
  | Some s => map (fun c => (xc_data c, xc_nonce c, xc_ret c)) (x_calls s) = [(msg_a, 1%N, Some (Some msg_c)); (msg_b, 2%N, Some (Some msg_b)); (msg_c, 3%N, Some None)]
              /\ x_ans s = [(1%N, msg_a, msg_c); (2%N, msg_b, msg_a); (2%N, msg_b, msg_b)]
  | None => False
  end.
Proof. vm_compute. split; reflexivity. Qed.
(** A state in which a call waits while another has returned. *)
Example C108_waiting_nonvacuous : exists s c, xrun true x_start [XCall msg_a; XSend 0; XCall msg_b; XSend 1; XToB false 0; XAnswer false 0 msg_c; XToA false 0; XReceive 0] = Some s /\
  nonces_left s /\ waiting s 1 c /\ exists c0, nth_error (x_calls s) 0 = Some c0 /\ got_back c0 msg_c.
Proof. do 2 eexists. split; [vm_compute; reflexivity|]. split; [reflexivity|]. split; [repeat split; reflexivity|]. eexists. split; reflexivity. Qed.
