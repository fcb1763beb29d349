(** * C81: typed messages end to end, over a handshaken connection. *)
From Verif Require Import Base Spec M_Addr M_ID M_Msg M_AEAD M_Frame M_Codec M_Handshake M_Pipe
  P_Wire P_AEAD P_Frame P_Codec Props_Frame Props_Codec Props_Handshake.
From Coq Require Import Strings.Byte.
Local Open Scope nat_scope.

(** The registered type and decoder of a value (a value of the type or a pointer to one). *)
Definition registered (hist : list (gotype * decoder)) (v : value) (d : decoder) : Prop :=
  exists t, In (t, d) hist /\ (v_type v = t \/ v_type v = TPtr t).

(** Size of a value on the wire: nonce, opcode, payload, and what the cipher adds. *)
Definition value_size (a : aead) (v : value) : N := N.of_nat (8 + 2 + length (v_bytes v) + nonce_size a + overhead a).

(** The batches the writer happened to take: together the messages queued, in order, with one cipher nonce per message. *)
Definition batches_of (a : aead) (ms : list message) (bs : list (list bytes * list message)) : Prop :=
  concat (map snd bs) = ms /\
  Forall (fun b => length (fst b) = length (snd b) /\ Forall (fun r => length r = nonce_size a) (fst b)) bs.

Lemma forall2_length {X Y} (R : X -> Y -> Prop) l l' : Forall2 R l l' -> length l = length l'.
Proof. induction 1; cbn; congruence. Qed.

Lemma encode_all_ok hist c os : register_all newCodec hist = Ok (c, os) -> (N.of_nat (length hist) <= 65536)%N ->
  (forall t d, In (t, d) hist -> forall e, t <> TPtr e) ->
  forall vs, (forall n v, In (n, v) vs -> exists d, registered hist v d) ->
  exists ms, encode_all c vs = Ok ms /\
    Forall2 (fun nv m => m_nonce m = fst nv /\ length (m_data m) = 2 + length (v_bytes (snd nv)) /\
      forall c' os' d, register_all newCodec hist = Ok (c', os') -> registered hist (snd nv) d ->
        handler_decode c' m = d_run d (v_bytes (snd nv))) vs ms.
Proof.
  intros E HL HP. induction vs as [|[n v] vs IH]; intros HV; [exists []; split; [reflexivity | constructor]|].
  destruct (IH (fun n v H => HV n v (or_intror H))) as (ms & E1 & F).
  destruct (HV n v (or_introl eq_refl)) as (d & t & Hi & Ht).
  destruct (In_nth_error _ _ Hi) as [i Ei].
  destruct (C05_roundtrip hist c os c os i t d v E E HL Ei (HP t d Hi) Ht) as [X _].
  cbn [encode_all]. rewrite X. cbn [bind]. rewrite E1. cbn [bind]. eexists. split; [reflexivity|]. constructor; [|exact F].
  cbn [fst snd m_nonce m_data]. split; [reflexivity|]. split; [reflexivity|].
  intros c' os' d' E' (t' & Hi' & Ht').
  assert (Htt : t' = t).
  { destruct Ht as [Ht|Ht], Ht' as [Ht'|Ht']; try congruence.
    - exfalso. apply (HP t d Hi t'). congruence.
    - exfalso. apply (HP t' d' Hi' t). congruence. }
  subst t'. destruct (In_nth_error _ _ Hi') as [j Ej].
  assert (Hij : j = i).
  { destruct (C05_register_only hist c os E) as [ND _]. eapply NoDup_nth_error; [exact ND | |].
    - rewrite map_length. apply nth_error_Some. rewrite Ej. discriminate.
    - rewrite !nth_error_map, Ej, Ei. reflexivity. }
  subst j. rewrite Ei in Ej. injection Ej as <-.
  destruct (C05_roundtrip hist c os c' os' i t d v E E' HL Ei (HP t d Hi) Ht) as [_ Y]. exact Y.
Qed.

Lemma frames_app A ms : forall r1 r2 ms', length r1 = length ms -> frames A (r1 ++ r2) (ms ++ ms') = frames A r1 ms ++ frames A r2 ms'.
Proof.
  induction ms as [|m ms IH]; intros [|r r1] r2 ms' H; try discriminate; [reflexivity|]. cbn [app frames tl hd].
  rewrite IH by (cbn in H; lia). rewrite app_assoc. reflexivity.
Qed.

Lemma write_batches_ok grow a : (forall c n, n <= grow c n) -> aead_contract a -> forall bs h buf, valid h buf ->
  Forall (fun b : list bytes * list message => length (fst b) = length (snd b) /\ Forall (fun r => length r = nonce_size a) (fst b)) bs ->
  exists h' buf', write_batches grow (Some a) bs h buf = Ok (h', buf', frames (Some a) (concat (map fst bs)) (concat (map snd bs))).
Proof.
  intros G HC. induction bs as [|[r ms] bs IH]; intros h buf V F; [eexists _, _; reflexivity|].
  inversion F as [|? ? [X Y] F']; subst. cbn [fst snd] in X, Y.
  destruct (C10_write_batch grow (Some a) r ms h buf G (conj HC (conj X Y)) V) as (h1 & b1 & E & V1).
  destruct (IH h1 b1 V1 F') as (h2 & b2 & E2).
  cbn [write_batches]. rewrite E. cbn [bind]. rewrite E2. cbn [bind]. exists h2, b2. cbn [map concat fst snd].
  rewrite frames_app by exact X. reflexivity.
Qed.

Lemma batches_nonces a bs : Forall (fun b : list bytes * list message => length (fst b) = length (snd b) /\ Forall (fun r => length r = nonce_size a) (fst b)) bs ->
  length (concat (map fst bs)) = length (concat (map snd bs)) /\ Forall (fun r => length r = nonce_size a) (concat (map fst bs)).
Proof.
  induction bs as [|[r ms] bs IH]; intros F; [split; [reflexivity | constructor]|].
  inversion F as [|? ? [X Y] F']; subst. destruct (IH F') as [U V]. cbn [map concat fst snd] in *. split.
  - rewrite !app_length. lia.
  - apply Forall_app. auto.
Qed.

(** Sending never fails: every registered value is encoded, and the writer's loop writes all of it whatever the batching. *)
Theorem C81_sends : forall hist c os vs grow a,
  register_all newCodec hist = Ok (c, os) -> (N.of_nat (length hist) <= 65536)%N ->
  (forall t d, In (t, d) hist -> forall e, t <> TPtr e) ->
  (forall n v, In (n, v) vs -> exists d, registered hist v d) ->
  (forall c n, n <= grow c n) -> aead_contract a ->
  exists ms, encode_all c vs = Ok ms /\ length ms = length vs /\
    forall bs, batches_of a ms bs -> exists out, write_loop grow (Some a) bs = Ok out.
Proof.
  intros hist c os vs grow a E HL HP HV G HC. destruct (encode_all_ok hist c os E HL HP vs HV) as (ms & E1 & F).
  exists ms. split; [exact E1|]. split; [symmetry; eapply forall2_length; exact F|]. intros bs [_ B].
  unfold write_loop. cbn [make]. unfold reslice. cbn [s_cap s_arr s_off Nat.leb andb plus bind].
  edestruct (write_batches_ok grow a G HC bs) as (h' & b' & W); [| exact B | rewrite W; cbn [bind]; eauto].
  unfold valid. cbn [s_arr s_off s_cap s_len app length arr nth]. rewrite zeros_length. lia.
Qed.
Print Assumptions C81_sends.

Lemma client_read_end L A st st' r : (1 <= L)%N -> (L + 4 < 2 ^ 32)%N -> N.of_nat (length (rs_buf st)) = (4 + L)%N ->
  client_read L A st = (st', r) -> rd_end (rs_rd st') = rd_end (rs_rd st).
Proof.
  intros H1 H2 HB E. destruct (client_read_spec L A st) as (s & E1 & _ & _ & K1 & K2 & _ & K3). cbv zeta in *.
  assert (s = st') as <-; [|exact E1].
  set (b := rd_bytes (rs_rd st)) in *. destruct (Nat.lt_ge_cases (length b) 4) as [H4|H4].
  { destruct K1 as [K _]; try lia. congruence. }
  destruct (N.lt_ge_cases L (be_decode (firstn 4 b))) as [Hs|Hs].
  { destruct K2 as [K _]; try lia. congruence. }
  destruct K3 as [Ka Kb]; try lia.
  destruct (Nat.lt_ge_cases (length b) (4 + N.to_nat (be_decode (firstn 4 b)))) as [H5|H5].
  - destruct (Ka H5). congruence.
  - destruct (Kb H5). congruence.
Qed.

Lemma hs_end C L e st : (1 <= L)%N -> (L + 4 < 2 ^ 32)%N -> N.of_nat (length (rs_buf st)) = (4 + L)%N ->
  rd_end (rs_rd (hr_rd (handshake C L e st))) = rd_end (rs_rd st) /\ length (rs_buf (hr_rd (handshake C L e st))) = length (rs_buf st).
Proof.
  intros H1 H2 HB. unfold handshake. destruct (he_eph e) as [[pub sec]| |]; auto. destruct (he_w1 e); auto.
  destruct (client_read L None st) as [st1 r1] eqn:E1.
  destruct (C08_limit L None st H1 H2 HB) as (x & r & Ex & _ & LB & _). rewrite E1 in Ex. injection Ex as <- <-.
  pose proof (client_read_end L None st st1 r1 H1 H2 HB E1) as D1.
  destruct (bind r1 _) as [[sh su]| |]; auto. destruct (he_w2 e); auto.
  destruct (client_read L (Some su) st1) as [st2 r2] eqn:E2. cbn [hr_rd].
  destruct (C08_limit L (Some su) st1 H1 H2) as (x & r & Ex & _ & LB2 & _); [congruence|]. rewrite E2 in Ex. injection Ex as <- <-.
  pose proof (client_read_end L (Some su) st1 st2 r2 H1 H2) as D2. rewrite D2; [split; congruence | congruence | exact E2].
Qed.

(** What C81_delivery says, with the messages that arrive named. *)
Lemma deliver_exact : forall C L suite shared eA pubA secA eB pubB secB chA chB endA endB restA
    hist cA osA cB osB vs ms grow bs out fuel,
  party C suite eA pubA secA -> party C suite eB pubB secB ->
  ecdh C secA pubB = Ok shared -> ecdh C secB pubA = Ok shared -> gcm C shared = Ok suite -> aead_contract suite ->
  (N.max 96 (N.of_nat (114 + nonce_size suite + overhead suite)) <= L)%N -> (L + 4 < 2 ^ 32)%N ->
  register_all newCodec hist = Ok (cA, osA) -> register_all newCodec hist = Ok (cB, osB) ->
  (N.of_nat (length hist) <= 65536)%N -> (forall t d, In (t, d) hist -> forall e, t <> TPtr e) ->
  (forall n v, In (n, v) vs -> (n < 2 ^ 64)%N /\ (value_size suite v <= L)%N /\ exists d, registered hist v d) ->
  (forall c n, n <= grow c n) ->
  let hA := handshake C L eA (new_rstate L (mkConn chA endA)) in
  let hB := handshake C L eB (new_rstate L (mkConn chB endB)) in
  encode_all cA vs = Ok ms -> batches_of suite ms bs -> write_loop grow (hr_suite hA) bs = Ok out ->
  concat chA = hr_sent hB ++ restA -> concat chB = hr_sent hA ++ out ->
  length vs < fuel ->
  inbound_recv C L eB fuel (mkConn chB endB) = (Ok (he_id eA), Some (ms, Err endB)) /\
    outbound_recv C L eB fuel (mkConn chB endB) = (Ok (he_id eA), Some (ms, Err endB)) /\
    Forall2 (fun nv m => m_nonce m = fst nv /\
      forall d, registered hist (snd nv) d -> handler_decode cB m = d_run d (v_bytes (snd nv))) vs ms.
Proof.
  intros C L suite shared eA pubA secA eB pubB secB chA chB endA endB restA hist cA osA cB osB vs ms grow bs out fuel
    PA PB EA EB HG HC HL1 HL2 RA RB HN HP HV G hA hB EM [HB1 HB2] HW HcA HcB HF.
  destruct (C48_agreement C L suite shared eA pubA secA eB pubB secB chA chB endA endB restA out PA PB EA EB HG HC HL1 HL2 HcA HcB)
    as (_ & Q2 & Q3 & Q4 & _ & Q6). fold hA in Q3. fold hB in Q2, Q4, Q6.
  destruct (encode_all_ok hist cA osA RA HN HP vs (fun n v H => proj2 (proj2 (HV n v H)))) as (ms' & EM' & F).
  rewrite EM in EM'. injection EM' as <-.
  rewrite Q3 in HW. unfold write_loop in HW. cbn [make] in HW. unfold reslice in HW. cbn [s_cap s_arr s_off Nat.leb andb plus bind] in HW.
  edestruct (write_batches_ok grow suite G HC bs) as (h' & b' & W); [| exact HB2 | rewrite W in HW].
  { unfold valid. cbn [s_arr s_off s_cap s_len app length arr nth]. rewrite zeros_length. lia. }
  cbn [bind] in HW. injection HW as HW. rewrite HB1 in HW.
  destruct (batches_nonces suite bs HB2) as [N1 N2]. rewrite HB1 in N1.
  assert (BL : N.of_nat (length (rs_buf (new_rstate L (mkConn chB endB)))) = (4 + L)%N).
  { cbn [rs_buf new_rstate]. rewrite zeros_length. unfold u32. rewrite N.mod_small by lia. lia. }
  destruct (hs_end C L eB (new_rstate L (mkConn chB endB))) as [D1 D2]; [lia | exact HL2 | exact BL |]. fold hB in D1, D2.
  change (rd_end (rs_rd (new_rstate L (mkConn chB endB)))) with endB in D1.
  assert (LM : length ms = length vs) by (symmetry; eapply forall2_length; exact F).
  destruct (recv_frames L (Some suite)) with (ms := ms) (rnds := concat (map fst bs)) (k := fuel - length ms) (rest := @nil byte) (st := hr_rd hB)
    as (st' & B1 & B2 & B3 & K); try lia.
  - apply writer_suite. split; [exact HC|]. auto.
  - apply Forall_forall. intros m Hm. destruct (In_nth_error _ _ Hm) as [i Hi].
    clear - F Hi HV. revert i Hi HV. induction F as [|nv m' vs ms (X1 & X2 & _) F IH]; intros [|i] Hi HV; try discriminate.
    + injection Hi as ->. destruct nv as [n v]. cbn [fst snd] in *. destruct (HV n v (or_introl eq_refl)) as (Y1 & Y2 & _).
      split; [rewrite X1; exact Y1|]. unfold body_size. rewrite X2. unfold value_size in Y2. lia.
    + apply (IH i Hi). intros n v H. apply HV. right. exact H.
  - rewrite app_nil_r, HW. exact Q6.
  - replace (length ms + (fuel - length ms)) with fuel in K by lia.
    replace (fuel - length ms) with (S (fuel - length ms - 1)) in K by lia. rewrite recv_end in K by (auto; lia).
    rewrite B2, D1, app_nil_r in K. unfold inbound_recv, outbound_recv. fold hB. rewrite Q2, Q4, K.
    split; [reflexivity|]. split; [reflexivity|].
    clear - F RB. induction F as [|nv m vs ms (X1 & X2 & X3) F IH]; constructor; [|exact IH]. split; [exact X1|].
    intros d Hd. eapply X3; eauto.
Qed.

(** Two honest nodes that registered the same types in the same order complete the handshake over a connection that delivers
    what each writes.  Whatever batches one node's writer takes its values in, and however the network cuts the stream, the
    other node's handlers see those values and no others, in the order sent, each with its own request nonce, each decoded by the decoder
    registered for its type; then the connection's end.  This holds whichever of the two dialled. *)
Theorem C81_delivery : forall C L suite shared eA pubA secA eB pubB secB chA chB endA endB restA
    hist cA osA cB osB vs ms grow bs out fuel,
  party C suite eA pubA secA -> party C suite eB pubB secB ->
  ecdh C secA pubB = Ok shared -> ecdh C secB pubA = Ok shared -> gcm C shared = Ok suite -> aead_contract suite ->
  (N.max 96 (N.of_nat (114 + nonce_size suite + overhead suite)) <= L)%N -> (L + 4 < 2 ^ 32)%N ->
  register_all newCodec hist = Ok (cA, osA) -> register_all newCodec hist = Ok (cB, osB) ->
  (N.of_nat (length hist) <= 65536)%N -> (forall t d, In (t, d) hist -> forall e, t <> TPtr e) ->
  (forall n v, In (n, v) vs -> (n < 2 ^ 64)%N /\ (value_size suite v <= L)%N /\ exists d, registered hist v d) ->
  (forall c n, n <= grow c n) ->
  let hA := handshake C L eA (new_rstate L (mkConn chA endA)) in
  let hB := handshake C L eB (new_rstate L (mkConn chB endB)) in
  encode_all cA vs = Ok ms -> batches_of suite ms bs -> write_loop grow (hr_suite hA) bs = Ok out ->
  concat chA = hr_sent hB ++ restA -> concat chB = hr_sent hA ++ out ->
  length vs < fuel ->
  exists got, inbound_recv C L eB fuel (mkConn chB endB) = (Ok (he_id eA), Some (got, Err endB)) /\
    outbound_recv C L eB fuel (mkConn chB endB) = (Ok (he_id eA), Some (got, Err endB)) /\
    Forall2 (fun nv m => m_nonce m = fst nv /\
      forall d, registered hist (snd nv) d -> handler_decode cB m = d_run d (v_bytes (snd nv))) vs got.
Proof.
  intros C L suite shared eA pubA secA eB pubB secB chA chB endA endB restA hist cA osA cB osB vs ms grow bs out fuel
    PA PB EA EB HG HC HL1 HL2 RA RB HN HP HV G hA hB EM HB HW HcA HcB HF. exists ms.
  exact (deliver_exact C L suite shared eA pubA secA eB pubB secB chA chB endA endB restA hist cA osA cB osB vs ms grow bs out fuel
    PA PB EA EB HG HC HL1 HL2 RA RB HN HP HV G EM HB HW HcA HcB HF).
Qed.
Print Assumptions C81_delivery.

(** Three values in two batches, the stream cut inside the handshake and inside a frame. *)
Definition pipe_vs : list (N * value) :=
  [(0%N, mkVal (TNamed 1) [n2b 5]); (9%N, mkVal (TPtr (TNamed 2)) [n2b 1; n2b 2]); (0%N, mkVal (TNamed 2) [])].
Definition pipe_codec : codec := match register_all newCodec ex_hist with Ok (c, _) => c | _ => newCodec end.
Definition pipe_ms : list message := match encode_all pipe_codec pipe_vs with Ok ms => ms | _ => [] end.
Definition pipe_bs : list (list bytes * list message) :=
  [([[n2b 1; n2b 2]; [n2b 3; n2b 4]], firstn 2 pipe_ms); ([], []); ([[n2b 5; n2b 6]], skipn 2 pipe_ms)].
Definition pipe_out : bytes := match write_loop (fun _ n => n) (Some toy) pipe_bs with Ok o => o | _ => [] end.
Example C81_nonvacuous :
  let s := stream_a ++ pipe_out in
  let chB := [firstn 70 s; firstn 200 (skipn 70 s); []; skipn 270 s] in
  let hA := handshake toy_crypto 200 env_a (new_rstate 200 (mkConn [stream_b; [n2b 5]] ErrEOF)) in
  let hB := handshake toy_crypto 200 env_b (new_rstate 200 (mkConn chB ErrOther)) in
  encode_all pipe_codec pipe_vs = Ok pipe_ms /\ length pipe_ms = 3 /\ batches_of toy pipe_ms pipe_bs /\
  write_loop (fun _ n => n) (hr_suite hA) pipe_bs = Ok pipe_out /\
  concat [stream_b; [n2b 5]] = hr_sent hB ++ [n2b 5] /\ concat chB = hr_sent hA ++ pipe_out /\
  (forall n v, In (n, v) pipe_vs -> (value_size toy v <= 200)%N /\ exists d, registered ex_hist v d) /\
  inbound_recv toy_crypto 200 env_b 4 (mkConn chB ErrOther) = (Ok (he_id env_a), Some (pipe_ms, Err ErrOther)) /\
  map (fun m => (m_nonce m, handler_decode pipe_codec m)) pipe_ms =
    [(0%N, Ok (mkVal (TNamed 1) [n2b 1; n2b 5])); (9%N, Ok (mkVal (TNamed 2) [n2b 2; n2b 1; n2b 2])); (0%N, Ok (mkVal (TNamed 2) [n2b 2]))].
Proof.
  cbv zeta. split; [vm_compute; reflexivity|]. split; [reflexivity|].
  split; [split; [vm_compute; reflexivity | repeat constructor]|].
  split; [vm_compute; reflexivity|]. split; [vm_compute; reflexivity|]. split; [vm_compute; reflexivity|].
  split; [|split; vm_compute; reflexivity].
  intros n v [[= <- <-]|[[= <- <-]|[[= <- <-]|[]]]]; (split; [vm_compute; discriminate|]).
  - exists (ex_dec (TNamed 1) 1), (TNamed 1). split; [left; reflexivity | left; reflexivity].
  - exists (ex_dec (TNamed 2) 2), (TNamed 2). split; [right; left; reflexivity | right; reflexivity].
  - exists (ex_dec (TNamed 2) 2), (TNamed 2). split; [right; left; reflexivity | left; reflexivity].
Qed.
