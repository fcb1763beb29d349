(** * Properties C07-C11 (framing, receive limit, encryption buffers, nonces). *)
From Verif Require Import Base M_Msg M_AEAD M_Frame P_Wire P_AEAD P_Frame.
From Coq Require Import Strings.Byte.
Local Open Scope nat_scope.

(** Contract of an AEAD: [Seal] adds [overhead] bytes, [Open] inverts it, and refuses or returns shorter texts. *)
Definition aead_contract (a : aead) : Prop :=
  (forall n p, length n = nonce_size a -> length (seal a n p) = length p + overhead a) /\
  (forall n p, length n = nonce_size a -> open a n (seal a n p) = Some p) /\
  (forall n c, length c < overhead a -> open a n c = None) /\
  (forall n c p, open a n c = Some p -> length c = length p + overhead a).

(** What a writer with the given suite needs: one nonce of the right size per message. *)
Definition writer_ok (A : option aead) (nonces : list bytes) (n : nat) : Prop :=
  match A with
  | None => True
  | Some a => aead_contract a /\ length nonces = n /\ Forall (fun r => length r = nonce_size a) nonces
  end.

(** Encoded size of a message: 8 bytes of nonce, the data, and the AEAD's nonce and tag. *)
Definition wire_size (A : option aead) (m : message) : N :=
  N.of_nat (8 + length (m_data m) + match A with None => 0 | Some a => nonce_size a + overhead a end).

Lemma writer_suite A r n : writer_ok A r n -> suite_ok A r n.
Proof. destruct A as [a|]; [|auto]. intros ((A1 & A2 & A3 & A4) & B & C). repeat split; auto. Qed.

(** A toy AEAD meeting the contract (used in examples only). *)
Definition toy : aead := mkAEAD 2 1 (fun n p => n2b 1 :: p)
  (fun n c => match c with x :: p => if byte_eqb x (n2b 1) then Some p else None | [] => None end).
Lemma toy_ok : aead_contract toy.
Proof.
  split; [|split; [|split]]; cbn [toy seal open overhead nonce_size length].
  - intros; lia.
  - reflexivity.
  - intros n [|x c] H; [reflexivity | cbn in H; lia].
  - intros n [|x c] p H; [discriminate|]. destruct (byte_eqb x (n2b 1)); [|discriminate].
    assert (c = p) as -> by congruence. cbn. lia.
Qed.

(** ** C07 *)

(** Whatever the chunking, the receiver gets exactly the messages written, in order, and then the connection's end. *)
Theorem C07_frames_roundtrip : forall L A nonces ms chunks ending fuel,
  (1 <= L)%N -> (L + 4 < 2 ^ 32)%N -> writer_ok A nonces (length ms) ->
  (forall m, In m ms -> (m_nonce m < 2 ^ 64)%N /\ (wire_size A m <= L)%N) ->
  concat chunks = frames A nonces ms ->
  length ms < fuel ->
  recv_all fuel L A (new_rstate L (mkConn chunks ending)) = Some (ms, Err ending).
Proof.
  intros L A nonces ms chunks ending fuel H1 H2 HW HM HC HF.
  assert (LB : N.of_nat (length (rs_buf (new_rstate L (mkConn chunks ending)))) = (4 + L)%N).
  { cbn [rs_buf new_rstate]. rewrite zeros_length. unfold u32. rewrite N.mod_small by lia. lia. }
  destruct (recv_frames L A H1 H2 ms nonces (fuel - length ms) [] (new_rstate L (mkConn chunks ending))) as (st' & B & E & Lb & K).
  - apply writer_suite. exact HW.
  - exact LB.
  - apply Forall_forall. intros m Hm. destruct (HM m Hm) as [X Y]. split; [exact X|]. exact Y.
  - rewrite app_nil_r. exact HC.
  - replace (length ms + (fuel - length ms)) with fuel in K by lia. rewrite K.
    replace (fuel - length ms) with (S (fuel - length ms - 1)) by lia.
    rewrite recv_end by (auto; lia). rewrite E, app_nil_r. reflexivity.
Qed.

(** A stream cut anywhere before its end: the messages whose frames are complete, then an error; never a partial one. *)
Theorem C07_cut_stream : forall L A nonces ms chunks ending cut fuel,
  (1 <= L)%N -> (L + 4 < 2 ^ 32)%N -> writer_ok A nonces (length ms) ->
  (forall m, In m ms -> (m_nonce m < 2 ^ 64)%N /\ (wire_size A m <= L)%N) ->
  cut < length (frames A nonces ms) ->
  concat chunks = firstn cut (frames A nonces ms) ->
  length ms < fuel ->
  exists j e, j < length ms
    /\ recv_all fuel L A (new_rstate L (mkConn chunks ending)) = Some (firstn j ms, Err e)
    /\ length (frames A (firstn j nonces) (firstn j ms)) <= cut
    /\ cut < length (frames A (firstn (S j) nonces) (firstn (S j) ms)).
Proof.
  intros L A nonces ms chunks ending cut fuel H1 H2 HW HM Hcut HC HF.
  apply writer_suite in HW.
  destruct (cut_split A ms nonces cut HW Hcut) as (j & m & rn & Hj & HS' & c & Hc & EQ & HSj & EC).
  assert (Lj : j < length ms) by (apply nth_error_Some; rewrite Hj; discriminate).
  assert (LB : N.of_nat (length (rs_buf (new_rstate L (mkConn chunks ending)))) = (4 + L)%N).
  { cbn [rs_buf new_rstate]. rewrite zeros_length. unfold u32. rewrite N.mod_small by lia. lia. }
  assert (Fj : length (firstn j ms) = j) by (rewrite firstn_length; lia).
  destruct (recv_frames L A H1 H2 (firstn j ms) (firstn j nonces) (fuel - j)
              (firstn c (frame_bytes A (hd [] rn) (msg_marshal m))) (new_rstate L (mkConn chunks ending))) as (st' & B & E & Lb & K).
  - rewrite Fj. exact HSj.
  - exact LB.
  - apply Forall_forall. intros x Hx. destruct (HM x) as [X Y]; [rewrite <- (firstn_skipn j ms); apply in_or_app; auto|].
    split; [exact X | exact Y].
  - rewrite <- EQ. exact HC.
  - rewrite Fj in K. replace (j + (fuel - j)) with fuel in K by lia.
    assert (Hm : (N.of_nat (body_size A m) <= L)%N) by (apply nth_error_In in Hj; apply (HM m Hj)).
    destruct (recv_cut L A rn _ m c (fuel - j - 1) st' HS' H1 H2) as (e & Ee); auto; [congruence|].
    replace (S (fuel - j - 1)) with (fuel - j) in Ee by lia. rewrite Ee, app_nil_r in K.
    exists j, e. split; [exact Lj|]. split; [exact K|]. split; [lia|].
    assert (Hsj : firstn (S j) ms = firstn j ms ++ [m]).
    { clear - Hj. revert ms Hj. induction j as [|j IH]; intros [|x ms] Hj; try discriminate; cbn in *; [congruence|].
      f_equal. apply IH. exact Hj. }
    rewrite frames_length.
    + rewrite frames_length in EC by (rewrite Fj; exact HSj). rewrite Hsj, fold_right_app. cbn [fold_right].
      assert (G : forall l k, fold_right (fun m k => frame_len A m + k) k l = fold_right (fun m k => frame_len A m + k) 0 l + k)
        by (induction l as [|y l IHl]; intros k; cbn [fold_right]; [reflexivity | rewrite (IHl k); lia]).
      rewrite G. lia.
    + rewrite firstn_length, Nat.min_l by lia. unfold suite_ok in *. destruct A as [a|]; [|exact I].
      destruct HW as (X1 & X2 & X3 & X4). split; [exact X1|]. split; [exact X2|].
      split; [rewrite firstn_length; lia|]. apply Forall_forall. intros r Hr. rewrite Forall_forall in X4. apply X4.
      rewrite <- (firstn_skipn (S j) nonces). apply in_or_app. auto.
Qed.

Definition ex_msgs : list message := [mkMsg 0 [n2b 5]; mkMsg 7 []; mkMsg 300 [n2b 1; n2b 2; n2b 3]].
Definition ex_nonces : list bytes := [[n2b 1; n2b 2]; [n2b 3; n2b 4]; [n2b 5; n2b 6]].
Example C07_nonvacuous :
  writer_ok (Some toy) ex_nonces 3 /\ (forall m, In m ex_msgs -> (wire_size (Some toy) m <= 14)%N) /\
  let s := frames (Some toy) ex_nonces ex_msgs in
  recv_all 4 14 (Some toy) (new_rstate 14 (mkConn [firstn 3 s; []; skipn 3 s] ErrEOF)) = Some (ex_msgs, Err ErrEOF) /\
  recv_all 4 14 (Some toy) (new_rstate 14 (mkConn [firstn 21 s] ErrEOF)) = Some ([mkMsg 0 [n2b 5]], Err ErrUnexpectedEOF) /\
  recv_all 4 13 (Some toy) (new_rstate 13 (mkConn [s] ErrEOF)) = Some ([mkMsg 0 [n2b 5]; mkMsg 7 []], Err ErrMessageTooLarge).
Proof.
  split; [split; [exact toy_ok|]; split; [reflexivity|]; repeat constructor|].
  split; [intros m [<-|[<-|[<-|[]]]]; vm_compute; discriminate|]. repeat split; vm_compute; reflexivity.
Qed.

(** ** C08 *)

(** The bytes still to be read from the connection. *)
Definition unread (st : rstate) : bytes := br_buf (rs_rd st) ++ concat (cn_chunks (br_conn (rs_rd st))).
Definition announced (s : bytes) : N := be_decode (firstn 4 s).

Theorem C08_limit : forall L A st,
  (1 <= L)%N -> (L + 4 < 2 ^ 32)%N -> N.of_nat (length (rs_buf st)) = (4 + L)%N ->
  let s := unread st in
  exists st' r, client_read L A st = (st', r) /\
    (* never a panic caused by the receive buffer, which keeps its size *)
    r <> Panic /\ length (rs_buf st') = length (rs_buf st) /\
    (* an announcement above the limit is refused with no payload byte consumed *)
    (4 <= length s -> (L < announced s)%N -> r = Err ErrMessageTooLarge /\ unread st' = skipn 4 s) /\
    (* a frame within the limit that has arrived is accepted whole *)
    (4 <= length s -> (announced s <= L)%N -> 4 + N.to_nat (announced s) <= length s ->
       unread st' = skipn (4 + N.to_nat (announced s)) s /\
       let payload := firstn (N.to_nat (announced s)) (skipn 4 s) in
       match A with None => r = Ok payload | Some a => r = decrypt_val a payload end) /\
    (* an incomplete frame is an error *)
    (length s < 4 \/ (announced s <= L)%N /\ length s < 4 + N.to_nat (announced s) -> exists e, r = Err e).
Proof.
  intros L A st H1 H2 HB s.
  destruct (client_read_spec L A st) as (st' & E1 & E2 & _ & K1 & K2 & _ & K3). cbv zeta in *.
  change (rd_bytes (rs_rd st)) with s in *. fold (announced s) in *.
  destruct (Nat.lt_ge_cases (length s) 4) as [H4|H4].
  - destruct K1 as [-> R]; [lia | exact H4 |]. exists st', (Err (full_error s (rd_end (rs_rd st)))).
    split; [reflexivity|]. split; [discriminate|]. split; [exact E2|]. split; [lia|]. split; [lia|]. eauto.
  - destruct (N.lt_ge_cases L (announced s)) as [Hs|Hs].
    + destruct K2 as [-> R]; try lia. exists st', (Err ErrMessageTooLarge).
      split; [reflexivity|]. split; [discriminate|]. split; [exact E2|]. split; [auto|]. split; [lia|]. eauto.
    + destruct K3 as [K4 K5]; try lia.
      destruct (Nat.lt_ge_cases (length s) (4 + N.to_nat (announced s))) as [Hp|Hp].
      * destruct (K4 Hp) as [-> R]. eexists st', _. split; [reflexivity|]. split; [discriminate|]. split; [exact E2|].
        split; [lia|]. split; [lia|]. eauto.
      * destruct (K5 Hp) as [-> R]. eexists st', _. split; [reflexivity|]. split.
        { unfold body_result, decrypt_val. destruct A as [a|]; [|discriminate].
          destruct (_ <? _); [discriminate|]. destruct (open a _ _); discriminate. }
        split; [exact E2|]. split; [lia|]. split; [|lia].
        intros _ _ _. split; [exact R|]. cbv zeta. unfold body_result. destruct A; reflexivity.
Qed.

(** The condition on L is needed: for the four largest limits the receive buffer's size wraps around and the first
    read panics, whatever arrives. *)
Theorem C08_huge_limit_panics : forall L A c,
  (2 ^ 32 - 4 <= L)%N -> (L < 2 ^ 32)%N -> snd (client_read L A (new_rstate L c)) = Panic.
Proof.
  intros L A c H1 H2. destruct (client_read_spec L A (new_rstate L c)) as (st' & _ & _ & K & _). cbv zeta in K.
  rewrite K; [reflexivity|]. cbn [rs_buf new_rstate]. rewrite zeros_length. unfold u32.
  replace (4 + L)%N with (L - (2 ^ 32 - 4) + 1 * 2 ^ 32)%N by lia. rewrite N.mod_add by lia. rewrite N.mod_small by lia. lia.
Qed.

Example C08_nonvacuous :
  let st := new_rstate 5 (mkConn [be_encode 4 6; zeros 9] ErrEOF) in
  N.of_nat (length (rs_buf st)) = 9%N /\ snd (client_read 5 None st) = Err ErrMessageTooLarge
  /\ unread (fst (client_read 5 None st)) = zeros 9.
Proof. repeat split; vm_compute; reflexivity. Qed.

(** ** C09 *)

(** Documented: zero disables the limit, so a complete frame of any size is accepted. *)
Definition C09_statement : Prop := forall c st' r,
  client_read 0 None (new_rstate 0 c) = (st', r) ->
  let s := concat (cn_chunks c) in
  4 <= length s -> 4 + N.to_nat (announced s) <= length s -> exists d, r = Ok d.

(** In fact every announcement of a non-empty frame crashes the node, before any payload arrives. *)
Theorem C09_zero_limit_panics : forall A c,
  let s := concat (cn_chunks c) in
  4 <= length s -> (0 < announced s)%N -> snd (client_read 0 A (new_rstate 0 c)) = Panic.
Proof.
  intros A c s H4 Hs. destruct (client_read_spec 0 A (new_rstate 0 c)) as (st' & _ & _ & _ & _ & _ & K & _). cbv zeta in K.
  change (rd_bytes (rs_rd (new_rstate 0 c))) with s in K. fold (announced s) in K.
  assert (HB : length (rs_buf (new_rstate 0 c)) = 4) by reflexivity.
  rewrite K; [reflexivity | lia | exact H4 | lia |]. rewrite HB.
  assert (B : (announced s < 2 ^ 32)%N).
  { unfold announced. pose proof (be_decode_bound (firstn 4 s)) as X. rewrite firstn_length, Nat.min_l in X by exact H4. exact X. }
  unfold u32. destruct (N.lt_ge_cases (announced s + 4) (2 ^ 32)) as [Hl|Hl].
  - rewrite N.mod_small by exact Hl. lia.
  - left. replace (announced s + 4)%N with ((announced s + 4 - 2 ^ 32) + 1 * 2 ^ 32)%N by lia.
    rewrite N.mod_add by lia. rewrite N.mod_small by lia. lia.
Qed.

Theorem C09_refuted : ~ C09_statement.
Proof.
  intros H. set (c := mkConn [be_encode 4 1; [n2b 9]] ErrEOF).
  destruct (client_read 0 None (new_rstate 0 c)) as [st' r] eqn:E.
  destruct (H c st' r E) as [d Hd].
  - vm_compute. lia.
  - vm_compute. lia.
  - pose proof (C09_zero_limit_panics None c) as P. cbv zeta in P. rewrite E in P. cbn in P.
    rewrite P in Hd; [discriminate | vm_compute; lia | reflexivity].
Qed.

(** ** C10 *)

(** Encrypting in place: for every heap, every slice of it (any capacity, any stale content beyond its length), every
    growth policy of append: the bytes produced are nonce ++ Seal(nonce, plaintext); arrays other than the buffer's own
    are untouched. *)
Theorem C10_encrypt : forall grow A nonce h buf,
  (forall c n, n <= grow c n) -> aead_contract A -> length nonce = nonce_size A -> valid h buf ->
  exists h' out, encryptAEAD grow A nonce h buf = Ok (h', out)
    /\ contents h' out = nonce ++ seal A nonce (contents h buf)
    /\ forall i, i < length h -> i <> s_arr buf -> arr h' i = arr h i.
Proof.
  intros grow A nonce h buf G (C1 & _) HN V.
  destruct (encryptAEAD_spec grow G A nonce h buf C1 HN V) as (h' & s' & E & _ & C & X & _).
  exists h', s'. split; [exact E|]. split; [exact C | apply X].
Qed.

(** The write loop reusing one buffer for a whole batch (and for the next batches) emits exactly the frames. *)
Theorem C10_write_batch : forall grow A nonces ms h buf,
  (forall c n, n <= grow c n) -> writer_ok A nonces (length ms) -> valid h buf ->
  exists h' buf', write_batch grow A nonces h buf ms = Ok (h', buf', frames A nonces ms) /\ valid h' buf'.
Proof.
  intros grow A nonces ms h buf G HW V.
  destruct (write_batch_spec grow G A ms nonces h buf) as (h' & b' & E & V' & _); auto.
  - destruct A as [a|]; [|exact I]. destruct HW as ((C1 & _) & B & C). auto.
  - eauto.
Qed.

(** Decrypting what was encrypted gives the plaintext, in place; short inputs are errors; what decryption accepts, the
    AEAD's Open accepted; never a panic. *)
Theorem C10_decrypt : forall A h buf,
  aead_contract A -> valid h buf ->
  exists h' r, decryptAEAD A h buf = (h', r)
    /\ r <> Panic
    /\ (s_len buf < nonce_size A -> r = Err ErrUnexpectedEOF)
    /\ (forall nonce p, length nonce = nonce_size A -> contents h buf = nonce ++ seal A nonce p ->
          exists out, r = Ok out /\ contents h' out = p)
    /\ (forall out, r = Ok out ->
          open A (firstn (nonce_size A) (contents h buf)) (skipn (nonce_size A) (contents h buf)) = Some (contents h' out)).
Proof.
  intros A h buf (C1 & C2 & C3 & C4) V.
  assert (OO : open_ok A) by (repeat split; auto).
  destruct (decryptAEAD_spec A h buf OO V) as (h' & r & E & M & _).
  exists h', r. split; [exact E|]. unfold decrypt_val in M. rewrite contents_length in M by exact V.
  destruct (Nat.ltb_spec (s_len buf) (nonce_size A)) as [H|H].
  - subst r. split; [discriminate|]. split; [auto|]. split; [|discriminate].
    intros nonce p HN HC. apply (f_equal (@length _)) in HC. rewrite contents_length, app_length in HC by exact V. lia.
  - destruct (open A _ _) as [p|] eqn:Eo.
    + destruct M as (s' & -> & Cs). split; [discriminate|]. split; [lia|]. split.
      * intros nonce p' HN HC. rewrite HC, firstn_app_exact, skipn_app_exact in Eo by exact HN.
        rewrite C2 in Eo by exact HN. exists s'. split; [reflexivity | congruence].
      * intros out Ho. assert (out = s') as -> by congruence. congruence.
    + subst r. split; [discriminate|]. split; [lia|]. split; [|discriminate].
      intros nonce p' HN HC. rewrite HC, firstn_app_exact, skipn_app_exact in Eo by exact HN.
      rewrite C2 in Eo by exact HN. discriminate.
Qed.

(** A buffer with spare capacity and stale content, and one without. *)
Example C10_nonvacuous :
  let h := [map n2b [10; 20; 30; 99; 98; 97; 96; 95; 94; 93; 92; 91]%N] in
  let buf := mkSl 0 0 3 12 in
  valid h buf /\
  (exists h' out, encryptAEAD (fun _ n => n) toy [n2b 1; n2b 2] h buf = Ok (h', out)
     /\ contents h' out = map n2b [1; 2; 1; 10; 20; 30]%N) /\
  (exists h' out, encryptAEAD (fun _ n => n + 3) toy [n2b 1; n2b 2] h (mkSl 0 2 1 1) = Ok (h', out)
     /\ contents h' out = map n2b [1; 2; 1; 30]%N).
Proof.
  repeat split; cbn; try lia; eexists _, _; split; vm_compute; reflexivity.
Qed.

(** ** C11 *)

(** Claimed: the nonces drawn by the two endpoints of a connection (which share one key) are pairwise distinct, whatever
    bytes the random source yields. *)
Definition C11_statement (prng : nat -> byte) : Prop := forall a na nb,
  0 < a -> NoDup (session_nonces prng a na ++ session_nonces prng a nb).

(** Two freshly started processes draw the same nonce for their i-th message, for every i and every generator. *)
Theorem C11_same_nonces : forall prng a na nb i,
  i < na -> i < nb ->
  exists nonce, nth_error (session_nonces prng a na) i = Some nonce /\ nth_error (session_nonces prng a nb) i = Some nonce.
Proof.
  intros prng a na nb i Ha Hb. exists (rand_read prng (i * a) a). unfold session_nonces.
  rewrite !nth_error_map. rewrite !(nth_error_nth' _ 0) by (rewrite seq_length; assumption).
  rewrite !seq_nth by assumption. split; reflexivity.
Qed.

Theorem C11_refuted : forall prng, ~ C11_statement prng.
Proof.
  intros prng H. specialize (H 12 1 1 ltac:(lia)). cbn [session_nonces map seq app] in H.
  inversion H as [|x l Hn _]; subst. apply Hn. left. reflexivity.
Qed.

(** C11, partly: one endpoint draws every nonce from a part of its generator's output that none of its earlier messages used: its nonces
    are, one after the other, the generator's output from the start. *)
Theorem C11_partial : forall prng a n, concat (session_nonces prng a n) = map prng (seq 0 (n * a)).
Proof.
  intros prng a n. unfold session_nonces. enough (X : forall n k, concat (map (fun i => rand_read prng (i * a) a) (seq k n)) = map prng (seq (k * a) (n * a))) by exact (X n 0).
  clear n. induction n as [|n IH]; intros k; [reflexivity|]. cbn [seq map concat]. rewrite (IH (S k)). unfold rand_read. rewrite <- map_app. replace (S k * a) with (k * a + a) by lia. rewrite <- seq_app. reflexivity.
Qed.
(** So they are distinct if the generator does not repeat itself. *)
Theorem C11_one_side_partial : forall prng a n, (forall i j, i < j < n -> exists k, k < a /\ prng (i * a + k) <> prng (j * a + k)) -> NoDup (session_nonces prng a n).
Proof.
  intros prng a n H. unfold session_nonces. apply (NoDup_nth _ []). rewrite map_length, seq_length. intros i j Hi Hj E. rewrite !(nth_indep _ [] (rand_read prng (0 * a) a)) in E by (rewrite map_length, seq_length; assumption).
  rewrite !(map_nth (fun i => rand_read prng (i * a) a)), !seq_nth in E by assumption. cbn [Nat.add] in E.
  assert (K : forall k, k < a -> prng (i * a + k) = prng (j * a + k)).
  { intros k Hk. unfold rand_read in E. apply (f_equal (fun l => nth k l (prng 0))) in E. rewrite !(map_nth prng), !seq_nth in E by assumption. exact E. }
  destruct (Nat.lt_trichotomy i j) as [L|[L|L]]; [|exact L|].
  - destruct (H i j (conj L Hj)) as (k & Hk & X). destruct (X (K k Hk)).
  - destruct (H j i (conj L Hi)) as (k & Hk & X). destruct (X (eq_sym (K k Hk))).
Qed.
Example C11_one_side_nonvacuous : exists prng : nat -> byte, forall i j, i < j < 256 -> exists k, k < 1 /\ prng (i * 1 + k) <> prng (j * 1 + k).
Proof.
  exists (fun i => n2b (N.of_nat i)). intros i j [L H]. exists 0. split; [lia|]. rewrite !Nat.mul_1_r, !Nat.add_0_r. intros E. apply (f_equal b2n) in E. rewrite !b2n_n2b in E. rewrite !N.mod_small in E by lia. lia.
Qed.

Print Assumptions C11_partial.
Print Assumptions C11_one_side_partial.
Print Assumptions C07_frames_roundtrip.
Print Assumptions C07_cut_stream.
Print Assumptions C08_limit.
Print Assumptions C08_huge_limit_panics.
Print Assumptions C09_zero_limit_panics.
Print Assumptions C09_refuted.
Print Assumptions C10_encrypt.
Print Assumptions C10_write_batch.
Print Assumptions C10_decrypt.
Print Assumptions C11_same_nonces.
Print Assumptions C11_refuted.
