(** Proofs about framing. *)
From Verif Require Import Base M_Msg M_AEAD M_Frame P_Wire P_AEAD.
From Coq Require Import Strings.Byte.
Local Open Scope nat_scope.

Definition conn_bytes (c : conn) : bytes := concat (cn_chunks c).
Definition rd_bytes (r : bufrd) : bytes := br_buf r ++ conn_bytes (br_conn r).
Definition rd_end (r : bufrd) : goerr := cn_end (br_conn r).

Lemma conn_read_data n c d e c' : 0 < n -> conn_read n c = (d, e, c') ->
  conn_bytes c = d ++ conn_bytes c' /\ cn_end c' = cn_end c /\ length d <= n /\
  match e with
  | Some er => cn_chunks c = [] /\ d = [] /\ er = cn_end c /\ c' = c
  | None => (length (cn_chunks c') < length (cn_chunks c)) \/ length d = n
  end.
Proof.
  intros Hn E. unfold conn_read in E. destruct c as [[|ch rest] en]; cbn [cn_chunks cn_end] in *.
  - assert (d = [] /\ e = Some en /\ c' = mkConn [] en) as (-> & -> & ->) by (split; [|split]; congruence).
    cbn. repeat split; auto. lia.
  - destruct (Nat.leb_spec (length ch) n) as [H|H].
    + assert (d = ch /\ e = None /\ c' = mkConn rest en) as (-> & -> & ->) by (split; [|split]; congruence).
      cbn. repeat split; auto.
    + assert (d = firstn n ch /\ e = None /\ c' = mkConn (skipn n ch :: rest) en) as (-> & -> & ->)
        by (split; [|split]; congruence).
      unfold conn_bytes. cbn. rewrite app_assoc, firstn_skipn. rewrite firstn_length. repeat split; auto; lia.
Qed.

Lemma bufio_read_spec n r d e r' : 0 < n -> bufio_read n r = (d, e, r') ->
  rd_bytes r = d ++ rd_bytes r' /\ rd_end r' = rd_end r /\ length d <= n /\
  match e with
  | Some er => rd_bytes r = [] /\ d = [] /\ er = rd_end r
  | None => length d = n \/
      (br_buf r' = [] /\ (br_buf r <> [] /\ length (cn_chunks (br_conn r')) <= length (cn_chunks (br_conn r))
                          \/ length (cn_chunks (br_conn r')) < length (cn_chunks (br_conn r))))
  end.
Proof.
  intros Hn E. unfold bufio_read in E. destruct r as [[|x b] c]; cbn [br_buf br_conn] in *.
  - unfold rd_bytes, rd_end. cbn [br_buf br_conn app].
    destruct (Nat.leb_spec bufio_size n) as [H|H].
    + destruct (conn_read n c) as [[d0 e0] c0] eqn:EC.
      assert (d = d0 /\ e = e0 /\ r' = mkBuf [] c0) as (-> & -> & ->) by (split; [|split]; congruence).
      apply conn_read_data in EC as (B & En & L & K); [|exact Hn]. cbn [br_buf br_conn app].
      repeat split; auto.
      destruct e0 as [er|].
      * destruct K as (K1 & K2 & K3 & K4). unfold conn_bytes. rewrite K1. auto.
      * destruct K as [K|K]; [right; split; auto | left; exact K].
    + assert (HB : 0 < bufio_size) by (unfold bufio_size; lia).
      destruct (conn_read bufio_size c) as [[d0 e0] c0] eqn:EC.
      apply conn_read_data in EC as (B & En & L & K); [|exact HB].
      destruct d0 as [|y d0].
      * assert (d = [] /\ e = e0 /\ r' = mkBuf [] c0) as (-> & -> & ->) by (split; [|split]; congruence).
        cbn [br_buf br_conn app length]. repeat split; auto; try lia.
        destruct e0 as [er|].
        -- destruct K as (K1 & K2 & K3 & K4). unfold conn_bytes. rewrite K1. auto.
        -- destruct K as [K|K]; [right; split; auto | cbn in K; lia].
      * assert (d = firstn n (y :: d0) /\ e = None /\ r' = mkBuf (skipn n (y :: d0)) c0) as (-> & -> & ->) by (split; [|split]; congruence).
        cbn [br_buf br_conn]. rewrite app_assoc, firstn_skipn.
        repeat split; auto; [rewrite firstn_length; lia|].
        destruct e0 as [er|]; [destruct K as (_ & K2 & _); discriminate|].
        destruct (Nat.le_gt_cases n (length (y :: d0))) as [Hl|Hl].
        -- left. rewrite firstn_length. lia.
        -- right. split; [apply skipn_all2; lia|]. destruct K as [K|K]; [auto | lia].
  - assert (d = firstn n (x :: b) /\ e = None /\ r' = mkBuf (skipn n (x :: b)) c) as (-> & -> & ->)
      by (split; [|split]; congruence).
    unfold rd_bytes, rd_end. cbn [br_buf br_conn]. rewrite (app_assoc (firstn n _)), firstn_skipn.
    repeat split; auto; [rewrite firstn_length; lia|].
    destruct (Nat.le_gt_cases n (length (x :: b))) as [Hl|Hl].
    + left. rewrite firstn_length. lia.
    + right. split; [apply skipn_all2; lia|]. left. split; [discriminate | auto].
Qed.

Definition full_error (got : bytes) (en : goerr) : goerr :=
  match got, en with _ :: _, ErrEOF => ErrUnexpectedEOF | _, _ => en end.

Lemma read_full_loop_spec fuel : forall n acc r,
  length acc <= n ->
  length (cn_chunks (br_conn r)) + (match br_buf r with [] => 1 | _ => 2 end) <= fuel ->
  let s := acc ++ rd_bytes r in
  exists r', rd_end r' = rd_end r /\
    (n <= length s -> read_full_loop fuel n acc r = (firstn n s, None, r') /\ rd_bytes r' = skipn n s) /\
    (length s < n -> read_full_loop fuel n acc r = (s, Some (full_error s (rd_end r)), r') /\ rd_bytes r' = []).
Proof.
  induction fuel as [|fuel IH]; intros n acc r Ha Hf s.
  - destruct (br_buf r); lia.
  - cbn [read_full_loop]. destruct (Nat.leb_spec n (length acc)) as [H|H].
    + exists r. split; [reflexivity|]. assert (length acc = n) by lia. subst n. split.
      * intros _. unfold s. rewrite firstn_app_exact, skipn_app_exact by reflexivity. auto.
      * unfold s. rewrite app_length. lia.
    + destruct (bufio_read (n - length acc) r) as [[d e] r1] eqn:E.
      apply bufio_read_spec in E as (B & En & L & K); [|lia].
      assert (Es : s = (acc ++ d) ++ rd_bytes r1) by (unfold s; rewrite B, app_assoc; reflexivity).
      destruct e as [er|].
      * destruct K as (K1 & -> & ->). rewrite app_nil_r in *.
        assert (R1 : rd_bytes r1 = []) by (rewrite K1 in B; cbn in B; congruence).
        assert (Es' : s = acc) by (unfold s; rewrite K1, app_nil_r; reflexivity).
        exists r1. split; [exact En|]. rewrite Es'. destruct (Nat.leb_spec n (length acc)) as [?|_]; [lia|]. split; [lia|].
        intros _. split; [|exact R1]. unfold full_error. destruct acc as [|x acc']; [reflexivity|]. destruct (rd_end r); reflexivity.
      * assert (Ld : length (acc ++ d) <= n) by (rewrite app_length; lia).
        destruct K as [K|(K0 & K)].
        -- assert (Ln : length (acc ++ d) = n) by (rewrite app_length; lia).
           assert (EL : read_full_loop fuel n (acc ++ d) r1 = (acc ++ d, None, r1)).
           { destruct fuel; cbn [read_full_loop]; (destruct (Nat.leb_spec n (length (acc ++ d))); [reflexivity | lia]). }
           exists r1. split; [exact En|]. rewrite EL, Es. split.
           ++ intros _. rewrite firstn_app_exact, skipn_app_exact by exact Ln. auto.
           ++ rewrite app_length. lia.
        -- destruct (IH n (acc ++ d) r1 Ld) as (r' & E' & I1 & I2).
           { rewrite K0. destruct (br_buf r); destruct K as [(K1 & K2)|K1]; try lia. contradiction. }
           exists r'. split; [congruence|]. rewrite <- Es in I1, I2. rewrite En in I2. auto.
Qed.

Lemma read_full_spec n r :
  exists r', rd_end r' = rd_end r /\
    (n <= length (rd_bytes r) -> read_full n r = (firstn n (rd_bytes r), None, r') /\ rd_bytes r' = skipn n (rd_bytes r)) /\
    (length (rd_bytes r) < n -> read_full n r = (rd_bytes r, Some (full_error (rd_bytes r) (rd_end r)), r') /\ rd_bytes r' = []).
Proof.
  unfold read_full. apply (read_full_loop_spec _ n [] r); [cbn; lia | destruct (br_buf r); lia].
Qed.

(** Reading one frame, for every limit: full case analysis. *)
Definition body_result (A : option aead) (w : bytes) : res bytes :=
  match A with None => Ok w | Some A => decrypt_val A w end.

Lemma client_read_spec max A st :
  let buf := rs_buf st in let s := rd_bytes (rs_rd st) in let en := rd_end (rs_rd st) in
  let size := be_decode (firstn 4 s) in
  exists st', rd_end (rs_rd st') = en /\ length (rs_buf st') = length (rs_buf st) /\
  (length buf < 4 -> client_read max A st = (st', Panic)) /\
  (4 <= length buf -> length s < 4 ->
     client_read max A st = (st', Err (full_error s en)) /\ rd_bytes (rs_rd st') = []) /\
  (4 <= length buf -> 4 <= length s -> (0 < max)%N -> (max < size)%N ->
     client_read max A st = (st', Err ErrMessageTooLarge) /\ rd_bytes (rs_rd st') = skipn 4 s) /\
  (4 <= length buf -> 4 <= length s -> ~ ((0 < max)%N /\ (max < size)%N) ->
     (u32 (size + 4) < 4 \/ N.of_nat (length buf) < u32 (size + 4))%N ->
     client_read max A st = (st', Panic)) /\
  (4 <= length buf -> 4 <= length s -> ~ ((0 < max)%N /\ (max < size)%N) ->
     (size + 4 < 2 ^ 32)%N -> (size + 4 <= N.of_nat (length buf))%N ->
     (length s < 4 + N.to_nat size ->
        client_read max A st = (st', Err (full_error (skipn 4 s) en)) /\ rd_bytes (rs_rd st') = []) /\
     (4 + N.to_nat size <= length s ->
        client_read max A st = (st', body_result A (firstn (N.to_nat size) (skipn 4 s)))
        /\ rd_bytes (rs_rd st') = skipn (4 + N.to_nat size) s)).
Proof.
  intros buf s en size. unfold client_read. destruct st as [b rd]. cbn [rs_buf rs_rd] in *. fold buf.
  assert (Hslice : slice_to 4 buf = if 4 <=? length buf then Ok (firstn 4 buf) else Panic).
  { unfold slice_to, slice. cbn [skipn Nat.leb andb]. rewrite Nat.sub_0_r. reflexivity. }
  rewrite Hslice.
  destruct (Nat.leb_spec 4 (length buf)) as [H4|H4].
  2:{ exists (mkRS b rd). cbn [rs_buf rs_rd]. do 2 (split; [reflexivity|]). split; [auto|].
      repeat split; intros; lia. }
  destruct (read_full_spec 4 rd) as (r1 & E1 & F1 & F2).
  fold s in F1, F2. fold en in E1, F2.
  destruct (Nat.le_gt_cases 4 (length s)) as [Hs|Hs].
  2:{ destruct (F2 Hs) as [-> R]. exists (mkRS (go_copy buf s) r1). cbn [rs_buf rs_rd].
      split; [exact E1|]. split; [apply go_copy_length|]. split; [lia|]. split; [auto|]. repeat split; intros; lia. }
  destruct (F1 Hs) as [-> R1]. clear F1 F2.
  assert (L4 : length (firstn 4 s) = 4) by (rewrite firstn_length; lia).
  assert (G1 : firstn 4 (go_copy buf (firstn 4 s)) = firstn 4 s).
  { unfold go_copy. rewrite firstn_all2 with (n := length buf) by lia. rewrite firstn_app_exact by exact L4. reflexivity. }
  rewrite G1. fold size. cbv zeta.
  set (buf1 := go_copy buf (firstn 4 s)) in *.
  assert (LB1 : length buf1 = length buf) by apply go_copy_length.
  destruct ((0 <? max) && (max <? size))%N eqn:EL.
  { assert ((0 < max)%N /\ (max < size)%N) as [M1 M2] by lia.
    exists (mkRS buf1 r1). cbn [rs_buf rs_rd]. split; [exact E1|]. split; [exact LB1|]. split; [lia|]. split; [lia|].
    split; [auto|]. split; [intros ? ? X; exfalso; apply X; auto | intros ? ? X; exfalso; apply X; auto]. }
  assert (NL : ~ ((0 < max)%N /\ (max < size)%N)) by lia.
  set (hi := N.to_nat (u32 (size + 4))).
  assert (HS : slice 4 hi buf1 = if (4 <=? hi) && (hi <=? length buf) then Ok (firstn (hi - 4) (skipn 4 buf1)) else Panic)
    by (unfold slice; rewrite LB1; reflexivity).
  rewrite HS.
  destruct ((4 <=? hi) && (hi <=? length buf)) eqn:EH.
  2:{ exists (mkRS buf1 r1). cbn [rs_buf rs_rd]. split; [exact E1|]. split; [exact LB1|]. split; [lia|]. split; [lia|].
      split; [intros; exfalso; apply NL; split; assumption|]. split; [auto|]. intros _ _ _ X Y. exfalso.
      unfold hi, u32 in EH. rewrite N.mod_small in EH by exact X. lia. }
  apply andb_true_iff in EH as [Ha Hb]. apply Nat.leb_le in Ha, Hb.
  assert (LW : length (firstn (hi - 4) (skipn 4 buf1)) = hi - 4) by (rewrite firstn_length, skipn_length; lia).
  rewrite LW.
  destruct (read_full_spec (hi - 4) r1) as (r2 & E2 & F1 & F2). rewrite R1, E1 in *.
  assert (LB2 : forall d, length (firstn 4 s ++ go_copy (skipn 4 buf1) d) = length b).
  { intros d. rewrite app_length, go_copy_length, firstn_length, skipn_length. fold buf. lia. }
  destruct (Nat.le_gt_cases (hi - 4) (length (skipn 4 s))) as [Hp|Hp].
  - destruct (F1 Hp) as [-> R2]. clear F1 F2.
    set (d := firstn (hi - 4) (skipn 4 s)).
    assert (Ld : length d = hi - 4) by (unfold d; rewrite firstn_length; lia).
    set (buf2 := firstn 4 s ++ go_copy (skipn 4 buf1) d).
    assert (W : firstn (hi - 4) (skipn 4 buf2) = d).
    { unfold buf2. rewrite skipn_app_exact by (rewrite firstn_length; lia).
      unfold go_copy. rewrite firstn_all2 with (n := length (skipn 4 buf1)) by (rewrite skipn_length; lia).
      rewrite firstn_app_exact by exact Ld. reflexivity. }
    rewrite W.
    exists (mkRS buf2 r2). cbn [rs_buf rs_rd].
    split; [congruence|]. split; [apply LB2|]. split; [lia|]. split; [lia|].
    split; [intros; exfalso; apply NL; split; assumption|]. split; [intros _ _ _ X; exfalso; unfold hi in *; lia|].
    intros _ _ _ X Y. assert (Ehi : hi = 4 + N.to_nat size) by (unfold hi, u32; rewrite N.mod_small by exact X; lia).
    split; [intros Z; rewrite skipn_length in Hp; lia|]. intros Z.
    replace (N.to_nat size) with (hi - 4) by lia. fold d. split.
    + destruct A; reflexivity.
    + rewrite R2, skipn_skipn. f_equal. lia.
  - destruct (F2 Hp) as [-> R2]. clear F1 F2.
    eexists (mkRS _ r2). cbn [rs_buf rs_rd].
    split; [congruence|]. split; [apply LB2|]. split; [lia|]. split; [lia|].
    split; [intros; exfalso; apply NL; split; assumption|]. split; [intros _ _ _ X; exfalso; unfold hi in *; lia|].
    intros _ _ _ X Y. assert (Ehi : hi = 4 + N.to_nat size) by (unfold hi, u32; rewrite N.mod_small by exact X; lia).
    split; [auto|]. intros Z. rewrite skipn_length in Hp. lia.
Qed.

(** Size on the wire of a message's frame body. *)
Definition body_size (A : option aead) (m : message) : nat :=
  8 + length (m_data m) + match A with None => 0 | Some a => nonce_size a + overhead a end.

Definition suite_ok (A : option aead) (rnds : list bytes) (n : nat) : Prop :=
  match A with
  | None => True
  | Some a => seal_ok a /\ open_ok a /\ length rnds = n /\ Forall (fun r => length r = nonce_size a) rnds
  end.

Definition body (A : option aead) (rnd payload : bytes) : bytes :=
  match A with None => payload | Some A => encrypt_val A rnd payload end.

Lemma msg_marshal_length m : length (msg_marshal m) = 8 + length (m_data m).
Proof. rewrite msg_marshal_eq, app_length, be_encode_length. reflexivity. Qed.

Lemma body_length A rnds n m : suite_ok A rnds (S n) -> length (body A (hd [] rnds) (msg_marshal m)) = body_size A m.
Proof.
  intros H. unfold body, body_size. destruct A as [a|].
  - destruct H as (SO & _ & L & F). destruct rnds as [|r rnds]; [discriminate|]. inversion F; subst. cbn [hd].
    unfold encrypt_val. rewrite app_length, SO, msg_marshal_length by assumption. lia.
  - rewrite msg_marshal_length. lia.
Qed.

Lemma body_open A rnds n m : suite_ok A rnds (S n) -> body_result A (body A (hd [] rnds) (msg_marshal m)) = Ok (msg_marshal m).
Proof.
  intros H. unfold body, body_result. destruct A as [a|]; [|reflexivity].
  destruct H as (SO & OO & L & F). destruct rnds as [|r rnds]; [discriminate|]. inversion F; subst. cbn [hd].
  apply decrypt_encrypt; assumption.
Qed.

Lemma suite_ok_tl A rnds n : suite_ok A rnds (S n) -> suite_ok A (tl rnds) n.
Proof.
  destruct A as [a|]; [|auto]. intros (SO & OO & L & F). destruct rnds as [|r rnds]; [discriminate|].
  inversion F; subst. cbn in *. repeat split; auto; try apply OO. 
Qed.

Definition frame_len (A : option aead) (m : message) : nat := 4 + body_size A m.

Lemma frame_length A rnds n m : suite_ok A rnds (S n) ->
  length (frame_bytes A (hd [] rnds) (msg_marshal m)) = frame_len A m.
Proof.
  intros H. unfold frame_bytes. cbv zeta. rewrite app_length, be_encode_length.
  change (4 + length (body A (hd [] rnds) (msg_marshal m)) = frame_len A m). rewrite (body_length A rnds n) by exact H. reflexivity.
Qed.

Lemma frames_length A ms : forall rnds, suite_ok A rnds (length ms) ->
  length (frames A rnds ms) = fold_right (fun m k => frame_len A m + k) 0 ms.
Proof.
  induction ms as [|m ms IH]; intros rnds H; [reflexivity|]. cbn [frames fold_right]. rewrite app_length.
  rewrite (frame_length A rnds (length ms)) by exact H. rewrite IH by (apply suite_ok_tl; exact H). reflexivity.
Qed.

(** Reading a frame that is fully there. *)
Lemma read_one L A rnds n m rest st :
  suite_ok A rnds (S n) -> (1 <= L)%N -> (L + 4 < 2 ^ 32)%N -> N.of_nat (length (rs_buf st)) = (4 + L)%N ->
  (N.of_nat (body_size A m) <= L)%N ->
  rd_bytes (rs_rd st) = frame_bytes A (hd [] rnds) (msg_marshal m) ++ rest ->
  exists st', client_read L A st = (st', Ok (msg_marshal m)) /\ rd_bytes (rs_rd st') = rest
    /\ rd_end (rs_rd st') = rd_end (rs_rd st) /\ length (rs_buf st') = length (rs_buf st).
Proof.
  intros HS HL1 HL2 HB Hm E.
  pose proof (body_length A rnds n m HS) as BL. pose proof (body_open A rnds n m HS) as BO.
  destruct (client_read_spec L A st) as (st' & E1 & E2 & _ & _ & _ & _ & K). cbv zeta in K.
  unfold frame_bytes in E. cbv zeta in E. fold (body A (hd [] rnds) (msg_marshal m)) in E.
  set (b := body A (hd [] rnds) (msg_marshal m)) in *. rewrite <- app_assoc in E. rewrite E in K.
  assert (L4 : length (be_encode 4 (N.of_nat (length b))) = 4) by apply be_encode_length.
  assert (H1 : firstn 4 (be_encode 4 (N.of_nat (length b)) ++ b ++ rest) = be_encode 4 (N.of_nat (length b)))
    by (apply firstn_app_exact; exact L4).
  assert (H2 : skipn 4 (be_encode 4 (N.of_nat (length b)) ++ b ++ rest) = b ++ rest)
    by (apply skipn_app_exact; exact L4).
  rewrite H1, H2 in K.
  rewrite be_decode_encode_small in K by (change (256 ^ N.of_nat 4)%N with (2 ^ 32)%N; lia).
  rewrite Nat2N.id in K.
  destruct K as [_ K]; try (rewrite ?app_length; lia).
  destruct K as [K1 K2]; [rewrite !app_length; lia|].
  exists st'. rewrite K1. rewrite (firstn_app_exact _ _ _ eq_refl), BO. split; [reflexivity|].
  split; [|auto]. rewrite K2. replace (4 + length b) with (length (be_encode 4 (N.of_nat (length b)) ++ b)) by (rewrite app_length; lia).
  rewrite app_assoc. apply skipn_app_exact. reflexivity.
Qed.

Lemma recv_frames L A : (1 <= L)%N -> (L + 4 < 2 ^ 32)%N -> forall ms rnds k rest st,
  suite_ok A rnds (length ms) -> N.of_nat (length (rs_buf st)) = (4 + L)%N ->
  Forall (fun m => (m_nonce m < 2 ^ 64)%N /\ (N.of_nat (body_size A m) <= L)%N) ms ->
  rd_bytes (rs_rd st) = frames A rnds ms ++ rest ->
  exists st', rd_bytes (rs_rd st') = rest /\ rd_end (rs_rd st') = rd_end (rs_rd st)
    /\ length (rs_buf st') = length (rs_buf st)
    /\ recv_all (length ms + k) L A st =
       match recv_all k L A st' with None => None | Some (ms', r) => Some (ms ++ ms', r) end.
Proof.
  intros HL1 HL2. induction ms as [|m ms IH]; intros rnds k rest st HS HB HF E.
  - exists st. cbn in *. repeat split; auto. destruct (recv_all k L A st) as [[? ?]|]; reflexivity.
  - cbn [frames] in E. rewrite <- app_assoc in E. inversion HF as [|? ? [Hn Hm] HF']; subst.
    destruct (read_one L A rnds (length ms) m _ st HS HL1 HL2 HB Hm E) as (st1 & R & B1 & E1 & L1).
    destruct (IH (tl rnds) k rest st1) as (st' & B' & E' & L' & K); auto.
    { apply suite_ok_tl. exact HS. } { congruence. }
    exists st'. split; [exact B'|]. split; [congruence|]. split; [congruence|].
    cbn [length plus recv_all]. rewrite R, msg_roundtrip by exact Hn. rewrite K.
    destruct (recv_all k L A st') as [[? ?]|]; reflexivity.
Qed.

(** A stream that stops inside the next frame: an error, nothing delivered. *)
Lemma recv_cut L A rnds n m cut k st :
  suite_ok A rnds (S n) -> (1 <= L)%N -> (L + 4 < 2 ^ 32)%N -> N.of_nat (length (rs_buf st)) = (4 + L)%N ->
  (N.of_nat (body_size A m) <= L)%N ->
  cut < frame_len A m ->
  rd_bytes (rs_rd st) = firstn cut (frame_bytes A (hd [] rnds) (msg_marshal m)) ->
  exists e, recv_all (S k) L A st = Some ([], Err e).
Proof.
  intros HS HL1 HL2 HB Hm Hc E.
  pose proof (body_length A rnds n m HS) as BL. pose proof (frame_length A rnds n m HS) as FL.
  destruct (client_read_spec L A st) as (st' & E1 & E2 & _ & K1 & _ & _ & K2). cbv zeta in *.
  assert (LS : length (rd_bytes (rs_rd st)) = cut) by (rewrite E, firstn_length; lia).
  cbn [recv_all].
  destruct (Nat.lt_ge_cases cut 4) as [H4|H4].
  - destruct K1 as [-> _]; [lia | lia |]. eauto.
  - unfold frame_bytes in E, FL. cbv zeta in E, FL. fold (body A (hd [] rnds) (msg_marshal m)) in E, FL.
    set (b := body A (hd [] rnds) (msg_marshal m)) in *.
    assert (L4 : length (be_encode 4 (N.of_nat (length b))) = 4) by apply be_encode_length.
    assert (H1 : firstn 4 (rd_bytes (rs_rd st)) = be_encode 4 (N.of_nat (length b))).
    { rewrite E, firstn_firstn, Nat.min_l by lia. apply firstn_app_exact. exact L4. }
    rewrite H1 in K2. rewrite be_decode_encode_small in K2 by (change (256 ^ N.of_nat 4)%N with (2 ^ 32)%N; lia).
    rewrite Nat2N.id in K2. unfold frame_len in Hc.
    destruct K2 as [K2 _]; try lia. destruct K2 as [-> _]; [lia|]. eauto.
Qed.

Lemma recv_end L A k st :
  4 <= length (rs_buf st) -> rd_bytes (rs_rd st) = [] ->
  recv_all (S k) L A st = Some ([], Err (rd_end (rs_rd st))).
Proof.
  intros HB E. destruct (client_read_spec L A st) as (st' & E1 & E2 & _ & K1 & _). cbv zeta in *.
  cbn [recv_all]. rewrite E in K1. destruct K1 as [-> _]; [exact HB | cbn; lia |]. reflexivity.
Qed.

Lemma frames_none ms : forall r1 r2, frames None r1 ms = frames None r2 ms.
Proof. induction ms as [|x l IH]; intros r1 r2; [reflexivity|]. cbn [frames]. rewrite (IH (tl r1) (tl r2)). reflexivity. Qed.

(** Splitting point of a cut stream. *)
Lemma cut_split A ms : forall rnds cut,
  suite_ok A rnds (length ms) -> cut < length (frames A rnds ms) ->
  exists j m rnds', nth_error ms j = Some m /\ suite_ok A rnds' (S (length ms - S j)) /\
    exists c, c < frame_len A m /\
    firstn cut (frames A rnds ms) = frames A (firstn j rnds) (firstn j ms) ++ firstn c (frame_bytes A (hd [] rnds') (msg_marshal m))
    /\ suite_ok A (firstn j rnds) j
    /\ cut = length (frames A (firstn j rnds) (firstn j ms)) + c.
Proof.
  induction ms as [|m ms IH]; intros rnds cut HS Hc; [cbn in Hc; lia|].
  cbn [frames] in *. cbn [length] in HS.
  pose proof (frame_length A rnds _ m HS) as FL. rewrite app_length, FL in Hc.
  destruct (Nat.lt_ge_cases cut (frame_len A m)) as [H|H].
  - exists 0, m, rnds. split; [reflexivity|]. split; [cbn; rewrite Nat.sub_0_r; exact HS|]. exists cut.
    split; [exact H|]. split; [|split; [|reflexivity]].
    + cbn [firstn frames app]. rewrite firstn_app, FL. replace (cut - frame_len A m) with 0 by lia. cbn [firstn]. apply app_nil_r.
    + unfold suite_ok in *. destruct A; [|auto]. cbn. destruct HS as (? & ? & _). repeat split; auto; try apply H1.
  - destruct (IH (tl rnds) (cut - frame_len A m)) as (j & m' & rnds' & Hj & HS' & c & Hc' & EQ & HSj & EC).
    { apply suite_ok_tl. exact HS. } { lia. }
    exists (S j), m', rnds'. split; [exact Hj|]. split; [exact HS'|]. exists c. split; [exact Hc'|].
    assert (RN : match A with None => True | Some _ => rnds = hd [] rnds :: tl rnds end).
    { destruct A; auto. destruct HS as (_ & _ & LR & _). destruct rnds; [discriminate | reflexivity]. }
    assert (FJ : frames A (firstn (S j) rnds) (firstn (S j) (m :: ms)) =
                 frame_bytes A (hd [] rnds) (msg_marshal m) ++ frames A (firstn j (tl rnds)) (firstn j ms)).
    { cbn [firstn frames]. destruct A as [a|].
      - rewrite RN. cbn [firstn hd tl]. reflexivity.
      - f_equal. apply frames_none. }
    split; [|split].
    + rewrite FJ, <- app_assoc, <- EQ. rewrite firstn_app, FL. rewrite firstn_all2 by lia. reflexivity.
    + unfold suite_ok in *. destruct A as [a|]; auto. rewrite RN. cbn [firstn]. destruct HSj as (? & ? & ? & ?).
      repeat split; auto; try apply H1. { cbn. congruence. } constructor; [|assumption].
      destruct HS as (_ & _ & _ & F). rewrite RN in F. inversion F; assumption.
    + rewrite FJ, app_length, FL. lia.
Qed.
