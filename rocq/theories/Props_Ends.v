(** * C121: what the error of a connection and the log tell about how the peer ended it. *)
From Verif Require Import Base M_Msg M_AEAD M_Frame M_Ends P_Wire P_AEAD P_Frame Props_Frame.
From Coq Require Import Strings.Byte.
Local Open Scope nat_scope.

(** Bytes that messages take on the wire: four of length each, and what [wire_size] counts. *)
Fixpoint wire_total (A : option aead) (ms : list message) : nat :=
  match ms with [] => 0 | m :: r => 4 + N.to_nat (wire_size A m) + wire_total A r end.

(** The peer sent [ms], and what arrived is the first [cut] bytes of it, in the given pieces. *)
Definition arrived (A : option aead) (nonces : list bytes) (ms : list message) (cut : nat) (chunks : list bytes) : Prop :=
  concat chunks = firstn cut (frames A nonces ms).

(** The bytes end between two messages. *)
Definition between (A : option aead) (ms : list message) (cut : nat) : Prop :=
  exists j, j <= length ms /\ cut = wire_total A (firstn j ms).

Definition C121_statement : Prop := forall L A nonces ms chunks cut fuel closed,
  (1 <= L)%N -> (L + 4 < 2 ^ 32)%N -> writer_ok A nonces (length ms) ->
  (forall m, In m ms -> (m_nonce m < 2 ^ 64)%N /\ (wire_size A m <= L)%N) ->
  cut <= wire_total A ms -> arrived A nonces ms cut chunks -> length ms < fuel ->
  exists got e warned, recv_ends closed L A fuel (mkConn chunks ErrEOF) = Some (got, e, warned) /\
    (e = ErrEOF <-> between A ms cut) /\ (warned = false <-> between A ms cut).

Lemma wire_frames A ms : forall nonces, suite_ok A nonces (length ms) -> length (frames A nonces ms) = wire_total A ms.
Proof.
  induction ms as [|m ms IH]; intros nonces H; [reflexivity|]. cbn [frames wire_total]. rewrite app_length.
  rewrite (frame_length A nonces (length ms)) by exact H. rewrite IH by (apply suite_ok_tl; exact H).
  unfold frame_len, body_size, wire_size. rewrite Nat2N.id. lia.
Qed.

Lemma suite_firstn A j : forall nonces n, j <= n -> suite_ok A nonces n -> suite_ok A (firstn j nonces) j.
Proof.
  intros nonces n L H. destruct A as [a|]; [|exact I]. destruct H as (X1 & X2 & X3 & X4). split; [exact X1|]. split; [exact X2|].
  split; [rewrite firstn_length; lia|]. apply Forall_forall. intros r Hr. rewrite Forall_forall in X4. apply X4.
  rewrite <- (firstn_skipn j nonces). apply in_or_app. auto.
Qed.

(** The frames of a list, split at one of its messages. *)
Lemma frames_at A ms : forall nonces j m, suite_ok A nonces (length ms) -> nth_error ms j = Some m ->
  exists rn rest, suite_ok A rn (S (length ms - S j)) /\
    frames A nonces ms = frames A (firstn j nonces) (firstn j ms) ++ frame_bytes A (hd [] rn) (msg_marshal m) ++ rest.
Proof.
  induction ms as [|x ms IH]; intros nonces j m H E; [destruct j; discriminate|]. destruct j as [|j].
  - cbn in E. injection E as ->. exists nonces, (frames A (tl nonces) ms). cbn [length]. replace (S (S (length ms) - 1)) with (S (length ms)) by lia.
    split; [exact H | reflexivity].
  - cbn in E. destruct (IH (tl nonces) j m (suite_ok_tl _ _ _ H) E) as (rn & rest & S1 & E1). exists rn, rest.
    cbn [length]. split; [exact S1|]. cbn [frames firstn]. rewrite E1. destruct nonces as [|n0 nonces]; cbn [tl hd firstn].
    + destruct A as [a|]; [destruct H as (_ & _ & Z & _); discriminate|].
      rewrite (frames_none (firstn j ms) [] (firstn j [])). rewrite <- !app_assoc. reflexivity.
    + rewrite <- !app_assoc. reflexivity.
Qed.

(** The error for a frame of which only the first [c] bytes come. *)
Lemma recv_inside L A rnds n m c k st :
  suite_ok A rnds (S n) -> (1 <= L)%N -> (L + 4 < 2 ^ 32)%N -> N.of_nat (length (rs_buf st)) = (4 + L)%N ->
  (N.of_nat (body_size A m) <= L)%N -> c < frame_len A m ->
  rd_bytes (rs_rd st) = firstn c (frame_bytes A (hd [] rnds) (msg_marshal m)) ->
  recv_all (S k) L A st = Some ([], Err (if (c =? 0) || (c =? 4) then rd_end (rs_rd st)
                                         else match rd_end (rs_rd st) with ErrEOF => ErrUnexpectedEOF | e => e end)).
Proof.
  intros HS HL1 HL2 HB Hm Hc E.
  pose proof (body_length A rnds n m HS) as BL. pose proof (frame_length A rnds n m HS) as FL.
  destruct (client_read_spec L A st) as (st' & E1 & E2 & _ & K1 & _ & _ & K2). cbv zeta in *.
  assert (LS : length (rd_bytes (rs_rd st)) = c) by (rewrite E, firstn_length; lia).
  cbn [recv_all].
  destruct (Nat.lt_ge_cases c 4) as [H4|H4].
  - destruct K1 as [-> _]; [lia | lia |]. rewrite (proj2 (Nat.eqb_neq c 4)) by lia. rewrite Bool.orb_false_r.
    destruct (rd_bytes (rs_rd st)) as [|x l]; cbn [length] in LS.
    + rewrite <- LS. reflexivity.
    + rewrite (proj2 (Nat.eqb_neq c 0)) by lia. destruct (rd_end (rs_rd st)); reflexivity.
  - unfold frame_bytes in E, FL. cbv zeta in E, FL. fold (body A (hd [] rnds) (msg_marshal m)) in E, FL.
    set (b := body A (hd [] rnds) (msg_marshal m)) in *.
    assert (L4 : length (be_encode 4 (N.of_nat (length b))) = 4) by apply be_encode_length.
    assert (H1 : firstn 4 (rd_bytes (rs_rd st)) = be_encode 4 (N.of_nat (length b))).
    { rewrite E, firstn_firstn, Nat.min_l by lia. apply firstn_app_exact. exact L4. }
    rewrite H1 in K2. rewrite be_decode_encode_small in K2 by (change (256 ^ N.of_nat 4)%N with (2 ^ 32)%N; lia).
    rewrite Nat2N.id in K2. unfold frame_len in Hc.
    destruct K2 as [K2 _]; try lia. destruct K2 as [-> _]; [lia|].
    rewrite (proj2 (Nat.eqb_neq c 0)) by lia. cbn [orb].
    assert (LK : length (skipn 4 (rd_bytes (rs_rd st))) = c - 4) by (rewrite skipn_length; lia).
    destruct (skipn 4 (rd_bytes (rs_rd st))) as [|x l]; cbn [length] in LK.
    + replace c with 4 by lia. reflexivity.
    + rewrite (proj2 (Nat.eqb_neq c 4)) by lia. destruct (rd_end (rs_rd st)); reflexivity.
Qed.

Lemma recv_at L A nonces ms chunks ending j c m fuel :
  (1 <= L)%N -> (L + 4 < 2 ^ 32)%N -> writer_ok A nonces (length ms) ->
  (forall m, In m ms -> (m_nonce m < 2 ^ 64)%N /\ (wire_size A m <= L)%N) ->
  nth_error ms j = Some m -> c < 4 + N.to_nat (wire_size A m) ->
  arrived A nonces ms (wire_total A (firstn j ms) + c) chunks -> length ms < fuel ->
  recv_all fuel L A (new_rstate L (mkConn chunks ending)) =
    Some (firstn j ms, Err (if (c =? 0) || (c =? 4) then ending else match ending with ErrEOF => ErrUnexpectedEOF | e => e end)).
Proof.
  intros H1 H2 HW HM Hj Hc HA HF. apply writer_suite in HW.
  assert (Lj : j < length ms) by (apply nth_error_Some; rewrite Hj; discriminate).
  destruct (frames_at A ms nonces j m HW Hj) as (rn & rest & S1 & EQ).
  assert (Fj : length (firstn j ms) = j) by (rewrite firstn_length; lia).
  assert (SJ : suite_ok A (firstn j nonces) (length (firstn j ms))) by (rewrite Fj; apply (suite_firstn A j nonces (length ms)); [lia | exact HW]).
  assert (WT : length (frames A (firstn j nonces) (firstn j ms)) = wire_total A (firstn j ms)) by (apply wire_frames; exact SJ).
  assert (FL : length (frame_bytes A (hd [] rn) (msg_marshal m)) = 4 + N.to_nat (wire_size A m)).
  { rewrite (frame_length A rn _ m S1). unfold frame_len, body_size, wire_size. rewrite Nat2N.id. lia. }
  assert (HC : concat chunks = frames A (firstn j nonces) (firstn j ms) ++ firstn c (frame_bytes A (hd [] rn) (msg_marshal m))).
  { red in HA. rewrite HA, EQ, <- WT, firstn_app_2. f_equal. rewrite firstn_app. replace (c - length _) with 0 by lia. rewrite firstn_O, app_nil_r. reflexivity. }
  assert (LB : N.of_nat (length (rs_buf (new_rstate L (mkConn chunks ending)))) = (4 + L)%N).
  { cbn [rs_buf new_rstate]. rewrite zeros_length. unfold u32. rewrite N.mod_small by lia. lia. }
  destruct (recv_frames L A H1 H2 (firstn j ms) (firstn j nonces) (fuel - j)
              (firstn c (frame_bytes A (hd [] rn) (msg_marshal m))) (new_rstate L (mkConn chunks ending))) as (st' & B & E & Lb & K).
  - exact SJ.
  - exact LB.
  - apply Forall_forall. intros x Hx. destruct (HM x) as [X Y]; [rewrite <- (firstn_skipn j ms); apply in_or_app; auto|].
    split; [exact X | exact Y].
  - exact HC.
  - rewrite Fj in K. replace (j + (fuel - j)) with fuel in K by lia.
    assert (Hm : (N.of_nat (body_size A m) <= L)%N) by (apply nth_error_In in Hj; apply (HM m Hj)).
    rewrite K. replace (fuel - j) with (S (fuel - j - 1)) by lia.
    rewrite (recv_inside L A rn _ m c _ st' S1 H1 H2); [| rewrite Lb; exact LB | exact Hm | | exact B].
    + rewrite E, app_nil_r. change (rd_end (rs_rd (new_rstate L (mkConn chunks ending)))) with ending. destruct ending; reflexivity.
    + rewrite <- (frame_length A rn _ m S1), FL. exact Hc.
Qed.

(** ** C121, the part that holds *)

(** The peer ends the connection after message [j], and after [c] bytes of the next one.  The messages before are handed on, and
    nothing else.  The error is io.EOF and there is no warning when [c] is 0, and also when [c] is 4; elsewhere inside a message
    the error is io.ErrUnexpectedEOF, and there is a warning. *)
Theorem C121_partial : forall L A nonces ms chunks j c m fuel closed,
  (1 <= L)%N -> (L + 4 < 2 ^ 32)%N -> writer_ok A nonces (length ms) ->
  (forall m, In m ms -> (m_nonce m < 2 ^ 64)%N /\ (wire_size A m <= L)%N) ->
  nth_error ms j = Some m -> c < 4 + N.to_nat (wire_size A m) ->
  arrived A nonces ms (wire_total A (firstn j ms) + c) chunks -> length ms < fuel ->
  exists e warned, recv_ends closed L A fuel (mkConn chunks ErrEOF) = Some (firstn j ms, e, warned) /\
    (c = 0 \/ c = 4 -> e = ErrEOF /\ warned = false) /\
    (c <> 0 -> c <> 4 -> e = ErrUnexpectedEOF /\ warned = true).
Proof.
  intros L A nonces ms chunks j c m fuel closed H1 H2 HW HM Hj Hc HA HF. unfold recv_ends.
  rewrite (recv_at L A nonces ms chunks ErrEOF j c m fuel H1 H2 HW HM Hj Hc HA HF).
  eexists _, _. split; [reflexivity|]. split.
  - intros [-> | ->]; split; reflexivity.
  - intros N0 N4. rewrite (proj2 (Nat.eqb_neq c 0) N0), (proj2 (Nat.eqb_neq c 4) N4). split; reflexivity.
Qed.

(** After the last message. *)
Theorem C121_whole : forall L A nonces ms chunks fuel closed,
  (1 <= L)%N -> (L + 4 < 2 ^ 32)%N -> writer_ok A nonces (length ms) ->
  (forall m, In m ms -> (m_nonce m < 2 ^ 64)%N /\ (wire_size A m <= L)%N) ->
  arrived A nonces ms (wire_total A ms) chunks -> length ms < fuel ->
  recv_ends closed L A fuel (mkConn chunks ErrEOF) = Some (ms, ErrEOF, false).
Proof.
  intros L A nonces ms chunks fuel closed H1 H2 HW HM HA HF. unfold recv_ends.
  rewrite (C07_frames_roundtrip L A nonces ms chunks ErrEOF fuel H1 H2 HW HM); [reflexivity | | exact HF].
  red in HA. rewrite HA, <- (wire_frames A ms nonces) by (apply writer_suite; exact HW). apply firstn_all.
Qed.

(** A connection ended by another error than io.EOF, wherever its bytes stop: that error is the one reported, and there is a
    warning unless it tells that this node closed the connection itself. *)
Theorem C121_own : forall L A nonces ms chunks j c m fuel closed,
  (1 <= L)%N -> (L + 4 < 2 ^ 32)%N -> writer_ok A nonces (length ms) ->
  (forall m, In m ms -> (m_nonce m < 2 ^ 64)%N /\ (wire_size A m <= L)%N) ->
  nth_error ms j = Some m -> c < 4 + N.to_nat (wire_size A m) ->
  arrived A nonces ms (wire_total A (firstn j ms) + c) chunks -> length ms < fuel ->
  recv_ends closed L A fuel (mkConn chunks ErrOther) = Some (firstn j ms, ErrOther, negb closed).
Proof.
  intros L A nonces ms chunks j c m fuel closed H1 H2 HW HM Hj Hc HA HF. unfold recv_ends.
  rewrite (recv_at L A nonces ms chunks ErrOther j c m fuel H1 H2 HW HM Hj Hc HA HF).
  destruct ((c =? 0) || (c =? 4)); reflexivity.
Qed.

(** ** C121, refuted *)
Lemma total_ex : wire_total (Some toy) ex_msgs = 49.
Proof. vm_compute. reflexivity. Qed.

(** Three messages; the connection ends after the header of the second. *)
Theorem C121_refuted : ~ C121_statement.
Proof.
  intros F. pose proof C07_nonvacuous as (WK & SZ & _).
  destruct (F 14%N (Some toy) ex_nonces ex_msgs [firstn 20 (frames (Some toy) ex_nonces ex_msgs)] 20 4 false) as (got & e & w & R & [T _] & _).
  - lia.
  - lia.
  - exact WK.
  - intros m Hm. split; [|exact (SZ m Hm)]. destruct Hm as [<- | [<- | [<- | []]]]; vm_compute; reflexivity.
  - rewrite total_ex. lia.
  - red. cbn [concat]. rewrite app_nil_r. reflexivity.
  - cbn. lia.
  - vm_compute in R. injection R as <- <- <-. destruct (T eq_refl) as (j & Lj & Ej).
    destruct j as [|[|[|[|j]]]]; [vm_compute in Ej; discriminate .. | cbn in Lj; lia].
Qed.

(** The hypotheses of [C121_partial] are met by these messages, and the three kinds of end occur. *)
Example C121_nonvacuous :
  writer_ok (Some toy) ex_nonces 3 /\ wire_total (Some toy) (firstn 1 ex_msgs) = 16 /\
  let s := frames (Some toy) ex_nonces ex_msgs in
  (arrived (Some toy) ex_nonces ex_msgs (16 + 4) [firstn 3 s; firstn 17 (skipn 3 s)]) /\
  recv_ends false 14 (Some toy) 4 (mkConn [firstn 16 s] ErrEOF) = Some ([mkMsg 0 [n2b 5]], ErrEOF, false) /\
  recv_ends false 14 (Some toy) 4 (mkConn [firstn 20 s] ErrEOF) = Some ([mkMsg 0 [n2b 5]], ErrEOF, false) /\
  recv_ends false 14 (Some toy) 4 (mkConn [firstn 18 s] ErrEOF) = Some ([mkMsg 0 [n2b 5]], ErrUnexpectedEOF, true) /\
  recv_ends false 14 (Some toy) 4 (mkConn [firstn 25 s] ErrEOF) = Some ([mkMsg 0 [n2b 5]], ErrUnexpectedEOF, true) /\
  recv_ends false 14 (Some toy) 4 (mkConn [firstn 25 s] ErrOther) = Some ([mkMsg 0 [n2b 5]], ErrOther, true) /\
  recv_ends true 14 (Some toy) 4 (mkConn [firstn 25 s] ErrOther) = Some ([mkMsg 0 [n2b 5]], ErrOther, false).
Proof.
  split; [exact (proj1 C07_nonvacuous)|]. split; [vm_compute; reflexivity|].
  split; [vm_compute; reflexivity|]. repeat split; vm_compute; reflexivity.
Qed.

Print Assumptions C121_partial.
Print Assumptions C121_whole.
Print Assumptions C121_own.
Print Assumptions C121_refuted.
