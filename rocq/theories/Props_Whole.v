(** * C131: a message of whatever size is handed on whole or not at all. *)
From Verif Require Import Base M_Msg M_AEAD M_Frame P_Wire P_AEAD P_Frame Props_Frame Props_Fit.
From Coq Require Import Strings.Byte.
Local Open Scope nat_scope.

(** ** Spec *)

(** The cipher refuses every one of these sealed messages when its end is missing. *)
Definition refuses_cut (a : aead) (nonces : list bytes) (ms : list message) : Prop := forall i r m k,
  nth_error nonces i = Some r -> nth_error ms i = Some m -> k < length (seal a r (msg_marshal m)) -> open a r (firstn k (seal a r (msg_marshal m))) = None.

(** *** Lemmas *)

Lemma refuses_drop a : forall f nonces rest, refuses_cut a nonces (f ++ rest) -> refuses_cut a (skipn (length f) nonces) rest.
Proof.
  induction f as [|x f IH]; intros nonces rest H; [exact H|]. destruct nonces as [|n0 nonces].
  - intros i r m k Hr. cbn in Hr. destruct i; discriminate.
  - cbn [length skipn]. apply IH. intros i r m k Hr Hm. exact (H (S i) r m k Hr Hm).
Qed.

Lemma frames_drop a : forall (ms rest : list message) nonces, length nonces = length (ms ++ rest) ->
  frames (Some a) nonces (ms ++ rest) = frames (Some a) (firstn (length ms) nonces) ms ++ frames (Some a) (skipn (length ms) nonces) rest.
Proof.
  induction ms as [|m ms IH]; intros rest nonces H; [reflexivity|]. destruct nonces as [|n0 nonces]; [discriminate|]. cbn [app frames length firstn skipn hd tl] in *.
  rewrite IH by lia. rewrite <- app_assoc. reflexivity.
Qed.

(** A message that does not fit, however large: an error, and nothing is handed on. *)
Lemma recv_huge L a r m rest k st :
  aead_contract a -> length r = nonce_size a -> (1 <= L)%N -> (L + 4 < 2 ^ 32)%N -> N.of_nat (length (rs_buf st)) = (4 + L)%N ->
  (L < wire_size (Some a) m)%N -> (forall j, j < length (seal a r (msg_marshal m)) -> open a r (firstn j (seal a r (msg_marshal m))) = None) ->
  rd_bytes (rs_rd st) = frame_bytes (Some a) r (msg_marshal m) ++ rest ->
  exists e, recv_all (S k) L (Some a) st = Some ([], Err e) /\
    ((L < wire_size (Some a) m mod 2 ^ 32)%N -> e = ErrMessageTooLarge) /\ ((wire_size (Some a) m mod 2 ^ 32 <= L)%N -> e = ErrAuth \/ e = ErrUnexpectedEOF).
Proof.
  intros (C1 & C2 & C3 & C4) HR HL1 HL2 HB Hm Cut E. cbn [recv_all].
  destruct (C08_limit L (Some a) st HL1 HL2 HB) as (st' & res & CR & _ & _ & Big & Fit & _). rewrite CR. unfold unread, announced in Big, Fit. cbv zeta in Big, Fit.
  change (br_buf (rs_rd st) ++ concat (cn_chunks (br_conn (rs_rd st)))) with (rd_bytes (rs_rd st)) in Big, Fit.
  unfold frame_bytes in E. cbv zeta in E. unfold encrypt_val in E. set (sl := seal a r (msg_marshal m)) in *.
  assert (LS : length sl = 8 + length (m_data m) + overhead a) by (unfold sl; rewrite C1 by exact HR; rewrite msg_marshal_length; reflexivity).
  assert (W : N.of_nat (length (r ++ sl)) = wire_size (Some a) m) by (rewrite app_length, HR, LS; unfold wire_size; lia).
  assert (L4 : length (be_encode 4 (N.of_nat (length (r ++ sl)))) = 4) by apply be_encode_length.
  assert (F : be_decode (firstn 4 (rd_bytes (rs_rd st))) = (wire_size (Some a) m mod 2 ^ 32)%N).
  { rewrite E, <- app_assoc, (firstn_app_exact _ _ _ L4), be_decode_encode, W. reflexivity. }
  set (h4 := be_encode 4 (N.of_nat (length (r ++ sl)))) in *. clearbody h4.
  assert (L4' : 4 <= length (rd_bytes (rs_rd st))) by (rewrite E, !app_length, L4; lia).
  rewrite F in Big, Fit. destruct (N.lt_ge_cases L (wire_size (Some a) m mod 2 ^ 32)) as [H|H].
  - destruct (Big L4' H) as [-> _]. exists ErrMessageTooLarge. split; [reflexivity|]. split; [reflexivity | lia].
  - set (z := (wire_size (Some a) m mod 2 ^ 32)%N) in *. assert (Hz : (z < wire_size (Some a) m)%N) by lia.
    assert (Hz' : N.to_nat z < length (r ++ sl)) by lia.
    destruct (Fit L4' H) as [_ ->]; [rewrite E, !app_length, L4; rewrite app_length in Hz'; lia|].
    assert (P : firstn (N.to_nat z) (skipn 4 (rd_bytes (rs_rd st))) = firstn (N.to_nat z) (r ++ sl)).
    { rewrite E, <- app_assoc, (skipn_app_exact _ _ _ L4), firstn_app. replace (N.to_nat z - length (r ++ sl)) with 0 by lia. cbn [firstn]. apply app_nil_r. }
    rewrite P. unfold decrypt_val. rewrite firstn_length, Nat.min_l by lia. destruct (Nat.ltb_spec (N.to_nat z) (nonce_size a)) as [S|S].
    + exists ErrUnexpectedEOF. split; [reflexivity|]. split; [lia | auto].
    + assert (Q : firstn (N.to_nat z) (r ++ sl) = r ++ firstn (N.to_nat z - nonce_size a) sl) by (rewrite firstn_app, firstn_all2 by lia; rewrite HR; reflexivity).
      rewrite Q, (firstn_app_exact _ _ _ HR), (skipn_app_exact _ _ _ HR). rewrite app_length in Hz'. rewrite Cut by (fold sl; lia).
      exists ErrAuth. split; [reflexivity|]. split; [lia | auto].
Qed.

(** *** Theorem *)

(** Messages of any size, sent over an encrypted connection, even of 4 GB and more, whose length does not fit in front of them: the receiver hands on
    the messages before the first that takes more than its limit, whole, and nothing of that one or of those after it.  It then has
    an error: that the message is too large, when what is left of its length says so, or that it could not be decrypted. *)
Theorem C131_whole_or_not_at_all : forall L a nonces ms chunks ending fuel,
  (1 <= L)%N -> (L + 4 < 2 ^ 32)%N -> writer_ok (Some a) nonces (length ms) -> (forall m, In m ms -> (m_nonce m < 2 ^ 64)%N) ->
  concat chunks = frames (Some a) nonces ms -> refuses_cut a nonces ms -> length ms < fuel ->
  exists e, recv_all fuel L (Some a) (new_rstate L (mkConn chunks ending)) = Some (fitting (Some a) L ms, Err e) /\
    (fitting (Some a) L ms = ms -> e = ending) /\
    (forall m r, ms = fitting (Some a) L ms ++ m :: r ->
       ((L < wire_size (Some a) m mod 2 ^ 32)%N -> e = ErrMessageTooLarge) /\ ((wire_size (Some a) m mod 2 ^ 32 <= L)%N -> e = ErrAuth \/ e = ErrUnexpectedEOF)).
Proof.
  intros L a nonces ms chunks ending fuel H1 H2 HW HN HC Cut HF. destruct (fitting_split (Some a) L ms) as [Q|(m & r & Q & B)].
  - exists ending. split; [|split; [reflexivity|]].
    + rewrite Q. apply (C07_frames_roundtrip L (Some a) nonces); auto. intros m I. split; [apply HN, I|]. rewrite <- Q in I. apply fitting_fits in I as [_ I]. exact I.
    + intros m r E. rewrite Q in E. apply (f_equal (@length _)) in E. rewrite app_length in E. cbn in E. lia.
  - assert (Ff : forall x, In x (fitting (Some a) L ms) -> In x ms /\ (wire_size (Some a) x <= L)%N) by (intros x; apply fitting_fits).
    assert (NQ : fitting (Some a) L ms <> ms) by (intros X; rewrite X in Q; apply (f_equal (@length _)) in Q; rewrite app_length in Q; cbn in Q; lia).
    set (f := fitting (Some a) L ms) in *. clearbody f. destruct HW as (CT & LN & FN). rewrite Q in LN. pose proof Cut as Cut'. rewrite Q in Cut'. apply refuses_drop in Cut'.
    rewrite Q, (frames_drop a f (m :: r) nonces LN) in HC. rewrite app_length in LN. cbn [length] in LN.
    assert (LB : N.of_nat (length (rs_buf (new_rstate L (mkConn chunks ending)))) = (4 + L)%N).
    { cbn [rs_buf new_rstate]. rewrite zeros_length. unfold u32. rewrite N.mod_small by lia. lia. }
    assert (LM : length ms = length f + S (length r)) by (rewrite Q, app_length; reflexivity).
    assert (SO : suite_ok (Some a) (firstn (length f) nonces) (length f)).
    { apply writer_suite. split; [exact CT|]. split; [rewrite firstn_length; lia|]. apply Forall_forall. intros x Hx. rewrite Forall_forall in FN. apply FN. rewrite <- (firstn_skipn (length f) nonces). apply in_or_app. auto. }
    destruct (recv_frames L (Some a) H1 H2 f (firstn (length f) nonces) (fuel - length f) (frames (Some a) (skipn (length f) nonces) (m :: r)) (new_rstate L (mkConn chunks ending)))
      as (st' & B' & _ & Lb & K); [exact SO | exact LB | | exact HC |].
    { apply Forall_forall. intros x Hx. destruct (Ff x Hx) as [I J]. split; [apply HN, I | exact J]. }
    replace (length f + (fuel - length f)) with fuel in K by lia. rewrite K. replace (fuel - length f) with (S (fuel - length f - 1)) by lia.
    assert (Hd : exists n0 rn, skipn (length f) nonces = n0 :: rn).
    { destruct (skipn (length f) nonces) as [|n0 rn] eqn:X; [|eauto]. apply (f_equal (@length _)) in X. rewrite skipn_length in X. cbn in X. lia. }
    destruct Hd as (n0 & rn & Hd). rewrite Hd in *. cbn [frames hd tl] in B'.
    assert (Ln0 : length n0 = nonce_size a).
    { rewrite Forall_forall in FN. apply FN. rewrite <- (firstn_skipn (length f) nonces), Hd. apply in_or_app. right. left. reflexivity. }
    destruct (recv_huge L a n0 m (frames (Some a) rn r) (fuel - length f - 1) st' CT Ln0 H1 H2 ltac:(congruence) B) as (e & R & E1 & E2).
    { intros j Hj. exact (Cut' 0 n0 m j eq_refl eq_refl Hj). }
    { exact B'. }
    exists e. rewrite R. rewrite app_nil_r. split; [reflexivity|]. split; [intros X; destruct (NQ X)|].
    intros m' r' E. rewrite Q in E. apply app_inv_head in E. injection E as <- <-. split; assumption.
Qed.

(** *** A message of 4 GB *)

(** A toy cipher that refuses what is cut: it puts the length in front. *)
Definition toy8 : aead := mkAEAD 2 8 (fun n p => be_encode 8 (N.of_nat (length p)) ++ p)
  (fun n c => if (8 <=? length c) && (be_decode (firstn 8 c) =? N.of_nat (length c - 8) mod 2 ^ 64)%N then Some (skipn 8 c) else None).
Lemma toy8_ok : aead_contract toy8.
Proof.
  split; [|split; [|split]]; cbn [toy8 seal open overhead nonce_size].
  - intros n p _. rewrite app_length, be_encode_length. lia.
  - intros n p _. assert (L8 : length (be_encode 8 (N.of_nat (length p))) = 8) by apply be_encode_length.
    rewrite app_length, L8, (firstn_app_exact _ _ _ L8), (skipn_app_exact _ _ _ L8), be_decode_encode. replace (8 + length p - 8) with (length p) by lia. change (256 ^ N.of_nat 8)%N with (2 ^ 64)%N. rewrite N.eqb_refl.
    replace (8 <=? 8 + length p) with true by (symmetry; apply Nat.leb_le; lia). reflexivity.
  - intros n c H. replace (8 <=? length c) with false by (symmetry; apply Nat.leb_gt; lia). reflexivity.
  - intros n c p. destruct (Nat.leb_spec 8 (length c)) as [H|]; [|discriminate]. cbn [andb]. destruct (_ =? _)%N; [|discriminate]. intros E. assert (p = skipn 8 c) as -> by congruence. rewrite skipn_length. lia.
Qed.
Lemma toy8_cut r p k : (N.of_nat (length p) < 2 ^ 64)%N -> k < length (seal toy8 r p) -> open toy8 r (firstn k (seal toy8 r p)) = None.
Proof.
  intros Hp. cbn [toy8 seal open]. assert (L8 : length (be_encode 8 (N.of_nat (length p))) = 8) by apply be_encode_length. rewrite app_length, L8. intros Hk.
  rewrite firstn_length, app_length, L8, Nat.min_l by lia. destruct (Nat.leb_spec 8 k) as [H|]; [|reflexivity]. cbn [andb].
  rewrite firstn_firstn, Nat.min_l, (firstn_app_exact _ _ _ L8), be_decode_encode by exact H. change (256 ^ N.of_nat 8)%N with (2 ^ 64)%N. rewrite !N.mod_small by lia.
  destruct (N.eqb_spec (N.of_nat (length p)) (N.of_nat (k - 8))) as [E|]; [lia | reflexivity].
Qed.

Lemma cut_toy8 : forall nonces ms, (forall m, In m ms -> (N.of_nat (length (m_data m)) + 8 < 2 ^ 64)%N) -> refuses_cut toy8 nonces ms.
Proof.
  intros nonces ms H i r m k Hr Hm Hk. apply toy8_cut; [|exact Hk]. rewrite msg_marshal_length. specialize (H m (nth_error_In _ _ Hm)). lia.
Qed.

(** The second of three messages takes 2^32 + 3 bytes on the wire, so the length in front of it is 3. *)
Example C131_nonvacuous : forall n, N.of_nat n = (2 ^ 32 - 15)%N ->
  let ms := [mkMsg 0 [n2b 5]; mkMsg 0 (zeros n); mkMsg 0 [n2b 6]] in
  let nonces := [zeros 2; zeros 2; zeros 2] in
  writer_ok (Some toy8) nonces (length ms) /\ (forall m, In m ms -> (m_nonce m < 2 ^ 64)%N) /\ refuses_cut toy8 nonces ms /\
  wire_size (Some toy8) (mkMsg 0 (zeros n)) = (2 ^ 32 + 3)%N /\ fitting (Some toy8) 100 ms = [mkMsg 0 [n2b 5]].
Proof.
  intros n Hn ms nonces. assert (W : wire_size (Some toy8) (mkMsg 0 (zeros n)) = (2 ^ 32 + 3)%N) by (unfold wire_size; cbn [m_data toy8 nonce_size overhead]; rewrite zeros_length; lia).
  split; [|split; [|split; [|split]]].
  - split; [exact toy8_ok|]. split; [reflexivity|]. repeat constructor.
  - intros m [<-|[<-|[<-|[]]]]; reflexivity.
  - apply cut_toy8. intros m [<-|[<-|[<-|[]]]]; cbn [m_data]; try reflexivity. rewrite zeros_length. lia.
  - exact W.
  - unfold ms. cbn [fitting]. rewrite W. reflexivity.
Qed.

Print Assumptions C131_whole_or_not_at_all.
