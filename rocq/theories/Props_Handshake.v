(** * The handshake as a function of what arrives: C47, C48 and the per-session part of C49; C64 (replay). *)
From Verif Require Import Base Spec M_Addr M_ID M_Msg M_AEAD M_Frame M_Handshake P_Wire P_AEAD P_Frame Props_Frame.
From Coq Require Import Strings.Byte.
Local Open Scope nat_scope.

(** Reading a complete frame. *)
Lemma read_frame L A rnd p rest st :
  match A with None => True | Some a => aead_contract a /\ length rnd = nonce_size a end ->
  (1 <= L)%N -> (L + 4 < 2 ^ 32)%N -> N.of_nat (length (rs_buf st)) = (4 + L)%N ->
  (N.of_nat (length p + match A with None => 0 | Some a => nonce_size a + overhead a end) <= L)%N ->
  unread st = frame_bytes A rnd p ++ rest ->
  exists st', client_read L A st = (st', Ok p) /\ unread st' = rest /\ length (rs_buf st') = length (rs_buf st).
Proof.
  intros HA H1 H2 HB HL HU. destruct (C08_limit L A st H1 H2 HB) as (st' & r & E & _ & LB & _ & K & _). cbv zeta in K.
  unfold frame_bytes in HU. cbv zeta in HU. set (b := match A with None => p | Some a => encrypt_val a rnd p end) in *.
  assert (Lb : length b = length p + match A with None => 0 | Some a => nonce_size a + overhead a end).
  { unfold b. destruct A as [a|]; [|lia]. destruct HA as ((C1 & _) & Hn). unfold encrypt_val. rewrite app_length, C1 by exact Hn. lia. }
  rewrite <- app_assoc in HU.
  assert (L4 : length (be_encode 4 (N.of_nat (length b))) = 4) by apply be_encode_length.
  assert (An : announced (unread st) = N.of_nat (length b)).
  { unfold announced. rewrite HU, (firstn_app_exact _ _ 4 L4). apply be_decode_encode_small. change (256 ^ N.of_nat 4)%N with (2 ^ 32)%N. lia. }
  rewrite An, Nat2N.id in K.
  assert (LU : length (unread st) = 4 + length b + length rest) by (rewrite HU, !app_length; lia).
  destruct K as [K1 K2]; try lia.
  exists st'. rewrite HU in K1, K2. rewrite (skipn_app_exact _ _ 4 L4), (firstn_app_exact _ _ _ eq_refl) in K2.
  split; [|split; [|exact LB]].
  - rewrite E. f_equal. destruct A as [a|]; [|exact K2]. rewrite K2. unfold b, decrypt_val, encrypt_val. destruct HA as ((C1 & C2 & _) & Hn).
    destruct (Nat.ltb_spec (length (rnd ++ seal a rnd p)) (nonce_size a)) as [X|X]; [rewrite app_length in X; lia|].
    rewrite (firstn_app_exact _ _ _ Hn), (skipn_app_exact _ _ _ Hn), C2 by exact Hn. reflexivity.
  - rewrite K1. replace (4 + length b) with (length (be_encode 4 (N.of_nat (length b)) ++ b)) by (rewrite app_length; lia).
    rewrite app_assoc. apply skipn_app_exact. reflexivity.
Qed.

(** ** C48 *)

(** An honest party: its own key pair and its ephemeral one sign verifiably (64-byte signatures), its ID is of the form every
    node announces with a 16-byte host, its writes succeed and it draws a nonce of the cipher's size. *)
Record party (C : crypto) (suite : aead) (e : hs_env) (pub : pubkey) (sec : privkey) : Prop := {
  pt_eph : he_eph e = Ok (pub, sec);
  pt_id : exists key host port, he_id e = NewID key host port /\ length key = 32 /\ length host = 16 /\ (port < 65536)%N;
  pt_pub : length pub = 32;
  pt_sig : forall m, length (sign C (he_key e) m) = 64 /\ verify C (id_key (he_id e)) m (sign C (he_key e) m) = true;
  pt_esig : forall m, length (sign C sec m) = 64 /\ verify C pub m (sign C sec m) = true;
  pt_rnd : length (he_rnd e) = nonce_size suite;
  pt_w1 : he_w1 e = None;
  pt_w2 : he_w2 e = None
}.

Definition hello (C : crypto) (pub : pubkey) (sec : privkey) : bytes := frame_bytes None [] (pub ++ sign C sec banner).
Definition overlay (C : crypto) (suite : aead) (e : hs_env) (shared : bytes) : bytes :=
  frame_bytes (Some suite) (he_rnd e) (ID_marshal (he_id e) ++ sign C (he_key e) (ID_marshal (he_id e) ++ shared)).

Lemma hs_open_ok C pub sg : length pub = 32 -> length sg = 64 -> verify C pub banner sg = true -> hs_open C (pub ++ sg) = Ok pub.
Proof.
  intros Hp Hs Hv. unfold hs_open, SizePublicKey, SizeSignature. rewrite app_length, Hp, Hs. cbn [Nat.eqb negb plus].
  rewrite slice_to_ok by (rewrite app_length; lia). cbn [bind]. rewrite (firstn_app_exact _ _ _ Hp).
  rewrite slice_ok by (rewrite ?app_length; lia). cbn [bind Nat.sub]. rewrite (skipn_app_exact _ _ _ Hp). rewrite firstn_all2 by lia.
  unfold UnmarshalSignature, SizeSignature. destruct (Nat.leb_spec (length sg) (64 - 1)); [lia|]. cbn [bind]. rewrite firstn_all2 by lia.
  rewrite go_copy_full by (unfold ZeroPublicKey, SizePublicKey; rewrite zeros_length; exact Hp). rewrite Hv. reflexivity.
Qed.

Lemma hs_check_ok C shared key host port sg : length key = 32 -> length host = 16 -> (port < 65536)%N -> length sg = 64 ->
  verify C key (ID_marshal (NewID key host port) ++ shared) sg = true ->
  hs_check C shared (ID_marshal (NewID key host port) ++ sg) = Ok (NewID key host port).
Proof.
  intros Hk Hh Hp Hs Hv. unfold hs_check. rewrite id_roundtrip by assumption. cbn [bind].
  set (id := NewID key host port) in *. assert (Sz : ID_size id = 50) by (unfold id, ID_size; cbn; rewrite Hk; reflexivity).
  assert (Lm : length (ID_marshal id) = 50) by (rewrite ID_marshal_length; exact Sz).
  rewrite Sz. assert (Eb : go_copy (zeros 50) (ID_marshal id ++ sg) = ID_marshal id).
  { unfold go_copy. rewrite zeros_length, (firstn_app_exact _ _ _ Lm). rewrite skipn_all2; [apply app_nil_r|]. rewrite zeros_length, app_length. lia. }
  rewrite Eb, Lm, app_length, Lm. unfold SizeSignature. rewrite Hs. cbn [Nat.eqb negb plus].
  rewrite slice_ok by (rewrite ?app_length; lia). cbn [bind Nat.sub]. rewrite (skipn_app_exact _ _ _ Lm). rewrite firstn_all2 by lia.
  unfold UnmarshalSignature, SizeSignature. destruct (Nat.leb_spec (length sg) (64 - 1)); [lia|]. cbn [bind]. rewrite firstn_all2 by lia.
  change (id_key id) with key. rewrite Hv. reflexivity.
Qed.

(** One side's run when the honest peer's two messages arrive. *)
Lemma hs_run C L suite shared eA pubA secA eB pubB secB st rest :
  party C suite eA pubA secA -> party C suite eB pubB secB ->
  ecdh C secA pubB = Ok shared -> gcm C shared = Ok suite -> aead_contract suite ->
  (96 <= L)%N -> (N.of_nat (114 + nonce_size suite + overhead suite) <= L)%N -> (L + 4 < 2 ^ 32)%N ->
  N.of_nat (length (rs_buf st)) = (4 + L)%N ->
  unread st = hello C pubB secB ++ overlay C suite eB shared ++ rest ->
  exists st', handshake C L eA st = mkHS (hello C pubA secA ++ overlay C suite eA shared) st' (Some suite) (Ok (he_id eB)) /\
    unread st' = rest /\ length (rs_buf st') = length (rs_buf st).
Proof.
  intros [A1 A2 A3 A4 A5 A6 A7 A8] [B1 (key & host & port & B2 & B2k & B2h & B2p) B3 B4 B5 B6 B7 B8] HE HG HC H1 H2 H3 HB HU.
  unfold handshake. rewrite A1, A7.
  destruct (B5 banner) as [Bs1 Bs2].
  destruct (read_frame L None [] (pubB ++ sign C secB banner) (overlay C suite eB shared ++ rest) st) as (st1 & R1 & U1 & L1); auto; try lia.
  { rewrite app_length, B3, Bs1. lia. }
  rewrite R1. cbn [bind]. rewrite hs_open_ok by assumption. cbn [bind]. rewrite HE. cbn [bind]. rewrite HG. cbn [bind]. rewrite A8.
  destruct (B4 (ID_marshal (he_id eB) ++ shared)) as [Bo1 Bo2].
  assert (Lm : length (ID_marshal (he_id eB)) = 50) by (rewrite ID_marshal_length, B2; unfold ID_size; cbn; rewrite B2k; reflexivity).
  destruct (read_frame L (Some suite) (he_rnd eB) (ID_marshal (he_id eB) ++ sign C (he_key eB) (ID_marshal (he_id eB) ++ shared)) rest st1) as (st2 & R2 & U2 & L2); auto; try lia.
  { rewrite app_length, Lm, Bo1. lia. }
  rewrite R2. cbn [bind]. exists st2. split; [|split; [exact U2 | congruence]].
  f_equal. rewrite B2 in *. apply hs_check_ok; auto.
Qed.

(** What a party sends does not depend on its input beyond the peer's first message. *)
Lemma hs_sent_hello C L suite e pub sec st : party C suite e pub sec -> exists more, hr_sent (handshake C L e st) = hello C pub sec ++ more.
Proof.
  intros [A1 _ _ _ _ _ A7 A8]. unfold handshake. rewrite A1, A7. destruct (client_read L None st) as [st1 r1].
  destruct (bind r1 _) as [[sh su]|er|]; [|exists []; rewrite app_nil_r; reflexivity | exists []; rewrite app_nil_r; reflexivity].
  rewrite A8. destruct (client_read L (Some su) st1) as [st2 r2]. eexists. reflexivity.
Qed.

(** Two honest nodes over a faithful connection (each receives exactly what the other writes, in whatever chunks, possibly
    followed by later messages): both complete, with the same session cipher, and each learns exactly the other's ID;
    what follows the handshake is left unread for the receive loop. *)
Theorem C48_agreement : forall C L suite shared eA pubA secA eB pubB secB chA chB endA endB restA restB,
  party C suite eA pubA secA -> party C suite eB pubB secB ->
  ecdh C secA pubB = Ok shared -> ecdh C secB pubA = Ok shared -> gcm C shared = Ok suite -> aead_contract suite ->
  (N.max 96 (N.of_nat (114 + nonce_size suite + overhead suite)) <= L)%N -> (L + 4 < 2 ^ 32)%N ->
  let hA := handshake C L eA (new_rstate L (mkConn chA endA)) in
  let hB := handshake C L eB (new_rstate L (mkConn chB endB)) in
  concat chA = hr_sent hB ++ restA -> concat chB = hr_sent hA ++ restB ->
  hr_peer hA = Ok (he_id eB) /\ hr_peer hB = Ok (he_id eA) /\
  hr_suite hA = Some suite /\ hr_suite hB = Some suite /\
  unread (hr_rd hA) = restA /\ unread (hr_rd hB) = restB.
Proof.
  intros C L suite shared eA pubA secA eB pubB secB chA chB endA endB restA restB PA PB EA EB HG HC HL1 HL2 hA hB HA HB.
  assert (BL : forall c, N.of_nat (length (rs_buf (new_rstate L c))) = (4 + L)%N).
  { intros c. cbn [rs_buf new_rstate]. rewrite zeros_length. unfold u32. rewrite N.mod_small by lia. lia. }
  assert (UA : unread (new_rstate L (mkConn chA endA)) = concat chA) by reflexivity.
  assert (UB : unread (new_rstate L (mkConn chB endB)) = concat chB) by reflexivity.
  (* first messages arrive, so each second message is determined *)
  assert (G : forall e pub sec eP pubP secP st more, party C suite e pub sec -> party C suite eP pubP secP -> ecdh C sec pubP = Ok shared ->
     N.of_nat (length (rs_buf st)) = (4 + L)%N -> unread st = hello C pubP secP ++ more ->
     hr_sent (handshake C L e st) = hello C pub sec ++ overlay C suite e shared).
  { intros e pub sec eP pubP secP st more [A1 A2 A3 A4 A5 A6 A7 A8] [B1 B2 B3 B4 B5 B6 B7 B8] E Hb HU. unfold handshake. rewrite A1, A7.
    destruct (B5 banner) as [Bs1 Bs2].
    destruct (read_frame L None [] (pubP ++ sign C secP banner) more st) as (st1 & R1 & U1 & L1); auto; try lia.
    { rewrite app_length, B3, Bs1. lia. }
    rewrite R1. cbn [bind]. rewrite hs_open_ok by assumption. cbn [bind]. rewrite E. cbn [bind]. rewrite HG. cbn [bind]. rewrite A8.
    destruct (client_read L (Some suite) st1) as [st2 r2]. reflexivity. }
  destruct (hs_sent_hello C L suite eA pubA secA (new_rstate L (mkConn chA endA)) PA) as [moreA MA].
  destruct (hs_sent_hello C L suite eB pubB secB (new_rstate L (mkConn chB endB)) PB) as [moreB MB].
  assert (SA : hr_sent hA = hello C pubA secA ++ overlay C suite eA shared).
  { eapply (G eA pubA secA eB pubB secB); auto. rewrite UA, HA. unfold hB. rewrite MB, <- app_assoc. reflexivity. }
  assert (SB : hr_sent hB = hello C pubB secB ++ overlay C suite eB shared).
  { eapply (G eB pubB secB eA pubA secA); auto. rewrite UB, HB. unfold hA. rewrite MA, <- app_assoc. reflexivity. }
  destruct (hs_run C L suite shared eA pubA secA eB pubB secB (new_rstate L (mkConn chA endA)) restA PA PB EA HG HC) as (sA & RA & URA & _); auto; try lia.
  { rewrite UA, HA, SB, <- app_assoc. reflexivity. }
  destruct (hs_run C L suite shared eB pubB secB eA pubA secA (new_rstate L (mkConn chB endB)) restB PB PA EB HG HC) as (sB & RB & URB & _); auto; try lia.
  { rewrite UB, HB, SA, <- app_assoc. reflexivity. }
  unfold hA, hB. rewrite RA, RB. cbn. auto 6.
Qed.
Print Assumptions C48_agreement.

(** The receive limit matters: with a limit below 96 (a documented, accepted setting) no handshake can succeed, whatever
    the peer does. *)
Theorem C48_small_limit : forall C L e st id, (1 <= L)%N -> (L < 96)%N -> N.of_nat (length (rs_buf st)) = (4 + L)%N ->
  hr_peer (handshake C L e st) <> Ok id.
Proof.
  intros C L e st id H1 H2 HB E. unfold handshake in E. destruct (he_eph e) as [[pub sec]|er|]; try discriminate.
  destruct (he_w1 e); [discriminate|]. destruct (C08_limit L None st H1 ltac:(lia) HB) as (st' & r & R & NP & LB & K1 & K2 & K3). cbv zeta in *.
  rewrite R in E. destruct r as [data|er|]; [|discriminate|discriminate].
  assert (Hd : length data < 96).
  { destruct (Nat.lt_ge_cases (length (unread st)) 4) as [X|X]; [destruct K3 as [? ?]; [auto | discriminate]|].
    destruct (N.lt_ge_cases L (announced (unread st))) as [Y|Y]; [destruct K1 as [? _]; auto; discriminate|].
    destruct (Nat.lt_ge_cases (length (unread st)) (4 + N.to_nat (announced (unread st)))) as [Z|Z]; [destruct K3 as [? ?]; [auto | discriminate]|].
    destruct K2 as [_ K2]; auto. assert (data = firstn (N.to_nat (announced (unread st))) (skipn 4 (unread st))) as -> by congruence.
    rewrite firstn_length. lia. }
  cbn [bind] in E. unfold hs_open, SizePublicKey, SizeSignature in E. destruct (Nat.eqb_spec (length data) (32 + 64)); [lia|]. cbn in E. discriminate.
Qed.
Print Assumptions C48_small_limit.

(** ** C49, one session: what a completed handshake has checked *)

Lemma unmarshal_marshal data id : UnmarshalID data = Ok id -> ID_marshal id = firstn 50 data.
Proof.
  rewrite UnmarshalID_spec. destruct (Nat.ltb_spec (length data) 50) as [H|H]; [discriminate|]. intros E.
  assert (id = NewID (firstn 32 data) (firstn 16 (skipn 32 data)) (be_decode (firstn 2 (skipn 48 data)))) as -> by congruence. clear E.
  unfold ID_marshal. cbn [NewID id_key id_host id_port]. rewrite (go_copy_full (zeros (length (firstn 32 data)))) by (rewrite zeros_length; reflexivity).
  rewrite go_copy_full by (rewrite zeros_length, firstn_length, skipn_length; unfold IPv6len; lia).
  assert (L2 : length (firstn 2 (skipn 48 data)) = 2) by (rewrite firstn_length, skipn_length; lia).
  pose proof (be_encode_decode (firstn 2 (skipn 48 data))) as BE. rewrite L2 in BE. rewrite BE. clear L2 BE.
  rewrite <- (firstn_skipn 32 (firstn 50 data)). rewrite firstn_firstn. cbn [Nat.min]. f_equal. rewrite <- (firstn_skipn 16 (skipn 32 (firstn 50 data))).
  rewrite skipn_skipn. rewrite !skipn_firstn_comm. cbn [Nat.sub plus]. rewrite firstn_firstn. reflexivity.
Qed.

(** For every input whatever (any bytes, chunks, ending), when the handshake completes with [id]: a first message with a key
    [pk] and a valid signature by it was received; the session cipher is the one keyed by ECDH of our fresh secret with
    [pk]; and a signature valid under the key in [id], over exactly [id]'s encoding followed by this session's key, arrived
    encrypted under that cipher. *)
Theorem C49_session : forall C L e st id pub sec, he_eph e = Ok (pub, sec) ->
  let h := handshake C L e st in hr_peer h = Ok id ->
  exists pk sg1 st1 shared suite st2 sg2,
    client_read L None st = (st1, Ok (pk ++ sg1)) /\ length pk = 32 /\ verify C pk banner sg1 = true /\
    ecdh C sec pk = Ok shared /\ gcm C shared = Ok suite /\ hr_suite h = Some suite /\
    client_read L (Some suite) st1 = (st2, Ok (ID_marshal id ++ sg2)) /\ length sg2 = 64 /\
    verify C (id_key id) (ID_marshal id ++ shared) sg2 = true.
Proof.
  intros C L e st id pub sec He h H. unfold h, handshake in *. rewrite He in *. destruct (he_w1 e); [discriminate|].
  destruct (client_read L None st) as [st1 r1] eqn:R1. destruct r1 as [data| |]; cbn [bind] in *; try discriminate.
  destruct (hs_open C data) as [pk| |] eqn:O; cbn [bind] in *; try discriminate.
  destruct (ecdh C sec pk) as [shared| |] eqn:E; cbn [bind] in *; try discriminate.
  destruct (gcm C shared) as [suite| |] eqn:G; cbn [bind] in *; try discriminate.
  destruct (he_w2 e); [discriminate|]. destruct (client_read L (Some suite) st1) as [st2 r2] eqn:R2.
  cbn [hr_peer hr_suite] in *. destruct r2 as [data2| |]; cbn [bind] in *; try discriminate.
  unfold hs_open, SizePublicKey, SizeSignature in O. destruct (Nat.eqb_spec (length data) (32 + 64)) as [Ld|]; [|discriminate]. cbn [negb] in O.
  rewrite slice_to_ok in O by lia. cbn [bind] in O. rewrite slice_ok in O by lia. cbn [bind] in O.
  unfold UnmarshalSignature in O. destruct (_ <=? _); [discriminate|]. cbn [bind] in O. destruct (verify C _ _ _) eqn:V; [|discriminate].
  assert (Kp : length (firstn 32 data) = 32) by (rewrite firstn_length; lia).
  rewrite go_copy_full in O, V by (unfold ZeroPublicKey, SizePublicKey; rewrite zeros_length; exact Kp).
  assert (pk = firstn 32 data) as -> by congruence.
  unfold hs_check in H. destruct (UnmarshalID data2) as [id2| |] eqn:U; cbn [bind] in H; try discriminate.
  pose proof (unmarshal_marshal _ _ U) as M. destruct (UnmarshalID_size _ _ U) as [Sz Ld2]. rewrite Sz in H.
  assert (Eb : go_copy (zeros 50) data2 = ID_marshal id2).
  { rewrite M. unfold go_copy. rewrite zeros_length. rewrite skipn_all2; [apply app_nil_r | rewrite zeros_length; lia]. }
  rewrite Eb in H. assert (Lm : length (ID_marshal id2) = 50) by (rewrite M, firstn_length; lia). rewrite Lm in H. unfold SizeSignature in H.
  destruct (Nat.eqb_spec (length data2) (50 + 64)) as [L2|]; [|discriminate]. cbn [negb] in H. rewrite slice_ok in H by lia. cbn [bind] in H.
  destruct (UnmarshalSignature _) as [sg2| |] eqn:US; cbn [bind] in H; try discriminate. destruct (verify C (id_key id2) _ _) eqn:V2; [|discriminate].
  assert (id2 = id) as -> by congruence.
  unfold UnmarshalSignature in US. destruct (_ <=? _); [discriminate|].
  assert (Hs : sg2 = skipn 50 data2).
  { assert (sg2 = firstn SizeSignature (firstn (50 + 64 - 50) (skipn 50 data2))) as -> by congruence. unfold SizeSignature. rewrite firstn_firstn. rewrite firstn_all2; [reflexivity | rewrite skipn_length; lia]. }
  exists (firstn 32 data), (skipn 32 data), st1, shared, suite, st2, sg2. rewrite firstn_skipn. split; [reflexivity|]. split; [exact Kp|].
  split; [rewrite <- V; f_equal; unfold SizeSignature; cbn [plus Nat.sub]; rewrite firstn_firstn, firstn_all2; [reflexivity | rewrite skipn_length; lia]|].
  split; [exact E|]. split; [exact G|]. split; [reflexivity|].
  split; [rewrite R2; f_equal; rewrite M, Hs, firstn_skipn; reflexivity|].
  split; [rewrite Hs, skipn_length; lia | exact V2].
Qed.
Print Assumptions C49_session.

(** No input crashes the handshake (limit of C08; cryptography that does not itself panic). *)
Theorem C49_no_panic : forall C L e st, (1 <= L)%N -> (L + 4 < 2 ^ 32)%N -> N.of_nat (length (rs_buf st)) = (4 + L)%N ->
  he_eph e <> Panic -> (forall s p, ecdh C s p <> Panic) -> (forall k, gcm C k <> Panic) ->
  hr_peer (handshake C L e st) <> Panic.
Proof.
  intros C L e st H1 H2 HB HP HE HG. unfold handshake. destruct (he_eph e) as [[pub sec]|er|]; [|discriminate|congruence].
  destruct (he_w1 e); [discriminate|]. destruct (C08_limit L None st H1 H2 HB) as (st1 & r1 & R1 & NP1 & LB1 & _). cbv zeta in *. rewrite R1.
  destruct r1 as [data|er|]; cbn [bind]; [|discriminate|congruence].
  assert (O : hs_open C data <> Panic).
  { unfold hs_open, SizePublicKey, SizeSignature. destruct (Nat.eqb_spec (length data) (32 + 64)) as [Ld|]; [|discriminate]. cbn [negb].
    rewrite slice_to_ok by lia. cbn [bind]. rewrite slice_ok by lia. cbn [bind]. unfold UnmarshalSignature.
    destruct (Nat.leb_spec (length (firstn (32 + 64 - 32) (skipn 32 data))) (SizeSignature - 1)) as [X|X].
    { rewrite firstn_length, skipn_length in X. unfold SizeSignature in X. lia. }
    cbn [bind]. destruct (verify _ _ _ _); discriminate. }
  destruct (hs_open C data) as [pk|er|]; cbn [bind]; [|discriminate|congruence].
  destruct (ecdh C sec pk) as [shared|er|] eqn:E; cbn [bind]; [|discriminate|exfalso; exact (HE _ _ E)].
  destruct (gcm C shared) as [suite|er|] eqn:G; cbn [bind]; [|discriminate|exfalso; exact (HG _ G)].
  destruct (he_w2 e); [discriminate|]. destruct (C08_limit L (Some suite) st1 H1 H2 ltac:(congruence)) as (st2 & r2 & R2 & NP2 & _). cbv zeta in *. rewrite R2.
  cbn [hr_peer]. destruct r2 as [data2|er|]; cbn [bind]; [|discriminate|congruence].
  unfold hs_check. destruct (UnmarshalID data2) as [id2| |] eqn:U; cbn [bind]; [|discriminate|].
  2:{ rewrite UnmarshalID_spec in U. destruct (_ <? _); discriminate. }
  rewrite go_copy_length, zeros_length. destruct (Nat.eqb_spec (length data2) (ID_size id2 + SizeSignature)) as [Ld|]; [|discriminate]. cbn [negb].
  rewrite slice_ok by lia. cbn [bind]. unfold UnmarshalSignature.
  destruct (Nat.leb_spec (length (firstn (ID_size id2 + SizeSignature - ID_size id2) (skipn (ID_size id2) data2))) (SizeSignature - 1)) as [X|X].
  { rewrite firstn_length, skipn_length in X. unfold SizeSignature in *. lia. }
  cbn [bind]. destruct (verify _ _ _ _); discriminate.
Qed.
Print Assumptions C49_no_panic.

(** ** A concrete instance *)

(** Toy cryptography meeting the premises: a private key is the public key twice. *)
Definition toy_sig (pk m : bytes) : bytes := firstn 64 (pk ++ m ++ zeros 64).
Definition toy_mix (a b : bytes) : bytes := map (fun p => n2b (b2n (fst p) + b2n (snd p))) (combine a b).
Definition toy_crypto : crypto := mkCrypto (fun sk m => toy_sig (firstn 32 sk) m) (fun pk m s => bytes_eqb s (toy_sig pk m))
  (fun sk pk => Ok (toy_mix (firstn 32 sk) pk)) (fun _ => Ok toy).
Definition key_a : bytes := n2b 7 :: zeros 31.
Definition key_b : bytes := n2b 9 :: zeros 31.
Definition eph_a : bytes := n2b 100 :: zeros 31.
Definition eph_b : bytes := n2b 200 :: zeros 31.
Definition host16 (x : N) : bytes := zeros 10 ++ map n2b [255; 255; 192; 168; 1; x]%N.
Definition env_a : hs_env := mkEnv (NewID key_a (host16 1) 9000) (key_a ++ key_a) (Ok (eph_a, eph_a ++ eph_a)) [n2b 1; n2b 2] None None.
Definition env_b : hs_env := mkEnv (NewID key_b (host16 2) 9001) (key_b ++ key_b) (Ok (eph_b, eph_b ++ eph_b)) [n2b 3; n2b 4] None None.

Lemma toy_sig_length pk m : length pk = 32 -> length (toy_sig pk m) = 64.
Proof. intros H. unfold toy_sig. rewrite firstn_length, !app_length, zeros_length. lia. Qed.

Lemma toy_party k eph h p r : length k = 32 -> length eph = 32 -> length r = 2 -> (p < 65536)%N -> length h = 16 ->
  party toy_crypto toy (mkEnv (NewID k h p) (k ++ k) (Ok (eph, eph ++ eph)) r None None) eph (eph ++ eph).
Proof.
  intros Hk He Hr Hp Hh.
  assert (S : forall x m, length x = 32 -> length (sign toy_crypto (x ++ x) m) = 64 /\ verify toy_crypto x m (sign toy_crypto (x ++ x) m) = true).
  { intros x m Hx. cbn [toy_crypto sign verify]. rewrite (firstn_app_exact _ _ _ Hx). split; [apply toy_sig_length, Hx | apply bytes_eqb_refl]. }
  constructor; auto; try reflexivity.
  - exists k, h, p. auto.
  - intros m. apply S. exact Hk.
Qed.

Definition ex_shared : bytes := n2b 44 :: zeros 31.
Definition stream_a : bytes := hello toy_crypto eph_a (eph_a ++ eph_a) ++ overlay toy_crypto toy env_a ex_shared.
Definition stream_b : bytes := hello toy_crypto eph_b (eph_b ++ eph_b) ++ overlay toy_crypto toy env_b ex_shared.

Example C48_nonvacuous : party toy_crypto toy env_a eph_a (eph_a ++ eph_a) /\ party toy_crypto toy env_b eph_b (eph_b ++ eph_b) /\
  ecdh toy_crypto (eph_a ++ eph_a) eph_b = Ok ex_shared /\ ecdh toy_crypto (eph_b ++ eph_b) eph_a = Ok ex_shared /\ aead_contract toy /\
  let hA := handshake toy_crypto 200 env_a (new_rstate 200 (mkConn [stream_b; [n2b 5]] ErrEOF)) in
  let hB := handshake toy_crypto 200 env_b (new_rstate 200 (mkConn [firstn 50 stream_a; skipn 50 stream_a] ErrEOF)) in
  hr_sent hA = stream_a /\ hr_sent hB = stream_b /\ hr_peer hA = Ok (he_id env_b) /\ hr_peer hB = Ok (he_id env_a) /\
  unread (hr_rd hA) = [n2b 5].
Proof.
  split; [apply toy_party; reflexivity|]. split; [apply toy_party; reflexivity|]. split; [vm_compute; reflexivity|]. split; [vm_compute; reflexivity|].
  split; [exact toy_ok|]. vm_compute. repeat split; reflexivity.
Qed.

(** ** C47 *)

(** Documented: only data from peers that completed the handshake reaches handlers. *)
Definition C47_statement : Prop := forall C L e fuel c,
  (forall id, fst (outbound_recv C L e fuel c) <> Ok id) ->
  forall ms r, snd (outbound_recv C L e fuel c) = Some (ms, r) -> ms = [].

(** An unauthenticated endpoint: a first message that is not a handshake at all, then plain messages of its choice. *)
Definition impostor (ms : list message) : bytes := frame_bytes None [] [] ++ frames None [] ms.

(** Whoever answers a dialed connection with a malformed first frame gets arbitrary messages of its choice, in clear and
    with no key at all, decoded and passed on. *)
Theorem C47_unauthenticated : forall C L e pub sec ms ending, he_eph e = Ok (pub, sec) -> he_w1 e = None ->
  (1 <= L)%N -> (L + 4 < 2 ^ 32)%N -> (forall m, In m ms -> (m_nonce m < 2 ^ 64)%N /\ (wire_size None m <= L)%N) ->
  outbound_recv C L e (S (length ms)) (mkConn [impostor ms] ending) = (Err ErrOther, Some (ms, Err ending)).
Proof.
  intros C L e pub sec ms ending He Hw H1 H2 HM. unfold outbound_recv.
  set (st := new_rstate L (mkConn [impostor ms] ending)).
  assert (BL : N.of_nat (length (rs_buf st)) = (4 + L)%N).
  { unfold st. cbn [rs_buf new_rstate]. rewrite zeros_length. unfold u32. rewrite N.mod_small by lia. lia. }
  assert (HU : unread st = frame_bytes None [] [] ++ frames None [] ms) by (unfold unread, st; cbn; rewrite app_nil_r; reflexivity).
  destruct (client_read_spec L None st) as (st0 & E0 & _).
  destruct (read_frame L None [] [] (frames None [] ms) st) as (st1 & R1 & U1 & L1); auto; try (cbn; lia).
  assert (En : rd_end (rs_rd st1) = ending).
  { destruct (client_read_spec L None st) as (st' & E & _ & _ & _ & _ & _ & K). cbv zeta in K. change (rd_bytes (rs_rd st)) with (unread st) in K.
    rewrite HU in K. change (firstn 4 (frame_bytes None [] [] ++ frames None [] ms)) with (be_encode 4 0) in K. change (be_decode (be_encode 4 0)) with 0%N in K.
    destruct K as [_ K]; try lia; [cbn; lia|]. destruct K as [K _]; [cbn; lia|]. rewrite R1 in K. assert (st' = st1) as -> by congruence. rewrite E. reflexivity. }
  unfold handshake. rewrite He, Hw, R1. cbn [bind]. change (hs_open C []) with (@Err pubkey ErrOther). cbn [bind hr_peer hr_suite hr_rd]. f_equal.
  destruct (recv_frames L None H1 H2 ms [] 1 [] st1) as (st' & B' & E' & L' & K); auto.
  - exact I.
  - congruence.
  - apply Forall_forall. intros m Hm. destruct (HM m Hm) as [X Y]. split; [exact X | exact Y].
  - rewrite app_nil_r. exact U1.
  - rewrite Nat.add_1_r in K. rewrite K. rewrite recv_end; [|lia|exact B']. rewrite app_nil_r, E', En. reflexivity.
Qed.
Print Assumptions C47_unauthenticated.

Theorem C47_refuted : ~ C47_statement.
Proof.
  intros H. set (ms := [mkMsg 0 [n2b 66]]).
  assert (E : outbound_recv toy_crypto 100 env_a 2 (mkConn [impostor ms] ErrEOF) = (Err ErrOther, Some (ms, Err ErrEOF))) by (vm_compute; reflexivity).
  specialize (H toy_crypto 100%N env_a 2 (mkConn [impostor ms] ErrEOF)). rewrite E in H. cbn [fst snd] in H.
  discriminate (H ltac:(discriminate) _ _ eq_refl).
Qed.
Print Assumptions C47_refuted.

(** Accepted connections: nothing is delivered unless the handshake completed, and then everything was read under the
    session cipher. *)
Theorem C47_inbound_partial : forall C L e fuel c,
  match inbound_recv C L e fuel c with
  | (Ok id, r) => exists suite st, hr_suite (handshake C L e (new_rstate L c)) = Some suite /\ r = recv_all fuel L (Some suite) st
  | (_, r) => exists e, r = Some ([], e)
  end.
Proof.
  intros C L e fuel c. unfold inbound_recv. destruct (hr_peer (handshake C L e (new_rstate L c))) as [id|er|] eqn:E; eauto.
  destruct (he_eph e) as [[pub sec]|er|] eqn:He.
  - destruct (C49_session C L e _ id pub sec He E) as (_ & _ & _ & _ & suite & _ & _ & _ & _ & _ & _ & _ & Hs & _). rewrite Hs. eauto.
  - unfold handshake in E. rewrite He in E. discriminate.
  - unfold handshake in E. rewrite He in E. discriminate.
Qed.
Print Assumptions C47_inbound_partial.

(** Outbound connections: likewise once the handshake completed. *)
Theorem C47_outbound_partial : forall C L e fuel c id r, outbound_recv C L e fuel c = (Ok id, r) ->
  exists suite st, hr_suite (handshake C L e (new_rstate L c)) = Some suite /\ r = recv_all fuel L (Some suite) st.
Proof.
  intros C L e fuel c id r H. pose proof (C47_inbound_partial C L e fuel c) as K. unfold outbound_recv, inbound_recv in *.
  destruct (hr_peer (handshake C L e (new_rstate L c))) as [i|er|]; try discriminate. assert (r = recv_all fuel L (hr_suite (handshake C L e (new_rstate L c))) (hr_rd (handshake C L e (new_rstate L c)))) as -> by congruence. exact K.
Qed.
Print Assumptions C47_outbound_partial.

(** ** C64 *)

(** Expected of an encrypted channel: what the receiver accepts is a prefix of what the peer sent, even if an attacker
    on the network recombines recorded frames. *)
Definition pick {A} (l : list A) (is : list nat) (d : A) : list A := map (fun i => nth i l d) is.
Definition C64_statement : Prop := forall L a nonces ms is fuel ms' r,
  writer_ok (Some a) nonces (length ms) -> Forall (fun i => i < length ms) is ->
  recv_all fuel L (Some a) (new_rstate L (mkConn (map (fun i => frame_bytes (Some a) (nth i nonces []) (msg_marshal (nth i ms (mkMsg 0 [])))) is) ErrEOF)) = Some (ms', r) ->
  exists rest, ms = ms' ++ rest.

Lemma frames_pick a ms : forall nonces is, length nonces = length ms -> Forall (fun i => i < length ms) is ->
  concat (map (fun i => frame_bytes (Some a) (nth i nonces []) (msg_marshal (nth i ms (mkMsg 0 [])))) is)
  = frames (Some a) (pick nonces is []) (pick ms is (mkMsg 0 [])).
Proof. intros nonces is HL HF. induction is as [|i is IH]; [reflexivity|]. cbn [map concat pick frames hd tl]. inversion HF; subst. f_equal. apply IH. assumption. Qed.

(** Every recombination of recorded frames (repetition, reordering, omission) is accepted without an error. *)
Theorem C64_replay : forall L a nonces ms is ending, (1 <= L)%N -> (L + 4 < 2 ^ 32)%N ->
  writer_ok (Some a) nonces (length ms) -> (forall m, In m ms -> (m_nonce m < 2 ^ 64)%N /\ (wire_size (Some a) m <= L)%N) ->
  Forall (fun i => i < length ms) is ->
  recv_all (S (length is)) L (Some a)
    (new_rstate L (mkConn (map (fun i => frame_bytes (Some a) (nth i nonces []) (msg_marshal (nth i ms (mkMsg 0 [])))) is) ending))
  = Some (pick ms is (mkMsg 0 []), Err ending).
Proof.
  intros L a nonces ms is ending H1 H2 (C & HL & HN) HM HF.
  assert (Hin : forall i, In i is -> In (nth i ms (mkMsg 0 [])) ms /\ In (nth i nonces []) nonces).
  { intros i Hi. rewrite Forall_forall in HF. split; apply nth_In; [|rewrite HL]; apply HF, Hi. }
  apply (C07_frames_roundtrip L (Some a) (pick nonces is [])); auto.
  - split; [exact C|]. unfold pick. rewrite !map_length. split; [reflexivity|]. apply Forall_forall. intros x Hx. apply in_map_iff in Hx as (i & <- & Hi).
    rewrite Forall_forall in HN. apply HN. apply Hin, Hi.
  - intros m Hm. apply in_map_iff in Hm as (i & <- & Hi). apply HM. apply Hin, Hi.
  - apply frames_pick; assumption.
  - unfold pick. rewrite map_length. lia.
Qed.
Print Assumptions C64_replay.

Theorem C64_refuted : ~ C64_statement.
Proof.
  intros H. pose proof (C64_replay 14 toy ex_nonces ex_msgs [2; 0; 0] ErrEOF ltac:(lia) ltac:(lia)) as K.
  assert (W : writer_ok (Some toy) ex_nonces (length ex_msgs)) by (split; [exact toy_ok|]; split; [reflexivity|]; repeat constructor).
  destruct (H 14%N toy ex_nonces ex_msgs [2; 0; 0] 4 (pick ex_msgs [2; 0; 0] (mkMsg 0 [])) (Err ErrEOF) W) as [rest E].
  - repeat constructor.
  - apply K; [exact W | | repeat constructor]. intros m [<- |[<- |[<- |[]]]]; split; vm_compute; try reflexivity; discriminate.
  - discriminate.
Qed.
Print Assumptions C64_refuted.

(** What does hold: with a cipher whose Open accepts only what was sealed under its key, every accepted message is one
    that a holder of the key encrypted. *)
Theorem C64_origin_partial : forall L a (sealed : bytes -> bytes -> Prop) fuel st ms r,
  (1 <= L)%N -> (L + 4 < 2 ^ 32)%N -> N.of_nat (length (rs_buf st)) = (4 + L)%N ->
  (forall n c p, open a n c = Some p -> sealed n p) ->
  recv_all fuel L (Some a) st = Some (ms, r) ->
  forall m, In m ms -> exists nonce p, sealed nonce p /\ unmarshalMessage p = Ok m.
Proof.
  intros L a sealed fuel. induction fuel as [|fuel IH]; intros st ms r H1 H2 HB HO HR m Hm; [discriminate|].
  cbn [recv_all] in HR. destruct (C08_limit L (Some a) st H1 H2 HB) as (st1 & r1 & R1 & NP & LB & K1 & K2 & K3). cbv zeta in *.
  rewrite R1 in HR. destruct r1 as [d|er|]; [|injection HR as <- <-; destruct Hm|injection HR as <- <-; destruct Hm].
  destruct (unmarshalMessage d) as [m0|er|] eqn:U; [|injection HR as <- <-; destruct Hm|injection HR as <- <-; destruct Hm].
  destruct (recv_all fuel L (Some a) st1) as [[ms1 r1]|] eqn:R2; [|discriminate]. assert (ms = m0 :: ms1) as -> by congruence.
  destruct Hm as [<- |Hm]; [|exact (IH st1 ms1 _ H1 H2 ltac:(rewrite LB; exact HB) HO R2 m Hm)].
  destruct (Nat.lt_ge_cases (length (unread st)) 4) as [X|X]; [destruct K3 as [? ?]; [auto | discriminate]|].
  destruct (N.lt_ge_cases L (announced (unread st))) as [Y|Y]; [destruct K1 as [? _]; auto; discriminate|].
  destruct (Nat.lt_ge_cases (length (unread st)) (4 + N.to_nat (announced (unread st)))) as [Z|Z]; [destruct K3 as [? ?]; [auto | discriminate]|].
  destruct K2 as [_ K2]; auto. symmetry in K2. unfold decrypt_val in K2. destruct (_ <? _); [discriminate|].
  destruct (open a _ _) as [p|] eqn:O; [|discriminate]. assert (p = d) as -> by congruence. exists (firstn (nonce_size a) (firstn (N.to_nat (announced (unread st))) (skipn 4 (unread st)))), d. eauto.
Qed.
Print Assumptions C64_origin_partial.
