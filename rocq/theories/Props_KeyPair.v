(** * C123: whom a node with given keys is to its peers. *)
From Verif Require Import Base Spec M_Addr M_ID M_Msg M_AEAD M_Frame M_Handshake M_Node M_KeyPair P_Wire P_Keys P_Frame P_Node Props_Frame Props_Handshake Props_Identity.
From Verif Require Props_Node Props_Wire.
From Coq Require Import Strings.Byte.
Local Open Scope nat_scope.

(** ** Spec *)

(** A signature scheme whose private keys are 32 secret bytes followed by the public key that belongs to them. *)
Definition scheme (C : crypto) (pub : bytes -> pubkey) : Prop := forall seed, length seed = 32 -> length (pub seed) = 32 /\
  forall m, length (sign C (seed ++ pub seed) m) = 64 /\ verify C (pub seed) m (sign C (seed ++ pub seed) m) = true.
(** Signatures made with any 64 bytes for a private key have 64 bytes, and pass for nobody's but those of the first 32. *)
Definition strict (C : crypto) (pub : bytes -> pubkey) : Prop := forall k m, length k = 64 ->
  length (sign C k m) = 64 /\ forall q, length q = 32 -> verify C q m (sign C k m) = true -> q = pub (firstn 32 k).
(** The two halves of a private key belong together. *)
Definition paired (pub : bytes -> pubkey) (k : privkey) : Prop := skipn 32 k = pub (firstn 32 k).

(** A node runs the handshake with an honest peer, over a connection that carries to each what the other writes. *)
Record session (C : crypto) (pub : bytes -> pubkey) (n : node) := mkSession {
  ss_lim : N;                                     (* both sides' maximum message size *)
  ss_suite : aead; ss_shared : bytes;             (* the session's cipher and key *)
  ss_draw : bytes; ss_eph : pubkey; ss_eph_sec : privkey; ss_rnd : bytes;   (* what the node draws *)
  ss_peer : hs_env; ss_peer_eph : pubkey; ss_peer_sec : privkey;
  ss_in : conn; ss_out : conn; ss_in_more : bytes; ss_out_more : bytes;
  ss_ours := handshake C ss_lim (M_Handshake.mkEnv (n_id n) (n_privateKey n) (Ok (ss_eph, ss_eph_sec)) ss_rnd None None) (new_rstate ss_lim ss_in);
  ss_theirs := handshake C ss_lim ss_peer (new_rstate ss_lim ss_out);
  ss_drawn : length ss_draw = 32 /\ GenerateKeys pub (Ok ss_draw) = Ok (ss_eph, ss_eph_sec) /\ length ss_rnd = nonce_size ss_suite;
  ss_honest : party C ss_suite ss_peer ss_peer_eph ss_peer_sec;
  ss_dh : ecdh C ss_eph_sec ss_peer_eph = Ok ss_shared /\ ecdh C ss_peer_sec ss_eph = Ok ss_shared;
  ss_cipher : gcm C ss_shared = Ok ss_suite /\ aead_contract ss_suite;
  ss_room : (N.max 96 (N.of_nat (114 + nonce_size ss_suite + overhead ss_suite)) <= ss_lim)%N /\ (ss_lim + 4 < 2 ^ 32)%N;
  ss_wire : concat (cn_chunks ss_in) = hr_sent ss_theirs ++ ss_in_more /\ concat (cn_chunks ss_out) = hr_sent ss_ours ++ ss_out_more
}.

(** The node was made by NewNode with these options, and then began to listen, announcing a host of 16 bytes (C02 tells of others). *)
Definition started (pub : bytes -> pubkey) (opts : list node_option) (n : node) : Prop :=
  exists ncpu drawn m env, (forall seed, drawn = Ok seed -> length seed = 32) /\ made ncpu (node_generate pub drawn) opts m /\
    lr_err (Listen env m) = None /\ n = lr_node (Listen env m) /\ length (id_host (n_id n)) = 16 /\ (id_port (n_id n) < 65536)%N.

(** ** C123 *)

(** Whatever options it was made with, a node that has begun to listen is to its honest peers who it says it is. *)
Definition C123_statement : Prop := forall C pub opts n (s : session C pub n), scheme C pub -> started pub opts n ->
  hr_peer (ss_theirs _ _ _ s) = Ok (n_id n).

(** *** Lemmas *)

(** One who follows the protocol, whatever becomes of the signature under their long-term key. *)
Record speaker (C : crypto) (suite : aead) (e : hs_env) (pub : pubkey) (sec : privkey) : Prop := {
  sp_eph : he_eph e = Ok (pub, sec);
  sp_id : exists key host port, he_id e = NewID key host port /\ length key = 32 /\ length host = 16 /\ (port < 65536)%N;
  sp_pub : length pub = 32;
  sp_sig : forall m, length (sign C (he_key e) m) = 64;
  sp_esig : forall m, length (sign C sec m) = 64 /\ verify C pub m (sign C sec m) = true;
  sp_rnd : length (he_rnd e) = nonce_size suite;
  sp_w1 : he_w1 e = None;
  sp_w2 : he_w2 e = None
}.

Lemma party_speaks C suite e pub sec : party C suite e pub sec -> speaker C suite e pub sec.
Proof. intros [A1 A2 A3 A4 A5 A6 A7 A8]. constructor; auto. intros m. apply (A4 m). Qed.

Definition passes (C : crypto) (e : hs_env) (shared : bytes) : bool :=
  verify C (id_key (he_id e)) (ID_marshal (he_id e) ++ shared) (sign C (he_key e) (ID_marshal (he_id e) ++ shared)).

Lemma hs_check_either C shared key host port sg : length key = 32 -> length host = 16 -> (port < 65536)%N -> length sg = 64 ->
  hs_check C shared (ID_marshal (NewID key host port) ++ sg) =
  if verify C key (ID_marshal (NewID key host port) ++ shared) sg then Ok (NewID key host port) else Err ErrOther.
Proof.
  intros Hk Hh Hp Hs. destruct (verify _ _ _ _) eqn:Hv; [apply hs_check_ok; assumption|]. unfold hs_check. rewrite id_roundtrip by assumption. cbn [bind].
  set (id := NewID key host port) in *. assert (Sz : ID_size id = 50) by (unfold id, ID_size; cbn; rewrite Hk; reflexivity).
  assert (Lm : length (ID_marshal id) = 50) by (rewrite ID_marshal_length; exact Sz).
  rewrite Sz. assert (Eb : go_copy (zeros 50) (ID_marshal id ++ sg) = ID_marshal id).
  { unfold go_copy. rewrite zeros_length, (firstn_app_exact _ _ _ Lm). rewrite skipn_all2; [apply app_nil_r|]. rewrite zeros_length, app_length. lia. }
  rewrite Eb, Lm, app_length, Lm. unfold SizeSignature. rewrite Hs. cbn [Nat.eqb negb plus].
  rewrite slice_ok by (rewrite ?app_length; lia). cbn [bind Nat.sub]. rewrite (skipn_app_exact _ _ _ Lm). rewrite firstn_all2 by lia.
  unfold UnmarshalSignature, SizeSignature. destruct (Nat.leb_spec (length sg) (64 - 1)); [lia|]. cbn [bind]. rewrite firstn_all2 by lia.
  change (id_key id) with key. rewrite Hv. reflexivity.
Qed.

Lemma hs_run_either C L suite shared eA pubA secA eB pubB secB st rest :
  speaker C suite eA pubA secA -> speaker C suite eB pubB secB ->
  ecdh C secA pubB = Ok shared -> gcm C shared = Ok suite -> aead_contract suite ->
  (96 <= L)%N -> (N.of_nat (114 + nonce_size suite + overhead suite) <= L)%N -> (L + 4 < 2 ^ 32)%N ->
  N.of_nat (length (rs_buf st)) = (4 + L)%N ->
  unread st = hello C pubB secB ++ overlay C suite eB shared ++ rest ->
  hr_peer (handshake C L eA st) = if passes C eB shared then Ok (he_id eB) else Err ErrOther.
Proof.
  intros [A1 A2 A3 A4 A5 A6 A7 A8] [B1 (key & host & port & B2 & B2k & B2h & B2p) B3 B4 B5 B6 B7 B8] HE HG HC H1 H2 H3 HB HU.
  unfold handshake. rewrite A1, A7.
  destruct (B5 banner) as [Bs1 Bs2].
  destruct (read_frame L None [] (pubB ++ sign C secB banner) (overlay C suite eB shared ++ rest) st) as (st1 & R1 & U1 & L1); auto; try lia.
  { rewrite app_length, B3, Bs1. lia. }
  rewrite R1. cbn [bind]. rewrite hs_open_ok by assumption. cbn [bind]. rewrite HE. cbn [bind]. rewrite HG. cbn [bind]. rewrite A8.
  pose proof (B4 (ID_marshal (he_id eB) ++ shared)) as Bo1.
  assert (Lm : length (ID_marshal (he_id eB)) = 50) by (rewrite ID_marshal_length, B2; unfold ID_size; cbn; rewrite B2k; reflexivity).
  destruct (read_frame L (Some suite) (he_rnd eB) (ID_marshal (he_id eB) ++ sign C (he_key eB) (ID_marshal (he_id eB) ++ shared)) rest st1) as (st2 & R2 & U2 & L2); auto; try lia.
  { rewrite app_length, Lm, Bo1. lia. }
  rewrite R2. cbn [bind hr_peer]. unfold passes. rewrite B2 in *. apply hs_check_either; auto.
Qed.

Lemma sent_hello C L suite e pub sec st : speaker C suite e pub sec -> exists more, hr_sent (handshake C L e st) = hello C pub sec ++ more.
Proof.
  intros [A1 _ _ _ _ _ A7 A8]. unfold handshake. rewrite A1, A7. destruct (client_read L None st) as [st1 r1].
  destruct (bind r1 _) as [[sh su]|er|]; [|exists []; rewrite app_nil_r; reflexivity | exists []; rewrite app_nil_r; reflexivity].
  rewrite A8. destruct (client_read L (Some su) st1) as [st2 r2]. eexists. reflexivity.
Qed.

Lemma speak C L suite shared eA pubA secA eB pubB secB cA cB restA restB :
  speaker C suite eA pubA secA -> speaker C suite eB pubB secB ->
  ecdh C secA pubB = Ok shared -> ecdh C secB pubA = Ok shared -> gcm C shared = Ok suite -> aead_contract suite ->
  (N.max 96 (N.of_nat (114 + nonce_size suite + overhead suite)) <= L)%N -> (L + 4 < 2 ^ 32)%N ->
  let hA := handshake C L eA (new_rstate L cA) in
  let hB := handshake C L eB (new_rstate L cB) in
  concat (cn_chunks cA) = hr_sent hB ++ restA -> concat (cn_chunks cB) = hr_sent hA ++ restB ->
  hr_peer hA = (if passes C eB shared then Ok (he_id eB) else Err ErrOther) /\
  hr_peer hB = (if passes C eA shared then Ok (he_id eA) else Err ErrOther).
Proof.
  intros PA PB EA EB HG HC HL1 HL2 hA hB HA HB.
  assert (BL : forall c, N.of_nat (length (rs_buf (new_rstate L c))) = (4 + L)%N).
  { intros c. cbn [rs_buf new_rstate]. rewrite zeros_length. unfold u32. rewrite N.mod_small by lia. lia. }
  assert (UA : unread (new_rstate L cA) = concat (cn_chunks cA)) by reflexivity.
  assert (UB : unread (new_rstate L cB) = concat (cn_chunks cB)) by reflexivity.
  assert (G : forall e pub sec eP pubP secP st more, speaker C suite e pub sec -> speaker C suite eP pubP secP -> ecdh C sec pubP = Ok shared ->
     N.of_nat (length (rs_buf st)) = (4 + L)%N -> unread st = hello C pubP secP ++ more ->
     hr_sent (handshake C L e st) = hello C pub sec ++ overlay C suite e shared).
  { intros e pub sec eP pubP secP st more [A1 A2 A3 A4 A5 A6 A7 A8] [B1 B2 B3 B4 B5 B6 B7 B8] E Hb HU. unfold handshake. rewrite A1, A7.
    destruct (B5 banner) as [Bs1 Bs2].
    destruct (read_frame L None [] (pubP ++ sign C secP banner) more st) as (st1 & R1 & U1 & L1); auto; try lia.
    { rewrite app_length, B3, Bs1. lia. }
    rewrite R1. cbn [bind]. rewrite hs_open_ok by assumption. cbn [bind]. rewrite E. cbn [bind]. rewrite HG. cbn [bind]. rewrite A8.
    destruct (client_read L (Some suite) st1) as [st2 r2]. reflexivity. }
  destruct (sent_hello C L suite eA pubA secA (new_rstate L cA) PA) as [moreA MA].
  destruct (sent_hello C L suite eB pubB secB (new_rstate L cB) PB) as [moreB MB].
  assert (SA : hr_sent hA = hello C pubA secA ++ overlay C suite eA shared).
  { eapply (G eA pubA secA eB pubB secB); auto. rewrite UA, HA. unfold hB. rewrite MB, <- app_assoc. reflexivity. }
  assert (SB : hr_sent hB = hello C pubB secB ++ overlay C suite eB shared).
  { eapply (G eB pubB secB eA pubA secA); auto. rewrite UB, HB. unfold hA. rewrite MA, <- app_assoc. reflexivity. }
  split.
  - apply (hs_run_either C L suite shared eA pubA secA eB pubB secB (new_rstate L cA) restA); auto; try lia. rewrite UA, HA, SB, <- app_assoc. reflexivity.
  - apply (hs_run_either C L suite shared eB pubB secB eA pubA secA (new_rstate L cB) restB); auto; try lia. rewrite UB, HB, SA, <- app_assoc. reflexivity.
Qed.

(** What a node that has started is made of. *)
Lemma listen_id_made env n : lr_err (Listen env n) = None ->
  exists host port, n_id (lr_node (Listen env n)) = NewID (n_publicKey n) host port.
Proof.
  unfold Listen. destruct (n_listening n); [discriminate|].
  destruct (e_listen env _) as [[[host port]|]| |]; try discriminate.
  destruct (listen_id env _) as [n2| |] eqn:E; try discriminate.
  assert (I : exists h p, n_id n2 = NewID (n_publicKey n) h p).
  { unfold listen_id in E. destruct (n_addr _).
    - assert (n2 = _) as -> by (injection E as E; symmetry; exact E). eexists _, _. reflexivity.
    - destruct (resolve_address _ _) as [r| |]; cbn [bind] in E; try discriminate.
      destruct (split_host_port r) as [[h p]| |]; cbn [bind] in E; try discriminate.
      destruct (M_ParseIP.parse_ip h); [|discriminate]. destruct (parse_uint16 p); [|discriminate].
      assert (n2 = _) as -> by (injection E as E; symmetry; exact E). eexists _, _. reflexivity. }
  pose proof (bind_all_frame (e_bind_cb env) (n_protocols n2) n2) as F.
  destruct (bind_all _ _ _) as [n3 [e|]]; [discriminate|]. intros _. cbn in *. destruct F as (-> & _). exact I.
Qed.

Lemma started_keys pub opts n : started pub opts n ->
  length (n_privateKey n) = 64 /\ (exists host port, n_id n = NewID (skipn 32 (n_privateKey n)) host port /\ length host = 16 /\ (port < 65536)%N).
Proof.
  intros (ncpu & drawn & m & env & Hd & M & E & -> & H16 & Hp). destruct (made_key _ _ _ _ M) as [L Pk]. destruct (listen_keys env m E) as (_ & S2 & _).
  rewrite S2. split; [exact L|]. destruct (listen_id_made env m E) as (h & p & I). exists h, p. rewrite I in *. cbn [NewID id_host id_port] in *. rewrite <- Pk. auto.
Qed.

Lemma ephemeral C pub seed e k : scheme C pub -> length seed = 32 -> GenerateKeys pub (Ok seed) = Ok (e, k) ->
  e = pub seed /\ k = seed ++ pub seed.
Proof.
  intros S H E. destruct (S seed H) as [Hp _]. unfold GenerateKeys, ed_generate in E. cbn [bind] in E.
  rewrite go_copy_full in E by (unfold ZeroPublicKey, SizePublicKey; rewrite zeros_length; exact Hp).
  rewrite go_copy_full in E by (unfold ZeroPrivateKey, SizePrivateKey; rewrite zeros_length, app_length, Hp, H; reflexivity).
  split; congruence.
Qed.

(** Each side's verdict. *)
Lemma verdict C pub opts n (s : session C pub n) : scheme C pub -> (forall m, length (sign C (n_privateKey n) m) = 64) -> started pub opts n ->
  let said := ID_marshal (n_id n) ++ ss_shared _ _ _ s in
  hr_peer (ss_ours _ _ _ s) = Ok (he_id (ss_peer _ _ _ s)) /\
  hr_peer (ss_theirs _ _ _ s) = if verify C (skipn 32 (n_privateKey n)) said (sign C (n_privateKey n) said) then Ok (n_id n) else Err ErrOther.
Proof.
  intros HS HL St. destruct (started_keys _ _ _ St) as (L & h & p & I & Hh & Hp).
  destruct s as [lim suite shared draw eph esec rnd peer peph psec cin cout min mout ours theirs (D1 & D2 & D3) Hon (E1 & E2) (G1 & G2) (R1 & R2) (W1 & W2)].
  cbn [ss_ours ss_theirs ss_peer ss_shared]. destruct (ephemeral C pub draw eph esec HS D1 D2) as [-> ->]. destruct (HS draw D1) as [Pl Ps].
  assert (SA : speaker C suite (M_Handshake.mkEnv (n_id n) (n_privateKey n) (Ok (pub draw, draw ++ pub draw)) rnd None None) (pub draw) (draw ++ pub draw)).
  { constructor; cbn [he_eph he_id he_key he_rnd he_w1 he_w2]; auto. exists (skipn 32 (n_privateKey n)), h, p. repeat split; auto. rewrite skipn_length, L. reflexivity. }
  destruct (speak C lim suite shared _ _ _ _ _ _ cin cout min mout SA (party_speaks _ _ _ _ _ Hon) E1 E2 G1 G2 R1 R2 W1 W2) as [V1 V2].
  split.
  - etransitivity; [exact V1|]. unfold passes. destruct Hon as [B1 B2 B3 B4 B5 B6 B7 B8]. rewrite (proj2 (B4 _)). reflexivity.
  - etransitivity; [exact V2|]. unfold passes. cbn [he_id he_key]. assert (id_key (n_id n) = skipn 32 (n_privateKey n)) as -> by (rewrite I; reflexivity). reflexivity.
Qed.

(** What a node's private key is: one of those given, or one drawn. *)
Lemma new_key ncpu gen opts n : NewNode ncpu gen opts = Ok n ->
  In (WithPrivateKey (n_privateKey n)) opts \/ exists k, gen = Ok k /\ n_privateKey n = go_copy ZeroPrivateKey k.
Proof.
  intros H. unfold NewNode in H. cbv zeta in H. set (m := fold_left apply_option opts (default_node ncpu)) in H.
  assert (Km : In (WithPrivateKey (n_privateKey m)) opts \/ n_privateKey m = ZeroPrivateKey).
  { unfold m. rewrite (fold_field n_privateKey (fun o => match o with WithPrivateKey k => Some k | _ => None end)) by (intros ? []; reflexivity).
    destruct (last_some _ opts) as [k|] eqn:E; cbn [or_default]; [left | right; reflexivity].
    apply last_some_in in E as (o & I & E). destruct o; try discriminate. assert (k0 = k) as -> by congruence. exact I. }
  set (m1 := match n_logger m with None => set_logger (Some 0%nat) m | Some _ => m end) in H.
  assert (L1 : n_privateKey m1 = n_privateKey m) by (unfold m1; destruct (n_logger m); reflexivity). rewrite <- L1 in Km. clearbody m1. clear L1.
  destruct (bytes_eqb (n_privateKey m1) ZeroPrivateKey) eqn:Z.
  - destruct gen as [k| |]; try discriminate. cbn [bind] in H. right. exists k. split; [reflexivity|].
    match type of H with Ok (if ?c then _ else _) = _ => destruct c end; match type of H with Ok ?x = Ok _ => assert (n = x) as -> by congruence end; reflexivity.
  - cbn [bind] in H. left. destruct Km as [Km|Km]; [|rewrite Km, bytes_eqb_refl in Z; discriminate].
    match type of H with Ok (if ?c then _ else _) = _ => destruct c end; match type of H with Ok ?x = Ok _ => assert (n = x) as -> by congruence end; exact Km.
Qed.

Lemma started_from C pub opts n : scheme C pub -> started pub opts n ->
  In (WithPrivateKey (n_privateKey n)) opts \/ exists seed, length seed = 32 /\ n_privateKey n = seed ++ pub seed.
Proof.
  intros HS (ncpu & drawn & m & env & Hd & [M _] & E & -> & _). destruct (listen_keys env m E) as (_ & S2 & _). rewrite S2. clear S2 E.
  destruct (new_key _ _ _ _ M) as [I|(k & G & ->)]; [left; exact I | right].
  unfold node_generate, ed_generate in G. destruct drawn as [seed| |]; try discriminate. cbn [bind] in G. exists seed. specialize (Hd _ eq_refl). split; [exact Hd|].
  assert (k = seed ++ pub seed) as -> by congruence. apply go_copy_full. unfold ZeroPrivateKey, SizePrivateKey.
  rewrite zeros_length, app_length, (proj1 (HS seed Hd)), Hd. reflexivity.
Qed.

Lemma pair_of pub seed : length seed = 32 -> paired pub (seed ++ pub seed).
Proof. intros H. unfold paired. rewrite (skipn_app_exact _ _ _ H), (firstn_app_exact _ _ _ H). reflexivity. Qed.

Lemma of_pair pub k : length k = 64 -> paired pub k -> length (firstn 32 k) = 32 /\ k = firstn 32 k ++ pub (firstn 32 k).
Proof. intros L P. split; [rewrite firstn_length; lia|]. rewrite <- P. symmetry. apply firstn_skipn. Qed.

(** *** Theorems *)

(** When every key given to NewNode is a whole one (or the node draws its own), the honest peer takes the node for exactly who it says it
    is, and the node the peer; and what it says names the public half of its key. *)
Theorem C123_partial : forall C pub opts n (s : session C pub n), scheme C pub -> started pub opts n ->
  (forall k, In (WithPrivateKey k) opts -> paired pub k) ->
  hr_peer (ss_theirs _ _ _ s) = Ok (n_id n) /\ hr_peer (ss_ours _ _ _ s) = Ok (he_id (ss_peer _ _ _ s)) /\
  id_key (n_id n) = pub (firstn 32 (n_privateKey n)).
Proof.
  intros C pub opts n s HS St Pd. destruct (started_keys _ _ _ St) as (L & h & p & I & _).
  assert (Pk : paired pub (n_privateKey n)).
  { destruct (started_from C pub opts n HS St) as [J|(seed & Hs & ->)]; [apply Pd, J | apply pair_of, Hs]. }
  destruct (of_pair _ _ L Pk) as [Lf Ek]. destruct (HS _ Lf) as [Lp Sg]. rewrite <- Ek in Sg.
  destruct (verdict C pub opts n s HS (fun m => proj1 (Sg m)) St) as [V1 V2]. rewrite V1, V2. rewrite Pk at 1. rewrite (proj2 (Sg _)).
  split; [reflexivity|]. split; [reflexivity|]. rewrite I. exact Pk.
Qed.

(** With a strict signature scheme that is the only way: a node given a key whose halves do not belong together is made, listens, and
    completes its own side of every handshake, and no honest peer accepts it. *)
Theorem C123_mismatched : forall C pub opts n (s : session C pub n), scheme C pub -> strict C pub -> started pub opts n ->
  ~ paired pub (n_privateKey n) ->
  hr_peer (ss_theirs _ _ _ s) = Err ErrOther /\ hr_peer (ss_ours _ _ _ s) = Ok (he_id (ss_peer _ _ _ s)).
Proof.
  intros C pub opts n s HS St' St Np. destruct (started_keys _ _ _ St) as (L & h & p & I & _).
  destruct (verdict C pub opts n s HS (fun m => proj1 (St' _ m L)) St) as [V1 V2]. rewrite V1, V2. split; [|reflexivity].
  destruct (verify _ _ _ _) eqn:V; [|reflexivity]. exfalso. apply Np. refine (proj2 (St' _ _ L) _ _ V). rewrite skipn_length, L. reflexivity.
Qed.

(** A key that GenerateKeys made, was written down with String and read again with LoadKeysFromHex, is the same key, whole, and Public
    gives the public key GenerateKeys gave beside it. *)
Theorem C123_kept : forall C pub seed p k, scheme C pub -> length seed = 32 -> GenerateKeys pub (Ok seed) = Ok (p, k) ->
  LoadKeysFromHex (key_string k) = Ok k /\ Public k = p /\ length p = 32 /\ paired pub k.
Proof.
  intros C pub seed p k HS H E. destruct (ephemeral C pub seed p k HS H E) as [-> ->]. destruct (HS seed H) as [Hp _].
  split; [apply Props_Wire.C04_hex_roundtrip; rewrite app_length; lia|].
  split; [|split; [exact Hp | apply pair_of, H]].
  unfold Public. rewrite (skipn_app_exact _ _ _ H). apply go_copy_full. unfold ZeroPublicKey, SizePublicKey. rewrite zeros_length. exact Hp.
Qed.

(** It yields keys exactly when it could read its 32 bytes. *)
Theorem C123_generates : forall C pub drawn, scheme C pub -> (forall seed, drawn = Ok seed -> length seed = 32) ->
  match GenerateKeys pub drawn with
  | Ok (p, k) => exists seed, drawn = Ok seed /\ firstn 32 k = seed /\ skipn 32 k = p
  | Err e => drawn = Err e
  | Panic => drawn = Panic
  end.
Proof.
  intros C pub drawn HS Hd. destruct drawn as [seed|e|]; [|reflexivity|reflexivity]. specialize (Hd _ eq_refl).
  destruct (GenerateKeys pub (Ok seed)) as [[p k]| |] eqn:E; try discriminate. destruct (ephemeral C pub seed p k HS Hd E) as [-> ->].
  exists seed. rewrite (firstn_app_exact _ _ _ Hd), (skipn_app_exact _ _ _ Hd). auto.
Qed.

(** *** A node whose key was put together wrongly *)

Lemma toy_scheme : scheme toy_crypto (fun seed => seed).
Proof.
  intros seed H. split; [exact H|]. intros m. cbn [toy_crypto sign verify]. rewrite (firstn_app_exact _ _ _ H).
  split; [apply toy_sig_length, H | apply bytes_eqb_refl].
Qed.

Definition ex_half : node := match NewNode 4 (Err ErrOther) [WithPrivateKey (key_a ++ key_b)] with Ok n => lr_node (Listen ex_listen n) | _ => default_node 0 end.
Definition ex_whole : node := match NewNode 4 (Err ErrOther) [WithPrivateKey (key_a ++ key_a)] with Ok n => lr_node (Listen ex_listen n) | _ => default_node 0 end.

Lemma ex_started k : length k = 64 -> k = key_a ++ key_b \/ k = key_a ++ key_a ->
  started (fun seed => seed) [WithPrivateKey k] (match NewNode 4 (Err ErrOther) [WithPrivateKey k] with Ok n => lr_node (Listen ex_listen n) | _ => default_node 0 end).
Proof.
  intros L K. destruct (NewNode 4 (Err ErrOther) [WithPrivateKey k]) as [m| |] eqn:E; [|destruct K as [-> | ->]; discriminate | destruct K as [-> | ->]; discriminate].
  exists 4%N, (Err ErrOther), m, ex_listen. split; [discriminate|]. split; [split; [exact E|]; intros k' [J|[]]; injection J as <-; exact L|].
  destruct K as [-> | ->]; vm_compute in E; injection E as <-; vm_compute; auto.
Qed.

Definition ex_env (n : node) : hs_env := M_Handshake.mkEnv (n_id n) (n_privateKey n) (Ok (eph_a, eph_a ++ eph_a)) [n2b 1; n2b 2] None None.
Definition ex_stream (n : node) : bytes := hello toy_crypto eph_a (eph_a ++ eph_a) ++ overlay toy_crypto toy (ex_env n) ex_shared.

Definition ex_session (n : node)
  (W : concat [stream_b] = hr_sent (handshake toy_crypto 200 env_b (new_rstate 200 (mkConn [ex_stream n] ErrEOF))) ++ [] /\
       concat [ex_stream n] = hr_sent (handshake toy_crypto 200 (ex_env n) (new_rstate 200 (mkConn [stream_b] ErrEOF))) ++ []) :
  session toy_crypto (fun seed => seed) n.
Proof.
  refine (mkSession toy_crypto (fun seed => seed) n 200 toy ex_shared eph_a eph_a (eph_a ++ eph_a) [n2b 1; n2b 2] env_b eph_b (eph_b ++ eph_b)
    (mkConn [stream_b] ErrEOF) (mkConn [ex_stream n] ErrEOF) [] [] _ _ _ _ _ W).
  - repeat split; vm_compute; reflexivity.
  - apply toy_party; reflexivity.
  - split; vm_compute; reflexivity.
  - split; [reflexivity | exact toy_ok].
  - split; vm_compute; [discriminate | reflexivity].
Defined.

Lemma wire_half : concat [stream_b] = hr_sent (handshake toy_crypto 200 env_b (new_rstate 200 (mkConn [ex_stream ex_half] ErrEOF))) ++ [] /\
  concat [ex_stream ex_half] = hr_sent (handshake toy_crypto 200 (ex_env ex_half) (new_rstate 200 (mkConn [stream_b] ErrEOF))) ++ [].
Proof. split; vm_compute; reflexivity. Qed.
Lemma wire_whole : concat [stream_b] = hr_sent (handshake toy_crypto 200 env_b (new_rstate 200 (mkConn [ex_stream ex_whole] ErrEOF))) ++ [] /\
  concat [ex_stream ex_whole] = hr_sent (handshake toy_crypto 200 (ex_env ex_whole) (new_rstate 200 (mkConn [stream_b] ErrEOF))) ++ [].
Proof. split; vm_compute; reflexivity. Qed.

Theorem C123_refuted : ~ C123_statement.
Proof.
  intros X. specialize (X toy_crypto (fun seed => seed) [WithPrivateKey (key_a ++ key_b)] ex_half (ex_session ex_half wire_half) toy_scheme
    (ex_started (key_a ++ key_b) eq_refl (or_introl eq_refl))).
  assert (E : hr_peer (handshake toy_crypto 200 env_b (new_rstate 200 (mkConn [ex_stream ex_half] ErrEOF))) = Err ErrOther) by (vm_compute; reflexivity).
  assert (F : hr_peer (handshake toy_crypto 200 env_b (new_rstate 200 (mkConn [ex_stream ex_half] ErrEOF))) = Ok (n_id ex_half)) by exact X.
  rewrite E in F. discriminate.
Qed.

(** The toy scheme is strict about keys of 32 bytes. *)
Lemma toy_first x m : length x = 32 -> firstn 32 (toy_sig x m) = x.
Proof. intros H. unfold toy_sig. rewrite firstn_firstn. change (Nat.min 32 64) with 32. apply firstn_app_exact. exact H. Qed.

Lemma toy_strict : strict toy_crypto (fun seed => seed).
Proof.
  intros k m L. assert (Lf : length (firstn 32 k) = 32) by (rewrite firstn_length; lia). split; [apply toy_sig_length, Lf|].
  intros q Lq V. cbn [toy_crypto sign verify] in V. apply bytes_eqb_eq in V. rewrite <- (toy_first q m Lq), <- V. apply toy_first, Lf.
Qed.

(** Two nodes, one with a whole key and one with halves of two keys: both start; the peer takes the one and not the other; and keys made,
    written down and read again. *)
Example C123_nonvacuous :
  started (fun seed => seed) [WithPrivateKey (key_a ++ key_a)] ex_whole /\ started (fun seed => seed) [WithPrivateKey (key_a ++ key_b)] ex_half /\
  paired (fun seed => seed) (key_a ++ key_a) /\ ~ paired (fun seed => seed) (n_privateKey ex_half) /\
  hr_peer (ss_theirs _ _ _ (ex_session ex_whole wire_whole)) = Ok (NewID key_a (host16 1) 9000) /\
  hr_peer (ss_theirs _ _ _ (ex_session ex_half wire_half)) = Err ErrOther /\
  hr_peer (ss_ours _ _ _ (ex_session ex_half wire_half)) = Ok (he_id env_b) /\
  n_id ex_half = NewID key_b (host16 1) 9000 /\
  GenerateKeys (fun seed => seed) (Ok key_a) = Ok (key_a, key_a ++ key_a) /\
  GenerateKeys (fun seed => seed) (Err ErrEOF) = Err ErrEOF.
Proof.
  split; [exact (ex_started (key_a ++ key_a) eq_refl (or_intror eq_refl))|].
  split; [exact (ex_started (key_a ++ key_b) eq_refl (or_introl eq_refl))|].
  split; [reflexivity|]. split; [vm_compute; discriminate|].
  destruct (C123_mismatched toy_crypto (fun seed => seed) [WithPrivateKey (key_a ++ key_b)] ex_half (ex_session ex_half wire_half) toy_scheme toy_strict
    (ex_started (key_a ++ key_b) eq_refl (or_introl eq_refl))) as [M1 M2]; [vm_compute; discriminate|].
  split; [|split; [exact M1|]; split; [exact M2|]; vm_compute; auto].
  destruct (C123_partial toy_crypto (fun seed => seed) [WithPrivateKey (key_a ++ key_a)] ex_whole (ex_session ex_whole wire_whole) toy_scheme
    (ex_started (key_a ++ key_a) eq_refl (or_intror eq_refl))) as (P1 & _).
  { intros k [J|[]]. injection J as <-. reflexivity. }
  rewrite P1. vm_compute. reflexivity.
Qed.

Print Assumptions C123_refuted.
Print Assumptions C123_partial.
Print Assumptions C123_mismatched.
Print Assumptions C123_kept.
Print Assumptions C123_generates.
