(** * C87: what Listen's log entry gives away.  C88: the identity a node connects out with. *)
From Verif Require Import Base Spec M_Addr M_ID M_Msg M_AEAD M_Frame M_Handshake M_Node M_Log M_Identity P_Wire P_Keys P_Node Props_Frame Props_Handshake.
From Verif Require Props_Node Props_Wire.
From Coq Require Import Strings.Byte.
From Coq Require Strings.String.
Import (notations) Coq.Strings.String.
Import List.ListNotations.
Local Open Scope list_scope.
Local Open Scope nat_scope.

(** A private key is an array of 64 bytes; so is each one given as an option. *)
Definition made (ncpu : N) (gen : res privkey) (opts : list node_option) (n : node) : Prop :=
  NewNode ncpu gen opts = Ok n /\ forall k, In (WithPrivateKey k) opts -> length k = 64.

(** Somebody who has a node's log: they look for a field and decode it. *)
Definition stolen_key (log : list entry) : option privkey :=
  match find (fun f => bytes_eqb (fst f) (str "private_key"%string)) (flat_map en_fields log) with
  | Some (_, v) => match LoadKeysFromHex v with Ok k => Some k | _ => None end
  | None => None
  end.

(** ** C87 *)

(** No way of reading logs finds the private key of every node that has begun to listen. *)
Definition C87_statement : Prop := forall thief : list entry -> option privkey,
  exists ncpu gen opts n env bind, made ncpu gen opts n /\ lr_err (Listen env n) = None /\
    thief (listen_log env n bind) <> Some (n_privateKey n).

Lemma last_some_in {A B} (f : A -> option B) l v : last_some f l = Some v -> exists x, In x l /\ f x = Some v.
Proof.
  induction l as [|x l IH]; [discriminate|]. cbn. destruct (last_some f l) as [w|].
  - intros H. destruct (IH H) as (y & I & E). eauto.
  - intros H. eauto.
Qed.

Lemma made_key ncpu gen opts n : made ncpu gen opts n -> length (n_privateKey n) = 64 /\ n_publicKey n = skipn 32 (n_privateKey n).
Proof.
  intros [H K]. destruct (Props_Node.C53_keys _ _ _ _ H) as (_ & _ & P & _). assert (L : length (n_privateKey n) = 64); [|auto]. clear P.
  unfold NewNode in H. cbv zeta in H. set (m := fold_left apply_option opts (default_node ncpu)) in H.
  assert (Lm : length (n_privateKey m) = 64).
  { unfold m. rewrite (fold_field n_privateKey (fun o => match o with WithPrivateKey k => Some k | _ => None end)) by (intros ? []; reflexivity).
    destruct (last_some _ opts) as [k|] eqn:E; cbn [or_default]; [|reflexivity].
    apply last_some_in in E as (o & I & E). destruct o; try discriminate. assert (k0 = k) as -> by congruence. exact (K _ I). }
  set (m1 := match n_logger m with None => set_logger (Some 0%nat) m | Some _ => m end) in H.
  assert (L1 : length (n_privateKey m1) = 64) by (unfold m1; destruct (n_logger m); exact Lm). clearbody m1.
  destruct (bytes_eqb (n_privateKey m1) ZeroPrivateKey).
  - destruct gen as [k| |]; try discriminate. cbn [bind] in H.
    match type of H with Ok (if ?c then _ else _) = _ => destruct c end;
      assert (n = _) as -> by (injection H as H; symmetry; exact H); cbn [n_privateKey set_priv set_pub set_id]; rewrite go_copy_length; reflexivity.
  - cbn [bind] in H. match type of H with Ok (if ?c then _ else _) = _ => destruct c end;
      assert (n = _) as -> by (injection H as H; symmetry; exact H); exact L1.
Qed.

Lemma bind_all_priv cb ps : forall n, n_privateKey (fst (bind_all cb ps n)) = n_privateKey n.
Proof.
  assert (A : forall cs n, n_privateKey (fold_left api_step cs n) = n_privateKey n).
  { induction cs as [|c cs IH]; intros n; [reflexivity|]. cbn [fold_left]. rewrite IH.
    destruct c; cbn; unfold node_bind, node_handle; destruct (n_listening n); reflexivity. }
  induction ps as [|p ps IH]; intros n; cbn [bind_all]; [reflexivity|].
  destruct (cb p) as [[cs [e|]]|]; cbn [fst]; rewrite ?IH; auto.
Qed.

(** Listening changes neither key. *)
Lemma listen_keys env n : lr_err (Listen env n) = None ->
  lr_started (Listen env n) = true /\ n_privateKey (lr_node (Listen env n)) = n_privateKey n /\ n_publicKey (lr_node (Listen env n)) = n_publicKey n.
Proof.
  unfold Listen. destruct (n_listening n); [discriminate|].
  destruct (e_listen env _) as [[[host port]|]| |]; try discriminate.
  destruct (listen_id env _) as [n2| |] eqn:E; try discriminate.
  assert (P2 : n_privateKey n2 = n_privateKey n).
  { unfold listen_id in E. destruct (n_addr _).
    - assert (n2 = _) as -> by (injection E as E; symmetry; exact E). reflexivity.
    - destruct (resolve_address _ _) as [r| |]; cbn [bind] in E; try discriminate.
      destruct (split_host_port r) as [[h p]| |]; cbn [bind] in E; try discriminate.
      destruct (M_ParseIP.parse_ip h); [|discriminate]. destruct (parse_uint16 p); [|discriminate].
      assert (n2 = _) as -> by (injection E as E; symmetry; exact E). reflexivity. }
  apply listen_id_frame in E as (E & _).
  pose proof (bind_all_frame (e_bind_cb env) (n_protocols n2) n2) as F. pose proof (bind_all_priv (e_bind_cb env) (n_protocols n2) n2) as G.
  destruct (bind_all _ _ _) as [n3 [e|]]; [discriminate|]. intros _. cbn in *. destruct F as (_ & _ & F & _). split; [reflexivity|]. split; congruence.
Qed.

(** The log of every node that begins to listen contains its private key. *)
Theorem C87_stolen : forall ncpu gen opts n env bind, made ncpu gen opts n -> lr_err (Listen env n) = None ->
  stolen_key (listen_log env n bind) = Some (n_privateKey n).
Proof.
  intros ncpu gen opts n env bind M H. destruct (made_key _ _ _ _ M) as [L _]. destruct (listen_keys env n H) as (S1 & S2 & _).
  unfold listen_log. rewrite S1. unfold stolen_key, listen_entry. cbn [flat_map en_fields app]. cbn [find fst].
  change (bytes_eqb (str "bind_addr"%string) (str "private_key"%string)) with false.
  change (bytes_eqb (str "id_addr"%string) (str "private_key"%string)) with false.
  change (bytes_eqb (str "public_key"%string) (str "private_key"%string)) with false.
  change (bytes_eqb (str "private_key"%string) (str "private_key"%string)) with true.
  cbn iota. rewrite S2, Props_Wire.C04_hex_roundtrip by exact L. reflexivity.
Qed.

Theorem C87_refuted : ~ C87_statement.
Proof.
  intros X. destruct (X stolen_key) as (ncpu & gen & opts & n & env & bind & M & H & Q). apply Q. eapply C87_stolen; eassumption.
Qed.

(** And that is enough to be taken for the node: with the key read from the log, and any address, a stranger who draws their own
    ephemeral key completes the handshake with every honest peer (premises of C48), who is told the node's public key. *)
Theorem C87_impersonates : forall ncpu gen opts n env bind C L suite shared host port pubA secA rnd eB pubB secB k chA chB endA endB restA restB,
  made ncpu gen opts n -> lr_err (Listen env n) = None -> stolen_key (listen_log env n bind) = Some k ->
  (forall m, length (sign C (n_privateKey n) m) = 64 /\ verify C (n_publicKey n) m (sign C (n_privateKey n) m) = true) ->
  (forall m, length (sign C secA m) = 64 /\ verify C pubA m (sign C secA m) = true) -> length pubA = 32 -> length rnd = nonce_size suite ->
  length host = 16 -> (port < 65536)%N -> party C suite eB pubB secB ->
  ecdh C secA pubB = Ok shared -> ecdh C secB pubA = Ok shared -> gcm C shared = Ok suite -> aead_contract suite ->
  (N.max 96 (N.of_nat (114 + nonce_size suite + overhead suite)) <= L)%N -> (L + 4 < 2 ^ 32)%N ->
  let eA := M_Handshake.mkEnv (NewID (Public k) host port) k (Ok (pubA, secA)) rnd None None in
  let hA := handshake C L eA (new_rstate L (mkConn chA endA)) in
  let hB := handshake C L eB (new_rstate L (mkConn chB endB)) in
  concat chA = hr_sent hB ++ restA -> concat chB = hr_sent hA ++ restB ->
  hr_peer hB = Ok (NewID (n_publicKey n) host port) /\ hr_suite hB = Some suite /\ hr_suite hA = Some suite.
Proof.
  intros ncpu gen opts n env bind C L suite shared host port pubA secA rnd eB pubB secB k chA chB endA endB restA restB
    M H K Sn Se Lp Lr Lh Hp PB EA EB HG HC H1 H2 eA hA hB HA HB.
  rewrite (C87_stolen ncpu gen opts n env bind M H) in K. assert (Ek : k = n_privateKey n) by congruence. clear K. subst k.
  destruct (made_key _ _ _ _ M) as [L64 Pub].
  assert (PK : Public (n_privateKey n) = n_publicKey n).
  { rewrite Pub. unfold Public. apply go_copy_full. rewrite skipn_length, L64. reflexivity. }
  assert (L32 : length (n_publicKey n) = 32) by (rewrite Pub, skipn_length, L64; reflexivity).
  assert (PA : party C suite eA pubA secA).
  { unfold eA. rewrite PK. constructor; cbn; auto. exists (n_publicKey n), host, port. auto. }
  destruct (C48_agreement C L suite shared eA pubA secA eB pubB secB chA chB endA endB restA restB PA PB EA EB HG HC H1 H2 HA HB)
    as (_ & A2 & A3 & A4 & _).
  fold hA hB in A2, A3, A4. split; [|auto]. rewrite A2. unfold eA. cbn [he_id]. rewrite PK. reflexivity.
Qed.

(** A logger that drops what is below Warn gets nothing from Listen, and neither does one on a node that never listens. *)
Theorem C87_partial : forall env n bind,
  filter (at_least Warn) (listen_log env n bind) = [] /\ (lr_err (Listen env n) <> None -> (forall a, e_resolve env a <> Panic) -> listen_log env n bind = []).
Proof.
  intros env n bind. unfold listen_log. split.
  - destruct (lr_started _); reflexivity.
  - intros H R. destruct (lr_err (Listen env n)) as [e|] eqn:E; [|congruence].
    destruct (Props_Node.C57_failure_closes env n e R E) as [_ ->]. reflexivity.
Qed.

(** Otherwise the entry tells the truth: its fields are the listener's address, the address peers are given, and, in hexadecimal, the
    public key that they are given. *)
Definition field (log : list entry) (name : bytes) : option bytes := option_map snd (find (fun f => bytes_eqb (fst f) name) (flat_map en_fields log)).
Theorem C87_truthful : forall env n bind, lr_err (Listen env n) = None ->
  let log := listen_log env n bind in let id := n_id (lr_node (Listen env n)) in
  length log = 1 /\ field log (str "bind_addr"%string) = Some bind /\ field log (str "id_addr"%string) = Some (id_addr id) /\
  field log (str "public_key"%string) = Some (hex_text (id_key id)).
Proof.
  intros env n bind H. destruct (listen_keys env n H) as (S1 & _ & S3). pose proof (Props_Node.C57_own_key env n H) as K. cbv zeta. unfold listen_log. rewrite S1.
  split; [reflexivity|]. split; [reflexivity|]. split; [reflexivity|]. rewrite K, <- S3, <- hex_encode_text. reflexivity.
Qed.

(** A node with a configured key on a socket of its own; its log; a peer taken in by the key from that log. *)
Definition ex_made : node :=
  match NewNode 4 (Err ErrOther) [WithPrivateKey (key_a ++ key_a)] with Ok n => n | _ => default_node 0 end.
Definition ex_listen : listen_env := M_Node.mkEnv (fun _ => Ok (Some (host16 1, 9000%N))) (fun _ => Err ErrOther) (fun _ => None).
Example C87_nonvacuous :
  made 4 (Err ErrOther) [WithPrivateKey (key_a ++ key_a)] ex_made /\ lr_err (Listen ex_listen ex_made) = None /\
  stolen_key (listen_log ex_listen ex_made []) = Some (key_a ++ key_a) /\ field (listen_log ex_listen ex_made []) (str "public_key"%string) = Some (hex_text key_a) /\ n_publicKey ex_made = key_a /\
  party toy_crypto toy env_b eph_b (eph_b ++ eph_b) /\
  let eA := M_Handshake.mkEnv (NewID (Public (key_a ++ key_a)) (host16 77) 1) (key_a ++ key_a) (Ok (eph_a, eph_a ++ eph_a)) [n2b 1; n2b 2] None None in
  let sent := hello toy_crypto eph_a (eph_a ++ eph_a) ++ overlay toy_crypto toy eA ex_shared in
  hr_sent (handshake toy_crypto 200 eA (new_rstate 200 (mkConn [stream_b] ErrEOF))) = sent /\
  hr_peer (handshake toy_crypto 200 env_b (new_rstate 200 (mkConn [sent] ErrEOF))) = Ok (NewID key_a (host16 77) 1).
Proof.
  split; [split; [reflexivity|]; intros k [E|[]]; injection E as <-; reflexivity|].
  split; [reflexivity|]. split; [vm_compute; reflexivity|]. split; [vm_compute; reflexivity|]. split; [reflexivity|]. split; [apply toy_party; reflexivity|].
  split; vm_compute; reflexivity.
Qed.

(** ** C88 *)

(** Both ends send what C48 says, over a faithful connection; the peer is told the public key of the node that connects. *)
Definition C88_statement : Prop := forall ncpu gen opts n C L suite shared pubA secA rnd eB pubB secB chA chB endA endB restA restB,
  made ncpu gen opts n ->
  (forall m, length (sign C (n_privateKey n) m) = 64 /\ verify C (n_publicKey n) m (sign C (n_privateKey n) m) = true) ->
  (forall m, length (sign C secA m) = 64 /\ verify C pubA m (sign C secA m) = true) -> length pubA = 32 -> length rnd = nonce_size suite ->
  party C suite eB pubB secB ->
  ecdh C secA pubB = Ok shared -> ecdh C secB pubA = Ok shared -> gcm C shared = Ok suite -> aead_contract suite ->
  (N.max 96 (N.of_nat (114 + nonce_size suite + overhead suite)) <= L)%N -> (L + 4 < 2 ^ 32)%N ->
  let hA := handshake C L (node_env n (Ok (pubA, secA)) rnd) (new_rstate L (mkConn chA endA)) in
  let hB := handshake C L eB (new_rstate L (mkConn chB endB)) in
  concat chA = hr_sent hB ++ restA -> concat chB = hr_sent hA ++ restB ->
  exists id, hr_peer hB = Ok id /\ id_key id = n_publicKey n.

(** The identity of a node from its making until it listens: the configured one when its key is not all zero; else the bind address
    with the node's own key, when both host and port are given; else the all-zero one (or the configured one with the zero key). *)
Theorem C88_identity : forall ncpu gen opts n, NewNode ncpu gen opts = Ok n ->
  let given := or_default ZeroID (last_some (fun o => match o with WithID id => Some id | _ => None end) opts) in
  let host := or_default [] (last_some (fun o => match o with WithBindHost h => Some h | _ => None end) opts) in
  let port := or_default 0%N (last_some (fun o => match o with WithBindPort p => Some p | _ => None end) opts) in
  (id_key given <> ZeroPublicKey -> n_id n = given) /\
  (id_key given = ZeroPublicKey -> host <> [] -> port <> 0%N -> n_id n = NewID (n_publicKey n) host port) /\
  (id_key given = ZeroPublicKey -> host = [] \/ port = 0%N -> n_id n = given).
Proof.
  intros ncpu gen opts n H given host port. unfold NewNode in H. cbv zeta in H. set (m := fold_left apply_option opts (default_node ncpu)) in H.
  assert (I : n_id m = given).
  { apply (fold_field n_id (fun o => match o with WithID id => Some id | _ => None end)). intros ? []; reflexivity. }
  assert (Ho : n_host m = host).
  { apply (fold_field n_host (fun o => match o with WithBindHost id => Some id | _ => None end)). intros ? []; reflexivity. }
  assert (Po : n_port m = port).
  { apply (fold_field n_port (fun o => match o with WithBindPort id => Some id | _ => None end)). intros ? []; reflexivity. }
  set (m1 := match n_logger m with None => set_logger (Some 0%nat) m | Some _ => m end) in H.
  assert (M1 : n_id m1 = given /\ n_host m1 = host /\ n_port m1 = port) by (unfold m1; destruct (n_logger m); auto). clearbody m1 m.
  destruct M1 as (I1 & Ho1 & Po1).
  assert (D : exists m2, n_id m2 = given /\ n_host m2 = host /\ n_port m2 = port /\
     Ok (if bytes_eqb (id_key (n_id m2)) ZeroPublicKey && negb (Nat.eqb (List.length (n_host m2)) 0) && (0 <? n_port m2)%N
         then set_id (NewID (n_publicKey m2) (n_host m2) (n_port m2)) m2 else m2) = Ok n).
  { destruct (bytes_eqb (n_privateKey m1) ZeroPrivateKey).
    - destruct gen as [k| |]; try discriminate. cbn [bind] in H. eexists. split; [|split; [|split; [|exact H]]]; assumption.
    - cbn [bind] in H. eexists. split; [|split; [|split; [|exact H]]]; assumption. }
  clear H. destruct D as (m2 & E1 & E2 & E3 & H). rewrite E1, E2, E3 in H.
  destruct (bytes_eqb (id_key given) ZeroPublicKey) eqn:Z.
  - apply bytes_eqb_eq in Z. split; [congruence|]. cbn [andb] in H. split.
    + intros _ Nh Np. destruct (Nat.eqb_spec (length host) 0) as [X|X]; [destruct host; [congruence | discriminate]|].
      destruct (N.ltb_spec 0 port); [|lia]. cbn [negb andb] in H. assert (n = _) as -> by (injection H as H; symmetry; exact H). reflexivity.
    + intros _ D. assert (X : negb (length host =? 0) && (0 <? port)%N = false) by (destruct D as [-> | ->]; [reflexivity | apply andb_false_r]).
      rewrite X in H. assert (n = _) as -> by (injection H as H; symmetry; exact H). exact E1.
  - cbn [andb] in H. assert (n = _) as -> by (injection H as H; symmetry; exact H). split; [auto|].
    split; intros Q; rewrite Q, bytes_eqb_refl in Z; discriminate.
Qed.

(** What a node sends to an honest peer, whatever its identity is. *)
Lemma node_sends C L suite shared n pub sec rnd pubP secP st more :
  (forall m, length (sign C secP m) = 64 /\ verify C pubP m (sign C secP m) = true) -> length pubP = 32 ->
  ecdh C sec pubP = Ok shared -> gcm C shared = Ok suite -> (96 <= L)%N -> (L + 4 < 2 ^ 32)%N ->
  N.of_nat (length (rs_buf st)) = (4 + L)%N -> unread st = hello C pubP secP ++ more ->
  hr_sent (handshake C L (node_env n (Ok (pub, sec)) rnd) st) = hello C pub sec ++ overlay C suite (node_env n (Ok (pub, sec)) rnd) shared.
Proof.
  intros Sp Lp E HG H1 H2 Hb HU. unfold handshake, node_env. cbn [he_eph he_w1 he_w2].
  destruct (Sp banner) as [Bs1 Bs2].
  destruct (read_frame L None [] (pubP ++ sign C secP banner) more st) as (st1 & R1 & U1 & L1); auto; try lia.
  { rewrite app_length, Lp, Bs1. lia. }
  rewrite R1. cbn [bind]. rewrite hs_open_ok by assumption. cbn [bind]. rewrite E. cbn [bind]. rewrite HG. cbn [bind].
  destruct (client_read L (Some suite) st1) as [st2 r2]. reflexivity.
Qed.

Lemma marshal_key a b : length (id_key a) = 32 -> length (id_key b) = 32 -> ID_marshal a = ID_marshal b -> id_key a = id_key b.
Proof.
  intros La Lb E. assert (F : forall i, length (id_key i) = 32 -> firstn 32 (ID_marshal i) = id_key i).
  { intros i Li. unfold ID_marshal. rewrite go_copy_full by (rewrite zeros_length; reflexivity). apply firstn_app_exact. exact Li. }
  rewrite <- (F a La), E. apply F. exact Lb.
Qed.

(** A node whose signatures do not verify under the key that its identity carries is turned away by every honest peer, however the
    bytes are split and whatever follows. *)
Theorem C88_rejected : forall n C L suite shared pubA secA rnd eB pubB secB chA chB endA endB restA restB,
  length (id_key (n_id n)) = 32 -> (forall m, length (sign C (n_privateKey n) m) = 64) ->
  (forall m, verify C (id_key (n_id n)) m (sign C (n_privateKey n) m) = false) ->
  (forall m, length (sign C secA m) = 64 /\ verify C pubA m (sign C secA m) = true) -> length pubA = 32 -> length rnd = nonce_size suite ->
  party C suite eB pubB secB ->
  ecdh C secA pubB = Ok shared -> ecdh C secB pubA = Ok shared -> gcm C shared = Ok suite -> aead_contract suite ->
  (N.max 96 (N.of_nat (114 + nonce_size suite + overhead suite)) <= L)%N -> (L + 4 < 2 ^ 32)%N ->
  let hA := handshake C L (node_env n (Ok (pubA, secA)) rnd) (new_rstate L (mkConn chA endA)) in
  let hB := handshake C L eB (new_rstate L (mkConn chB endB)) in
  concat chA = hr_sent hB ++ restA -> concat chB = hr_sent hA ++ restB ->
  forall id, hr_peer hB <> Ok id.
Proof.
  intros n C L suite shared pubA secA rnd eB pubB secB chA chB endA endB restA restB
    Lk Ls Bad Se Lp Lr PB EA EB HG HC H1 H2 hA hB HA HB id Q.
  assert (BL : forall c, N.of_nat (length (rs_buf (new_rstate L c))) = (4 + L)%N).
  { intros c. cbn [rs_buf new_rstate]. rewrite zeros_length. unfold u32. rewrite N.mod_small by lia. lia. }
  destruct (hs_sent_hello C L suite eB pubB secB (new_rstate L (mkConn chB endB)) PB) as [moreB MB]. fold hB in MB.
  assert (SA : hr_sent hA = hello C pubA secA ++ overlay C suite (node_env n (Ok (pubA, secA)) rnd) shared).
  { destruct PB as [B1 B2 B3 B4 B5 B6 B7 B8]. unfold hA. eapply (node_sends C L suite shared n pubA secA rnd pubB secB _ (moreB ++ restA)); auto; try lia.
    change (unread (new_rstate L (mkConn chA endA))) with (concat chA). rewrite HA, MB, <- app_assoc. reflexivity. }
  assert (UB : unread (new_rstate L (mkConn chB endB)) = hello C pubA secA ++ overlay C suite (node_env n (Ok (pubA, secA)) rnd) shared ++ restB).
  { change (unread (new_rstate L (mkConn chB endB))) with (concat chB). rewrite HB, SA, <- app_assoc. reflexivity. }
  destruct (C49_session C L eB (new_rstate L (mkConn chB endB)) id pubB secB (pt_eph _ _ _ _ _ PB) Q)
    as (pk & sg1 & st1 & sh & su & st2 & sg2 & R1 & Lpk & _ & E1 & G1 & _ & R2 & Lsg & V).
  destruct (Se banner) as [Es1 Es2].
  destruct (read_frame L None [] (pubA ++ sign C secA banner) (overlay C suite (node_env n (Ok (pubA, secA)) rnd) shared ++ restB)
              (new_rstate L (mkConn chB endB))) as (st1' & R1' & U1 & L1); auto; try lia.
  { rewrite app_length, Lp, Es1. lia. }
  rewrite R1' in R1. injection R1 as <- R1.
  assert (pk = pubA) as -> by (apply (f_equal (firstn 32)) in R1; rewrite (firstn_app_exact _ _ _ Lp), (firstn_app_exact _ _ _ Lpk) in R1; congruence).
  assert (sh = shared) as -> by congruence. assert (su = suite) as -> by congruence.
  set (me := n_id n) in *. assert (Lm : length (ID_marshal me) = 50) by (rewrite ID_marshal_length; unfold ID_size; rewrite Lk; reflexivity).
  destruct (read_frame L (Some suite) rnd (ID_marshal me ++ sign C (n_privateKey n) (ID_marshal me ++ shared)) restB st1') as (st2' & R2' & _); auto; try lia.
  { rewrite L1. apply BL. }
  { rewrite app_length, Lm, Ls. lia. }
  rewrite R2' in R2. injection R2 as _ R2.
  assert (Lmi : length (ID_marshal id) = 50).
  { apply (f_equal (@length byte)) in R2. rewrite !app_length, Lm, Ls, Lsg in R2. lia. }
  assert (EM : ID_marshal me = ID_marshal id) by (apply (f_equal (firstn 50)) in R2; rewrite (firstn_app_exact _ _ _ Lm), (firstn_app_exact _ _ _ Lmi) in R2; exact R2).
  assert (ES : sign C (n_privateKey n) (ID_marshal me ++ shared) = sg2)
    by (apply (f_equal (skipn 50)) in R2; rewrite (skipn_app_exact _ _ _ Lm), (skipn_app_exact _ _ _ Lmi) in R2; exact R2).
  assert (Lki : length (id_key id) = 32).
  { rewrite ID_marshal_length in Lmi. unfold ID_size, IPv6len in Lmi. lia. }
  rewrite <- (marshal_key me id Lk Lki EM), <- EM, <- ES, Bad in V. discriminate.
Qed.

(** In particular a node made with no options at all: it connects out as nobody. *)
Lemma toy_stranger k m : length k = 32 -> k <> zeros 32 -> verify toy_crypto (zeros 32) m (sign toy_crypto (k ++ k) m) = false.
Proof.
  intros Hk Hn. cbn [toy_crypto sign verify]. rewrite (firstn_app_exact _ _ _ Hk).
  destruct (bytes_eqb (toy_sig k m) (toy_sig (zeros 32) m)) eqn:E; [|reflexivity]. exfalso. apply Hn. apply bytes_eqb_eq in E.
  assert (F : forall x, length x = 32 -> firstn 32 (toy_sig x m) = x).
  { intros x Hx. unfold toy_sig. rewrite firstn_firstn. change (Nat.min 32 64) with 32. apply firstn_app_exact. exact Hx. }
  rewrite <- (F k Hk), E. apply F. apply zeros_length.
Qed.

Definition ex_fresh : node := match NewNode 4 (Ok (key_a ++ key_a)) [] with Ok n => n | _ => default_node 0 end.
Definition stream_fresh : bytes :=
  hello toy_crypto eph_a (eph_a ++ eph_a) ++ overlay toy_crypto toy (node_env ex_fresh (Ok (eph_a, eph_a ++ eph_a)) [n2b 1; n2b 2]) ex_shared.

Lemma toy_signs k m : length k = 32 -> length (sign toy_crypto (k ++ k) m) = 64 /\ verify toy_crypto k m (sign toy_crypto (k ++ k) m) = true.
Proof. intros Hk. cbn [toy_crypto sign verify]. rewrite (firstn_app_exact _ _ _ Hk). split; [apply toy_sig_length, Hk | apply bytes_eqb_refl]. Qed.

Theorem C88_refuted : ~ C88_statement.
Proof.
  intros X.
  assert (HA : hr_sent (handshake toy_crypto 200 (node_env ex_fresh (Ok (eph_a, eph_a ++ eph_a)) [n2b 1; n2b 2]) (new_rstate 200 (mkConn [stream_b] ErrEOF))) = stream_fresh)
    by (vm_compute; reflexivity).
  assert (HB : hr_sent (handshake toy_crypto 200 env_b (new_rstate 200 (mkConn [stream_fresh] ErrEOF))) = stream_b) by (vm_compute; reflexivity).
  destruct (X 4%N (Ok (key_a ++ key_a)) [] ex_fresh toy_crypto 200%N toy ex_shared eph_a (eph_a ++ eph_a) [n2b 1; n2b 2] env_b eph_b (eph_b ++ eph_b)
              [stream_b] [stream_fresh] ErrEOF ErrEOF [] []) as (id & Q & _).
  - split; [reflexivity|]. intros k [].
  - intros m. exact (toy_signs key_a m eq_refl).
  - intros m. apply toy_signs. reflexivity.
  - reflexivity.
  - reflexivity.
  - apply toy_party; reflexivity.
  - vm_compute; reflexivity.
  - vm_compute; reflexivity.
  - reflexivity.
  - exact toy_ok.
  - vm_compute; discriminate.
  - reflexivity.
  - exact (eq_trans (app_nil_r _) (eq_sym (eq_trans (app_nil_r _) HB))).
  - exact (eq_trans (app_nil_r _) (eq_sym (eq_trans (app_nil_r _) HA))).
  - vm_compute in Q. discriminate.
Qed.

(** What does hold: the peer accepts, and is told the node's own key and the announced address, as soon as the identity carries the
    node's own key and a 16-byte host: with bind host and port given and no identity configured, with an identity of the node's own key
    configured, and once Listen has succeeded. *)
Theorem C88_partial : forall ncpu gen opts n n' host port C L suite shared pubA secA rnd eB pubB secB chA chB endA endB restA restB,
  made ncpu gen opts n -> (n' = n \/ exists env, lr_err (Listen env n) = None /\ n' = lr_node (Listen env n)) ->
  n_id n' = NewID (n_publicKey n) host port -> length host = 16 -> (port < 65536)%N ->
  (forall m, length (sign C (n_privateKey n) m) = 64 /\ verify C (n_publicKey n) m (sign C (n_privateKey n) m) = true) ->
  (forall m, length (sign C secA m) = 64 /\ verify C pubA m (sign C secA m) = true) -> length pubA = 32 -> length rnd = nonce_size suite ->
  party C suite eB pubB secB ->
  ecdh C secA pubB = Ok shared -> ecdh C secB pubA = Ok shared -> gcm C shared = Ok suite -> aead_contract suite ->
  (N.max 96 (N.of_nat (114 + nonce_size suite + overhead suite)) <= L)%N -> (L + 4 < 2 ^ 32)%N ->
  let hA := handshake C L (node_env n' (Ok (pubA, secA)) rnd) (new_rstate L (mkConn chA endA)) in
  let hB := handshake C L eB (new_rstate L (mkConn chB endB)) in
  concat chA = hr_sent hB ++ restA -> concat chB = hr_sent hA ++ restB ->
  hr_peer hB = Ok (NewID (n_publicKey n) host port) /\ hr_peer hA = Ok (he_id eB).
Proof.
  intros ncpu gen opts n n' host port C L suite shared pubA secA rnd eB pubB secB chA chB endA endB restA restB
    M Hn Hi Lh Hp Sn Se Lp Lr PB EA EB HG HC H1 H2 hA hB HA HB.
  destruct (made_key _ _ _ _ M) as [L64 Pub].
  assert (L32 : length (n_publicKey n) = 32) by (rewrite Pub, skipn_length, L64; reflexivity).
  assert (Pr : n_privateKey n' = n_privateKey n).
  { destruct Hn as [-> |(env & He & ->)]; [reflexivity|]. apply listen_keys. exact He. }
  assert (PA : party C suite (node_env n' (Ok (pubA, secA)) rnd) pubA secA).
  { unfold node_env. rewrite Hi, Pr. constructor; cbn; auto. exists (n_publicKey n), host, port. auto. }
  destruct (C48_agreement C L suite shared _ pubA secA eB pubB secB chA chB endA endB restA restB PA PB EA EB HG HC H1 H2 HA HB)
    as (A1 & A2 & _).
  fold hA hB in A1, A2. split; [|exact A1]. rewrite A2. unfold node_env. cbn [he_id]. rewrite Hi. reflexivity.
Qed.

(** After Listen, the same: what it signs with and what it announces belong together, whatever was configured. *)
Theorem C88_listening_partial : forall ncpu gen opts n env, made ncpu gen opts n -> lr_err (Listen env n) = None ->
  let n' := lr_node (Listen env n) in
  id_key (n_id n') = n_publicKey n /\ n_privateKey n' = n_privateKey n /\ exists host port, n_id n' = NewID (n_publicKey n) host port.
Proof.
  intros ncpu gen opts n env M H n'. destruct (listen_keys env n H) as (_ & S2 & _).
  split; [exact (Props_Node.C57_own_key env n H)|]. split; [exact S2|]. clear S2. unfold n' in *. clear n'. revert H. unfold Listen. destruct (n_listening n); [discriminate|].
  destruct (e_listen env _) as [[[host port]|]| |]; try discriminate.
  destruct (listen_id env _) as [n2| |] eqn:E; try discriminate.
  assert (P2 : exists h p, n_id n2 = NewID (n_publicKey n) h p).
  { unfold listen_id in E. destruct (n_addr _).
    - assert (n2 = _) as -> by (injection E as E; symmetry; exact E). eexists. eexists. reflexivity.
    - destruct (resolve_address _ _) as [r| |]; cbn [bind] in E; try discriminate.
      destruct (split_host_port r) as [[h p]| |]; cbn [bind] in E; try discriminate.
      destruct (M_ParseIP.parse_ip h); [|discriminate]. destruct (parse_uint16 p); [|discriminate].
      assert (n2 = _) as -> by (injection E as E; symmetry; exact E). eexists. eexists. reflexivity. }
  pose proof (bind_all_frame (e_bind_cb env) (n_protocols n2) n2) as F.
  destruct (bind_all _ _ _) as [n3 [e|]]; [discriminate|]. intros _. cbn in *. destruct F as (-> & _). exact P2.
Qed.

(** The premises are met: the node without options has the zero identity and is rejected; with host and port it is accepted; after
    Listen it carries its own key. *)
Example C88_nonvacuous :
  made 4 (Ok (key_a ++ key_a)) [] ex_fresh /\ n_id ex_fresh = ZeroID /\
  (forall m, verify toy_crypto (id_key (n_id ex_fresh)) m (sign toy_crypto (n_privateKey ex_fresh) m) = false) /\
  hr_peer (handshake toy_crypto 200 env_b (new_rstate 200 (mkConn [stream_fresh] ErrEOF))) = Err ErrOther /\
  (exists n, NewNode 4 (Ok (key_a ++ key_a)) [WithBindHost (host16 5); WithBindPort 9000] = Ok n /\ n_id n = NewID key_a (host16 5) 9000) /\
  n_id (lr_node (Listen ex_listen ex_fresh)) = NewID key_a (host16 1) 9000.
Proof.
  split; [split; [reflexivity|]; intros k []|]. split; [reflexivity|]. split.
  { intros m. apply (toy_stranger key_a m eq_refl); discriminate. }
  split; [vm_compute; reflexivity|]. split; [eexists; split; [reflexivity | vm_compute; reflexivity]|]. vm_compute. reflexivity.
Qed.

Print Assumptions C87_stolen.
Print Assumptions C87_refuted.
Print Assumptions C87_impersonates.
Print Assumptions C87_partial.
Print Assumptions C87_truthful.
Print Assumptions C88_identity.
Print Assumptions C88_rejected.
Print Assumptions C88_refuted.
Print Assumptions C88_partial.
Print Assumptions C88_listening_partial.
