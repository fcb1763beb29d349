(** Proofs about the ID / message / FIND_NODE codecs. *)
From Verif Require Import Base M_Addr M_ID M_Msg.
From Coq Require Import Strings.Byte Strings.String Numbers.DecimalPos.
Local Open Scope nat_scope.

Lemma ID_marshal_length e : List.length (ID_marshal e) = ID_size e.
Proof.
  unfold ID_marshal, ID_size. rewrite !app_length, !go_copy_length, !zeros_length, be_encode_length. lia.
Qed.

Lemma UnmarshalID_spec buf :
  UnmarshalID buf =
  if List.length buf <? 50 then Err ErrUnexpectedEOF
  else Ok (NewID (firstn 32 buf) (firstn 16 (skipn 32 buf)) (be_decode (firstn 2 (skipn 48 buf)))).
Proof.
  unfold UnmarshalID, SizePublicKey, IPv6len.
  destruct (Nat.ltb_spec (List.length buf) 32) as [H|H].
  { destruct (Nat.ltb_spec (List.length buf) 50); [reflexivity | lia]. }
  rewrite slice_to_ok by lia. cbn [bind].
  rewrite slice_from_ok by lia. cbn [bind]. rewrite skipn_length.
  destruct (Nat.ltb_spec (List.length buf - 32) 16) as [H1|H1].
  { destruct (Nat.ltb_spec (List.length buf) 50); [reflexivity | lia]. }
  rewrite slice_to_ok by (rewrite skipn_length; lia). cbn [bind].
  rewrite slice_from_ok by (rewrite skipn_length; lia). cbn [bind].
  rewrite !skipn_length.
  destruct (Nat.ltb_spec (List.length buf - 32 - 16) 2) as [H2|H2].
  { destruct (Nat.ltb_spec (List.length buf) 50); [reflexivity | lia]. }
  rewrite slice_to_ok by (rewrite !skipn_length; lia). cbn [bind].
  destruct (Nat.ltb_spec (List.length buf) 50); [lia|].
  rewrite !go_copy_full.
  - rewrite skipn_skipn. reflexivity.
  - rewrite firstn_length, skipn_length, zeros_length. lia.
  - unfold ZeroPublicKey, SizePublicKey. rewrite firstn_length, zeros_length. lia.
Qed.

(** What the peer decodes from an announced ID, for every host length. *)
Lemma UnmarshalID_marshal e extra :
  List.length (id_key e) = 32 ->
  UnmarshalID (ID_marshal e ++ extra) =
  Ok (NewID (id_key e) (go_copy (zeros 16) (id_host e)) (id_port e mod 65536)%N).
Proof.
  intros Hk. rewrite UnmarshalID_spec, app_length, ID_marshal_length. unfold ID_size, IPv6len.
  destruct (Nat.ltb_spec (List.length (id_key e) + 16 + 2 + List.length extra) 50) as [H|H]; [lia|].
  unfold ID_marshal, IPv6len. rewrite (go_copy_full _ (id_key e)) by (rewrite zeros_length; reflexivity).
  rewrite <- !app_assoc.
  rewrite firstn_app_exact by exact Hk.
  rewrite skipn_app_exact by exact Hk.
  rewrite firstn_app_exact by (rewrite go_copy_length, zeros_length; reflexivity).
  f_equal. f_equal.
  replace 48 with (16 + 32) by reflexivity.
  rewrite <- skipn_skipn.
  rewrite skipn_app_exact by exact Hk.
  rewrite skipn_app_exact by (rewrite go_copy_length, zeros_length; reflexivity).
  rewrite firstn_app_exact by apply be_encode_length.
  rewrite be_decode_encode. reflexivity.
Qed.

Lemma id_roundtrip key host port extra :
  List.length key = 32 -> List.length host = 16 -> (port < 65536)%N ->
  UnmarshalID (ID_marshal (NewID key host port) ++ extra) = Ok (NewID key host port).
Proof.
  intros Hk Hh Hp. rewrite UnmarshalID_marshal by exact Hk. cbn [id_key id_host id_port NewID].
  rewrite go_copy_full by (rewrite zeros_length; exact Hh).
  rewrite N.mod_small by exact Hp. reflexivity.
Qed.

Lemma id_marshal_inj e1 e2 :
  List.length (id_key e1) = 32 -> List.length (id_key e2) = 32 ->
  List.length (id_host e1) = 16 -> List.length (id_host e2) = 16 ->
  (id_port e1 < 65536)%N -> (id_port e2 < 65536)%N ->
  ID_marshal e1 = ID_marshal e2 ->
  id_key e1 = id_key e2 /\ id_host e1 = id_host e2 /\ id_port e1 = id_port e2.
Proof.
  intros K1 K2 H1 H2 P1 P2 E.
  pose proof (UnmarshalID_marshal e1 [] K1) as D1.
  pose proof (UnmarshalID_marshal e2 [] K2) as D2.
  rewrite E in D1. rewrite D1 in D2.
  rewrite !go_copy_full in D2 by (rewrite zeros_length; assumption).
  rewrite !N.mod_small in D2 by assumption.
  unfold NewID in D2. injection D2 as A1 A2 A3 _. auto.
Qed.

(** *** 4-byte hosts *)

Definition starts_with (b : byte) (l : bytes) : bool :=
  match l with x :: _ => byte_eqb x b | [] => false end.

Lemma join_host_port_bracket h p :
  existsb (fun b => byte_eqb b colon || byte_eqb b percent) h = true ->
  join_host_port h p = lbracket :: h ++ rbracket :: colon :: p.
Proof. intros H. unfold join_host_port. rewrite H. reflexivity. Qed.

Lemma existsb_app_mid {A} (f : A -> bool) l1 x l2 : f x = true -> existsb f (l1 ++ x :: l2) = true.
Proof. intros H. rewrite existsb_app. cbn. rewrite H. cbn. apply orb_true_r. Qed.

Lemma v6_string_colon i :
  List.length i = 16 ->
  existsb (fun b => byte_eqb b colon || byte_eqb b percent) (v6_string i) = true.
Proof.
  intros H.
  do 16 (destruct i as [|? i]; [discriminate H|]). destruct i; [|discriminate H]. clear H.
  unfold v6_string. cbn [groups].
  destruct (longest_run _ _ _) as [e0 n].
  destruct (Nat.leb 2 n).
  - apply existsb_app_mid. reflexivity.
  - cbn [join_groups]. apply existsb_app_mid. reflexivity.
Qed.

Lemma uint_bytes_not_bracket d : starts_with lbracket (uint_bytes d) = false.
Proof. destruct d; reflexivity. Qed.

Lemma itoa_not_bracket n : starts_with lbracket (itoa n) = false.
Proof. apply uint_bytes_not_bracket. Qed.

Lemma join_not_bracket h p :
  starts_with lbracket h = false ->
  existsb (fun b => byte_eqb b colon || byte_eqb b percent) h = false ->
  starts_with lbracket (join_host_port h p) = false.
Proof.
  intros H1 H2. unfold join_host_port. rewrite H2. destruct h; [reflexivity | exact H1].
Qed.

Lemma uint_bytes_nocolon d :
  existsb (fun b => byte_eqb b colon || byte_eqb b percent) (uint_bytes d) = false.
Proof. induction d; [reflexivity|..]; cbn [uint_bytes existsb]; rewrite IHd; reflexivity. Qed.

Lemma itoa_nocolon n :
  existsb (fun b => byte_eqb b colon || byte_eqb b percent) (itoa n) = false.
Proof. apply uint_bytes_nocolon. Qed.

Lemma starts_with_app b l1 l2 : starts_with b l1 = false -> l1 <> [] -> starts_with b (l1 ++ l2) = false.
Proof. destruct l1; [contradiction | intros H _; exact H]. Qed.

Lemma uint_bytes_nil d : uint_bytes d = [] -> d = Decimal.Nil.
Proof. destruct d; intros H; [reflexivity | discriminate ..]. Qed.

Lemma pos_to_uint_nonnil p : Pos.to_uint p <> Decimal.Nil.
Proof. exact (DecimalPos.Unsigned.to_uint_nonnil p). Qed.

Lemma itoa_nonnil n : itoa n <> [].
Proof.
  intros H. apply uint_bytes_nil in H. destruct n; cbn in H; [discriminate|].
  exact (pos_to_uint_nonnil _ H).
Qed.

Lemma quad_string_first a b c d : starts_with lbracket (quad_string [a; b; c; d]) = false.
Proof.
  cbn [quad_string map]. apply starts_with_app; [apply itoa_not_bracket | apply itoa_nonnil].
Qed.

Lemma quad_string_nocolon a b c d :
  existsb (fun b => byte_eqb b colon || byte_eqb b percent) (quad_string [a; b; c; d]) = false.
Proof.
  cbn [quad_string map].
  repeat (rewrite existsb_app; rewrite itoa_nocolon; cbn [existsb orb]).
  replace (byte_eqb dot colon || byte_eqb dot percent) with false by reflexivity. cbn [orb].
  repeat (rewrite existsb_app; rewrite itoa_nocolon; cbn [existsb orb];
          replace (byte_eqb dot colon || byte_eqb dot percent) with false by reflexivity; cbn [orb]).
  apply itoa_nocolon.
Qed.

(** The sender's own Address for a 4-byte host never starts with a bracket. *)
Lemma v4_address_no_bracket k h p :
  List.length h = 4 -> starts_with lbracket (id_addr (NewID k h p)) = false.
Proof.
  intros H. do 4 (destruct h as [|? h]; [discriminate H|]). destruct h; [|discriminate H].
  cbn [id_addr NewID]. unfold normalize_ip, resolve_ip.
  destruct (is_loopback _ || is_unspecified _).
  - cbn [ip_string]. rewrite bytes_eqb_refl. reflexivity.
  - unfold ip_string. cbn [to4 List.length Nat.eqb].
    destruct (bytes_eqb _ _); [reflexivity|].
    apply join_not_bracket; [apply quad_string_first | apply quad_string_nocolon].
Qed.

Lemma bytes_eqb_app_false_r a b c d :
  List.length a = List.length c -> bytes_eqb b d = false -> bytes_eqb (a ++ b) (c ++ d) = false.
Proof.
  intros HL HD. apply bytes_eqb_neq. intros E.
  apply bytes_eqb_neq in HD. apply HD.
  assert (a = c /\ b = d) as [_ ?]; [|assumption].
  revert c HL E. induction a as [|x a IH]; intros [|y c] HL E; try discriminate; [split; auto|].
  cbn in E. injection E as -> E. injection HL as HL. destruct (IH c HL E) as [-> ->]. auto.
Qed.

(** What the receiver computes for it always does, unless the host is 0.0.0.0. *)
Lemma v4_decoded_bracket k h p :
  List.length h = 4 -> h <> zeros 4 ->
  starts_with lbracket (id_addr (NewID k (h ++ zeros 12) p)) = true.
Proof.
  intros H NZ. cbn [id_addr NewID]. unfold normalize_ip.
  assert (HL : List.length (h ++ zeros 12) = 16) by (rewrite app_length, zeros_length; lia).
  assert (HE : forall l, List.length l = 16 -> skipn 4 l <> zeros 12 -> bytes_eqb (h ++ zeros 12) l = false).
  { intros l L1 L2. apply bytes_eqb_neq. intros E. apply L2. rewrite <- E. apply skipn_app_exact. exact H. }
  assert (T4 : to4 (h ++ zeros 12) = None).
  { unfold to4. rewrite HL. cbn [Nat.eqb andb].
    destruct (bytes_eqb _ v4_in_v6_prefix) eqn:E; [|reflexivity]. exfalso.
    apply bytes_eqb_eq in E.
    do 4 (destruct h as [|? h]; [discriminate H|]). destruct h; [|discriminate H].
    cbn in E. discriminate E. }
  assert (R : resolve_ip (h ++ zeros 12) = h ++ zeros 12).
  { unfold resolve_ip, is_loopback. rewrite T4. unfold is_unspecified, ip_equal. rewrite HL.
    cbn [List.length ipv6_loopback ipv4_zero v4_in_v6_prefix ipv6_unspecified Nat.eqb].
    change (List.length ipv6_loopback) with 16. change (List.length ipv4_zero) with 16.
    change (List.length ipv6_unspecified) with 16. cbn [Nat.eqb].
    rewrite (HE ipv6_loopback), (HE ipv4_zero) by (try reflexivity; discriminate). cbn [orb].
    replace (bytes_eqb (h ++ zeros 12) ipv6_unspecified) with false; [reflexivity|].
    symmetry. apply bytes_eqb_neq. intros E. apply NZ.
    apply (f_equal (firstn 4)) in E. rewrite firstn_app_exact in E by exact H. exact E. }
  rewrite R.
  assert (S : ip_string (h ++ zeros 12) = v6_string (h ++ zeros 12)).
  { unfold ip_string. rewrite T4, HL. cbn [Nat.eqb].
    destruct (h ++ zeros 12) eqn:E; [discriminate HL | reflexivity]. }
  rewrite S. pose proof (v6_string_colon _ HL) as C.
  destruct (bytes_eqb (v6_string (h ++ zeros 12)) (str "<nil>")) eqn:E.
  - apply bytes_eqb_eq in E. rewrite E in C. discriminate C.
  - rewrite join_host_port_bracket by exact C. reflexivity.
Qed.

Lemma v4_host_never_survives key host port extra :
  List.length key = 32 -> List.length host = 4 -> host <> zeros 4 -> (port < 65536)%N ->
  exists id', UnmarshalID (ID_marshal (NewID key host port) ++ extra) = Ok id'
         /\ id_key id' = key /\ id_port id' = port
         /\ id_host id' = host ++ zeros 12
         /\ id_addr id' <> id_addr (NewID key host port).
Proof.
  intros Hk Hh NZ Hp. rewrite UnmarshalID_marshal by exact Hk. cbn [id_key id_host id_port NewID].
  eexists. split; [reflexivity|]. rewrite N.mod_small by exact Hp.
  assert (G : go_copy (zeros 16) host = host ++ zeros 12).
  { rewrite go_copy_short by (rewrite zeros_length; lia). rewrite Hh. reflexivity. }
  rewrite G. cbn [NewID id_key id_port id_host]. repeat split.
  intros E. pose proof (v4_address_no_bracket key host port Hh) as A.
  pose proof (v4_decoded_bracket key host port Hh NZ) as B.
  cbn [NewID id_addr] in *. rewrite E in B. congruence.
Qed.

(** *** Messages *)

Lemma msg_marshal_eq m : msg_marshal m = be_encode 8 (m_nonce m) ++ m_data m.
Proof.
  unfold msg_marshal, msg_marshal_into. cbn [app].
  rewrite go_copy_full by (rewrite be_encode_length, zeros_length; reflexivity). reflexivity.
Qed.

Lemma unmarshalMessage_spec d :
  unmarshalMessage d =
  if List.length d <? 8 then Err ErrUnexpectedEOF
  else Ok (mkMsg (be_decode (firstn 8 d)) (skipn 8 d)).
Proof.
  unfold unmarshalMessage. destruct (Nat.ltb_spec (List.length d) 8) as [H|H]; [reflexivity|].
  rewrite slice_to_ok by lia. cbn [bind]. rewrite slice_from_ok by lia. reflexivity.
Qed.

Lemma msg_roundtrip m :
  (m_nonce m < 2 ^ 64)%N -> unmarshalMessage (msg_marshal m) = Ok m.
Proof.
  intros H. rewrite unmarshalMessage_spec, msg_marshal_eq, app_length, be_encode_length.
  destruct (Nat.ltb_spec (8 + List.length (m_data m)) 8) as [?|?]; [lia|].
  rewrite firstn_app_exact by apply be_encode_length.
  rewrite skipn_app_exact by apply be_encode_length.
  rewrite be_decode_encode_small by exact H. destruct m; reflexivity.
Qed.

(** *** FIND_NODE *)

Lemma UnmarshalFindNodeRequest_spec b :
  UnmarshalFindNodeRequest b = if List.length b =? 32 then Ok b else Err ErrUnexpectedEOF.
Proof.
  unfold UnmarshalFindNodeRequest, SizePublicKey.
  destruct (Nat.eqb_spec (List.length b) 32) as [H|H]; cbn [negb]; [|reflexivity].
  rewrite go_copy_full; [reflexivity|]. rewrite H. reflexivity.
Qed.

Lemma UnmarshalID_size b id : UnmarshalID b = Ok id -> ID_size id = 50 /\ 50 <= List.length b.
Proof.
  rewrite UnmarshalID_spec. destruct (Nat.ltb_spec (List.length b) 50) as [H|H]; [discriminate|].
  intros E. split; [|exact H].
  match type of E with Ok ?x = Ok _ => assert (x = id) as <- by congruence end.
  unfold ID_size, IPv6len. cbn [NewID id_key]. rewrite firstn_length. lia.
Qed.

(** The i-th ID in a buffer of concatenated IDs. *)
Definition id_at (i : nat) (buf : bytes) : ID :=
  let b := skipn (50 * i) buf in
  NewID (firstn 32 b) (firstn 16 (skipn 32 b)) (be_decode (firstn 2 (skipn 48 b))).

Lemma unmarshal_ids_spec n : forall buf,
  unmarshal_ids n buf =
  if List.length buf <? 50 * n then Err ErrUnexpectedEOF
  else Ok (map (fun i => id_at i buf) (seq 0 n)).
Proof.
  induction n as [|n IH]; intros buf.
  - cbn [unmarshal_ids]. destruct (Nat.ltb_spec (List.length buf) (50 * 0)); [lia | reflexivity].
  - cbn [unmarshal_ids]. destruct (UnmarshalID buf) as [id|e|] eqn:E.
    + destruct (UnmarshalID_size _ _ E) as [HS L]. rewrite HS.
      rewrite slice_from_ok by lia. cbn [bind]. rewrite IH, skipn_length.
      destruct (Nat.ltb_spec (List.length buf - 50) (50 * n)) as [H|H];
        destruct (Nat.ltb_spec (List.length buf) (50 * S n)) as [H'|H']; try lia; [reflexivity|].
      cbn [bind seq map]. f_equal. f_equal.
      * rewrite UnmarshalID_spec in E. destruct (Nat.ltb_spec (List.length buf) 50); [lia|].
        unfold id_at. cbv zeta. change (skipn (50 * 0) buf) with buf. congruence.
      * rewrite <- seq_shift, map_map. apply map_ext. intros i. unfold id_at.
        rewrite skipn_skipn. replace (50 * S i) with (50 * i + 50) by lia. reflexivity.
    + rewrite UnmarshalID_spec in E. destruct (Nat.ltb_spec (List.length buf) 50); [|discriminate].
      destruct (Nat.ltb_spec (List.length buf) (50 * S n)); [reflexivity | lia].
    + rewrite UnmarshalID_spec in E. destruct (Nat.ltb_spec (List.length buf) 50); discriminate.
Qed.

Lemma UnmarshalFindNodeResponse_spec b :
  UnmarshalFindNodeResponse b =
  match b with
  | [] => Err ErrUnexpectedEOF
  | size :: rest =>
      if List.length rest <? 50 * N.to_nat (b2n size) then Err ErrUnexpectedEOF
      else Ok (map (fun i => id_at i rest) (seq 0 (N.to_nat (b2n size))))
  end.
Proof. destruct b as [|s r]; [reflexivity|]. cbn [UnmarshalFindNodeResponse]. apply unmarshal_ids_spec. Qed.

(** An ID as a node produces it: built by NewID from a 32-byte key, a 16-byte host, a 16-bit port. *)
Definition wire_id (e : ID) : Prop :=
  exists k h p, e = NewID k h p /\ List.length k = 32 /\ List.length h = 16 /\ (p < 65536)%N.

Lemma unmarshal_ids_marshal ids : forall extra,
  Forall wire_id ids ->
  unmarshal_ids (List.length ids) (List.concat (map ID_marshal ids) ++ extra) = Ok ids.
Proof.
  induction ids as [|e ids IH]; intros extra HF; [reflexivity|].
  inversion HF as [|? ? He HF']; subst. destruct He as (k & h & p & -> & Hk & Hh & Hp).
  cbn [List.length unmarshal_ids map List.concat]. rewrite <- app_assoc.
  rewrite id_roundtrip by assumption.
  rewrite slice_from_ok.
  2:{ rewrite app_length, ID_marshal_length. lia. }
  cbn [bind].
  rewrite skipn_app_exact by apply ID_marshal_length.
  rewrite IH by exact HF'. reflexivity.
Qed.

Lemma findnode_response_roundtrip ids extra :
  Forall wire_id ids -> List.length ids <= 255 ->
  UnmarshalFindNodeResponse (FindNodeResponse_marshal ids ++ extra) = Ok ids.
Proof.
  intros HF HL. unfold FindNodeResponse_marshal. cbn [app UnmarshalFindNodeResponse].
  rewrite b2n_n2b, N.mod_small by lia. rewrite Nat2N.id. apply unmarshal_ids_marshal. exact HF.
Qed.

Lemma findnode_response_overflow ids :
  Forall wire_id ids -> 255 < List.length ids ->
  UnmarshalFindNodeResponse (FindNodeResponse_marshal ids) =
    Ok (firstn (List.length ids mod 256) ids).
Proof.
  intros HF HL. unfold FindNodeResponse_marshal. cbn [UnmarshalFindNodeResponse].
  rewrite b2n_n2b.
  replace (N.to_nat (N.of_nat (List.length ids) mod 256)) with (List.length ids mod 256)
    by (rewrite N2Nat.inj_mod; rewrite Nat2N.id; reflexivity).
  set (n := List.length ids mod 256).
  assert (Hn : n <= List.length ids) by (apply Nat.mod_le; lia).
  rewrite <- (firstn_skipn n ids) at 1. rewrite map_app, concat_app.
  assert (HLn : n = List.length (firstn n ids)) by (rewrite firstn_length; lia).
  rewrite HLn at 1. apply unmarshal_ids_marshal.
  apply Forall_forall. intros x Hx. rewrite Forall_forall in HF. apply HF.
  rewrite <- (firstn_skipn n ids). apply in_or_app. left. exact Hx.
Qed.

(** Truncated responses. *)
Lemma concat_marshal_length ids :
  Forall wire_id ids -> List.length (List.concat (map ID_marshal ids)) = 50 * List.length ids.
Proof.
  induction 1 as [|e ids (k & h & p & -> & Hk & _ & _) HF IH]; [reflexivity|].
  cbn [map List.concat]. rewrite app_length, IH, ID_marshal_length. unfold ID_size, IPv6len. cbn [NewID id_key List.length].
  rewrite Hk. lia.
Qed.

Lemma findnode_truncated ids n :
  Forall wire_id ids -> List.length ids <= 255 -> n < List.length (FindNodeResponse_marshal ids) ->
  UnmarshalFindNodeResponse (firstn n (FindNodeResponse_marshal ids)) = Err ErrUnexpectedEOF.
Proof.
  intros HF HL Hn. unfold FindNodeResponse_marshal in *. cbn [List.length] in Hn. rewrite concat_marshal_length in Hn by exact HF.
  rewrite UnmarshalFindNodeResponse_spec. destruct n as [|n]; [reflexivity|]. cbn [firstn].
  rewrite b2n_n2b, N.mod_small by lia. rewrite Nat2N.id.
  match goal with |- (if ?c then _ else _) = _ => destruct c eqn:E end; [reflexivity|].
  apply Nat.ltb_ge in E. rewrite firstn_length, concat_marshal_length in E by exact HF. lia.
Qed.

(** Addresses of IPv4 hosts. *)
Lemma byte_eqb_N a b : byte_eqb a b = (b2n a =? b2n b)%N.
Proof.
  destruct (N.eqb_spec (b2n a) (b2n b)) as [E|E].
  - apply byte_eqb_eq. apply b2n_inj. exact E.
  - destruct (byte_eqb a b) eqn:X; [|reflexivity]. apply byte_eqb_eq in X. congruence.
Qed.

Lemma v4_address key a b c d port :
  let quad := itoa (b2n a) ++ [dot] ++ itoa (b2n b) ++ [dot] ++ itoa (b2n c) ++ [dot] ++ itoa (b2n d) in
  let addr := if ((b2n a =? 127) || ((b2n a =? 0) && (b2n b =? 0) && (b2n c =? 0) && (b2n d =? 0)))%N
              then [colon] ++ itoa port else quad ++ [colon] ++ itoa port in
  id_addr (NewID key [a; b; c; d] port) = addr /\
  id_addr (NewID key (zeros 10 ++ [n2b 255; n2b 255; a; b; c; d]) port) = addr.
Proof.
  assert (Q : quad_string [a; b; c; d] =
    itoa (b2n a) ++ [dot] ++ itoa (b2n b) ++ [dot] ++ itoa (b2n c) ++ [dot] ++ itoa (b2n d)) by reflexivity.
  assert (NN : bytes_eqb (quad_string [a; b; c; d]) (str "<nil>") = false).
  { apply bytes_eqb_neq. intros E.
    assert (X : existsb (byte_eqb dot) (quad_string [a;b;c;d]) = true) by (rewrite Q; apply existsb_app_mid; reflexivity).
    rewrite E in X. discriminate X. }
  cbv zeta. rewrite <- Q.
  assert (G : forall h, h = [a;b;c;d] \/ h = zeros 10 ++ [n2b 255; n2b 255; a; b; c; d] ->
    to4 h = Some [a;b;c;d] /\ is_loopback h = (b2n a =? 127)%N /\
    is_unspecified h = ((b2n a =? 0) && (b2n b =? 0) && (b2n c =? 0) && (b2n d =? 0))%N /\ h <> []).
  { assert (Z : forall x, byte_eqb x Byte.x00 = (b2n x =? 0)%N) by (intros x; apply (byte_eqb_N x Byte.x00)).
    intros h [-> | ->]; (split; [reflexivity|]; split; [cbn; apply (byte_eqb_N a Byte.x7f)|]; split; [|discriminate]);
      unfold is_unspecified, ip_equal; cbn; rewrite ?Z, ?andb_true_r, ?orb_false_r, ?andb_assoc; reflexivity. }
  assert (F : forall h, h = [a;b;c;d] \/ h = zeros 10 ++ [n2b 255; n2b 255; a; b; c; d] ->
    id_addr (NewID key h port) =
    if ((b2n a =? 127) || ((b2n a =? 0) && (b2n b =? 0) && (b2n c =? 0) && (b2n d =? 0)))%N
    then [colon] ++ itoa port else quad_string [a;b;c;d] ++ [colon] ++ itoa port).
  { intros h Hh. destruct (G h Hh) as (T & Lo & U & NE). cbn [NewID id_addr]. unfold normalize_ip, resolve_ip.
    rewrite Lo, U. destruct ((b2n a =? 127) || _)%N.
    - cbn [ip_string]. rewrite bytes_eqb_refl. reflexivity.
    - unfold ip_string. destruct h as [|x h]; [contradiction|]. rewrite T.
      rewrite NN. unfold join_host_port. rewrite quad_string_nocolon. reflexivity. }
  split; apply F; auto.
Qed.
