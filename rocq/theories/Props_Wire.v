(** * Properties C01-C04, C23, C59 (wire encodings and key text). *)
From Verif Require Import Base Spec M_Addr M_ID M_Msg P_Wire P_Keys.
From Coq Require Import Strings.Byte Strings.String.
Local Open Scope nat_scope.

(** Concrete values used by the examples. *)
Definition ex_key : pubkey := n2b 7 :: n2b 250 :: zeros 29 ++ [n2b 1].
Definition ex_host4 : ip := map n2b [192; 168; 1; 9]%N.
Definition ex_host16 : ip := zeros 10 ++ map n2b [255; 255; 192; 168; 1; 9]%N.
Definition ex_id : ID := NewID ex_key ex_host16 9000.

(** ** C01 *)

(** Layout: key, host, two big-endian port bytes; 50 bytes. *)
Theorem C01_layout : forall key host port,
  List.length key = 32 -> List.length host = 16 -> (port < 65536)%N ->
  ID_marshal (NewID key host port) = key ++ host ++ [n2b (port / 256); n2b port]
  /\ List.length (ID_marshal (NewID key host port)) = 50
  /\ ID_size (NewID key host port) = 50.
Proof.
  intros key host port Hk Hh Hp. split; [|split].
  - unfold ID_marshal. cbn [NewID id_key id_host id_port].
    rewrite !go_copy_full by (rewrite zeros_length; auto). reflexivity.
  - rewrite ID_marshal_length. unfold ID_size. cbn [NewID id_key]. rewrite Hk. reflexivity.
  - unfold ID_size. cbn [NewID id_key]. rewrite Hk. reflexivity.
Qed.

Theorem C01_id_roundtrip : forall key host port trailing,
  List.length key = 32 -> List.length host = 16 -> (port < 65536)%N ->
  exists id, UnmarshalID (ID_marshal (NewID key host port) ++ trailing) = Ok id
        /\ id_key id = key /\ id_host id = host /\ id_port id = port
        /\ id_addr id = id_addr (NewID key host port).
Proof.
  intros key host port tr Hk Hh Hp. exists (NewID key host port).
  rewrite id_roundtrip by assumption. repeat split; reflexivity.
Qed.

Theorem C01_id_encoding_injective : forall e1 e2,
  List.length (id_key e1) = 32 -> List.length (id_key e2) = 32 ->
  List.length (id_host e1) = 16 -> List.length (id_host e2) = 16 ->
  (id_port e1 < 65536)%N -> (id_port e2 < 65536)%N ->
  ID_marshal e1 = ID_marshal e2 ->
  id_key e1 = id_key e2 /\ id_host e1 = id_host e2 /\ id_port e1 = id_port e2.
Proof. exact id_marshal_inj. Qed.

Example C01_nonvacuous :
  List.length ex_key = 32 /\ List.length ex_host16 = 16 /\ (9000 < 65536)%N
  /\ id_addr ex_id = text "192.168.1.9:9000"
  /\ UnmarshalID (ID_marshal ex_id ++ [n2b 3]) = Ok ex_id.
Proof. repeat split; vm_compute; reflexivity. Qed.

(** The address announced for an IPv4 host, whether 4 bytes or IPv4-in-IPv6, is its dotted quad and port; the
    host part is dropped exactly for loopback (127/8) and 0.0.0.0. *)
Definition dec (n : N) : bytes := itoa n.
Theorem C01_v4_address : forall key a b c d port,
  let quad := dec (b2n a) ++ text "." ++ dec (b2n b) ++ text "." ++ dec (b2n c) ++ text "." ++ dec (b2n d) in
  let addr := if ((b2n a =? 127) || ((b2n a =? 0) && (b2n b =? 0) && (b2n c =? 0) && (b2n d =? 0)))%N
              then text ":" ++ dec port else quad ++ text ":" ++ dec port in
  id_addr (NewID key [a; b; c; d] port) = addr /\
  id_addr (NewID key (zeros 10 ++ [n2b 255; n2b 255; a; b; c; d]) port) = addr.
Proof. exact v4_address. Qed.

(** ** C02 *)

(** The documented statement, and its refutation: in fact no non-zero 4-byte host survives. *)
Definition C02_statement : Prop := forall key host port,
  List.length key = 32 -> List.length host = 4 -> (port < 65536)%N ->
  exists id, UnmarshalID (ID_marshal (NewID key host port)) = Ok id
        /\ id_addr id = id_addr (NewID key host port).

Theorem C02_v4_host_lost : forall key host port trailing,
  List.length key = 32 -> List.length host = 4 -> host <> zeros 4 -> (port < 65536)%N ->
  exists id, UnmarshalID (ID_marshal (NewID key host port) ++ trailing) = Ok id
        /\ id_key id = key /\ id_port id = port
        /\ id_host id = host ++ zeros 12
        /\ id_addr id <> id_addr (NewID key host port).
Proof. exact v4_host_never_survives. Qed.

Theorem C02_refuted : ~ C02_statement.
Proof.
  intros H. destruct (H ex_key ex_host4 9000%N eq_refl eq_refl eq_refl) as (id & E & A).
  destruct (C02_v4_host_lost ex_key ex_host4 9000%N [] eq_refl eq_refl) as (id' & E' & _ & _ & _ & N);
    [discriminate | reflexivity |].
  rewrite app_nil_r in E'. assert (id = id') as -> by congruence. contradiction.
Qed.

Example C02_witness :
  id_addr (NewID ex_key ex_host4 9000) = text "192.168.1.9:9000" /\
  exists id, UnmarshalID (ID_marshal (NewID ex_key ex_host4 9000)) = Ok id
        /\ id_addr id = text "[c0a8:109::]:9000".
Proof. split; [vm_compute; reflexivity|]. eexists. split; vm_compute; reflexivity. Qed.

(** ** C03 *)

(** Each decoder, on every byte string: exact acceptance condition and result; never a panic. *)
Theorem C03_UnmarshalID : forall buf,
  (List.length buf < 50 -> UnmarshalID buf = Err ErrUnexpectedEOF) /\
  (50 <= List.length buf -> exists id, UnmarshalID buf = Ok id
     /\ id_key id = firstn 32 buf /\ id_host id = firstn 16 (skipn 32 buf)
     /\ id_port id = be_decode (firstn 2 (skipn 48 buf))).
Proof.
  intros buf. rewrite UnmarshalID_spec. destruct (Nat.ltb_spec (List.length buf) 50) as [H|H].
  - split; [reflexivity | lia].
  - split; [lia|]. intros _. eexists. split; [reflexivity|]. repeat split.
Qed.

Theorem C03_unmarshalMessage : forall buf,
  (List.length buf < 8 -> unmarshalMessage buf = Err ErrUnexpectedEOF) /\
  (8 <= List.length buf -> exists m, unmarshalMessage buf = Ok m
     /\ m_nonce m = be_decode (firstn 8 buf) /\ m_data m = skipn 8 buf).
Proof.
  intros buf. rewrite unmarshalMessage_spec. destruct (Nat.ltb_spec (List.length buf) 8) as [H|H].
  - split; [reflexivity | lia].
  - split; [lia|]. intros _. eexists. split; [reflexivity|]. split; reflexivity.
Qed.

Theorem C03_UnmarshalFindNodeRequest : forall buf,
  (List.length buf <> 32 -> UnmarshalFindNodeRequest buf = Err ErrUnexpectedEOF) /\
  (List.length buf = 32 -> UnmarshalFindNodeRequest buf = Ok buf).
Proof.
  intros buf. rewrite UnmarshalFindNodeRequest_spec. destruct (Nat.eqb_spec (List.length buf) 32); split; auto; lia.
Qed.

Theorem C03_UnmarshalFindNodeResponse : forall buf,
  match buf with
  | [] => UnmarshalFindNodeResponse buf = Err ErrUnexpectedEOF
  | size :: rest =>
      let n := N.to_nat (b2n size) in
      (List.length rest < 50 * n -> UnmarshalFindNodeResponse buf = Err ErrUnexpectedEOF) /\
      (50 * n <= List.length rest -> exists ids,
         UnmarshalFindNodeResponse buf = Ok ids /\ List.length ids = n
         /\ forall i, i < n -> exists id, nth_error ids i = Some id
              /\ UnmarshalID (skipn (50 * i) rest) = Ok id)
  end.
Proof.
  intros buf. rewrite UnmarshalFindNodeResponse_spec. destruct buf as [|size rest]; [reflexivity|]. cbv zeta.
  destruct (Nat.ltb_spec (List.length rest) (50 * N.to_nat (b2n size))) as [H|H].
  - split; [reflexivity | lia].
  - split; [lia|]. intros _. eexists. split; [reflexivity|]. split.
    + rewrite map_length, seq_length. reflexivity.
    + intros i Hi. exists (id_at i rest). split.
      * rewrite nth_error_map, (nth_error_nth' _ 0) by (rewrite seq_length; exact Hi).
        rewrite seq_nth by exact Hi. reflexivity.
      * rewrite UnmarshalID_spec, skipn_length.
        destruct (Nat.ltb_spec (List.length rest - 50 * i) 50) as [X|X]; [lia | reflexivity].
Qed.

Theorem C03_decoders_never_panic : forall buf,
  UnmarshalID buf <> Panic /\ unmarshalMessage buf <> Panic /\ UnmarshalFindNodeRequest buf <> Panic
  /\ UnmarshalFindNodeResponse buf <> Panic /\ UnmarshalPing buf <> Panic /\ UnmarshalMessage buf <> Panic.
Proof.
  intros buf. rewrite UnmarshalID_spec, unmarshalMessage_spec, UnmarshalFindNodeRequest_spec, UnmarshalFindNodeResponse_spec.
  destruct (List.length buf <? 50), (List.length buf <? 8), (List.length buf =? 32), buf as [|s r];
    try destruct (List.length r <? _); repeat split; discriminate.
Qed.

(** The envelope round-trips for every 64-bit nonce and payload. *)
Theorem C03_message_roundtrip : forall nonce data,
  (nonce < 2 ^ 64)%N -> unmarshalMessage (msg_marshal (mkMsg nonce data)) = Ok (mkMsg nonce data).
Proof. intros nonce data H. apply msg_roundtrip. exact H. Qed.

Example C03_nonvacuous :
  UnmarshalID (zeros 50) = Ok (NewID (zeros 32) (zeros 16) 0) /\ UnmarshalID (zeros 49) = Err ErrUnexpectedEOF
  /\ unmarshalMessage (zeros 7 ++ [n2b 5; n2b 9]) = Ok (mkMsg 5 [n2b 9])
  /\ UnmarshalFindNodeResponse (n2b 2 :: zeros 99) = Err ErrUnexpectedEOF
  /\ UnmarshalFindNodeResponse (n2b 2 :: zeros 100) = Ok [NewID (zeros 32) (zeros 16) 0; NewID (zeros 32) (zeros 16) 0].
Proof. repeat split; vm_compute; reflexivity. Qed.

(** ** C04 *)

Theorem C04_hex_roundtrip : forall k, List.length k = 64 -> LoadKeysFromHex (key_string k) = Ok k.
Proof. exact load_roundtrip. Qed.

Theorem C04_accepts_exactly : forall s,
  (exists k, LoadKeysFromHex s = Ok k) <-> (List.length s = 128 /\ Forall (fun c => In c any_hex) s).
Proof. exact load_iff. Qed.

(** The loaded key is the one the digits denote: its lower-case hexadecimal text is the input in lower case. *)
Theorem C04_value : forall s k, LoadKeysFromHex s = Ok k -> hex_text k = map ascii_lower s.
Proof. exact load_text. Qed.

Theorem C04_errors : forall s,
  LoadKeysFromHex s <> Panic
  /\ (Forall (fun c => In c any_hex) s -> Nat.Even (List.length s) -> List.length s <> 128 ->
      LoadKeysFromHex s = Err ErrUnexpectedEOF)
  /\ (Forall (fun c => In c any_hex) s -> Nat.Odd (List.length s) -> LoadKeysFromHex s = Err ErrHexLength)
  /\ (~ Forall (fun c => In c any_hex) s -> LoadKeysFromHex s = Err ErrHexInvalid).
Proof.
  intros s. split; [apply load_never_panics|]. destruct (load_spec s) as (_ & A & B & C). auto.
Qed.

Example C04_nonvacuous :
  let s := text "0aB1" ++ repeat (n2b 102) 124 in
  LoadKeysFromHex s = Ok (n2b 10 :: n2b 177 :: repeat (n2b 255) 62)
  /\ LoadKeysFromHex (text "0aB") = Err ErrHexLength
  /\ LoadKeysFromHex (text "0aBc") = Err ErrUnexpectedEOF
  /\ LoadKeysFromHex (text "0g") = Err ErrHexInvalid.
Proof. repeat split; vm_compute; reflexivity. Qed.

(** ** C23 *)

(** IDs as nodes decode them from the wire or create them from 16-byte hosts. *)
Definition id16 (e : ID) : Prop :=
  exists k h p, e = NewID k h p /\ List.length k = 32 /\ List.length h = 16 /\ (p < 65536)%N.

Theorem C23_request_roundtrip : forall target,
  List.length target = 32 ->
  UnmarshalFindNodeRequest (FindNodeRequest_marshal target) = Ok target.
Proof. intros t H. unfold FindNodeRequest_marshal. apply C03_UnmarshalFindNodeRequest. exact H. Qed.

Theorem C23_response_roundtrip : forall ids trailing,
  Forall id16 ids -> List.length ids <= 255 ->
  UnmarshalFindNodeResponse (FindNodeResponse_marshal ids ++ trailing) = Ok ids.
Proof. exact findnode_response_roundtrip. Qed.

(** Beyond 255 IDs the count wraps and the tail is silently lost; a node never sends that many (C60). *)
Theorem C23_response_overflow : forall ids,
  Forall id16 ids -> 255 < List.length ids ->
  UnmarshalFindNodeResponse (FindNodeResponse_marshal ids) = Ok (firstn (List.length ids mod 256) ids).
Proof. exact findnode_response_overflow. Qed.

(** Every proper prefix of an encoded response is refused. *)
Theorem C23_truncated_refused : forall ids n,
  Forall id16 ids -> List.length ids <= 255 -> n < List.length (FindNodeResponse_marshal ids) ->
  UnmarshalFindNodeResponse (firstn n (FindNodeResponse_marshal ids)) = Err ErrUnexpectedEOF.
Proof. exact findnode_truncated. Qed.

Example C23_nonvacuous :
  id16 ex_id /\ UnmarshalFindNodeResponse (FindNodeResponse_marshal [ex_id; ex_id]) = Ok [ex_id; ex_id]
  /\ List.length (FindNodeResponse_marshal [ex_id; ex_id]) = 101
  /\ UnmarshalFindNodeResponse (firstn 100 (FindNodeResponse_marshal [ex_id; ex_id])) = Err ErrUnexpectedEOF.
Proof.
  split; [|repeat split; vm_compute; reflexivity].
  exists ex_key, ex_host16, 9000%N. repeat split; reflexivity.
Qed.

(** ** C59 *)

Theorem C59_key_text : forall k, key_string k = hex_text k /\ List.length (key_string k) = 2 * List.length k.
Proof. intros k. split; [apply hex_encode_text | apply hex_encode_length]. Qed.

Theorem C59_key_text_injective : forall a b, key_string a = key_string b -> a = b.
Proof. exact hex_encode_inj. Qed.

Theorem C59_key_json : forall k, key_json k = text """" ++ hex_text k ++ text """".
Proof. intros k. unfold key_json, key_string. rewrite hex_encode_text. reflexivity. Qed.

Theorem C59_id_text : forall e,
  ID_string e = text "{""public_key"": """ ++ hex_text (id_key e) ++ text """, ""address"": """ ++ id_addr e ++ text """}".
Proof. intros e. unfold ID_string. rewrite hex_encode_text. reflexivity. Qed.

Theorem C59_id_text_injective : forall e1 e2,
  List.length (id_key e1) = List.length (id_key e2) -> ID_string e1 = ID_string e2 ->
  id_key e1 = id_key e2 /\ id_addr e1 = id_addr e2.
Proof. exact ID_string_inj. Qed.

Example C59_nonvacuous :
  key_string [n2b 10; n2b 255] = text "0aff" /\ key_json [n2b 10] = text """0a"""
  /\ ID_string (NewID [n2b 1] ex_host4 80) = text "{""public_key"": ""01"", ""address"": ""192.168.1.9:80""}".
Proof. repeat split; vm_compute; reflexivity. Qed.

Print Assumptions C01_layout.
Print Assumptions C01_id_roundtrip.
Print Assumptions C01_id_encoding_injective.
Print Assumptions C01_v4_address.
Print Assumptions C02_v4_host_lost.
Print Assumptions C02_refuted.
Print Assumptions C03_UnmarshalID.
Print Assumptions C03_unmarshalMessage.
Print Assumptions C03_UnmarshalFindNodeRequest.
Print Assumptions C03_UnmarshalFindNodeResponse.
Print Assumptions C03_decoders_never_panic.
Print Assumptions C03_message_roundtrip.
Print Assumptions C04_hex_roundtrip.
Print Assumptions C04_accepts_exactly.
Print Assumptions C04_value.
Print Assumptions C04_errors.
Print Assumptions C23_request_roundtrip.
Print Assumptions C23_response_roundtrip.
Print Assumptions C23_response_overflow.
Print Assumptions C23_truncated_refused.
Print Assumptions C59_key_text.
Print Assumptions C59_key_text_injective.
Print Assumptions C59_key_json.
Print Assumptions C59_id_text.
Print Assumptions C59_id_text_injective.
