(** * Model of id.go and keys.go. *)
From Verif Require Import Base M_Addr.
From Coq Require Import Strings.Byte Strings.String.
Local Open Scope nat_scope.

(** keys.go:13-22: ed25519 sizes. *)
Definition SizePublicKey : nat := 32.
(** keys.go:18. *)
Definition SizePrivateKey : nat := 64.
(** keys.go:21. *)
Definition SizeSignature : nat := 64.
(** net.IPv6len, used at id.go:37,56,57,74-81. *)
Definition IPv6len : nat := 16.

(** keys.go:24-33: fixed-size arrays, modelled as byte lists; [wf_key] etc. state the size. *)
Definition pubkey := bytes.
(** keys.go:29, an array of that size. *)
Definition privkey := bytes.
(** keys.go:32, an array of that size. *)
Definition signature := bytes.

(** keys.go:35-44. *)
Definition ZeroPublicKey : pubkey := zeros SizePublicKey.
(** keys.go:40. *)
Definition ZeroPrivateKey : privkey := zeros SizePrivateKey.

(** id.go:15-27.  Port is a uint16. *)
Record ID := mkID { id_key : pubkey; id_host : ip; id_port : N; id_addr : bytes }.

(** id.go:30-33 NewID. *)
Definition NewID (k : pubkey) (host : ip) (port : N) : ID :=
  mkID k host port (join_host_port (normalize_ip host) (itoa port)).

(** The zero value ID{} (id.go:66, kademlia/table.go:129). *)
Definition ZeroID : ID := mkID ZeroPublicKey [] 0 [].

(** id.go:36-38 Size. *)
Definition ID_size (e : ID) : nat := List.length (id_key e) + IPv6len + 2.

(** id.go:52-60 Marshal: a zeroed buffer of Size() bytes; the key is copied first, then Host is copied
    into a 16-byte window, then the port is stored big-endian. *)
Definition ID_marshal (e : ID) : bytes :=
  go_copy (zeros (List.length (id_key e))) (id_key e)
  ++ go_copy (zeros IPv6len) (id_host e)
  ++ be_encode 2 (id_port e).

(** id.go:64-90 UnmarshalID, with Go's bounds checks on every slice expression. *)
Definition UnmarshalID (buf : bytes) : res ID :=
  if List.length buf <? SizePublicKey then Err ErrUnexpectedEOF else
  let! k := slice_to SizePublicKey buf in
  let id := go_copy ZeroPublicKey k in
  let! buf := slice_from SizePublicKey buf in
  if List.length buf <? IPv6len then Err ErrUnexpectedEOF else
  let! h := slice_to IPv6len buf in
  let host := go_copy (zeros IPv6len) h in
  let! buf := slice_from IPv6len buf in
  if List.length buf <? 2 then Err ErrUnexpectedEOF else
  let! p := slice_to 2 buf in
  Ok (NewID id host (be_decode p)).

(** id.go:41-49 ID.String. *)
Definition ID_string (e : ID) : bytes :=
  str "{""public_key"": """ ++ hex_encode (id_key e) ++ str """, ""address"": """ ++ id_addr e ++ str """}".

(** encoding/hex: fromHexChar, reached from keys.go:64. *)
Definition from_hex_char (c : byte) : option N :=
  let n := b2n c in
  if ((48 <=? n) && (n <=? 57))%N then Some (n - 48)%N
  else if ((97 <=? n) && (n <=? 102))%N then Some (n - 87)%N
  else if ((65 <=? n) && (n <=? 70))%N then Some (n - 55)%N
  else None.

(** encoding/hex.DecodeString (keys.go:64): pairs of digits from the left; an invalid digit is reported
    before an odd length. *)
Fixpoint hex_decode (s : bytes) : res bytes :=
  match s with
  | [] => Ok []
  | [c] => match from_hex_char c with Some _ => Err ErrHexLength | None => Err ErrHexInvalid end
  | c1 :: c2 :: s' =>
      match from_hex_char c1, from_hex_char c2 with
      | Some a, Some b => let! r := hex_decode s' in Ok (n2b (a * 16 + b) :: r)
      | _, _ => Err ErrHexInvalid
      end
  end.

(** keys.go:63-79 LoadKeysFromHex. *)
Definition LoadKeysFromHex (secretHex : bytes) : res privkey :=
  match hex_decode secretHex with
  | Err e => Err e
  | Panic => Panic
  | Ok secret =>
      if negb (List.length secret =? SizePrivateKey) then Err ErrUnexpectedEOF
      else Ok (go_copy ZeroPrivateKey secret)
  end.

(** keys.go:87-89,102-104,120-122: String of PublicKey, PrivateKey and Signature. *)
Definition key_string (k : bytes) : bytes := hex_encode k.

(** keys.go:92-94,107-109,125-127: MarshalJSON.  json.Marshal of a string adds double quotes; hexadecimal
    digits are never escaped. *)
Definition quote : byte := n2b 34.
(** keys.go:92-94, 107-109, 125-127 MarshalJSON. *)
Definition key_json (k : bytes) : bytes := quote :: key_string k ++ [quote].

(** keys.go:112-117 Public: ed25519.PrivateKey.Public copies the last 32 bytes of the private key. *)
Definition Public (k : privkey) : pubkey := go_copy ZeroPublicKey (skipn 32 k).

(** keys.go:131-134 UnmarshalSignature: panics unless index 63 exists, then reinterprets the first 64 bytes. *)
Definition UnmarshalSignature (data : bytes) : res signature :=
  if List.length data <=? SizeSignature - 1 then Panic else Ok (firstn SizeSignature data).

(** Well-formedness of values of the fixed-size Go types.  keys.go:26, id.go:17: Go's types guarantee it. *)
Definition wf_key (k : bytes) : bool := List.length k =? SizePublicKey.
(** id.go:23 (uint16): Go's types guarantee it. *)
Definition wf_port (p : N) : bool := (p <? 65536)%N.
