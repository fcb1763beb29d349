(** * Model of Client.handshake (client.go:380-515) and of what inbound/outbound do with its result. *)
From Verif Require Import Base M_Addr M_ID M_Msg M_AEAD M_Frame.
From Coq Require Import Strings.Byte Strings.String.
Local Open Scope nat_scope.

(** The cryptography handshake calls: keys.go Sign/Verify (oasislabs/ed25519), ECDH (ecdh.go:52-59, see M_Ecdh),
    aes.NewCipher followed by cipher.NewGCM (client.go:439-449). *)
Record crypto := mkCrypto {
  sign : privkey -> bytes -> signature;
  verify : pubkey -> bytes -> signature -> bool;
  ecdh : privkey -> pubkey -> res bytes;
  gcm : bytes -> res aead
}.

(** What one run of handshake depends on besides its input: the node's ID and private key, the result of GenerateKeys,
    the bytes rand.Read draws for the one encryption, and the errors of its two writes, if any.  client.go:380-515. *)
Record hs_env := mkEnv {
  he_id : ID;
  he_key : privkey;
  he_eph : res (pubkey * privkey);
  he_rnd : bytes;
  he_w1 : option goerr;
  he_w2 : option goerr
}.

(** What it leaves behind: the bytes written to the connection, the reader, c.suite, and either the peer's ID (then c.id
    is set, c.err is nil and OnPeerConnected has been called) or the error reported (then c.id is still ID{}).  client.go:380-515. *)
Record hs_result := mkHS { hr_sent : bytes; hr_rd : rstate; hr_suite : option aead; hr_peer : res ID }.

(** client.go:393. *)
Definition banner : bytes := list_byte_of_string ".__noise_handshake".

(** client.go:408-425: the first message. *)
Definition hs_open (C : crypto) (data : bytes) : res pubkey :=
  if negb (List.length data =? SizePublicKey + SizeSignature) then Err ErrOther else
  let! k := slice_to SizePublicKey data in
  let peer := go_copy ZeroPublicKey k in
  let! s := slice SizePublicKey (SizePublicKey + SizeSignature) data in
  let! sg := UnmarshalSignature s in
  if verify C peer banner sg then Ok peer else Err ErrOther.

(** client.go:472-495: the second message. *)
Definition hs_check (C : crypto) (shared data : bytes) : res ID :=
  let! id := UnmarshalID data in
  let buf := go_copy (zeros (ID_size id)) data in
  if negb (List.length data =? List.length buf + SizeSignature) then Err ErrOther else
  let! s := slice (List.length buf) (List.length buf + SizeSignature) data in
  let! sg := UnmarshalSignature s in
  if verify C (id_key id) (buf ++ shared) sg then Ok id else Err ErrOther.

(** client.go:380-515.  [L] is maxRecvMessageSize.  The messages are framed by write (client.go:315-338), encrypted once
    c.suite is set.  A failed write is taken to have transmitted nothing. *)
Definition handshake (C : crypto) (L : N) (e : hs_env) (st : rstate) : hs_result :=
  match he_eph e with
  | Err er => mkHS [] st None (Err er)
  | Panic => mkHS [] st None Panic
  | Ok (pub, sec) =>
      let f1 := frame_bytes None [] (pub ++ sign C sec banner) in
      match he_w1 e with
      | Some er => mkHS [] st None (Err er)
      | None =>
          let (st1, r1) := client_read L None st in
          match (let! data := r1 in
                 let! peer := hs_open C data in
                 let! shared := ecdh C sec peer in
                 let! suite := gcm C shared in
                 Ok (shared, suite)) with
          | Err er => mkHS f1 st1 None (Err er)
          | Panic => mkHS f1 st1 None Panic
          | Ok (shared, suite) =>
              let buf := ID_marshal (he_id e) in
              let f2 := frame_bytes (Some suite) (he_rnd e) (buf ++ sign C (he_key e) (buf ++ shared)) in
              match he_w2 e with
              | Some er => mkHS f1 st1 (Some suite) (Err er)
              | None =>
                  let (st2, r2) := client_read L (Some suite) st1 in
                  mkHS (f1 ++ f2) st2 (Some suite) (let! data := r2 in hs_check C shared data)
              end
          end
      end
  end.

(** client.go:249-280 inbound: the messages recvLoop decodes after the handshake, in order, and how it ended; nothing is
    read after a failed handshake (lines 264-267).  [fuel] bounds the number of messages ([None]: it ran out). *)
Definition inbound_recv (C : crypto) (L : N) (e : hs_env) (fuel : nat) (c : conn) : res ID * option (list message * res unit) :=
  let h := handshake C L e (new_rstate L c) in
  (hr_peer h, match hr_peer h with
              | Ok _ => recv_all fuel L (hr_suite h) (hr_rd h)
              | Err er => Some ([], Err er)
              | Panic => Some ([], Panic)
              end).

(** client.go:208-247 outbound: line 232 ignores whether the handshake failed; recvLoop runs in any case (unless the
    process has crashed). *)
Definition outbound_recv (C : crypto) (L : N) (e : hs_env) (fuel : nat) (c : conn) : res ID * option (list message * res unit) :=
  let h := handshake C L e (new_rstate L c) in
  (hr_peer h, match hr_peer h with
              | Panic => Some ([], Panic)
              | _ => recv_all fuel L (hr_suite h) (hr_rd h)
              end).
