(** * Model of msg.go (message envelope) and kademlia/msg.go. *)
From Verif Require Import Base M_Addr M_ID.
From Coq Require Import Strings.Byte.
Local Open Scope nat_scope.

(** msg.go:11-14.  nonce is a uint64. *)
Record message := mkMsg { m_nonce : N; m_data : bytes }.

(** msg.go:16-22 marshal(dst): appends eight zero bytes, overwrites the FIRST eight bytes of dst with the
    nonce, appends the data.  dst is always empty in the code (client.go:600-601). *)
Definition msg_marshal_into (dst : bytes) (m : message) : bytes :=
  let d := dst ++ zeros 8 in
  go_copy d (be_encode 8 (m_nonce m)) ++ m_data m.
(** msg.go:16-22 marshal, into an empty slice. *)
Definition msg_marshal (m : message) : bytes := msg_marshal_into [] m.

(** msg.go:24-33 unmarshalMessage. *)
Definition unmarshalMessage (data : bytes) : res message :=
  if List.length data <? 8 then Err ErrUnexpectedEOF else
  let! n := slice_to 8 data in
  let! d := slice_from 8 data in
  Ok (mkMsg (be_decode n) d).

(** msg.go:63-65 IsRequest. *)
Definition IsRequest (m : message) : bool := (0 <? m_nonce m)%N.

(** kademlia/msg.go:10-25: Ping and Pong marshal to nothing and unmarshal from anything. *)
Definition Ping_marshal : bytes := [].
(** kademlia/msg.go:16, and 25 UnmarshalPong. *)
Definition UnmarshalPing (_ : bytes) : res unit := Ok tt.

(** kademlia/msg.go:35-37 FindNodeRequest.Marshal; the request is its target key. *)
Definition FindNodeRequest_marshal (target : pubkey) : bytes := target.

(** kademlia/msg.go:41-52 UnmarshalFindNodeRequest. *)
Definition UnmarshalFindNodeRequest (buf : bytes) : res pubkey :=
  if negb (List.length buf =? SizePublicKey) then Err ErrUnexpectedEOF
  else Ok (go_copy ZeroPublicKey buf).

(** kademlia/msg.go:62-70 FindNodeResponse.Marshal: one length byte (the count modulo 256), then the IDs. *)
Definition FindNodeResponse_marshal (results : list ID) : bytes :=
  n2b (N.of_nat (List.length results)) :: concat (map ID_marshal results).

(** kademlia/msg.go:86-94: the decoding loop, [n] iterations left. *)
Fixpoint unmarshal_ids (n : nat) (buf : bytes) : res (list ID) :=
  match n with
  | O => Ok []
  | S n' =>
      match UnmarshalID buf with
      | Panic => Panic
      | Err _ => Err ErrUnexpectedEOF
      | Ok id =>
          let! buf' := slice_from (ID_size id) buf in
          let! rest := unmarshal_ids n' buf' in
          Ok (id :: rest)
      end
  end.

(** kademlia/msg.go:74-99 UnmarshalFindNodeResponse. *)
Definition UnmarshalFindNodeResponse (buf : bytes) : res (list ID) :=
  match buf with
  | [] => Err ErrUnexpectedEOF
  | size :: rest => unmarshal_ids (N.to_nat (b2n size)) rest
  end.

(** gossip/msg.go:7-14: a gossip message is its bytes. *)
Definition Message_marshal (m : bytes) : bytes := m.
(** gossip/msg.go:12-14 UnmarshalMessage. *)
Definition UnmarshalMessage (data : bytes) : res bytes := Ok data.
