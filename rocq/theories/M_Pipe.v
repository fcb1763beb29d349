(** * The way of a typed message: encoding, the writer's loop over successive batches, decoding by a handler.

    Glue between M_Codec, M_AEAD (one batch of the writer), M_Handshake and M_Frame (the receiving side). *)
From Verif Require Import Base M_Msg M_AEAD M_Codec.
Local Open Scope nat_scope.

(** node.go:276-283 SendMessage (nonce 0), node.go:288-292 RequestMessage and msg.go:101-108 HandlerContext.SendMessage (the
    nonce of the request): each value is encoded with the node's codec and its bytes are queued with its nonce
    (client.go:340-347).  The first value that cannot be encoded is an error for its caller; nothing is queued for it, and here
    the whole list fails. *)
Fixpoint encode_all (c : codec) (vs : list (N * value)) : res (list message) :=
  match vs with
  | [] => Ok []
  | (n, v) :: vs' =>
      let! data := encode c (Some v) in
      let! ms := encode_all c vs' in
      Ok (mkMsg n data :: ms)
  end.

(** client.go:566-648 writeLoop on a connection that accepts everything: each pass takes the whole queue (line 591) and writes
    it, with the buffer left by the pass before.  Each batch comes with the nonces drawn for it.  The wake-ups, deadlines,
    write errors and the end of the loop are in M_Conn and M_Client. *)
Fixpoint write_batches (grow : nat -> nat -> nat) (A : option aead) (bs : list (list bytes * list message)) (h : heap) (buf : gslice)
  : res (heap * gslice * bytes) :=
  match bs with
  | [] => Ok (h, buf, [])
  | (rnds, ms) :: bs' =>
      let! (r, out) := write_batch grow A rnds h buf ms in
      let '(h1, buf1) := r in
      let! (r', rest) := write_batches grow A bs' h1 buf1 in
      Ok (r', out ++ rest)
  end.

(** client.go:564: the loop starts with buf := make([]byte, 0, 1024). *)
Definition write_loop (grow : nat -> nat -> nat) (A : option aead) (bs : list (list bytes * list message)) : res bytes :=
  let (h, b) := make [] (N.to_nat 1024) in
  let! b0 := reslice b 0 0 in
  let! (_, out) := write_batches grow A bs h b0 in
  Ok out.

(** msg.go:88-90 HandlerContext.DecodeMessage, and node.go:299-302 for the response to RequestMessage. *)
Definition handler_decode (c : codec) (m : message) : res value := decode c (m_data m).
