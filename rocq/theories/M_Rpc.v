(** * Typed requests: node.go RequestMessage and the two callers in kademlia (protocol.go Ping, iterator.go lookupRequest). *)
From Verif Require Import Base M_ID M_Msg M_Codec M_Table M_Kad.
Local Open Scope nat_scope.

(** node.go:288-305 RequestMessage.  [net] is what Node.Request (node.go:343-355) returns for the data it is given; its
    connection part is M_Dial and M_Conn.  The first component is the data passed to Request, if it is called at all. *)
Definition RequestMessage (c : codec) (net : bytes -> res bytes) (v : value) : option bytes * res value :=
  match encode c (Some v) with
  | Panic => (None, Panic)
  | Err e => (None, Err e)
  | Ok data => (Some data, let! r := net data in decode c r)
  end.

(** protocol.go:61-72 Protocol.Ping. *)
Definition kad_Ping (c : codec) (net : bytes -> res bytes) : option bytes * res unit :=
  let (sent, r) := RequestMessage c net (mkVal TPing Ping_marshal) in
  (sent, let! v := r in if gotype_eq_dec (v_type v) TPong then Ok tt else Err ErrOther).

(** iterator.go:161-179 lookupRequest: what is sent on it.results ([None]: nothing) and on out ([None]: nil).  A
    FindNodeResponse value is represented by its encoding (M_Kad), so its Results field is read back from that. *)
Definition lookupRequest (c : codec) (net : bytes -> res bytes) (id : ID) : option bytes * res (option ID * option (list ID)) :=
  let (sent, r) := RequestMessage c net (mkVal TFindNodeRequest (FindNodeRequest_marshal (id_key id))) in
  (sent, match r with
         | Panic => Panic
         | Err _ => Ok (None, None)
         | Ok v => if gotype_eq_dec (v_type v) TFindNodeResponse
                   then let! l := UnmarshalFindNodeResponse (v_bytes v) in Ok (Some id, Some l)
                   else Ok (None, None)
         end).

(** What a request gets from a peer whose Kademlia handler is [kad_handle]: the response it sends; an error when it sends
    none (the request times out, or the connection is closed after the handler's error, node.go:178-197). *)
Definition served (c : codec) (t : table) (data : bytes) : res bytes :=
  match kad_handle c t true data with
  | Ok (Some r) => Ok r
  | Ok None => Err ErrOther
  | Err e => Err e
  | Panic => Panic
  end.
