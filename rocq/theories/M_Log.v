(** * What a connection writes to the logger. *)
From Verif Require Import Base M_Addr M_ID M_Msg M_AEAD M_Frame M_Handshake.
From Coq Require Import Strings.Byte Strings.String.
Import List.ListNotations.
Local Open Scope list_scope.
Local Open Scope nat_scope.

(** The zap levels used in client.go and node.go. *)
Inductive level := Debug | Info | Warn.
(** A zap.Field, as at client.go:499-504. *)
Definition field : Type := bytes * bytes.
(** An entry written with zap, as at client.go:506 and node.go:212-217. *)
Record entry := mkEntry { en_level : level; en_text : bytes; en_fields : list field }.

(** client.go:427-437: the ECDH secret that handshake computes. *)
Definition session_key (C : crypto) (L : N) (e : hs_env) (st : rstate) : res bytes :=
  let! (_, sec) := he_eph e in
  let! data := snd (client_read L None st) in
  let! peer := hs_open C data in
  ecdh C sec peer.

(** client.go:497-504: the fields added to the client's logger when the handshake succeeds; [base] are those of the node's
    logger (client.go:105), [remote] is the connection's remote address. *)
Definition session_fields (id : ID) (remote shared : bytes) : list field :=
  [(str "peer_id"%string, key_string (id_key id)); (str "peer_addr"%string, id_addr id); (str "remote_addr"%string, remote); (str "session_key"%string, hex_encode shared)].
(** The fields of the client's logger, client.go:105, 499-504. *)
Definition client_fields (C : crypto) (L : N) (e : hs_env) (base : list field) (remote : bytes) (st : rstate) : list field :=
  match hr_peer (handshake C L e st), session_key C L e st with
  | Ok id, Ok shared => base ++ session_fields id remote shared
  | _, _ => base
  end.

(** What is logged on a connection: line 506 after a successful handshake; lines 523-525 and 533 when recvLoop ends, unless isEOF
    (653-667) holds of the read's error ([quiet]; the two texts are not told apart, and the text of the error is left out); line 238
    on outbound connections.  writeLoop's warnings (579-636) carry the same fields and are left out. *)
Definition conn_log (C : crypto) (L : N) (e : hs_env) (base : list field) (remote : bytes) (quiet : goerr -> bool) (outb : bool) (fuel : nat) (c : conn) : list entry :=
  let st := new_rstate L c in
  let fs := client_fields C L e base remote st in
  let (peer, r) := if outb then outbound_recv C L e fuel c else inbound_recv C L e fuel c in
  match peer with Ok _ => [mkEntry Debug (str "Peer connection opened."%string) fs] | _ => [] end ++
  match r with
  | Some (_, Err er) => if negb outb && negb (match peer with Ok _ => true | _ => false end) || quiet er then []
                        else [mkEntry Warn (str "Got an error while reading incoming messages."%string) fs]
  | _ => []
  end ++
  match outb, r with true, Some (_, Err _) => [mkEntry Debug (str "Peer connection closed."%string) fs] | _, _ => [] end.

(** A zap core drops the entries below its level.  The loggers are given at node_options.go:84-93. *)
Definition at_least (l : level) (x : entry) : bool := match l, en_level x with Warn, Debug | Warn, Info | Info, Debug => false | _, _ => true end.
