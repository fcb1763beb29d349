(** * Nodes that meet by dialling each other, and what their routing tables hold then: node.go Ping (369-371) and dialIfNotExists (390-413), client.go
    handshake (380-515) at both ends, kademlia/protocol.go OnPeerConnected (188-190), Ack (82-153), OnMessageSent, OnMessageRecv (205-213) and Ping
    (61-72); example_discovery_test.go (12-72).

    A connection's handshake ends at its two ends at different times: each end acknowledges the other (508-514) and only then closes ready (381).  The
    dialling end has all it needs once it has read the other end's second message, which the accepting end sends before it reads its own (459-470).  So
    the dialling end may have finished, and Ping returned, when the accepting end has not.  The accepting end answers requests after its handshake
    (269-270).

    Simplified: dialling and handshakes succeed and connections last; a node that has dialled another may do so again; Ack is Table.Update of a table with
    room (theorems are about networks of at most sixteen nodes). *)
From Verif Require Import Base M_ID M_Table.
Local Open Scope nat_scope.

(** What every node has acknowledged, and the connections with how far their two ends are (client.go:380-515). *)
Record mstate := mkM {
  mt_known : list (ID * ID);    (* (x, y): x has acknowledged y; oldest first *)
  mt_half : list (ID * ID);     (* (x, y): x has dialled y and has finished the handshake, y has not *)
  mt_dialled : list (ID * ID);  (* connections, by dialling end *)
  mt_met : list (ID * ID);      (* those whose handshake has ended at both ends *)
  (* history *)
  mt_pinged : list (ID * ID);   (* (x, y): Node.Ping of y by x has returned *)
  mt_ponged : list (ID * ID)    (* (x, y): Protocol.Ping of y by x has returned *)
}.
(** After Listen of all nodes, example_discovery_test.go:39-49. *)
Definition m_start : mstate := mkM [] [] [] [] [] [].

(** Steps: Ping (node.go:369-371, kademlia/protocol.go:61-72) and the ends of the handshakes (client.go:508-514). *)
Inductive mact :=
| MDial (x y : ID)              (* the handshake of a connection of [x] to [y] ends at [x] *)
| MAccept (j : nat)             (* the [j]th such handshake ends at the other end *)
| MPing (x y : ID)              (* Node.Ping returns *)
| MPong (x y : ID)              (* Protocol.Ping returns *)
| MTalk (x y : ID).             (* a message has been sent or received over a connection: acknowledged again *)

(** Membership among connections or calls; no code of its own (node.go:390-413). *)
Definition has_pair (x y : ID) (l : list (ID * ID)) : bool :=
  existsb (fun p => bytes_eqb (id_key (fst p)) (id_key x) && bytes_eqb (id_key (snd p)) (id_key y)) l.

Definition mstep (s : mstate) (a : mact) : option mstate :=
  match a with
  | MDial x y => Some (mkM (mt_known s ++ [(x, y)]) (mt_half s ++ [(x, y)]) (mt_dialled s ++ [(x, y)]) (mt_met s) (mt_pinged s) (mt_ponged s))
  | MAccept j =>
      match nth_error (mt_half s) j with
      | Some (x, y) => Some (mkM (mt_known s ++ [(y, x)]) (firstn j (mt_half s) ++ skipn (S j) (mt_half s)) (mt_dialled s) (mt_met s ++ [(x, y)]) (mt_pinged s) (mt_ponged s))
      | None => None
      end
  | MPing x y =>
      (* dialIfNotExists: the client is ready (399-412) *)
      if has_pair x y (mt_dialled s) then Some (mkM (mt_known s) (mt_half s) (mt_dialled s) (mt_met s) (mt_pinged s ++ [(x, y)]) (mt_ponged s)) else None
  | MPong x y =>
      (* protocol.go:62: the Pong has come over the connection *)
      if has_pair x y (mt_met s) then Some (mkM (mt_known s) (mt_half s) (mt_dialled s) (mt_met s) (mt_pinged s) (mt_ponged s ++ [(x, y)])) else None
  | MTalk x y =>
      if has_pair x y (mt_known s) then Some (mkM (mt_known s ++ [(x, y)]) (mt_half s) (mt_dialled s) (mt_met s) (mt_pinged s) (mt_ponged s)) else None
  end.
(** Several steps, in order (node.go:369-371, client.go:508-514). *)
Fixpoint mrun (s : mstate) (l : list mact) : option mstate :=
  match l with [] => Some s | a :: l' => match mstep s a with Some s' => mrun s' l' | None => None end end.

(** What [x] has acknowledged, in order.  kademlia/protocol.go:82-153. *)
Definition acked (s : mstate) (x : ID) : list ID := map snd (filter (fun p => bytes_eqb (id_key (fst p)) (id_key x)) (mt_known s)).
