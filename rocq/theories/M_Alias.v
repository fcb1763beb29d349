(** * IDs as Go values: a struct whose Host is a slice, shared by all copies of the struct. *)
From Verif Require Import Base M_Addr M_ID.
Local Open Scope nat_scope.

(** id.go:15-27, with Host as a reference to an array; copying the struct copies the reference.  (Slices of parts of an array do not
    occur: every Host is a whole one.) *)
Record idv := mkV { v_key : pubkey; v_host : nat; v_port : N; v_addr : bytes }.

(** The arrays; the IDs that the node keeps: its own (node.go:34), those of its connections (client.go:50), those in the routing table
    (kademlia/table.go:14); and what the application has: slices it made, and IDs it was given or made. *)
Record world := mkW { w_heap : list bytes; w_node : idv; w_conns : list idv; w_table : list idv; w_slices : list nat; w_held : list idv }.

(** What somebody reading an ID value sees: id.go:15-27. *)
Definition see (w : world) (v : idv) : ID := mkID (v_key v) (nth (v_host v) (w_heap w) []) (v_port v) (v_addr v).

(** id.go:30-33 NewID: Host is the slice that was passed. *)
Definition new_idv (heap : list bytes) (k : pubkey) (host : nat) (port : N) : idv :=
  mkV k host port (id_addr (NewID k (nth host heap []) port)).

(** id.go:64-90 UnmarshalID: Host is a new array (line 76). *)
Definition unmarshal_idv (heap : list bytes) (buf : bytes) : option (list bytes * idv) :=
  match UnmarshalID buf with
  | Ok id => Some (heap ++ [id_host id], mkV (id_key id) (length heap) (id_port id) (id_addr id))
  | _ => None
  end.

(** Where the application may take an ID from: node.go:511-513, client.go:114-116, and kademlia/table.go:41-61, 154-213
    (Last, Bucket, Peers, FindClosest and Entries return the values that the table holds). *)
Inductive place := PNode | PConn (i : nat) | PTable (i : nat).
(** The ID at a place: node.go:511-513, client.go:114-116, kademlia/table.go:154-156. *)
Definition find_place (w : world) (p : place) : option idv :=
  match p with PNode => Some (w_node w) | PConn i => nth_error (w_conns w) i | PTable i => nth_error (w_table w) i end.

(** A handshake that completed with these bytes for the peer's ID (client.go:472, 497); Ack of a connection's ID that the table admits
    (kademlia/table.go:85); bytes of an ID in a response of which the application is given the IDs (kademlia/msg.go:74-100, the
    results of Find); the application taking an ID, making a slice, making an ID of it, and writing to Host of an ID that it has. *)
Inductive op :=
  | OHandshake (buf : bytes) | OAdmit (i : nat) | OResult (buf : bytes)
  | OTake (p : place) | OSlice (b : bytes) | ONewID (k : pubkey) (s : nat) (port : N) | OWrite (h i : nat) (b : byte).

(** Assigning to an element of a slice, such as Host of id.go:20. *)
Fixpoint upd {A} (n : nat) (x : A) (l : list A) : list A :=
  match l, n with [], _ => [] | _ :: r, O => x :: r | y :: r, S n => y :: upd n x r end.

(** One of these.  An index out of range changes nothing (in Go, the writer panics).  id.go:30-90, client.go:472-497, node.go:511-513. *)
Definition astep (w : world) (o : op) : world :=
  match o with
  | OHandshake buf => match unmarshal_idv (w_heap w) buf with
      | Some (h, v) => mkW h (w_node w) (w_conns w ++ [v]) (w_table w) (w_slices w) (w_held w) | None => w end
  | OAdmit i => match nth_error (w_conns w) i with
      | Some v => mkW (w_heap w) (w_node w) (w_conns w) (w_table w ++ [v]) (w_slices w) (w_held w) | None => w end
  | OResult buf => match unmarshal_idv (w_heap w) buf with
      | Some (h, v) => mkW h (w_node w) (w_conns w) (w_table w) (w_slices w) (w_held w ++ [v]) | None => w end
  | OTake p => match find_place w p with
      | Some v => mkW (w_heap w) (w_node w) (w_conns w) (w_table w) (w_slices w) (w_held w ++ [v]) | None => w end
  | OSlice b => mkW (w_heap w ++ [b]) (w_node w) (w_conns w) (w_table w) (w_slices w ++ [length (w_heap w)]) (w_held w)
  | ONewID k s port => match nth_error (w_slices w) s with
      | Some r => mkW (w_heap w) (w_node w) (w_conns w) (w_table w) (w_slices w) (w_held w ++ [new_idv (w_heap w) k r port]) | None => w end
  | OWrite h i b => match nth_error (w_held w) h with
      | Some v => mkW (upd (v_host v) (upd i b (nth (v_host v) (w_heap w) [])) (w_heap w)) (w_node w) (w_conns w) (w_table w) (w_slices w) (w_held w)
      | None => w end
  end.

(** node.go:132-165: Listen makes the ID from a host that nobody else has (the listener's address, or what net.ParseIP returned), and
    kademlia/protocol.go:170 with kademlia/table.go:21-33 puts the node's own ID into the table. *)
Definition listened (k : pubkey) (host : bytes) (port : N) : world :=
  let v := new_idv [host] k 0 port in mkW [host] v [] [v] [] [].

(** What the node tells others of an ID that it keeps, at this moment: of its own in a handshake (client.go:455), of one in its table in
    the answer to a FindNodeRequest (kademlia/protocol.go:232, kademlia/msg.go:66). *)
Definition tells (w : world) (v : idv) : bytes := ID_marshal (see w v).
