(** * Model of Kademlia bound to a node: kademlia/protocol.go OnPeerConnected and Ack (82-152, 187-191), run by the goroutine of the client that
    has just completed its handshake, before the client becomes ready (client.go:508-514; ready is closed by handshake's defer), with the dialling
    of Ack's ping through the node's outbound pool.

    On top of M_Callback (the outbound pool, its clients with all their goroutines, and calls made by callbacks) and M_Kad (Ack, step by step).
    Simplified: Kademlia is the only protocol with an OnPeerConnected, and its OnPeerDisconnected does not exist (protocol.go:156-164); the calls
    Ack makes in OnMessageSent and OnMessageRecv, once the client is ready, are among [KcOther]; after a connection has been obtained, the ping has
    any outcome at all.  A worker reports a handler's error (node.go:189) only for a message that has been received, so not before the client is
    ready (M_Client does not say so). *)
From Verif Require Import Base M_ID M_Table M_Maps M_Client M_Dial M_Callback M_Kad.
Local Open Scope nat_scope.

(** An Ack made by OnPeerConnected: the client whose goroutine makes it, where it is, and the call to the node it is in, if any.  kademlia/protocol.go:82-153, 188-190. *)
Record kack := mkKA { a_client : nat; a_pc : kad_pc; a_call : option nat }.
(** The node's outbound pool (node.go:390-441), the table (kademlia/table.go:11-19), the Acks. *)
Record kcstate := mkKC { kc_conn : bstate; kc_table : table; kc_acks : list kack }.
(** After Bind, kademlia/protocol.go:168-184. *)
Definition kc_start (t : table) : kcstate := mkKC b_start t [].

Inductive kcact :=
| KcConn (a : dact)                       (* the pool, its callers and clients *)
| KcConnected (k : nat) (id : ID)         (* client [k] has completed a handshake with [id]: OnPeerConnected (protocol.go:188-190) *)
| KcAck (j : nat) (o : ping_outcome)      (* a step of an Ack *)
| KcOther (op : table_op).                (* another goroutine uses the table: other Acks, OnPingFailed, the application *)

(** Ack has returned, kademlia/protocol.go:82-153. *)
Definition is_done (a : kack) : bool := match a_pc a with KDone => true | _ => false end.
(** handshake does not return before its callbacks have (client.go:508-514). *)
Definition announced (s : kcstate) (k : nat) : bool :=
  match nth_error (ds_clients (b_pool (kc_conn s))) k with
  | Some q => match c_main (k_st q), c_err (k_st q) with
              | MReady, None => existsb (fun a => (a_client a =? k) && is_done a) (kc_acks s)
              | _, _ => true
              end
  | None => true
  end.
(** What the pool's machine may do next: nothing that the comments above rule out.  client.go:508-514, node.go:189. *)
Definition may (s : kcstate) (da : dact) : bool :=
  match da with
  | DaClient k (AMain _) => announced s k
  | DaClient k (AReport _) => match nth_error (ds_clients (b_pool (kc_conn s))) k with Some q => c_ready (k_st q) | None => false end
  | _ => true
  end.
(** protocol.go:109: what Ack goes on with when RequestMessage has returned.  A failure to obtain a connection is an error, after
    OnPingFailed(last.Address) (node.go:418-438, here [KDialFailed]). *)
Definition ping_fits (p : dpc) (o : ping_outcome) : bool :=
  match p, o with DErr _, DialError => true | DOk _ _, DialError => false | DOk _ _, _ => true | _, _ => false end.

Section KadConn.
Variables (max att p idle : nat) (isctx : nat -> bool).

(** A step of Ack other than the call to the node.  A panic (C63) ends the process: no step. *)
Definition ack_step (s : kcstate) (j : nat) (a : kack) (o : ping_outcome) : option kcstate :=
  match kad_step o (kc_table s) (a_pc a) with
  | Ok (t, pc, _) => Some (mkKC (kc_conn s) t (set_nth j (mkKA (a_client a) pc None) (kc_acks s)))
  | _ => None
  end.

(** One step of the pool, of Ack, or of anybody else's use of the table (kademlia/protocol.go:82-153). *)
Definition kcstep (s : kcstate) (x : kcact) : option kcstate :=
  match x with
  | KcConn da =>
      if may s da then
        match bstep max att p idle isctx (kc_conn s) (BaPool da) with Some b => Some (mkKC b (kc_table s) (kc_acks s)) | None => None end
      else None
  | KcConnected k id =>
      match nth_error (ds_clients (b_pool (kc_conn s))) k with
      | Some q => match c_main (k_st q), c_err (k_st q) with
                  | MReady, None => if existsb (fun a => a_client a =? k) (kc_acks s) then None
                                    else Some (mkKC (kc_conn s) (kc_table s) (kc_acks s ++ [mkKA k (KUpdate id) None]))
                  | _, _ => None
                  end
      | None => None
      end
  | KcAck j o =>
      match nth_error (kc_acks s) j with
      | Some a =>
          match a_pc a with
          | KDone => None
          | KPing id last =>
              match a_call a with
              | None =>
                  match bstep max att p idle isctx (kc_conn s) (BaCall (a_client a) (id_addr last)) with
                  | Some b => Some (mkKC b (kc_table s) (set_nth j (mkKA (a_client a) (a_pc a) (Some (length (ds_callers (b_pool (kc_conn s)))))) (kc_acks s)))
                  | None => None
                  end
              | Some i =>
                  match nth_error (ds_callers (b_pool (kc_conn s))) i with
                  | Some c => if ping_fits (d_pc c) o then ack_step s j a o else None
                  | None => None
                  end
              end
          | _ => ack_step s j a o
          end
      | None => None
      end
  | KcOther op => Some (mkKC (kc_conn s) (table_step (kc_table s) op) (kc_acks s))
  end.
(** Several steps, in order (kademlia/protocol.go:82-153, node.go:390-441). *)
Fixpoint kcrun (s : kcstate) (l : list kcact) : option kcstate :=
  match l with [] => Some s | x :: l' => match kcstep s x with Some s' => kcrun s' l' | None => None end end.
End KadConn.
