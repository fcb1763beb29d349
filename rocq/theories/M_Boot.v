(** * Starting a node with protocols: which calls reach a protocol that is not bound yet. *)
From Verif Require Import Base M_Codec M_Kad M_Gossip.
Local Open Scope nat_scope.

(** The protocols an application may pass to Node.Bind (node.go:449-455): the instance [i] of kademlia.Protocol
    (kademlia/protocol.go:156-164), the instance [i] of gossip.Protocol made for the Kademlia instance [overlay]
    (gossip/protocol.go:24-45), or one of its own, whose Bind registers messages and then returns nil or an error.  The callbacks of
    the application's own protocols are not modelled, nor its handlers. *)
Inductive proto := PKad (i : nat) | PGossip (i overlay : nat) | PApp (regs : list (gotype * decoder)) (ok : bool).

(** [b_kads]: the Kademlia instances whose node and table are set, by Bind (kademlia/protocol.go:168-170); before, both are nil.
    [b_gossips]: likewise for gossip (gossip/protocol.go:48-49).  [b_handlers]: the handlers of bound protocols, in order.  What is in
    the tables is left to M_Table and M_Kad. *)
Record boot := mkB {
  b_protos : list proto;
  b_listening : bool;
  b_codec : codec;
  b_kads : list nat;
  b_gossips : list nat;
  b_handlers : list proto
}.

(** node.go:62-102: a new node. *)
Definition new_boot : boot := mkB [] false newCodec [] [] [].

(** Membership in the lists of bound instances; kademlia/protocol.go:82-86 and gossip/protocol.go:61-64 use the fields without looking whether they are set. *)
Definition has_nat (i : nat) (l : list nat) : bool := existsb (Nat.eqb i) l.

(** The Bind of one protocol: kademlia/protocol.go:168-184, gossip/protocol.go:48-55.  RegisterMessage panics for a type that is
    registered (M_Codec.register).  The second component is the error. *)
Definition bind_one (b : boot) (p : proto) : res (boot * bool) :=
  match p with
  | PKad i =>
      let! (c, _) := register_all (b_codec b) kad_registrations in
      Ok (mkB (b_protos b) (b_listening b) c (i :: b_kads b) (b_gossips b) (b_handlers b ++ [p]), true)
  | PGossip i _ =>
      let! (c, _) := register_all (b_codec b) [gossip_registration] in
      Ok (mkB (b_protos b) (b_listening b) c (b_kads b) (i :: b_gossips b) (b_handlers b ++ [p]), true)
  | PApp regs ok =>
      let! (c, _) := register_all (b_codec b) regs in
      Ok (mkB (b_protos b) (b_listening b) c (b_kads b) (b_gossips b) (b_handlers b), ok)
  end.

(** node.go:167-176: the protocols in order, up to the first error. *)
Fixpoint bind_all (b : boot) (l : list proto) : res (boot * bool) :=
  match l with
  | [] => Ok (b, true)
  | p :: r => let! (b1, ok) := bind_one b p in if ok then bind_all b1 r else Ok (b1, false)
  end.

(** The callbacks of the registered protocols: OnPeerConnected, OnMessageSent and OnMessageRecv all call Ack on the Kademlia instance
    (kademlia/protocol.go:188-190, 205-213), OnPingFailed calls DeleteByAddress on its table (193-201).  Both begin by locking the
    table, which is a nil pointer until Bind has run.  gossip.Protocol has none of these callbacks. *)
Definition callback (b : boot) (p : proto) : res unit :=
  match p with PKad i => if has_nat i (b_kads b) then Ok tt else Panic | _ => Ok tt end.
(** The loop over protocols of client.go:508-514 for a connected peer, over all that are bound. *)
Fixpoint callbacks (b : boot) (l : list proto) : res unit :=
  match l with [] => Ok tt | p :: r => let! _ := callback b p in callbacks b r end.

(** The handler of a bound protocol given a gossip message not seen before (gossip/protocol.go:91-125): it is passed on to the entries of the
    overlay's table, a nil pointer if the overlay is not bound.  kademlia's ignores it. *)
Definition handler (b : boot) (p : proto) : res unit :=
  match p with PGossip _ o => if has_nat o (b_kads b) then Ok tt else Panic | _ => Ok tt end.
(** The loop over handlers of node.go:186-187, over the handlers of bound protocols. *)
Fixpoint handlers (b : boot) (l : list proto) : res unit :=
  match l with [] => Ok tt | p :: r => let! _ := handler b p in handlers b r end.

(** Calls, and what happens to the node.
    [UListen opened]: whether net.Listen succeeded and the public address could be parsed (node.go:120-165).
    [UConnected]: a handshake ends, or a message is sent or received, on any connection (client.go:508-514, 548-557, 640-650).
    [UDialFailed]: node.go:415-440.  [UGossip]: a gossip message is handled.
    [UKad i]: Find, Discover, Ping, Ack, or a method of Table() of the Kademlia instance [i]: each uses the node or the table
    (kademlia/protocol.go:48-84).  [UPush i o]: Push of the gossip instance [i] made for the overlay [o] (gossip/protocol.go:61-64).
    [UClose]: Close, once the accept loop has ended (node.go:202-210); without Listen, Close changes nothing and does not return (C62). *)
Inductive use :=
| UBind (l : list proto) | URegister (t : gotype) (d : decoder) | UListen (opened : bool)
| UConnected | UDialFailed | UGossip | UKad (i : nat) | UPush (i o : nat) | UClose.

(** [Panic]: the process crashes.  [Err]: the call returns an error. *)
Definition use_step (b : boot) (u : use) : res boot :=
  match u with
  | UBind l =>                                                     (* node.go:449-455 *)
      if b_listening b then Ok b else Ok (mkB (b_protos b ++ l) false (b_codec b) (b_kads b) (b_gossips b) (b_handlers b))
  | URegister t d =>                                               (* node.go:252-254 *)
      let! (c, _) := register (b_codec b) t d in
      Ok (mkB (b_protos b) (b_listening b) c (b_kads b) (b_gossips b) (b_handlers b))
  | UListen opened =>                                              (* node.go:109-236 *)
      if b_listening b then Ok b
      else if opened
      then let! (b1, ok) := bind_all b (b_protos b) in
           Ok (mkB (b_protos b1) ok (b_codec b1) (b_kads b1) (b_gossips b1) (b_handlers b1))
      else Ok b
  | UConnected | UDialFailed => let! _ := callbacks b (b_protos b) in Ok b
  | UGossip => if b_listening b then let! _ := handlers b (b_handlers b) in Ok b else Ok b
  | UKad i => if has_nat i (b_kads b) then Ok b else Panic
  | UPush i o => if has_nat i (b_gossips b) && has_nat o (b_kads b) then Ok b else Panic
  | UClose => Ok (mkB (b_protos b) false (b_codec b) (b_kads b) (b_gossips b) (b_handlers b))
  end.
(** Several uses of the node, in order; see the uses above (node.go:186-187, client.go:508-514). *)
Fixpoint use_run (b : boot) (l : list use) : res boot :=
  match l with [] => Ok b | u :: r => let! b1 := use_step b u in use_run b1 r end.
