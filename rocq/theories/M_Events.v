(** * Model of the callbacks a client makes (mod.go:26-46): client.go handshake (501-514), outbound and inbound (240-246, 273-279),
    recvLoop (550-556) and writeLoop (643-649).

    One protocol with all four callbacks; with several, each call below is one call per protocol, in the order of Bind. *)
From Verif Require Import Base M_Client.
Local Open Scope nat_scope.

Inductive event :=
| EvConnected       (* OnPeerConnected is called *)
| EvDisconnected    (* OnPeerDisconnected is called *)
| EvSent            (* OnMessageSent is called *)
| EvRecv            (* OnMessageRecv is called *)
| EvGot             (* not a callback: a whole message has been read from the connection *)
| EvResponse.       (* not a callback: a message was given to the request that waits for it (client.go:541-546) *)
Definition event_eq_dec (a b : event) : {a = b} + {a <> b}.
Proof. decide equality. Defined.

(** What a step makes observable.  A step of the reader with a message ([MDispatch]) hands it to the workers, then calls OnMessageRecv
    ([Fine]), or gives it to a waiting request ([Fails]).  mod.go:29-46, client.go:240-246, 273-279, 508-514, 550-556, 643-649. *)
Definition emits (s : cstate) (a : caction) : list event :=
  match a with
  | AMain o =>
      match c_main s, o with
      | MHandshake, Fine => [EvConnected]
      | MRead, Fine => [EvGot]
      | MDispatch, Fine => [EvRecv]
      | MDispatch, Fails _ => [EvResponse]
      | MDisconnected, _ => [EvDisconnected]
      | _, _ => []
      end
  | AWriter _ _ => match c_wr s with WSent => [EvSent] | _ => [] end
  | _ => []
  end.
(** What a run makes observable, in order (mod.go:29-46). *)
Fixpoint events (idle : nat) (s : cstate) (l : list caction) : list event :=
  match l with
  | [] => []
  | a :: l' => match cact idle s a with Some s' => emits s a ++ events idle s' l' | None => [] end
  end.
