(** * Typed calls over one connection: node.go RequestMessage (285-305) and Request, SendMessage (276-283), client.go request (349-380) with map.go's
    request map, recvLoop's matching of responses (541-547), and a handler that answers with msg.go HandlerContext.SendMessage (92-108).

    One node calls another over a connection that it has dialled; any number of its goroutines do so, and the other node's handlers answer in any
    order, or not at all.  Messages are real ones (M_Msg, M_Codec); the connection is a queue of messages in each direction, of which the other end has
    read a part: Props_Calls shows that encryption, framing and reading make it one.  Simplified: the other node has one handler, which calls
    SendMessage at most once per request that succeeds (msg.go:73-75; with more handlers see C32); a call that gives up (client.go:373-374) is one
    that ignores what its channel is sent, so no step of its own. *)
From Verif Require Import Base M_Msg M_Codec M_Maps.
Local Open Scope nat_scope.

(** A message the caller's node has queued: the value, the message, and the channel of the call if it is a request.  client.go:340-347 send, 349-361 request. *)
Record amsg := mkAM { am_val : value; am_msg : message; am_ch : option nat }.
(** A message the other node's handler has queued: the message it answers (an index), the value, the message.  msg.go:101-108 SendMessage. *)
Record bmsg := mkBM { bm_src : nat; bm_val : value; bm_msg : message }.

(** The caller's request map (map.go:99-103), the messages in both directions and how many the other end has read, what calls got back (client.go:349-378). *)
Record cxstate := mkCX {
  cx_map : reqmap;                 (* the caller's client's requests *)
  cx_out : list amsg;              (* queued by the caller's node, oldest first *)
  cx_seen : nat;                   (* how many of them have been given to the other node's handler *)
  cx_back : list bmsg;             (* queued by the other node, oldest first *)
  cx_read : nat;                   (* how many of those the caller's node has read *)
  cx_resp : list (nat * nat);      (* (channel, index into cx_back): sent to the channel *)
  cx_work : list nat               (* given to the caller's node's own handlers *)
}.
(** A connection after its handshake, client.go:88-108, 380-515. *)
Definition cx_start : cxstate := mkCX newRequestMap [] 0 [] 0 [] [].

(** Steps: a call (node.go:276-305), the other end's reader and handler (client.go:517-556, msg.go:101-108), the caller's reader (client.go:541-546). *)
Inductive cxact :=
| CxCall (v : value)               (* RequestMessage(v) *)
| CxSay (v : value)                (* SendMessage(v) *)
| CxServe                          (* the other node reads a message and gives it to its handler *)
| CxAnswer (j : nat) (w : value)   (* the handler of message [j] calls SendMessage(w) *)
| CxRead.                          (* the caller's node reads a message *)

(** The other node's handler has answered message [j], msg.go:72-78. *)
Definition answered (s : cxstate) (j : nat) : bool := existsb (fun b => bm_src b =? j) (cx_back s).

Section Calls.
Variables (cA cB : codec).        (* the codecs of the caller's node and of the other *)

(** A call that fails (a value that cannot be encoded, no free nonce) queues nothing. *)
Definition cxstep (s : cxstate) (a : cxact) : option cxstate :=
  match a with
  | CxCall v =>
      match encode cA (Some v) with
      | Ok data =>
          match nextNonce (cx_map s) with
          | (m, Some (ch, n)) => Some (mkCX m (cx_out s ++ [mkAM v (mkMsg n data) (Some ch)]) (cx_seen s) (cx_back s) (cx_read s) (cx_resp s) (cx_work s))
          | (m, None) => Some (mkCX m (cx_out s) (cx_seen s) (cx_back s) (cx_read s) (cx_resp s) (cx_work s))
          end
      | _ => Some s
      end
  | CxSay v =>
      match encode cA (Some v) with
      | Ok data => Some (mkCX (cx_map s) (cx_out s ++ [mkAM v (mkMsg 0 data) None]) (cx_seen s) (cx_back s) (cx_read s) (cx_resp s) (cx_work s))
      | _ => Some s
      end
  | CxServe => if cx_seen s <? length (cx_out s) then Some (mkCX (cx_map s) (cx_out s) (S (cx_seen s)) (cx_back s) (cx_read s) (cx_resp s) (cx_work s)) else None
  | CxAnswer j w =>
      if j <? cx_seen s then
        match nth_error (cx_out s) j with
        | Some a =>
            match encode cB (Some w) with
            | Ok data =>
                if (0 <? m_nonce (am_msg a))%N && answered s j then Some s   (* the error of msg.go:74 *)
                else Some (mkCX (cx_map s) (cx_out s) (cx_seen s) (cx_back s ++ [mkBM j w (mkMsg (m_nonce (am_msg a)) data)]) (cx_read s) (cx_resp s) (cx_work s))
            | _ => Some s
            end
        | None => None
        end
      else None
  | CxRead =>
      match nth_error (cx_back s) (cx_read s) with
      | Some b =>
          match findRequest (cx_map s) (m_nonce (bm_msg b)) with
          | (m, Some ch) => Some (mkCX m (cx_out s) (cx_seen s) (cx_back s) (S (cx_read s)) (cx_resp s ++ [(ch, cx_read s)]) (cx_work s))
          | (m, None) => Some (mkCX m (cx_out s) (cx_seen s) (cx_back s) (S (cx_read s)) (cx_resp s) (cx_work s ++ [cx_read s]))
          end
      | None => None
      end
  end.
(** Several steps, in order (node.go:276-305, client.go:349-378, 517-556). *)
Fixpoint cxrun (s : cxstate) (l : list cxact) : option cxstate :=
  match l with [] => Some s | a :: l' => match cxstep s a with Some s' => cxrun s' l' | None => None end end.

(** node.go:299-302: what a call returns that was sent message [m]. *)
Definition call_result (m : message) : res value := decode cA (m_data m).
(** msg.go:88-90: what the handler's DecodeMessage returns. *)
Definition handler_sees (m : message) : res value := decode cB (m_data m).
End Calls.
