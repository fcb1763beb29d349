(** * Model of the handling of received messages: client.go recvLoop (548), node.go's workers (178-197), msg.go Send (72-78).

    Any number of connections, whose readers queue messages on the node's work channel, and the node's workers, which call the
    handlers.  What handlers do is up to the environment: they call Send any number of times (also from goroutines that
    outlive them), and return nil or an error.  Responses to pending requests are not queued (M_Conn) and closing the
    work channel is part of shutting down (M_Close). *)
From Verif Require Import Base M_Table.
Local Open Scope nat_scope.

(** msg.go:37-41 HandlerContext, without its flag: number of the message, connection, nonce. *)
Record wctx := mkX { x_id : nat; x_conn : nat; x_nonce : N }.

(** One call handler(ctx) (node.go:187).  The context is passed by value, so the flag [sent] (msg.go:40) is the call's own. *)
Record inv := mkInv { iv_ctx : wctx; iv_handler : nat; iv_sent : bool; iv_ret : option bool (* nil returned? *) }.

(** Program points of a worker. *)
Inductive wk :=
| WIdle                                  (* node.go:185 *)
| WNext (c : wctx) (k : nat)             (* 186, before handler [k] *)
| WRun (c : wctx) (k : nat) (i : nat)    (* 187, in call number [i] *)
| WGone.                                 (* 192 *)

(** A call of Send: on the context of call [sd_call], for message [sd_ctx]; whether it was queued for the peer or refused.  msg.go:72-78. *)
Record wsend := mkSend { sd_call : nat; sd_ctx : wctx; sd_data : nat; sd_ok : bool }.

Record wstate := mkWS {
  ws_workers : list wk;
  ws_queue : list wctx;                  (* n.work, capacity numWorkers (178) *)
  ws_readers : list (option wctx);       (* per connection: the message its reader is queueing *)
  ws_closed : list bool;                 (* per connection: close() was called by a worker (190) *)
  ws_calls : list inv;
  (* history *)
  ws_recv : list wctx;                   (* messages read, in order *)
  ws_queued : list wctx;                 (* messages queued, in order *)
  ws_taken : list wctx;                  (* messages taken by workers, in order *)
  ws_done : list (nat * bool);           (* messages the workers are done with; false: a handler returned an error *)
  ws_sends : list wsend                  (* calls of Send *)
}.

(** A node with [w] workers and [n] connections.  node.go:178-197. *)
Definition w_start (w n : nat) : wstate := mkWS (repeat WIdle w) [] (repeat None n) (repeat false n) [] [] [] [] [] [].

(** Steps of readers (client.go:521-548), workers (node.go:181-195) and handlers (msg.go:72-78). *)
Inductive wact :=
| WaRecv (c : nat) (nonce : N)    (* the reader of connection [c] reads a message *)
| WaPut (c : nat)                 (* and queues it *)
| WaTake (j : nat)                (* worker [j] takes a message *)
| WaStart (j : nat)               (* and calls the next handler, or is done with the message *)
| WaReturn (j : nat) (ok : bool)  (* the handler returns *)
| WaSend (i d : nat).             (* Send is called on the context of call [i] *)

(** [w]: number of workers; [h]: number of handlers. *)
Definition wstep (w h : nat) (s : wstate) (a : wact) : option wstate :=
  match a with
  | WaRecv c nonce =>
      (* client.go:521-541 *)
      match nth_error (ws_readers s) c with
      | Some None =>
          let x := mkX (length (ws_recv s)) c nonce in
          Some (mkWS (ws_workers s) (ws_queue s) (set_nth c (Some x) (ws_readers s)) (ws_closed s) (ws_calls s) (ws_recv s ++ [x]) (ws_queued s) (ws_taken s) (ws_done s) (ws_sends s))
      | _ => None
      end
  | WaPut c =>
      (* client.go:548 *)
      match nth_error (ws_readers s) c with
      | Some (Some x) =>
          if length (ws_queue s) <? w then
            Some (mkWS (ws_workers s) (ws_queue s ++ [x]) (set_nth c None (ws_readers s)) (ws_closed s) (ws_calls s) (ws_recv s) (ws_queued s ++ [x]) (ws_taken s) (ws_done s) (ws_sends s))
          else None
      | _ => None
      end
  | WaTake j =>
      (* node.go:185 *)
      match nth_error (ws_workers s) j, ws_queue s with
      | Some WIdle, x :: q =>
          Some (mkWS (set_nth j (WNext x 0) (ws_workers s)) q (ws_readers s) (ws_closed s) (ws_calls s) (ws_recv s) (ws_queued s) (ws_taken s ++ [x]) (ws_done s) (ws_sends s))
      | _, _ => None
      end
  | WaStart j =>
      (* node.go:186-187 *)
      match nth_error (ws_workers s) j with
      | Some (WNext x k) =>
          if k <? h then
            Some (mkWS (set_nth j (WRun x k (length (ws_calls s))) (ws_workers s)) (ws_queue s) (ws_readers s) (ws_closed s) (ws_calls s ++ [mkInv x k false None])
                       (ws_recv s) (ws_queued s) (ws_taken s) (ws_done s) (ws_sends s))
          else
            Some (mkWS (set_nth j WIdle (ws_workers s)) (ws_queue s) (ws_readers s) (ws_closed s) (ws_calls s) (ws_recv s) (ws_queued s) (ws_taken s) (ws_done s ++ [(x_id x, true)]) (ws_sends s))
      | _ => None
      end
  | WaReturn j ok =>
      (* node.go:187-193 *)
      match nth_error (ws_workers s) j with
      | Some (WRun x k i) =>
          match nth_error (ws_calls s) i with
          | Some v =>
              let calls := set_nth i (mkInv (iv_ctx v) (iv_handler v) (iv_sent v) (Some ok)) (ws_calls s) in
              if ok then
                Some (mkWS (set_nth j (WNext x (S k)) (ws_workers s)) (ws_queue s) (ws_readers s) (ws_closed s) calls (ws_recv s) (ws_queued s) (ws_taken s) (ws_done s) (ws_sends s))
              else
                Some (mkWS (set_nth j WGone (ws_workers s)) (ws_queue s) (ws_readers s) (set_nth (x_conn x) true (ws_closed s)) calls (ws_recv s) (ws_queued s) (ws_taken s)
                           (ws_done s ++ [(x_id x, false)]) (ws_sends s))
          | None => None
          end
      | _ => None
      end
  | WaSend i d =>
      (* msg.go:72-78 *)
      match nth_error (ws_calls s) i with
      | Some v =>
          let request := (0 <? x_nonce (iv_ctx v))%N in
          if request && iv_sent v then
            Some (mkWS (ws_workers s) (ws_queue s) (ws_readers s) (ws_closed s) (ws_calls s) (ws_recv s) (ws_queued s) (ws_taken s) (ws_done s) (ws_sends s ++ [mkSend i (iv_ctx v) d false]))
          else
            Some (mkWS (ws_workers s) (ws_queue s) (ws_readers s) (ws_closed s) (set_nth i (mkInv (iv_ctx v) (iv_handler v) (iv_sent v || request) (iv_ret v)) (ws_calls s))
                       (ws_recv s) (ws_queued s) (ws_taken s) (ws_done s) (ws_sends s ++ [mkSend i (iv_ctx v) d true]))
      | None => None
      end
  end.
(** Several steps, in order (client.go:521-548, node.go:181-195). *)
Fixpoint wrun (w h : nat) (s : wstate) (l : list wact) : option wstate :=
  match l with [] => Some s | a :: l' => match wstep w h s a with Some s' => wrun w h s' l' | None => None end end.
