(** * Model of requests on one connection: client.go request (349-378), recvLoop (517-558), map.go's requestMap (99-158),
    msg.go HandlerContext.Send (72-78), for one client that issues requests and the peer that answers them.

    The requester's goroutines (any number of concurrent calls of request and send, and its reader), and the peer, whose
    handlers answer any pending request at most once, at any time and in any order, and send messages of their own.  The two
    directions of the connection are FIFO queues ([C34_fifo]); writerBuf and the wire are one queue.  Peer side: only the
    messages received and not answered matter.  Bytes, frames and encryption are not modelled here (C06-C11). *)
From Verif Require Import Base M_Table M_Maps M_Gossip.
Local Open Scope nat_scope.

(** msg.go:11-14 message.  [km_tag] is not part of the message: it records which call of request it belongs to. *)
Record kmsg := mkMsg { km_nonce : N; km_data : nat; km_tag : option nat }.

(** What request returns.  client.go:349-378. *)
Inductive rqres := RData (d : nat) | RNoNonce | REof | RCancelled.
(** Program points of request. *)
Inductive rqpc := RqStart (* 352 *) | RqSend (* 359 *) | RqWait (* 368 *) | RqDone (r : rqres).
(** A call: its data, program point, and channel and nonce once it has them.  client.go:349-378. *)
Record rq := mkRq { rq_data : nat; rq_pc : rqpc; rq_slot : option (nat * N) }.

(** Program points of recvLoop. *)
Inductive kreader :=
| KRead                        (* 521-541 *)
| KGive (ch : nat) (m : kmsg)  (* 542 *)
| KClose (ch : nat)            (* 543 *)
| KWork (m : kmsg)             (* 548 *)
| KStopped.                    (* the loop has ended *)

(** A channel made by nextNonce: its buffer (capacity 1, map.go:124) and whether it is closed. *)
Record kchan := mkChan { kc_buf : option kmsg; kc_closed : bool }.

(** One connection: the requesting client's map (map.go:99-103), its writer and reader (client.go:517-651), the calls of request (349-378). *)
Record kstate := mkK {
  k_map : reqmap;
  k_reqs : list rq;            (* the calls, by number *)
  k_chans : list kchan;        (* the channels, by number of creation *)
  k_reader : kreader;
  k_out : list kmsg;           (* accepted, not yet received by the peer *)
  k_pend : list kmsg;          (* requests the peer has received and not answered *)
  k_in : list kmsg;            (* sent by the peer, not yet read *)
  k_panic : bool;              (* a goroutine sent to, or closed, a closed channel *)
  (* history *)
  k_work : list kmsg;          (* handed to the workers *)
  k_answers : list (nat * nat) (* call and the data the peer's handler answered it with *)
}.

(** A new connection.  client.go:88-108. *)
Definition k_start : kstate := mkK newRequestMap [] [] KRead [] [] [] false [] [].

(** Steps of request (client.go:349-378), of the other end, and of the reader (517-556). *)
Inductive kact :=
| KCall (d : nat)              (* some goroutine calls request *)
| KNonce (i : nat)             (* call [i] runs nextNonce *)
| KSendReq (i : nat)           (* call [i] runs send *)
| KSendMsg (d : nat)           (* some goroutine calls send with nonce 0 *)
| KDeliver                     (* the peer receives the next message *)
| KAnswer (j d : nat)          (* a handler of the peer answers the [j]th of its pending requests *)
| KPeerSend (d : nat)          (* the peer sends a message that is no response *)
| KRecv                        (* the reader reads the next message and runs findRequest *)
| KStep                        (* the reader's next step, when it is not reading *)
| KReceive (i : nat)           (* call [i] receives from its channel *)
| KCancel (i : nat)            (* the context of call [i] is cancelled and its select takes that case *)
| KDrop.                       (* reading fails: the connection was dropped *)

(** Replaces the state of a call of request, client.go:349-378. *)
Definition set_rq (s : kstate) (i : nat) (r : rq) : list rq := set_nth i r (k_reqs s).

Definition kstep (s : kstate) (a : kact) : option kstate :=
  match a with
  | KCall d => Some (mkK (k_map s) (k_reqs s ++ [mkRq d RqStart None]) (k_chans s) (k_reader s) (k_out s) (k_pend s) (k_in s) (k_panic s) (k_work s) (k_answers s))
  | KNonce i =>
      (* client.go:352-355 *)
      match nth_error (k_reqs s) i with
      | Some r =>
          match rq_pc r with
          | RqStart =>
              match nextNonce (k_map s) with
              | (m', None) => Some (mkK m' (set_rq s i (mkRq (rq_data r) (RqDone RNoNonce) None)) (k_chans s) (k_reader s) (k_out s) (k_pend s) (k_in s) (k_panic s) (k_work s) (k_answers s))
              | (m', Some (ch, n)) =>
                  Some (mkK m' (set_rq s i (mkRq (rq_data r) RqSend (Some (ch, n)))) (k_chans s ++ [mkChan None false]) (k_reader s) (k_out s) (k_pend s) (k_in s)
                            (k_panic s) (k_work s) (k_answers s))
              end
          | _ => None
          end
      | None => None
      end
  | KSendReq i =>
      (* 359, 340-347 *)
      match nth_error (k_reqs s) i with
      | Some (mkRq d RqSend (Some (ch, n))) =>
          Some (mkK (k_map s) (set_rq s i (mkRq d RqWait (Some (ch, n)))) (k_chans s) (k_reader s) (k_out s ++ [mkMsg n d (Some i)]) (k_pend s) (k_in s)
                    (k_panic s) (k_work s) (k_answers s))
      | _ => None
      end
  | KSendMsg d => Some (mkK (k_map s) (k_reqs s) (k_chans s) (k_reader s) (k_out s ++ [mkMsg 0 d None]) (k_pend s) (k_in s) (k_panic s) (k_work s) (k_answers s))
  | KDeliver =>
      (* the peer's recvLoop; IsRequest is nonce > 0 (msg.go:63-65) *)
      match k_out s with
      | [] => None
      | m :: out =>
          Some (mkK (k_map s) (k_reqs s) (k_chans s) (k_reader s) out (if N.eqb (km_nonce m) 0 then k_pend s else k_pend s ++ [m]) (k_in s) (k_panic s) (k_work s) (k_answers s))
      end
  | KAnswer j d =>
      (* msg.go:72-78, on the peer: the response carries the request's nonce *)
      match nth_error (k_pend s) j with
      | None => None
      | Some m => Some (mkK (k_map s) (k_reqs s) (k_chans s) (k_reader s) (k_out s) (remove_nth j (k_pend s)) (k_in s ++ [mkMsg (km_nonce m) d (km_tag m)]) (k_panic s) (k_work s)
                            (match km_tag m with Some i => k_answers s ++ [(i, d)] | None => k_answers s end))
      end
  | KPeerSend d => Some (mkK (k_map s) (k_reqs s) (k_chans s) (k_reader s) (k_out s) (k_pend s) (k_in s ++ [mkMsg 0 d None]) (k_panic s) (k_work s) (k_answers s))
  | KRecv =>
      match k_reader s, k_in s with
      | KRead, m :: rest =>
          let (m', o) := findRequest (k_map s) (km_nonce m) in
          Some (mkK m' (k_reqs s) (k_chans s) (match o with Some ch => KGive ch m | None => KWork m end) (k_out s) (k_pend s) rest (k_panic s) (k_work s) (k_answers s))
      | _, _ => None
      end
  | KStep =>
      match k_reader s with
      | KGive ch m =>
          match nth_error (k_chans s) ch with
          | Some (mkChan _ true) => Some (mkK (k_map s) (k_reqs s) (k_chans s) (KClose ch) (k_out s) (k_pend s) (k_in s) true (k_work s) (k_answers s))
          | Some (mkChan None false) =>
              Some (mkK (k_map s) (k_reqs s) (set_nth ch (mkChan (Some m) false) (k_chans s)) (KClose ch) (k_out s) (k_pend s) (k_in s) (k_panic s) (k_work s) (k_answers s))
          | _ => None   (* the buffer is full: blocked *)
          end
      | KClose ch =>
          match nth_error (k_chans s) ch with
          | Some (mkChan b cl) =>
              Some (mkK (k_map s) (k_reqs s) (set_nth ch (mkChan b true) (k_chans s)) KRead (k_out s) (k_pend s) (k_in s) (k_panic s || cl) (k_work s) (k_answers s))
          | None => None
          end
      | KWork m => Some (mkK (k_map s) (k_reqs s) (k_chans s) KRead (k_out s) (k_pend s) (k_in s) (k_panic s) (k_work s ++ [m]) (k_answers s))
      | _ => None
      end
  | KReceive i =>
      (* 368-372: a closed, empty channel yields the zero message, whose nonce is 0 *)
      match nth_error (k_reqs s) i with
      | Some (mkRq d RqWait (Some (ch, n))) =>
          match nth_error (k_chans s) ch with
          | Some (mkChan (Some m) cl) =>
              Some (mkK (k_map s) (set_rq s i (mkRq d (RqDone (if N.eqb (km_nonce m) 0 then REof else RData (km_data m))) (Some (ch, n))))
                        (set_nth ch (mkChan None cl) (k_chans s)) (k_reader s) (k_out s) (k_pend s) (k_in s) (k_panic s) (k_work s) (k_answers s))
          | Some (mkChan None true) =>
              Some (mkK (k_map s) (set_rq s i (mkRq d (RqDone REof) (Some (ch, n)))) (k_chans s) (k_reader s) (k_out s) (k_pend s) (k_in s) (k_panic s) (k_work s) (k_answers s))
          | _ => None
          end
      | _ => None
      end
  | KCancel i =>
      (* 373-375: the entry stays in the map *)
      match nth_error (k_reqs s) i with
      | Some (mkRq d RqWait (Some (ch, n))) =>
          Some (mkK (k_map s) (set_rq s i (mkRq d (RqDone RCancelled) (Some (ch, n)))) (k_chans s) (k_reader s) (k_out s) (k_pend s) (k_in s) (k_panic s) (k_work s) (k_answers s))
      | _ => None
      end
  | KDrop =>
      (* 522-531 *)
      match k_reader s with
      | KRead => Some (mkK (k_map s) (k_reqs s) (k_chans s) KStopped (k_out s) (k_pend s) (k_in s) (k_panic s) (k_work s) (k_answers s))
      | _ => None
      end
  end.
(** Several steps, in order (client.go:349-378, 517-556). *)
Fixpoint krun (s : kstate) (l : list kact) : option kstate :=
  match l with [] => Some s | a :: l' => match kstep s a with Some s' => krun s' l' | None => None end end.
