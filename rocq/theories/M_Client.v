(** * Model of client.go: the goroutines of one Client and everything they share, except the bytes themselves.

    The goroutine running outbound or inbound (with the handshake and recvLoop inside it), the goroutine running writeLoop,
    and any number of other goroutines calling send, Close and reportError.  The network decides what every I/O call
    returns.  Time passes by ticks; deadlines on writes are enforced. *)
From Verif Require Import Base M_Table.
Local Open Scope nat_scope.

Inductive cside := SideOutbound | SideInbound.   (* which of outbound (208) and inbound (249) runs *)

(** Program points of outbound/inbound. *)
Inductive mpc :=
| MDial                 (* 219 *)
| MAccept               (* 258-260, inbound only: conn is set *)
| MFailReady            (* 222 *)
| MFailWriter           (* 223 *)
| MFailReader           (* 224 *)
| MHandshake            (* 232/262: handshake's body, 384-514, in one step *)
| MReady                (* 381: handshake's deferred close(ready) *)
| MCheck                (* 264, inbound only *)
| MAbort                (* 265, inbound only: close() *)
| MSpawn                (* 234/269 *)
| MRead                 (* 521-539: read, unmarshal *)
| MDispatch             (* 541-556: hand the message over, OnMessageRecv *)
| MReaderDone           (* 518 *)
| MClose                (* 236/271: close() *)
| MDisconnected         (* 240-246/273-279: OnPeerDisconnected *)
| MRemove               (* 213/254: remove from the pool, needs the pool's lock *)
| MDone                 (* 214/255 *)
| MEnd.

(** Program points of writeLoop. *)
Inductive wrpc :=
| WNone                 (* not started *)
| WTop                  (* 568-574 *)
| WDeadline             (* 576-585 *)
| WWait                 (* 587-597 *)
| WSend (l : list nat)  (* 599-632, the messages still to write *)
| WFlush                (* 634 *)
| WSent                 (* 643-649: OnMessageSent *)
| WExit                 (* 561 *)
| WEnd.

(** Errors and messages are represented by numbers.  The fields are those of client.go:47-86, with the program points of the goroutines of 208-280, 517-558 and 560-651. *)
Record cstate := mkC {
  c_side : cside;
  c_main : mpc;
  c_wr : wrpc;
  c_once : nat;               (* closeOnce: 0 not begun, 1 writerClosed set, 2 finished *)
  c_wclosed : bool;           (* writerClosed *)
  c_conn : bool;              (* conn != nil *)
  c_cclosed : bool;           (* conn.Close() was called *)
  c_ready : bool; c_rdone : bool; c_wdone : bool; c_cdone : bool;   (* closed channels *)
  c_panic : bool;             (* some channel was closed twice *)
  c_err : option nat;         (* err.error *)
  c_buf : list nat;           (* writerBuf *)
  c_now : nat;
  c_wdl : option nat;         (* write deadline of conn *)
  (* history *)
  c_reports : list nat;       (* arguments of reportError, oldest first *)
  c_accepted : list nat;      (* messages for which send returned nil, oldest first *)
  c_written : list nat;       (* messages put in the buffered writer *)
  c_wire : list nat           (* messages that have reached the connection completely *)
}.

(** client.go:88-108 newClient, and node.go:396/230 starting outbound/inbound. *)
Definition newClient (sd : cside) : cstate :=
  mkC sd (match sd with SideOutbound => MDial | SideInbound => MAccept end) WNone 0 false false false false false false false false None [] 0 None [] [] [] [].

(** Moves outbound or inbound (client.go:208-280) on. *)
Definition with_main (s : cstate) (m : mpc) : cstate :=
  mkC (c_side s) m (c_wr s) (c_once s) (c_wclosed s) (c_conn s) (c_cclosed s) (c_ready s) (c_rdone s) (c_wdone s) (c_cdone s) (c_panic s)
      (c_err s) (c_buf s) (c_now s) (c_wdl s) (c_reports s) (c_accepted s) (c_written s) (c_wire s).
(** Moves writeLoop (client.go:560-651) on. *)
Definition with_wr (s : cstate) (w : wrpc) : cstate :=
  mkC (c_side s) (c_main s) w (c_once s) (c_wclosed s) (c_conn s) (c_cclosed s) (c_ready s) (c_rdone s) (c_wdone s) (c_cdone s) (c_panic s)
      (c_err s) (c_buf s) (c_now s) (c_wdl s) (c_reports s) (c_accepted s) (c_written s) (c_wire s).
(** Closing a channel, which panics if it is closed.  close(c.ready), client.go:222, 381. *)
Definition close_ready (s : cstate) : cstate :=
  mkC (c_side s) (c_main s) (c_wr s) (c_once s) (c_wclosed s) (c_conn s) (c_cclosed s) true (c_rdone s) (c_wdone s) (c_cdone s) (c_panic s || c_ready s)
      (c_err s) (c_buf s) (c_now s) (c_wdl s) (c_reports s) (c_accepted s) (c_written s) (c_wire s).
(** close(c.readerDone), client.go:224, 518. *)
Definition close_rdone (s : cstate) : cstate :=
  mkC (c_side s) (c_main s) (c_wr s) (c_once s) (c_wclosed s) (c_conn s) (c_cclosed s) (c_ready s) true (c_wdone s) (c_cdone s) (c_panic s || c_rdone s)
      (c_err s) (c_buf s) (c_now s) (c_wdl s) (c_reports s) (c_accepted s) (c_written s) (c_wire s).
(** close(c.writerDone), client.go:223, 561. *)
Definition close_wdone (s : cstate) : cstate :=
  mkC (c_side s) (c_main s) (c_wr s) (c_once s) (c_wclosed s) (c_conn s) (c_cclosed s) (c_ready s) (c_rdone s) true (c_cdone s) (c_panic s || c_wdone s)
      (c_err s) (c_buf s) (c_now s) (c_wdl s) (c_reports s) (c_accepted s) (c_written s) (c_wire s).
(** close(c.clientDone), client.go:214, 255. *)
Definition close_cdone (s : cstate) : cstate :=
  mkC (c_side s) (c_main s) (c_wr s) (c_once s) (c_wclosed s) (c_conn s) (c_cclosed s) (c_ready s) (c_rdone s) (c_wdone s) true (c_panic s || c_cdone s)
      (c_err s) (c_buf s) (c_now s) (c_wdl s) (c_reports s) (c_accepted s) (c_written s) (c_wire s).

(** client.go:178-185 reportError. *)
Definition report (e : nat) (s : cstate) : cstate :=
  mkC (c_side s) (c_main s) (c_wr s) (c_once s) (c_wclosed s) (c_conn s) (c_cclosed s) (c_ready s) (c_rdone s) (c_wdone s) (c_cdone s) (c_panic s)
      (match c_err s with None => Some e | Some e0 => Some e0 end) (c_buf s) (c_now s) (c_wdl s) (c_reports s ++ [e]) (c_accepted s) (c_written s) (c_wire s).

(** client.go:340-347 send: it always returns nil. *)
Definition send (m : nat) (s : cstate) : res cstate :=
  Ok (mkC (c_side s) (c_main s) (c_wr s) (c_once s) (c_wclosed s) (c_conn s) (c_cclosed s) (c_ready s) (c_rdone s) (c_wdone s) (c_cdone s) (c_panic s)
          (c_err s) (c_buf s ++ [m]) (c_now s) (c_wdl s) (c_reports s) (c_accepted s ++ [m]) (c_written s) (c_wire s)).

(** client.go:187-198 close, in two steps: the flag, then the connection.  Later callers do nothing. *)
Definition close_flag (s : cstate) : cstate :=
  mkC (c_side s) (c_main s) (c_wr s) 1 true (c_conn s) (c_cclosed s) (c_ready s) (c_rdone s) (c_wdone s) (c_cdone s) (c_panic s)
      (c_err s) (c_buf s) (c_now s) (c_wdl s) (c_reports s) (c_accepted s) (c_written s) (c_wire s).
(** c.conn.Close, client.go:187-198 close. *)
Definition close_conn (s : cstate) : cstate :=
  mkC (c_side s) (c_main s) (c_wr s) 2 (c_wclosed s) (c_conn s) (c_cclosed s || c_conn s) (c_ready s) (c_rdone s) (c_wdone s) (c_cdone s) (c_panic s)
      (c_err s) (c_buf s) (c_now s) (c_wdl s) (c_reports s) (c_accepted s) (c_written s) (c_wire s).

(** What an I/O call or a callback returns: fine, or an error.  For the calls of client.go:208-280, 282-338, 380-515. *)
Inductive outcome := Fine | Fails (e : nat).

(** client.go:228-230/258-260. *)
Definition set_conn (s : cstate) : cstate :=
  mkC (c_side s) MHandshake (c_wr s) (c_once s) (c_wclosed s) true (c_cclosed s) (c_ready s) (c_rdone s) (c_wdone s) (c_cdone s) (c_panic s)
      (c_err s) (c_buf s) (c_now s) (c_wdl s) (c_reports s) (c_accepted s) (c_written s) (c_wire s).

(** One step of outbound/inbound; [None]: blocked.  client.go:208-247, 249-280. *)
Definition main_step (s : cstate) (o : outcome) : option cstate :=
  match c_main s with
  | MDial => Some match o with
             | Fails e => with_main (report e s) MFailReady
             | Fine => set_conn s
             end
  | MAccept => Some (set_conn s)
  | MFailReady => Some (with_main (close_ready s) MFailWriter)
  | MFailWriter => Some (with_main (close_wdone s) MFailReader)
  | MFailReader => Some (with_main (close_rdone s) MRemove)
  | MHandshake => Some match o with Fails e => with_main (report e s) MReady | Fine => with_main s MReady end
  | MReady => Some (with_main (close_ready s) match c_side s with SideOutbound => MSpawn | SideInbound => MCheck end)
  | MCheck => Some (with_main s match c_err s with Some _ => MAbort | None => MSpawn end)
  | MAbort => if c_once s =? 2 then Some (with_main s MRemove) else None
  | MSpawn => Some (with_wr (with_main s MRead) WTop)
  | MRead => Some match o with Fails e => with_main (report e s) MReaderDone | Fine => with_main s MDispatch end
  | MDispatch => Some (with_main s MRead)
  | MReaderDone => Some (with_main (close_rdone s) MClose)
  | MClose => if c_once s =? 2 then Some (with_main s MDisconnected) else None
  | MDisconnected => Some (with_main s MRemove)
  | MRemove => Some (with_main s MDone)
  | MDone => Some (with_main (close_cdone s) MEnd)
  | MEnd => None
  end.

(** The deadline for writes has passed: conn.Write fails.  The deadline is set at client.go:576-585. *)
Definition late (s : cstate) : bool := match c_wdl s with Some t => t <=? c_now s | None => false end.

(** One step of writeLoop.  [idle] is the node's idleTimeout, 0: none.  [spill] is the number of written messages that have
    reached the connection when the buffered writer is full and empties itself; with the deadline passed none does.  client.go:560-651. *)
Definition writer_step (idle : nat) (s : cstate) (o : outcome) (spill : nat) : option cstate :=
  let fail e := Some (with_wr (report e s) WExit) in
  match c_wr s with
  | WNone | WEnd => None
  | WTop => Some (with_wr s (if c_rdone s || c_cdone s then WExit else WDeadline))
  | WDeadline =>
      if idle =? 0 then Some (with_wr s WWait) else
      match o with
      | Fails e => fail e
      | Fine => Some (mkC (c_side s) (c_main s) WWait (c_once s) (c_wclosed s) (c_conn s) (c_cclosed s) (c_ready s) (c_rdone s) (c_wdone s) (c_cdone s) (c_panic s)
                          (c_err s) (c_buf s) (c_now s) (Some (c_now s + idle)) (c_reports s) (c_accepted s) (c_written s) (c_wire s))
      end
  | WWait =>
      if c_wclosed s then
        Some (mkC (c_side s) (c_main s) WExit (c_once s) (c_wclosed s) (c_conn s) (c_cclosed s) (c_ready s) (c_rdone s) (c_wdone s) (c_cdone s) (c_panic s)
                  (c_err s) [] (c_now s) (c_wdl s) (c_reports s) (c_accepted s) (c_written s) (c_wire s))
      else match c_buf s with
           | [] => None
           | b => Some (mkC (c_side s) (c_main s) (WSend b) (c_once s) (c_wclosed s) (c_conn s) (c_cclosed s) (c_ready s) (c_rdone s) (c_wdone s) (c_cdone s) (c_panic s)
                            (c_err s) [] (c_now s) (c_wdl s) (c_reports s) (c_accepted s) (c_written s) (c_wire s))
           end
  | WSend [] => Some (with_wr s WFlush)
  | WSend (m :: l) =>
      match o with
      | Fails e => fail e
      | Fine => Some (mkC (c_side s) (c_main s) (WSend l) (c_once s) (c_wclosed s) (c_conn s) (c_cclosed s) (c_ready s) (c_rdone s) (c_wdone s) (c_cdone s) (c_panic s)
                          (c_err s) (c_buf s) (c_now s) (c_wdl s) (c_reports s) (c_accepted s) (c_written s ++ [m])
                          (if late s then c_wire s else firstn (Nat.max (length (c_wire s)) spill) (c_written s ++ [m])))
      end
  | WFlush =>
      match o with
      | Fails e => fail e
      | Fine => if late s then None else
                Some (mkC (c_side s) (c_main s) WSent (c_once s) (c_wclosed s) (c_conn s) (c_cclosed s) (c_ready s) (c_rdone s) (c_wdone s) (c_cdone s) (c_panic s)
                          (c_err s) (c_buf s) (c_now s) (c_wdl s) (c_reports s) (c_accepted s) (c_written s) (c_written s))
      end
  | WSent => Some (with_wr s WTop)
  | WExit => Some (with_wr (close_wdone s) WEnd)
  end.

Inductive caction :=
| AMain (o : outcome)
| AWriter (o : outcome) (spill : nat)
| ASend (m : nat)              (* some goroutine calls send *)
| ACloseFlag                   (* some goroutine calls close, first part *)
| ACloseConn                   (* ... second part *)
| AReport (e : nat)            (* a worker reports a handler's error (node.go:189) *)
| ATick.

(** One step of any goroutine of a client or of those that use it (client.go:141-206, 208-280, 340-347, 517-651). *)
Definition cact (idle : nat) (s : cstate) (a : caction) : option cstate :=
  match a with
  | AMain o => main_step s o
  | AWriter o spill => writer_step idle s o spill
  | ASend m => match send m s with Ok s' => Some s' | _ => None end
  | ACloseFlag => Some (if c_once s =? 0 then close_flag s else s)
  | ACloseConn => if c_once s =? 1 then Some (close_conn s) else None
  | AReport e => Some (report e s)
  | ATick => Some (mkC (c_side s) (c_main s) (c_wr s) (c_once s) (c_wclosed s) (c_conn s) (c_cclosed s) (c_ready s) (c_rdone s) (c_wdone s) (c_cdone s) (c_panic s)
                       (c_err s) (c_buf s) (S (c_now s)) (c_wdl s) (c_reports s) (c_accepted s) (c_written s) (c_wire s))
  end.
(** Several steps, in order (client.go:208-280, 517-651). *)
Fixpoint crun (idle : nat) (s : cstate) (l : list caction) : option cstate :=
  match l with [] => Some s | a :: l' => match cact idle s a with Some s' => crun idle s' l' | None => None end end.
