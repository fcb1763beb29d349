(** * Model of kademlia/protocol.go: Ack, OnPingFailed, Handle and the events they emit. *)
From Verif Require Import Base M_ID M_Msg M_Codec M_Table.
From Coq Require Import Strings.Byte.
Local Open Scope nat_scope.

(** events.go:8-19: a call of one of the three callbacks. *)
Inductive kad_event := Admitted (id : ID) | Activity (id : ID) | Evicted (id : ID).

(** protocol.go:109: the outcomes of RequestMessage(ctx, last.Address, Ping{}).  [DialError] is a failure to obtain a
    connection: before returning, node.go:418-438 calls OnPingFailed(last.Address) on the same goroutine.  [ReqError] is
    any later failure (timeout, connection dropped, undecodable response). *)
Inductive ping_outcome := GotPong | GotOther | ReqError | DialError.

(** Program counter of a goroutine inside Ack or OnPingFailed. *)
Inductive kad_pc :=
| KUpdate (id : ID)                       (* protocol.go:84 *)
| KLast (id : ID)                         (* protocol.go:106 *)
| KPing (id last : ID)                    (* protocol.go:109 *)
| KDialFailed (id last : ID)              (* protocol.go:194 on behalf of the failed dial *)
| KDelete (id last : ID)                  (* protocol.go:113, 128 *)
| KDelAddr (addr : bytes)                 (* protocol.go:194, OnPingFailed called by another dial *)
| KEmit (ev : kad_event) (next : kad_pc)  (* a callback about to be called *)
| KDone.

(** One atomic step of a goroutine: the table, the next pc and the event emitted, if any.  [o] is consulted only when a
    ping completes.  Every Table method runs under the table's lock, so each call is one step (protocol.go:82-152,
    193-203).  Logging is omitted. *)
Definition kad_step (o : ping_outcome) (t : table) (pc : kad_pc) : res (table * kad_pc * option kad_event) :=
  match pc with
  | KUpdate id =>
      match Update t id with
      | (t', (inserted, None)) => Ok (t', KEmit (if inserted then Admitted id else Activity id) KDone, None)
      | (t', (_, Some _)) => Ok (t', KLast id, None)
      end
  | KLast id => let! last := Last t (id_key id) in Ok (t, KPing id last, None)
  | KPing id last =>
      match o with
      | GotPong => Ok (t, KEmit (Evicted id) KDone, None)
      | GotOther | ReqError => Ok (t, KDelete id last, None)
      | DialError => Ok (t, KDialFailed id last, None)
      end
  | KDialFailed id last =>
      match DeleteByAddress t (id_addr last) with
      | (t', (e, true)) => Ok (t', KEmit (Evicted e) (KDelete id last), None)
      | (t', (_, false)) => Ok (t', KDelete id last, None)
      end
  | KDelete id last =>
      match Delete t (id_key last) with
      | (t', (e, true)) => Ok (t', KEmit (Evicted e) (KUpdate id), None)
      | (t', (_, false)) => Ok (t', KUpdate id, None)
      end
  | KDelAddr a =>
      match DeleteByAddress t a with
      | (t', (e, true)) => Ok (t', KEmit (Evicted e) KDone, None)
      | (t', (_, false)) => Ok (t', KDone, None)
      end
  | KEmit ev next => Ok (t, next, Some ev)
  | KDone => Ok (t, KDone, None)
  end.

(** ** Several goroutines *)

(** The table, the goroutines, and the events emitted so far, oldest first.  kademlia/protocol.go:23-31, 82-153. *)
Record kad_state := mkKS { ks_table : table; ks_threads : list kad_pc; ks_log : list kad_event }.

(** The callbacks of kademlia/events.go:8-19, as called by Ack and OnPingFailed (protocol.go:82-153, 193-201). *)
Definition emit (log : list kad_event) (ev : option kad_event) : list kad_event :=
  match ev with Some e => log ++ [e] | None => log end.

(** Goroutine [i] takes a step; a new call of Ack or OnPingFailed appears as a new goroutine.  kademlia/protocol.go:82-153, 193-201. *)
Inductive kad_action := KStep (i : nat) (o : ping_outcome) | KAck (id : ID) | KPingFailed (addr : bytes).
(** One step (kademlia/protocol.go:82-153, 193-201). *)
Definition kad_act (s : kad_state) (a : kad_action) : res kad_state :=
  match a with
  | KAck id => Ok (mkKS (ks_table s) (ks_threads s ++ [KUpdate id]) (ks_log s))
  | KPingFailed addr => Ok (mkKS (ks_table s) (ks_threads s ++ [KDelAddr addr]) (ks_log s))
  | KStep i o =>
      match nth_error (ks_threads s) i with
      | None => Ok s
      | Some pc => let! (t', pc', ev) := kad_step o (ks_table s) pc in
                   Ok (mkKS t' (set_nth i pc' (ks_threads s)) (emit (ks_log s) ev))
      end
  end.
(** Several steps, in order (kademlia/protocol.go:82-153, 193-201). *)
Fixpoint kad_run (s : kad_state) (l : list kad_action) : res kad_state :=
  match l with
  | [] => Ok s
  | a :: l' => let! s' := kad_act s a in kad_run s' l'
  end.

(** ** Calls that do not overlap *)

(** One goroutine alone for [n] steps; [ping] tells how pinging each peer would turn out.  kademlia/protocol.go:82-153, 193-201. *)
Fixpoint call_run (ping : ID -> ping_outcome) (n : nat) (t : table) (pc : kad_pc) (log : list kad_event)
  : res (table * kad_pc * list kad_event) :=
  match n with
  | O => Ok (t, pc, log)
  | S n' => let! (t', pc', ev) := kad_step (match pc with KPing _ last => ping last | _ => GotPong end) t pc in
            call_run ping n' t' pc' (emit log ev)
  end.
(** A call of Ack(id) (protocol.go:82) that ran alone from [t] to [t'], emitting [evs]. *)
Definition ack_alone (ping : ID -> ping_outcome) (t : table) (id : ID) (t' : table) (evs : list kad_event) : Prop :=
  exists n, call_run ping n t (KUpdate id) [] = Ok (t', KDone, evs).
(** A call of OnPingFailed(addr) (protocol.go:193) that ran alone. *)
Definition ping_failed_alone (t : table) (addr : bytes) (t' : table) (evs : list kad_event) : Prop :=
  exists n, call_run (fun _ => GotPong) n t (KDelAddr addr) [] = Ok (t', KDone, evs).

(** A sequence of calls, each running alone, with all the events emitted.  kademlia/protocol.go:82-153, 193-201. *)
Inductive kad_history (t0 : table) : table -> list kad_event -> Prop :=
| kh_nil : kad_history t0 t0 []
| kh_ack t ping id t' evs evs' : kad_history t0 t evs -> length (id_key id) = SizePublicKey -> ack_alone ping t id t' evs' ->
    kad_history t0 t' (evs ++ evs')
| kh_fail t a t' evs evs' : kad_history t0 t evs -> ping_failed_alone t a t' evs' -> kad_history t0 t' (evs ++ evs').

(** The same with calls of Ack only; each call comes with the outcomes its pings would have.  kademlia/protocol.go:82-153. *)
Inductive ack_history (t0 : table) : list ((ID -> ping_outcome) * ID) -> table -> Prop :=
| ah_nil : ack_history t0 [] t0
| ah_ack calls t ping id t' evs : ack_history t0 calls t -> length (id_key id) = SizePublicKey ->
    ack_alone ping t id t' evs -> ack_history t0 (calls ++ [(ping, id)]) t'.

(** ** Message handling *)

(** The message types of kademlia/msg.go; a FindNodeRequest value is represented by its target, a FindNodeResponse by
    its encoding. *)
Definition TPing := TNamed 1001.
(** The type kademlia.Pong, kademlia/msg.go:19. *)
Definition TPong := TNamed 1002.
(** The type kademlia.FindNodeRequest, kademlia/msg.go:29. *)
Definition TFindNodeRequest := TNamed 1003.
(** The type kademlia.FindNodeResponse, kademlia/msg.go:56. *)
Definition TFindNodeResponse := TNamed 1004.

(** protocol.go:176-179: the four registrations, in order. *)
Definition kad_registrations : list (gotype * decoder) :=
  [ (TPing, mkDec TPing (fun b => let! _ := UnmarshalPing b in Ok (mkVal TPing Ping_marshal)));
    (TPong, mkDec TPong (fun b => let! _ := UnmarshalPing b in Ok (mkVal TPong Ping_marshal)));
    (TFindNodeRequest, mkDec TFindNodeRequest (fun b => let! k := UnmarshalFindNodeRequest b in Ok (mkVal TFindNodeRequest (FindNodeRequest_marshal k))));
    (TFindNodeResponse, mkDec TFindNodeResponse (fun b => let! l := UnmarshalFindNodeResponse b in Ok (mkVal TFindNodeResponse (FindNodeResponse_marshal l)))) ].

(** protocol.go:216-236 Handle: the data passed to ctx.Send ([None]: nothing sent), or the error returned.
    ctx.SendMessage encodes and sends (msg.go:101-108); that Send accepts only one response is modelled in M_Conn. *)
Definition kad_handle (c : codec) (t : table) (isRequest : bool) (data : bytes) : res (option bytes) :=
  match decode c data with
  | Panic => Panic
  | Err _ => Ok None
  | Ok v =>
      if gotype_eq_dec (v_type v) TPing then
        if isRequest then let! r := encode c (Some (mkVal TPong Ping_marshal)) in Ok (Some r) else Err ErrOther
      else if gotype_eq_dec (v_type v) TFindNodeRequest then
        if isRequest then
          let! l := FindClosest t (v_bytes v) (Z.of_nat BucketSize) in
          let! r := encode c (Some (mkVal TFindNodeResponse (FindNodeResponse_marshal l))) in
          Ok (Some r)
        else Err ErrOther
      else Ok None
  end.
