(** * Model of requests that handlers make of other nodes: node.go Request (343-355) in a handler (mod.go:13) on a worker (node.go:178-197), client.go request
    (349-380), recvLoop's queueing on the work channel (541-553), over any number of nodes.

    A handler makes requests one after the other, each of some node, then answers and returns nil.  What it asks may depend on anything; a request is
    therefore given with the requests that it will lead to.  Connections have been made: each node has one to each node it asks (C71), and outside
    programs have one each.  A connection keeps the order of requests; its reader holds the one it has read until the channel has room.  Answers need no
    worker: the reader of the asking node gives them to the waiting call (client.go:543-546).  Simplified: contexts do not expire and connections do not drop. *)
From Verif Require Import Base M_Table.
Local Open Scope nat_scope.

(** A request of node [d], whose handler makes requests [subs] before it answers.  node.go:343-355 Request. *)
Inductive req := Req (d : nat) (subs : list req).
(** The address argument of node.go:343 Request. *)
Definition dst (r : req) : nat := match r with Req d _ => d end.
(** The calls of node.go:343 Request that the handler makes. *)
Definition subs (r : req) : list req := match r with Req _ l => l end.

(** Who sends over a connection: a program outside, or node [d] (node.go:343-347). *)
Inductive source := Outside (k : nat) | Inside (d : nat).
(** Equality of those; no code of its own (node.go:343-347). *)
Definition source_eqb (a b : source) : bool :=
  match a, b with Outside i, Outside j => i =? j | Inside i, Inside j => i =? j | _, _ => false end.

Inductive tpc :=
| TWire            (* sent, not yet read by the node *)
| TRead            (* client.go:548: its reader is queueing it *)
| TQueued          (* in the node's work channel *)
| TBusy            (* a worker runs the handler *)
| TWait (c : nat)  (* client.go:370-378: the handler waits for the answer to request number [c] *)
| TDone.           (* answered *)
(** A request underway (client.go:349-378): from whom, which one, what its handler has still to ask, where it is. *)
Record task := mkTask { tk_src : source; tk_req : req; tk_todo : list req; tk_pc : tpc }.
(** The node that handles it (node.go:178-197). *)
Definition node_of (t : task) : nat := dst (tk_req t).
(** Moves a request (client.go:349-378) on. *)
Definition with_pc (t : task) (todo : list req) (p : tpc) : task := mkTask (tk_src t) (tk_req t) todo p.

(** The requests underway and the order in which they were queued on work channels (client.go:548). *)
Record qstate := mkQ {
  qs_tasks : list task;      (* requests, in the order in which they were sent *)
  qs_queue : list nat        (* those in work channels, in the order in which they were queued *)
}.
(** Before any request (node.go:343). *)
Definition q_start : qstate := mkQ [] [].

Inductive qact :=
| NArrive (k : nat) (r : req)   (* outside program [k] sends request [r] *)
| NRead (i : nat)               (* client.go:521-541 *)
| NPut (i : nat)                (* 548 *)
| NTake (i : nat)               (* node.go:185 *)
| NAsk (i : nat)                (* node.go:342-350, client.go:349-369 *)
| NResume (i : nat)             (* client.go:377 *)
| NAnswer (i : nat).            (* msg.go:72-78, node.go:187 *)

(** Sent and not queued on the work channel (client.go:548). *)
Definition in_front (p : tpc) : bool := match p with TWire | TRead => true | _ => false end.
(** A worker is running its handler (node.go:186-187). *)
Definition on_worker (p : tpc) : bool := match p with TBusy | TWait _ => true | _ => false end.
(** Requests of node [d] sent over the connection from [x] and not queued yet.  client.go:521-548. *)
Definition ahead (x : source) (d : nat) (l : list task) : bool :=
  existsb (fun t => source_eqb (tk_src t) x && (node_of t =? d) && in_front (tk_pc t)) l.
(** Request [i] is for node [d] (node.go:343). *)
Definition at_node (l : list task) (d i : nat) : bool := match nth_error l i with Some t => node_of t =? d | None => false end.
(** The work channel of node [d].  node.go:178. *)
Definition queue_of (s : qstate) (d : nat) : list nat := filter (at_node (qs_tasks s) d) (qs_queue s).
(** Number of workers of node [d] that are running a handler.  node.go:181-195. *)
Definition busy (s : qstate) (d : nat) : nat := length (filter (fun t => (node_of t =? d) && on_worker (tk_pc t)) (qs_tasks s)).

Section Nested.
Variable workers : nat -> nat.   (* numWorkers of each node: workers, and capacity of the channel (node.go:178-181) *)

(** One step (client.go:349-378, 521-548, node.go:181-195). *)
Definition qstep (s : qstate) (a : qact) : option qstate :=
  let l := qs_tasks s in
  match a with
  | NArrive k r => Some (mkQ (l ++ [mkTask (Outside k) r (subs r) TWire]) (qs_queue s))
  | NRead i =>
      match nth_error l i with
      | Some t => match tk_pc t with
                  | TWire => if ahead (tk_src t) (node_of t) (firstn i l) then None
                             else Some (mkQ (set_nth i (with_pc t (tk_todo t) TRead) l) (qs_queue s))
                  | _ => None
                  end
      | None => None
      end
  | NPut i =>
      match nth_error l i with
      | Some t => match tk_pc t with
                  | TRead => if length (queue_of s (node_of t)) <? workers (node_of t)
                             then Some (mkQ (set_nth i (with_pc t (tk_todo t) TQueued) l) (qs_queue s ++ [i])) else None
                  | _ => None
                  end
      | None => None
      end
  | NTake i =>
      match nth_error l i with
      | Some t => match tk_pc t, queue_of s (node_of t) with
                  | TQueued, j :: _ => if (j =? i) && (busy s (node_of t) <? workers (node_of t))
                                       then Some (mkQ (set_nth i (with_pc t (tk_todo t) TBusy) l) (remove Nat.eq_dec i (qs_queue s))) else None
                  | _, _ => None
                  end
      | None => None
      end
  | NAsk i =>
      match nth_error l i with
      | Some t => match tk_pc t, tk_todo t with
                  | TBusy, r :: rest => Some (mkQ (set_nth i (with_pc t rest (TWait (length l))) l ++ [mkTask (Inside (node_of t)) r (subs r) TWire]) (qs_queue s))
                  | _, _ => None
                  end
      | None => None
      end
  | NResume i =>
      match nth_error l i with
      | Some t => match tk_pc t with
                  | TWait c => match nth_error l c with
                               | Some u => match tk_pc u with TDone => Some (mkQ (set_nth i (with_pc t (tk_todo t) TBusy) l) (qs_queue s)) | _ => None end
                               | None => None
                               end
                  | _ => None
                  end
      | None => None
      end
  | NAnswer i =>
      match nth_error l i with
      | Some t => match tk_pc t, tk_todo t with
                  | TBusy, [] => Some (mkQ (set_nth i (with_pc t [] TDone) l) (qs_queue s))
                  | _, _ => None
                  end
      | None => None
      end
  end.
(** Several steps, in order (client.go:349-378, 521-548, node.go:181-195). *)
Fixpoint qrun (s : qstate) (l : list qact) : option qstate :=
  match l with [] => Some s | a :: l' => match qstep s a with Some s' => qrun s' l' | None => None end end.
End Nested.
