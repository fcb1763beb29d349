(** * Listen and Close called several times on one node (node.go:104-236, 378-388).

    The socket, the listening flag, the accept goroutine and the channel listenerDone, step by step.  Listen calls never overlap, as node.go:108 demands; Close calls
    may overlap with everything.  Simplified: the work that Listen does between binding and starting the goroutines is one step that succeeds or fails as it likes
    (addresses are in M_Node, protocols in M_Boot); workers do nothing but end when their channel is closed (M_Work has them); connections are only counted. *)
From Verif Require Import Base M_Table.
Local Open Scope nat_scope.

(** The accept goroutine (node.go:199-233): before Store(true) (200); about to read n.listener and call Accept (220); in Accept of socket [k] (220);
    about to send the error (222); in the deferred function before close(n.work) (205), before workers.Wait (206), before Store(false) (208), before close(listenerDone) (209); ended. *)
Inductive loop := ASet | ANext | AIn (k : nat) | AFail | AWork | AWait | AClear | ADone | AEnd.
(** A call of Listen (node.go:109-236): before Load (110), before net.Listen (122), before the rest (127-197), before the deferred Store(false) (116-120), returned. *)
Inductive lpc := LLoad | LBind | LRest | LClear | LRet (ok : bool).
(** A call of Close (node.go:378-388): before CAS (379), before listener.Close (380), before the receive (385), returned. *)
Inductive cpc := CCas | CShut | CWait | CRet (ok : bool).

Record life := mkLife {
  l_flag : bool;                  (* n.listening *)
  l_listener : option nat;        (* n.listener; None is nil *)
  l_socks : list bool;            (* every socket ever bound: is it open *)
  l_work : nat;                   (* n.work, an index into l_works *)
  l_works : list bool;            (* every work channel ever made: is it open *)
  l_buf : bool; l_over : bool;    (* listenerDone: holds a value, is closed (node.go:64: capacity 1) *)
  l_loops : list loop;
  l_listens : list lpc;           (* calls of Listen; at most the last one is under way *)
  l_closes : list cpc;
  l_conns : nat;                  (* connections accepted *)
  l_crash : bool                  (* the process has panicked *)
}.
(** A node as NewNode leaves it (node.go:62-102). *)
Definition l_start : life := mkLife false None [] 0 [] false false [] [] [] 0 false.

Inductive lact :=
| LCall                         (* Listen is called *)
| LStep (ok : bool)             (* the call of Listen that is under way takes a step; [ok]: what is tried succeeds *)
| LHidden                       (* the rest of Listen fails with an error that the deferred function does not see: err is shadowed, or a new error is returned (node.go:128-131, 140-162) *)
| ALoop (i : nat)               (* accept goroutine [i] takes a step; blocked in Accept, it sees that the socket is closed *)
| AConn (i : nat)               (* a connection arrives at accept goroutine [i] (220-231) *)
| CCall                         (* Close is called *)
| CStep (j : nat).              (* call [j] of Close takes a step *)

(** Updates of the record; no code of their own (fields: node.go:24-59).  Change n.listening (node.go:45). *)
Definition w_flag b s := mkLife b (l_listener s) (l_socks s) (l_work s) (l_works s) (l_buf s) (l_over s) (l_loops s) (l_listens s) (l_closes s) (l_conns s) (l_crash s).
(** Change n.listener (node.go:44) and the sockets. *)
Definition w_sock x y s := mkLife (l_flag s) x y (l_work s) (l_works s) (l_buf s) (l_over s) (l_loops s) (l_listens s) (l_closes s) (l_conns s) (l_crash s).
(** Change n.work (node.go:55) and the channels. *)
Definition w_work x y s := mkLife (l_flag s) (l_listener s) (l_socks s) x y (l_buf s) (l_over s) (l_loops s) (l_listens s) (l_closes s) (l_conns s) (l_crash s).
(** Change listenerDone (node.go:57). *)
Definition w_done x y s := mkLife (l_flag s) (l_listener s) (l_socks s) (l_work s) (l_works s) x y (l_loops s) (l_listens s) (l_closes s) (l_conns s) (l_crash s).
(** Change the accept goroutines (node.go:199-233). *)
Definition w_loops x s := mkLife (l_flag s) (l_listener s) (l_socks s) (l_work s) (l_works s) (l_buf s) (l_over s) x (l_listens s) (l_closes s) (l_conns s) (l_crash s).
(** Change calls of Listen (node.go:109). *)
Definition w_listens x s := mkLife (l_flag s) (l_listener s) (l_socks s) (l_work s) (l_works s) (l_buf s) (l_over s) (l_loops s) x (l_closes s) (l_conns s) (l_crash s).
(** Change calls of Close (node.go:378). *)
Definition w_closes x s := mkLife (l_flag s) (l_listener s) (l_socks s) (l_work s) (l_works s) (l_buf s) (l_over s) (l_loops s) (l_listens s) x (l_conns s) (l_crash s).
(** Change connections accepted (node.go:220). *)
Definition w_conns x s := mkLife (l_flag s) (l_listener s) (l_socks s) (l_work s) (l_works s) (l_buf s) (l_over s) (l_loops s) (l_listens s) (l_closes s) x (l_crash s).
(** A panic, as in node.go:220. *)
Definition w_crash s := mkLife (l_flag s) (l_listener s) (l_socks s) (l_work s) (l_works s) (l_buf s) (l_over s) (l_loops s) (l_listens s) (l_closes s) (l_conns s) true.

(** The call of Listen that is under way, if there is one (node.go:108: at most one). *)
Definition under_way (l : list lpc) : option lpc := match rev l with LRet _ :: _ | [] => None | p :: _ => Some p end.
(** Move the last call of Listen on (node.go:109-236). *)
Definition to_last (p : lpc) (l : list lpc) : list lpc := removelast l ++ [p].
(** Is one of the node's sockets open?  Listen binds to the port of the first (node.go:134), which then is taken. *)
Definition any_open (l : list bool) : bool := existsb (fun b => b) l.
(** Every worker has ended once its channel is closed, node.go:206. *)
Definition all_closed (l : list bool) : bool := forallb negb l.

(** node.go:109-236. *)
Definition listen_step (ok : bool) (s : life) : option life :=
  match under_way (l_listens s) with
  | Some LLoad =>
      if l_flag s then Some (w_listens (to_last (LRet false) (l_listens s)) s)    (* err is nil when the deferred function is not set up yet, 110-112 *)
      else Some (w_listens (to_last LBind (l_listens s)) s)
  | Some LBind =>
      if ok then
        if any_open (l_socks s) then None
        else Some (w_sock (Some (length (l_socks s))) (l_socks s ++ [true]) (w_listens (to_last LRest (l_listens s)) s))
      else Some (w_sock None (l_socks s) (w_listens (to_last LClear (l_listens s)) s))   (* n.listener is assigned also on failure, 122 *)
  | Some LRest =>
      if ok then Some (w_work (length (l_works s)) (l_works s ++ [true]) (w_loops (l_loops s ++ [ASet]) (w_listens (to_last (LRet true) (l_listens s)) s)))
      else match l_listener s with
           | Some k => Some (w_sock (l_listener s) (set_nth k false (l_socks s)) (w_listens (to_last LClear (l_listens s)) s))  (* a protocol's Bind fails, 167-176 *)
           | None => None
           end
  | Some LClear => Some (w_flag false (w_listens (to_last (LRet false) (l_listens s)) s))
  | _ => None
  end.

(** node.go:199-233. *)
Definition loop_step (i : nat) (s : life) : option life :=
  let to x := w_loops (set_nth i x (l_loops s)) in
  match nth_error (l_loops s) i with
  | Some ASet => Some (to ANext (w_flag true s))
  | Some ANext => match l_listener s with Some k => Some (to (AIn k) s) | None => Some (w_crash s) end
  | Some (AIn k) => match nth_error (l_socks s) k with Some false => Some (to AFail s) | _ => None end
  | Some AFail =>
      if l_over s then Some (w_crash s)           (* send on a closed channel *)
      else if l_buf s then None
      else Some (to AWork (w_done true false s))
  | Some AWork =>
      match nth_error (l_works s) (l_work s) with
      | Some true => Some (to AWait (w_work (l_work s) (set_nth (l_work s) false (l_works s)) s))
      | _ => Some (w_crash s)                     (* close of a closed channel *)
      end
  | Some AWait => if all_closed (l_works s) then Some (to AClear s) else None
  | Some AClear => Some (to ADone (w_flag false s))
  | Some ADone => if l_over s then Some (w_crash s) else Some (to AEnd (w_done (l_buf s) true s))
  | _ => None
  end.

(** node.go:378-388. *)
Definition close_step (j : nat) (s : life) : option life :=
  let to x := w_closes (set_nth j x (l_closes s)) in
  match nth_error (l_closes s) j with
  | Some CCas => if l_flag s then Some (to CShut (w_flag false s)) else Some (to CWait s)
  | Some CShut =>
      match l_listener s with
      | None => Some (w_crash s)
      | Some k => match nth_error (l_socks s) k with
                  | Some true => Some (to CWait (w_sock (l_listener s) (set_nth k false (l_socks s)) s))
                  | _ => Some (to (CRet false) s)    (* a second Close of a socket is an error *)
                  end
      end
  | Some CWait => if l_buf s then Some (to (CRet true) (w_done false (l_over s) s)) else if l_over s then Some (to (CRet true) s) else None
  | _ => None
  end.

(** One step of one goroutine (node.go:109-236, 378-388). *)
Definition lstep (s : life) (a : lact) : option life :=
  if l_crash s then None else
  match a with
  | LCall => match under_way (l_listens s) with None => Some (w_listens (l_listens s ++ [LLoad]) s) | Some _ => None end
  | LStep ok => listen_step ok s
  | LHidden =>
      match under_way (l_listens s), l_listener s with
      | Some LRest, Some k => Some (w_sock (l_listener s) (set_nth k false (l_socks s)) (w_listens (to_last (LRet false) (l_listens s)) s))
      | _, _ => None
      end
  | ALoop i => loop_step i s
  | AConn i =>
      match nth_error (l_loops s) i with
      | Some (AIn k) => match nth_error (l_socks s) k with
                        | Some true => Some (w_conns (S (l_conns s)) (w_loops (set_nth i ANext (l_loops s)) s))
                        | _ => None
                        end
      | _ => None
      end
  | CCall => Some (w_closes (l_closes s ++ [CCas]) s)
  | CStep j => close_step j s
  end.
(** Several steps, in order (node.go:109-236, 378-388). *)
Fixpoint lrun (s : life) (l : list lact) : option life :=
  match l with [] => Some s | a :: l' => match lstep s a with Some s' => lrun s' l' | None => None end end.
