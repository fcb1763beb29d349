(** * Model of kademlia/iterator.go: one call of Find as a machine of goroutines.

    Goroutines: Find's own loop, iterate, one coordinator per disjoint lookup (processLookupBucket) and [k] workers per
    coordinator (processLookupRequests).  An action is one step of one goroutine; a schedule is any list of actions.  The
    outcome of a request (error, foreign type, or any list of IDs) is part of the action, so peers are arbitrary; that a
    request returns at all is Node.Request's business (its context has a deadline, iterator.go:162). *)
From Verif Require Import Base M_ID M_Binary M_Table.
Local Open Scope nat_scope.

(** iterator.go:155-180: waiting for work; request sent; about to send the peer to it.results; about to send to out; ended. *)
Inductive wpc := WIdle | WAsk (id : ID) | WRes (id : ID) (ids : list ID) | WOut (ids : list ID) | WExit.
(** iterator.go:108-153: the loop head; at line 136; holding what was received; queue closed, waiting; ended. *)
Inductive lpc := LFill | LAwait | LMerge (ids : list ID) | LClosing | LDone.

(** One disjoint lookup: coordinator, it.buckets[i], the channels queue and results, pending, workers.  kademlia/iterator.go:108-153. *)
Record lookup := mkL { l_pc : lpc; l_bucket : list ID; l_queue : list ID; l_outq : list (list ID); l_pending : nat; l_workers : list wpc }.

(** it.visited, the lookups, it.results (its buffer, and whether closed), Find's closest and whether its loop has ended.
    [i_asked] and [i_answered] only record the requests sent, with the Target they carry, and the answers.  kademlia/iterator.go:13-29, 55-72. *)
Record istate := mkI {
  i_visited : list pubkey;
  i_lookups : list lookup;
  i_results : list ID;
  i_closed : bool;
  i_found : list ID;
  i_done : bool;
  i_asked : list (ID * pubkey);
  i_answered : list (ID * list ID)
}.

(** it.visited[id.ID], kademlia/iterator.go:140. *)
Definition visited (v : list pubkey) (k : pubkey) : bool := existsb (bytes_eqb k) v.

(** iterator.go:84-87: peers dealt out round-robin. *)
Fixpoint deal (n i : nat) (peers : list ID) (buckets : list (list ID)) : list (list ID) :=
  match peers with
  | [] => buckets
  | id :: r => deal n (S i) r (set_nth (i mod n) (nth (i mod n) buckets [] ++ [id]) buckets)
  end.

(** iterator.go:74-88 init, 90-106 iterate and 108-121: [n] lookups of [k] workers each.  A negative length panics in make,
    i%0 panics. *)
Definition iter_init (self target : pubkey) (peers : list ID) (n k : Z) : res istate :=
  if (n <? 0)%Z then Panic
  else if (k <? 0)%Z then (if (n =? 0)%Z then (match peers with [] => Ok (mkI [self; target] [] [] false [] false [] []) | _ => Panic end) else Panic)
  else match Z.to_nat n, peers with
       | O, _ :: _ => Panic
       | n', _ => Ok (mkI (map id_key peers ++ [self; target])
                        (map (fun b => mkL LFill b [] [] 0 (repeat WIdle (Z.to_nat k))) (deal n' 0 peers (repeat [] n')))
                        [] false [] false [] [])
       end.

(** iterator.go:139-144, under the lock: the unvisited IDs, marking them as it goes. *)
Fixpoint merge (v : list pubkey) (b : list ID) (ids : list ID) : list pubkey * list ID :=
  match ids with
  | [] => (v, b)
  | id :: r => if visited v (id_key id) then merge v b r else merge (id_key id :: v) (b ++ [id]) r
  end.

(** Which goroutine takes the next step, kademlia/iterator.go:55-180. *)
Inductive iaction :=
| AFill (i : nat) | ARecv (i : nat) | AMerge (i : nat) | AJoin (i : nat)
| ATake (i j : nat) | AExit (i j : nat) | AReply (i j : nat) (r : option (list ID)) | APub (i j : nat) | APut (i j : nat)
| ACollect | ACloseResults | AFindEnd.

(** Moves lookup [i] (kademlia/iterator.go:108-153) on. *)
Definition set_lookup (s : istate) (i : nat) (l : lookup) : istate :=
  mkI (i_visited s) (set_nth i l (i_lookups s)) (i_results s) (i_closed s) (i_found s) (i_done s) (i_asked s) (i_answered s).
(** Moves worker [j] of a lookup (kademlia/iterator.go:155-180) on. *)
Definition set_worker (l : lookup) (j : nat) (w : wpc) : lookup :=
  mkL (l_pc l) (l_bucket l) (l_queue l) (l_outq l) (l_pending l) (set_nth j w (l_workers l)).
(** The worker has returned (kademlia/iterator.go:155-159). *)
Definition is_exit (w : wpc) : bool := match w with WExit => true | _ => false end.
(** The lookup has returned (kademlia/iterator.go:108-153). *)
Definition is_ldone (l : lookup) : bool := match l_pc l with LDone => true | _ => false end.

(** [None]: the goroutine cannot take that step now (it is blocked or elsewhere).  [k] is numParallelRequestsPerLookup, the
    capacity of queue and results. *)
Definition istep (k : nat) (s : istate) (a : iaction) : option istate :=
  match a with
  | AFill i =>                                                   (* iterator.go:124-134 *)
      match nth_error (i_lookups s) i with
      | Some (mkL LFill b q o p ws) =>
          match b with
          | id :: b' => if length q <? k then Some (set_lookup s i (mkL LFill b' (q ++ [id]) o (S p) ws))
                        else Some (set_lookup s i (mkL (if p =? 0 then LClosing else LAwait) b q o p ws))
          | [] => Some (set_lookup s i (mkL (if p =? 0 then LClosing else LAwait) b q o p ws))
          end
      | _ => None
      end
  | ARecv i =>                                                   (* iterator.go:136 *)
      match nth_error (i_lookups s) i with
      | Some (mkL LAwait b q (ids :: o) p ws) => Some (set_lookup s i (mkL (LMerge ids) b q o p ws))
      | _ => None
      end
  | AMerge i =>                                                  (* iterator.go:138-147 *)
      match nth_error (i_lookups s) i with
      | Some (mkL (LMerge ids) b q o p ws) =>
          let (v, b') := merge (i_visited s) b ids in
          Some (mkI v (set_nth i (mkL LFill b' q o (p - 1) ws) (i_lookups s)) (i_results s) (i_closed s) (i_found s) (i_done s) (i_asked s) (i_answered s))
      | _ => None
      end
  | AJoin i =>                                                   (* iterator.go:151-152: wg.Wait, close(results) *)
      match nth_error (i_lookups s) i with
      | Some (mkL LClosing b q o p ws) => if forallb is_exit ws then Some (set_lookup s i (mkL LDone b q o p ws)) else None
      | _ => None
      end
  | ATake i j =>                                                 (* iterator.go:156, 165: the request is sent, Target: id.ID *)
      match nth_error (i_lookups s) i with
      | Some l =>
          match nth_error (l_workers l) j, l_queue l with
          | Some WIdle, id :: q =>
              Some (mkI (i_visited s) (set_nth i (mkL (l_pc l) (l_bucket l) q (l_outq l) (l_pending l) (set_nth j (WAsk id) (l_workers l))) (i_lookups s))
                      (i_results s) (i_closed s) (i_found s) (i_done s) ((id, id_key id) :: i_asked s) (i_answered s))
          | _, _ => None
          end
      | None => None
      end
  | AExit i j =>                                                 (* iterator.go:156: queue closed and drained *)
      match nth_error (i_lookups s) i with
      | Some l =>
          match nth_error (l_workers l) j, l_queue l, l_pc l with
          | Some WIdle, [], LClosing => Some (set_lookup s i (set_worker l j WExit))
          | _, _, _ => None
          end
      | None => None
      end
  | AReply i j r =>                                              (* iterator.go:165-175 *)
      match nth_error (i_lookups s) i with
      | Some l =>
          match nth_error (l_workers l) j with
          | Some (WAsk id) =>
              let w := match r with None => WOut [] | Some ids => WRes id ids end in
              Some (mkI (i_visited s) (set_nth i (set_worker l j w) (i_lookups s)) (i_results s) (i_closed s) (i_found s) (i_done s) (i_asked s)
                      (match r with None => i_answered s | Some ids => (id, ids) :: i_answered s end))
          | _ => None
          end
      | None => None
      end
  | APub i j =>                                                  (* iterator.go:177: it.results has capacity 1 *)
      match nth_error (i_lookups s) i with
      | Some l =>
          match nth_error (l_workers l) j, i_results s with
          | Some (WRes id ids), [] =>
              Some (mkI (i_visited s) (set_nth i (set_worker l j (WOut ids)) (i_lookups s)) [id] (i_closed s) (i_found s) (i_done s) (i_asked s) (i_answered s))
          | _, _ => None
          end
      | None => None
      end
  | APut i j =>                                                  (* iterator.go:167, 173, 179 *)
      match nth_error (i_lookups s) i with
      | Some l =>
          match nth_error (l_workers l) j with
          | Some (WOut ids) =>
              if length (l_outq l) <? k
              then Some (set_lookup s i (mkL (l_pc l) (l_bucket l) (l_queue l) (l_outq l ++ [ids]) (l_pending l) (set_nth j WIdle (l_workers l))))
              else None
          | _ => None
          end
      | None => None
      end
  | ACollect =>                                                  (* iterator.go:61-63 *)
      match i_results s with
      | id :: r => if i_done s then None else Some (mkI (i_visited s) (i_lookups s) r (i_closed s) (i_found s ++ [id]) (i_done s) (i_asked s) (i_answered s))
      | [] => None
      end
  | ACloseResults =>                                             (* iterator.go:103-105 *)
      if forallb is_ldone (i_lookups s) && negb (i_closed s)
      then Some (mkI (i_visited s) (i_lookups s) (i_results s) true (i_found s) (i_done s) (i_asked s) (i_answered s)) else None
  | AFindEnd =>                                                  (* iterator.go:61: closed and drained *)
      match i_results s with
      | [] => if i_closed s && negb (i_done s)
              then Some (mkI (i_visited s) (i_lookups s) [] true (i_found s) true (i_asked s) (i_answered s)) else None
      | _ => None
      end
  end.

(** Several steps, in order (kademlia/iterator.go:55-180). *)
Fixpoint irun (k : nat) (s : istate) (l : list iaction) : option istate :=
  match l with [] => Some s | a :: l' => match istep k s a with Some s' => irun k s' l' | None => None end end.

(** iterator.go:65-71: sort and truncate; a negative bound panics. *)
Definition find_result (target : pubkey) (max : Z) (found : list ID) : res (list ID) :=
  let closest := SortByDistance target found in
  if (max <? Z.of_nat (length closest))%Z then (if (max <? 0)%Z then Panic else slice_to (Z.to_nat max) closest) else Ok closest.
