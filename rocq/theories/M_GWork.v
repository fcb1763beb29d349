(** * Model of gossip on the node's workers: node.go:178-197 and client.go:548 with gossip/protocol.go Handle (91-125) and Push (61-88).

    The goroutines of Handle and Push are those of M_Gossip.  Here each belongs to the worker that runs Handle, and the worker goes on only when Push has returned,
    that is when all of Push's goroutines have ended (protocol.go:67-87, wg).  Handle calls Push with context.Background() (122), so a send ends only when the
    connection to the peer does something: [silent p] says that SendMessage to [p] does not return, as when [p] accepts connections but does not answer the handshake and
    there is no idle timeout (Props_GWork.C97_dial_waits).  A message that is not gossip is handled at once.  Simplified: other handlers are left out. *)
From Verif Require Import Base M_ID M_Table M_Gossip.
Local Open Scope nat_scope.

(** A message that a worker takes (node.go:185): gossip, decoded by gossip/protocol.go:92-104, or something else. *)
Inductive item := Gossip (from : ID) (d : bytes) | Other.

Record gwstate := mkGW {
  gw_cache : list bytes;
  gw_entries : list ID;
  gw_threads : list (option nat * gpc);   (* with the worker it works for; None: the application called Push *)
  gw_queue : list item;                   (* node.work *)
  gw_gone : list nat;                     (* workers that have ended (node.go:192) *)
  gw_taken : list item                    (* history: messages taken by workers *)
}.
(** After Listen, node.go:178-197. *)
Definition gw_start (es : list ID) : gwstate := mkGW [] es [] [] [] [].

Inductive gwact :=
| WStep (i : nat) (ok : bool)     (* a goroutine takes a step, as in M_Gossip *)
| WRecv (m : item)                (* client.go:548 *)
| WTake (j : nat)                 (* node.go:185: worker [j] takes a message *)
| WCall (d : bytes)               (* the application calls Push *)
| WTable (es : list ID)           (* the routing table changes *)
| WEvict (k : bytes).             (* the cache drops an entry *)

(** The goroutine has ended (gossip/protocol.go:72-84, 124). *)
Definition is_end (p : gpc) : bool := match p with GEnd => true | _ => false end.
(** The goroutine runs on behalf of worker [j] (node.go:186-187). *)
Definition owned (j : nat) (t : option nat * gpc) : bool := match fst t with Some k => k =? j | None => false end.
(** Worker [j] has nothing to do.  node.go:185. *)
Definition free (s : gwstate) (j : nat) : bool := forallb (fun t => negb (owned j t) || is_end (snd t)) (gw_threads s).

Section GWork.
Variables (self : pubkey) (w : nat) (silent : ID -> bool).

Definition gwstep (s : gwstate) (a : gwact) : option gwstate :=
  match a with
  | WStep i ok =>
      match nth_error (gw_threads s) i with
      | Some (o, p) =>
          if is_end p || match p with GSend to _ => silent to | _ => false end then None
          else
            let '(c, p', new, _) := gstep self (gw_entries s) ok (gw_cache s) p in
            (* protocol.go:117-120, node.go:187-192: Handle returns the callback's error, which ends the worker *)
            let gone := match p, ok, o with GEvent _ _, false, Some j => j :: gw_gone s | _, _, _ => gw_gone s end in
            Some (mkGW c (gw_entries s) (set_nth i (o, p') (gw_threads s) ++ map (fun q => (o, q)) new) (gw_queue s) gone (gw_taken s))
      | None => None
      end
  | WRecv m => if length (gw_queue s) <? w then Some (mkGW (gw_cache s) (gw_entries s) (gw_threads s) (gw_queue s ++ [m]) (gw_gone s) (gw_taken s)) else None
  | WTake j =>
      match gw_queue s with
      | m :: q => if (j <? w) && negb (existsb (Nat.eqb j) (gw_gone s)) && free s j
                  then Some (mkGW (gw_cache s) (gw_entries s) (match m with Gossip from d => gw_threads s ++ [(Some j, GSetSender from d)] | Other => gw_threads s end)
                                  q (gw_gone s) (gw_taken s ++ [m]))
                  else None
      | [] => None
      end
  | WCall d => Some (mkGW (gw_cache s) (gw_entries s) (gw_threads s ++ [(None, GPush d)]) (gw_queue s) (gw_gone s) (gw_taken s))
  | WTable es => Some (mkGW (gw_cache s) es (gw_threads s) (gw_queue s) (gw_gone s) (gw_taken s))
  | WEvict k => Some (mkGW (filter (fun x => negb (bytes_eqb k x)) (gw_cache s)) (gw_entries s) (gw_threads s) (gw_queue s) (gw_gone s) (gw_taken s))
  end.
(** Several steps, in order (node.go:178-197, gossip/protocol.go:61-125). *)
Fixpoint gwrun (s : gwstate) (l : list gwact) : option gwstate :=
  match l with [] => Some s | a :: l' => match gwstep s a with Some s' => gwrun s' l' | None => None end end.
End GWork.
