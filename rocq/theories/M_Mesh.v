(** * Nodes whose handlers send messages (client.go:340-347, 517-640; node.go:181-197), with the room that each stage has.

    Any number of nodes and of connections.  A connection is two links, one each way; a link has the sender's writerBuf, the batch that writeLoop has taken from
    it, the bytes underway, of which there is room for so many, and the message that the receiver's recvLoop holds.  A node has its channel of work, with room for as many messages as it has
    workers, and the calls of handlers under way.
    Simplified: connections do not drop and handlers do not fail (M_Conn, M_Work have those); room on the wire is counted in messages; a node has one handler, which returns
    after sending some messages that depend on the message it was given; callbacks do nothing. *)
From Verif Require Import Base M_Table M_Gossip.
Local Open Scope nat_scope.

Section WithMessages.
Context {M : Type}.
(** A message and the link it is sent on (msg.go:9-12, client.go:535). *)
Definition mail := (nat * M)%type.
(** client.go:340-347 writerBuf, 587-599 the batch, the wire, 521-548 what recvLoop holds; the node at the far end. *)
Record link := mkLink { k_box : list mail; k_batch : list mail; k_wire : list mail; k_hold : option mail; k_to : nat }.
(** node.go:178-179 work, 181-196 the workers' calls. *)
Record station := mkStation { n_work : list mail; n_busy : list mail }.
(** All links and nodes (node.go:24-58: each node has its clients and its work); history: the messages sent and those handled, in order. *)
Record mesh := mkMesh { m_links : list link; m_nodes : list station;
  m_sent : list mail; m_handled : list mail }.

Inductive mact :=
| XSend (x : mail)          (* an application calls Send (client.go:340-347) *)
| XFlush (l : nat)          (* writeLoop takes what there is in writerBuf (client.go:587-593) *)
| XWrite (l : nat)          (* and writes a message of it (client.go:599-634) *)
| XRead (l : nat)           (* recvLoop reads a message (client.go:521-538) *)
| XPush (l : nat)           (* and passes it on (client.go:548) *)
| XTake (n : nat)           (* a worker takes a message (node.go:185) *)
| XDone (n i : nat).        (* call [i] of a handler sends what it sends and returns (node.go:186-187) *)

(** [w]: workers per node (node.go:178-181); [cap]: messages that a link's wire can hold; [react n x]: what node [n]'s handler sends when it is given [x]. *)
Variables (w cap : nat) (react : nat -> mail -> list mail).

(** client.go:340-347: append to writerBuf.  A link that does not exist takes nothing. *)
Definition put (x : mail) (ls : list link) : list link :=
  match nth_error ls (fst x) with
  | Some k => set_nth (fst x) (mkLink (k_box k ++ [x]) (k_batch k) (k_wire k) (k_hold k) (k_to k)) ls
  | None => ls
  end.
(** Several calls of Send, one after the other (client.go:340-347). *)
Definition put_all (xs : list mail) (ls : list link) : list link := fold_left (fun ls x => put x ls) xs ls.
(** Those for which there is a link; the others' Send fails (node.go:316-326). *)
Definition valid (ls : list link) (xs : list mail) : list mail := filter (fun x => fst x <? length ls) xs.

(** One step of one goroutine (client.go:340-347, 517-640; node.go:181-197). *)
Definition mstep (s : mesh) (a : mact) : option mesh :=
  match a with
  | XSend x => if fst x <? length (m_links s) then Some (mkMesh (put x (m_links s)) (m_nodes s) (m_sent s ++ [x]) (m_handled s)) else None
  | XFlush l =>
      match nth_error (m_links s) l with
      | Some (mkLink (x :: box) [] wire hold to) => Some (mkMesh (set_nth l (mkLink [] (x :: box) wire hold to) (m_links s)) (m_nodes s) (m_sent s) (m_handled s))
      | _ => None
      end
  | XWrite l =>
      match nth_error (m_links s) l with
      | Some (mkLink box (x :: batch) wire hold to) =>
          if length wire <? cap then Some (mkMesh (set_nth l (mkLink box batch (wire ++ [x]) hold to) (m_links s)) (m_nodes s) (m_sent s) (m_handled s)) else None
      | _ => None
      end
  | XRead l =>
      match nth_error (m_links s) l with
      | Some (mkLink box batch (x :: wire) None to) => Some (mkMesh (set_nth l (mkLink box batch wire (Some x) to) (m_links s)) (m_nodes s) (m_sent s) (m_handled s))
      | _ => None
      end
  | XPush l =>
      match nth_error (m_links s) l with
      | Some (mkLink box batch wire (Some x) to) =>
          match nth_error (m_nodes s) to with
          | Some (mkStation work busy) =>
              if length work <? w then
                Some (mkMesh (set_nth l (mkLink box batch wire None to) (m_links s)) (set_nth to (mkStation (work ++ [x]) busy) (m_nodes s)) (m_sent s) (m_handled s))
              else None
          | None => None
          end
      | _ => None
      end
  | XTake n =>
      match nth_error (m_nodes s) n with
      | Some (mkStation (x :: work) busy) =>
          if length busy <? w then Some (mkMesh (m_links s) (set_nth n (mkStation work (busy ++ [x])) (m_nodes s)) (m_sent s) (m_handled s)) else None
      | _ => None
      end
  | XDone n i =>
      match nth_error (m_nodes s) n with
      | Some (mkStation work busy) =>
          match nth_error busy i with
          | Some x => Some (mkMesh (put_all (react n x) (m_links s)) (set_nth n (mkStation work (remove_nth i busy)) (m_nodes s))
                                   (m_sent s ++ valid (m_links s) (react n x)) (m_handled s ++ [x]))
          | None => None
          end
      | None => None
      end
  end.
(** Several steps, in order (client.go:340-347, 517-640; node.go:181-197). *)
Fixpoint mrun (s : mesh) (l : list mact) : option mesh :=
  match l with [] => Some s | a :: l' => match mstep s a with Some s' => mrun s' l' | None => None end end.
(** Connections have been made (client.go:208-280) and nothing has been sent: [tos] says for each link to which node it leads, of [n] nodes. *)
Definition m_start (tos : list nat) (n : nat) : mesh := mkMesh (map (mkLink [] [] [] None) tos) (repeat (mkStation [] []) n) [] [].
End WithMessages.
