(** * What a node keeps in memory for its peers: messages received and not handled yet, messages to be sent. *)
From Verif Require Import Base M_Table.
Local Open Scope nat_scope.

(** A message stands as its number of bytes.  A connection (client.go:42-78): whether it is up; the message that recvLoop has read and
    not handed over yet (client.go:520-548); writerBuf (client.go:68); what writeLoop has taken from it and not written yet
    (client.go:591-632); the bytes written that the peer has not read yet, in the buffers of bufio and of both systems. *)
Record mconn := mkMC { mc_up : bool; mc_held : option nat; mc_out : list nat; mc_batch : list nat; mc_sock : nat }.
(** A worker (node.go:181-195): idle, or running the handlers on a message that came on connection [c], with the answers that they are still to give. *)
Inductive mworker := MIdle | MBusy (c n : nat) (answers : list nat).
(** The node: its connections, node.work (node.go:178), the workers. *)
Record mnode := mkMN { mn_conns : list mconn; mn_work : list (nat * nat); mn_workers : list mworker }.

(** After Listen, node.go:178-197. *)
Definition new_mnode (workers : nat) : mnode := mkMN [] [] (repeat MIdle workers).

(** Steps: of the peers, of readers and writers (client.go:517-651), of workers (node.go:181-197). *)
Inductive mact :=
| MConnect                            (* a connection becomes ready *)
| MRecv (c n : nat)                   (* the peer sends a message of [n] bytes and recvLoop reads it *)
| MReply (c : nat)                    (* it answers a request: it goes to the goroutine that waits for it *)
| MPut (c : nat)                      (* it goes to node.work *)
| MTake (j : nat) (answers : list nat)   (* worker [j] receives it; [answers] is what its handlers will send back *)
| MAnswer (j : nat)
| MFinish (j : nat)
| MSend (c n : nat)                   (* the application calls Send, or makes a Request *)
| MBatch (c : nat)                    (* writeLoop takes all that is in writerBuf *)
| MWrite (c : nat)                    (* one message is written to the connection *)
| MPeerReads (c n : nat)
| MDown (c : nat).                    (* the connection is closed, writeLoop ends *)

(** Replaces the state of connection [c] (client.go:47-86). *)
Definition set_conn (s : mnode) (c : nat) (k : mconn) : mnode := mkMN (set_nth c k (mn_conns s)) (mn_work s) (mn_workers s).

(** [w]: WithNodeNumWorkers.  [limit]: WithNodeMaxRecvMessageSize (client.go:295-297; for 0 see C09).  [room]: how many bytes the buffers of
    bufio and of both systems take; a message is written once they are not full, in one step.  Time is not modelled: an idle timeout closes the
    connection ([MDown]) if one batch cannot be written within it. *)
Definition mstep (w limit room : nat) (s : mnode) (a : mact) : option mnode :=
  match a with
  | MConnect => Some (mkMN (mn_conns s ++ [mkMC true None [] [] 0]) (mn_work s) (mn_workers s))
  | MRecv c n =>                                            (* client.go:282-313, 521-539 *)
      match nth_error (mn_conns s) c with
      | Some (mkMC true None o b k) =>
          if limit <? n then Some (set_conn s c (mkMC false None [] [] k)) else Some (set_conn s c (mkMC true (Some n) o b k))
      | _ => None
      end
  | MReply c =>                                             (* client.go:541-546: the channel has room for the one answer *)
      match nth_error (mn_conns s) c with Some (mkMC u (Some n) o b k) => Some (set_conn s c (mkMC u None o b k)) | _ => None end
  | MPut c =>                                               (* client.go:548, node.go:178: a channel of capacity numWorkers *)
      match nth_error (mn_conns s) c with
      | Some (mkMC u (Some n) o b k) =>
          if length (mn_work s) <? w then Some (mkMN (set_nth c (mkMC u None o b k) (mn_conns s)) (mn_work s ++ [(c, n)]) (mn_workers s)) else None
      | _ => None
      end
  | MTake j answers =>                                      (* node.go:185 *)
      match nth_error (mn_workers s) j, mn_work s with
      | Some MIdle, (c, n) :: q => Some (mkMN (mn_conns s) q (set_nth j (MBusy c n answers) (mn_workers s)))
      | _, _ => None
      end
  | MAnswer j =>                                            (* msg.go:71-73, client.go:340-347: send appends, whatever the state of the connection *)
      match nth_error (mn_workers s) j with
      | Some (MBusy c n (a :: r)) =>
          match nth_error (mn_conns s) c with
          | Some (mkMC u h o b k) => Some (mkMN (set_nth c (mkMC u h (o ++ [a]) b k) (mn_conns s)) (mn_work s) (set_nth j (MBusy c n r) (mn_workers s)))
          | None => None
          end
      | _ => None
      end
  | MFinish j =>
      match nth_error (mn_workers s) j with
      | Some (MBusy c n []) => Some (mkMN (mn_conns s) (mn_work s) (set_nth j MIdle (mn_workers s)))
      | _ => None
      end
  | MSend c n =>                                            (* client.go:340-347 *)
      match nth_error (mn_conns s) c with Some (mkMC u h o b k) => Some (set_conn s c (mkMC u h (o ++ [n]) b k)) | None => None end
  | MBatch c =>                                             (* client.go:587-593 *)
      match nth_error (mn_conns s) c with
      | Some (mkMC true h (a :: o) [] k) => Some (set_conn s c (mkMC true h [] (a :: o) k))
      | _ => None
      end
  | MWrite c =>                                             (* client.go:599-634 *)
      match nth_error (mn_conns s) c with
      | Some (mkMC true h o (a :: b) k) => if k <? room then Some (set_conn s c (mkMC true h o b (k + a))) else None
      | _ => None
      end
  | MPeerReads c n =>
      match nth_error (mn_conns s) c with Some (mkMC u h o b k) => Some (set_conn s c (mkMC u h o b (k - n))) | None => None end
  | MDown c =>                                              (* client.go:187-198, 592-597 *)
      match nth_error (mn_conns s) c with Some (mkMC u h o b k) => Some (set_conn s c (mkMC false h [] [] k)) | None => None end
  end.
(** Several steps, in order (client.go:517-651, node.go:181-197). *)
Fixpoint mrun (w limit room : nat) (s : mnode) (l : list mact) : option mnode :=
  match l with [] => Some s | a :: r => match mstep w limit room s a with Some s1 => mrun w limit room s1 r | None => None end end.
