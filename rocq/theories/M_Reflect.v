(** * Requests over a connection whose frames pass through somebody else: client.go request (349-380), recvLoop (517-558), msg.go HandlerContext.Send
    (72-78) and IsRequest (63-65), map.go nextNonce and findRequest (109-148).

    Both ends seal their messages with one and the same key (client.go:439-451), with nothing in a frame that says which end sealed it or how many came
    before it (aead.go:28-50; no additional data).  So whoever carries the frames may hand either end any frame that either end has sealed, as often and
    in whatever order they like: C64_replay shows that an end accepts any selection of recorded frames, and C64_origin_partial that it accepts no others.
    Here the network is that: [XToA] and [XToB] hand a sealed message to an end, [reflects] says whether a message may also come back to the end that
    sealed it.  The first end makes the calls (it dialled: node.go:344: requests go through the outbound pool only), the second has none outstanding.

    Simplified: a call's channel is part of the call, the reader's findRequest and its send into the channel (541-543) are one step, and so are a call's
    nextNonce and the making of its channel; the connection does not end; a handler answers a message it was given at most once (msg.go:73; several
    handlers: C32) or sends messages that are no responses ([XSay]). *)
From Verif Require Import Base M_Table M_Maps M_Gossip.
Local Open Scope nat_scope.

(** msg.go:11-14 message. *)
Definition xmsg := (N * bytes)%type.

(** A call of request (349-378): its data and nonce, whether it has run send (359), what its channel holds, what it has returned ([Some None] once its
    context has ended, 373-374). *)
Record xcall := mkXC { xc_data : bytes; xc_nonce : N; xc_sent : bool; xc_got : option bytes; xc_ret : option (option bytes) }.

(** The first end's request map (map.go:99-103), its calls (client.go:349-378), what either end has sealed and been handed. *)
Record xstate := mkX {
  x_map : reqmap;                      (* the first end's requests *)
  x_calls : list xcall;                (* its calls, by number of channel *)
  x_sealA : list xmsg;                 (* every message the first end has sealed *)
  x_sealB : list xmsg;                 (* every message the second end has sealed *)
  x_workA : list xmsg;                 (* requests that the handlers of the first end have and have not answered *)
  x_workB : list xmsg;                 (* the same for the second end *)
  (* history *)
  x_ans : list (N * bytes * bytes)     (* the second end's handlers answered: nonce, what they were asked, what they answered *)
}.
(** A connection after its handshake, client.go:88-108. *)
Definition x_start : xstate := mkX newRequestMap [] [] [] [] [] [].

(** Steps of the two ends (client.go:349-378, 517-556, msg.go:72-78) and of the network. *)
Inductive xact :=
| XCall (d : bytes)                    (* a goroutine of the first end calls request *)
| XSend (i : nat)                      (* call [i] runs send *)
| XSay (mine : bool) (d : bytes)       (* the first end, or the second, sends a message with nonce 0 *)
| XToB (own : bool) (j : nat)          (* the network hands the second end the [j]th message sealed by the first, or by itself if [own] *)
| XToA (own : bool) (j : nat)          (* the same for the first end *)
| XAnswer (mine : bool) (j : nat) (d : bytes) (* a handler of the first end, or of the second, answers its [j]th request *)
| XReceive (i : nat)                   (* call [i] receives from its channel *)
| XCancel (i : nat).                   (* call [i] returns since its context has ended *)

(** Moves a call of request (client.go:349-378) on. *)
Definition set_call (s : xstate) (i : nat) (c : xcall) : list xcall := set_nth i c (x_calls s).

Section Net.
Variable reflects : bool.

Definition xstep (s : xstate) (a : xact) : option xstate :=
  match a with
  | XCall d =>
      (* client.go:352-355 *)
      match nextNonce (x_map s) with
      | (m, None) => Some (mkX m (x_calls s) (x_sealA s) (x_sealB s) (x_workA s) (x_workB s) (x_ans s))
      | (m, Some (_, n)) => Some (mkX m (x_calls s ++ [mkXC d n false None None]) (x_sealA s) (x_sealB s) (x_workA s) (x_workB s) (x_ans s))
      end
  | XSend i =>
      (* 359, 340-347; writeLoop seals it (599-632) *)
      match nth_error (x_calls s) i with
      | Some (mkXC d n false g r) =>
          Some (mkX (x_map s) (set_call s i (mkXC d n true g r)) (x_sealA s ++ [(n, d)]) (x_sealB s) (x_workA s) (x_workB s) (x_ans s))
      | _ => None
      end
  | XSay true d => Some (mkX (x_map s) (x_calls s) (x_sealA s ++ [(0%N, d)]) (x_sealB s) (x_workA s) (x_workB s) (x_ans s))
  | XSay false d => Some (mkX (x_map s) (x_calls s) (x_sealA s) (x_sealB s ++ [(0%N, d)]) (x_workA s) (x_workB s) (x_ans s))
  | XToB own j =>
      (* recvLoop of the second end: its findRequest finds nothing, 548 *)
      if own && negb reflects then None else
      match nth_error (if own then x_sealB s else x_sealA s) j with
      | Some m => Some (mkX (x_map s) (x_calls s) (x_sealA s) (x_sealB s) (x_workA s) (if N.eqb (fst m) 0 then x_workB s else x_workB s ++ [m]) (x_ans s))
      | None => None
      end
  | XToA own j =>
      (* recvLoop of the first end: 541-548 *)
      if own && negb reflects then None else
      match nth_error (if own then x_sealA s else x_sealB s) j with
      | Some m =>
          match findRequest (x_map s) (fst m) with
          | (rm, Some ch) =>
              match nth_error (x_calls s) ch with
              | Some c => Some (mkX rm (set_call s ch (mkXC (xc_data c) (xc_nonce c) (xc_sent c) (Some (snd m)) (xc_ret c))) (x_sealA s) (x_sealB s) (x_workA s) (x_workB s) (x_ans s))
              | None => None
              end
          | (rm, None) => Some (mkX rm (x_calls s) (x_sealA s) (x_sealB s) (if N.eqb (fst m) 0 then x_workA s else x_workA s ++ [m]) (x_workB s) (x_ans s))
          end
      | None => None
      end
  | XAnswer true j d =>
      (* msg.go:72-78: the answer carries the nonce of what is answered *)
      match nth_error (x_workA s) j with
      | Some (n, x) => Some (mkX (x_map s) (x_calls s) (x_sealA s ++ [(n, d)]) (x_sealB s) (remove_nth j (x_workA s)) (x_workB s) (x_ans s))
      | None => None
      end
  | XAnswer false j d =>
      match nth_error (x_workB s) j with
      | Some (n, x) => Some (mkX (x_map s) (x_calls s) (x_sealA s) (x_sealB s ++ [(n, d)]) (x_workA s) (remove_nth j (x_workB s)) (x_ans s ++ [(n, x, d)]))
      | None => None
      end
  | XReceive i =>
      (* 368-371 *)
      match nth_error (x_calls s) i with
      | Some (mkXC d n true (Some g) None) =>
          Some (mkX (x_map s) (set_call s i (mkXC d n true None (Some (Some g)))) (x_sealA s) (x_sealB s) (x_workA s) (x_workB s) (x_ans s))
      | _ => None
      end
  | XCancel i =>
      (* 373-374: nothing is taken out of the request map *)
      match nth_error (x_calls s) i with
      | Some (mkXC d n true g None) =>
          Some (mkX (x_map s) (set_call s i (mkXC d n true g (Some None))) (x_sealA s) (x_sealB s) (x_workA s) (x_workB s) (x_ans s))
      | _ => None
      end
  end.
(** Several steps, in order (client.go:349-378, 517-556, msg.go:72-78). *)
Fixpoint xrun (s : xstate) (l : list xact) : option xstate :=
  match l with [] => Some s | a :: l' => match xstep s a with Some s' => xrun s' l' | None => None end end.
End Net.
