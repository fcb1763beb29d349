(** * The two benchmark programs: cmd/benchmark_rpc/main.go (20-71) and cmd/benchmark_send/main.go (19-65).

    Rounds of goroutines each make one request (rpc) or send one message, add one to [sent] and are waited for; the receiving node's handler answers
    (rpc only) and adds one to [received]; once a second a further goroutine swaps both counters, one after the other, for zero and prints what they held.

    The library is reduced to what the programs use: a request is handled once and its answer is given to the goroutine that made it (C31, C34), a message that Send has
    accepted is handled once.  Simplified: nothing fails, so check never panics; of a message only the goroutine that it belongs to is kept. *)
From Verif Require Import Base M_Table.
Local Open Scope nat_scope.

(** A goroutine of a round: before Request or Send (rpc 59, send 57), waiting for the answer, before AddUint32 (rpc 64, send 58), after wg.Done. *)
Inductive bgo := GStart | GWait | GAdd | GDone.
(** A call of the handler, for a message of goroutine [i]: before Send (rpc 39), before AddUint32 (rpc 40, send 38). *)
Inductive bhd := HSend (i : nat) | HAdd.
(** uint32, rpc 24, send 23. *)
Definition wrap (x : N) : N := (x mod 2 ^ 32)%N.

Record bench := mkBe {
  be_round : list bgo;              (* the goroutines of the round *)
  be_net : list nat;                (* messages not handled yet, by goroutine *)
  be_handlers : list bhd;           (* calls of the handler that run *)
  be_back : list nat;               (* answers underway *)
  be_sent : N; be_recv : N;         (* the counters *)
  be_tick : option N;               (* the printer has swapped [sent] and is about to swap [received] (rpc 32-33, send 31-32) *)
  be_out : list (N * N);            (* lines printed *)
  (* history *)
  be_adds : nat; be_radds : nat;    (* additions to [sent], to [received] *)
  be_rounds : nat                   (* rounds that have ended *)
}.

(** One step of a goroutine of rpc 26-70, send 25-64. *)
Inductive bact :=
| BGo (i : nat)        (* goroutine [i] calls Request or Send *)
| BHandle (j : nat)    (* a worker takes the message at [j] *)
| BReply (j : nat)     (* handler call [j] answers *)
| BCount (j : nat)     (* handler call [j] counts and returns *)
| BBack (j : nat)      (* the answer at [j] arrives *)
| BAdd (i : nat)       (* goroutine [i] counts and is done *)
| BRound               (* wg.Wait returns, the next round begins *)
| BTick                (* the printer swaps [sent] *)
| BPrint.              (* the printer swaps [received] and prints *)

(** The element at [j] and the others; no code of its own (for rpc 38-42, send 37-40). *)
Fixpoint pick {A} (j : nat) (l : list A) : option (A * list A) :=
  match l, j with
  | [], _ => None
  | x :: r, 0 => Some (x, r)
  | x :: r, S j' => match pick j' r with Some (y, r') => Some (y, x :: r') | None => None end
  end.
(** wg's counter is zero, rpc 69, send 63. *)
Definition all_done (l : list bgo) : bool := forallb (fun g => match g with GDone => true | _ => false end) l.

Section WithProgram.
(** [rpc]: which program; [n]: the size of a round (rpc 55: NumCPU, send 53: four times that); [w]: the receiving node's workers (node.go:181). *)
Variables (rpc : bool) (n w : nat).

(** rpc 24, 54; send 23, 52. *)
Definition be_start : bench := mkBe (repeat GStart n) [] [] [] 0 0 None [] 0 0 0.

(** One step of one of the goroutines (rpc 26-70, send 25-64). *)
Definition bstep (s : bench) (a : bact) : option bench :=
  match a with
  | BGo i =>
      match nth_error (be_round s) i with
      | Some GStart => Some (mkBe (set_nth i (if rpc then GWait else GAdd) (be_round s)) (be_net s ++ [i]) (be_handlers s) (be_back s) (be_sent s) (be_recv s)
                                  (be_tick s) (be_out s) (be_adds s) (be_radds s) (be_rounds s))
      | _ => None
      end
  | BHandle j =>
      match pick j (be_net s) with
      | Some (i, net) =>
          if length (be_handlers s) <? w then
            Some (mkBe (be_round s) net (be_handlers s ++ [if rpc then HSend i else HAdd]) (be_back s) (be_sent s) (be_recv s)
                       (be_tick s) (be_out s) (be_adds s) (be_radds s) (be_rounds s))
          else None
      | None => None
      end
  | BReply j =>
      match nth_error (be_handlers s) j with
      | Some (HSend i) => Some (mkBe (be_round s) (be_net s) (set_nth j HAdd (be_handlers s)) (be_back s ++ [i]) (be_sent s) (be_recv s)
                                     (be_tick s) (be_out s) (be_adds s) (be_radds s) (be_rounds s))
      | _ => None
      end
  | BCount j =>
      match pick j (be_handlers s) with
      | Some (HAdd, hs) => Some (mkBe (be_round s) (be_net s) hs (be_back s) (be_sent s) (wrap (be_recv s + 1))
                                      (be_tick s) (be_out s) (be_adds s) (S (be_radds s)) (be_rounds s))
      | _ => None
      end
  | BBack j =>
      match pick j (be_back s) with
      | Some (i, back) =>
          match nth_error (be_round s) i with
          | Some GWait => Some (mkBe (set_nth i GAdd (be_round s)) (be_net s) (be_handlers s) back (be_sent s) (be_recv s)
                                     (be_tick s) (be_out s) (be_adds s) (be_radds s) (be_rounds s))
          | _ => None
          end
      | None => None
      end
  | BAdd i =>
      match nth_error (be_round s) i with
      | Some GAdd => Some (mkBe (set_nth i GDone (be_round s)) (be_net s) (be_handlers s) (be_back s) (wrap (be_sent s + 1)) (be_recv s)
                                (be_tick s) (be_out s) (S (be_adds s)) (be_radds s) (be_rounds s))
      | _ => None
      end
  | BRound =>
      if all_done (be_round s) then
        Some (mkBe (repeat GStart n) (be_net s) (be_handlers s) (be_back s) (be_sent s) (be_recv s) (be_tick s) (be_out s) (be_adds s) (be_radds s) (S (be_rounds s)))
      else None
  | BTick =>
      match be_tick s with
      | None => Some (mkBe (be_round s) (be_net s) (be_handlers s) (be_back s) 0 (be_recv s) (Some (be_sent s)) (be_out s) (be_adds s) (be_radds s) (be_rounds s))
      | Some _ => None
      end
  | BPrint =>
      match be_tick s with
      | Some x => Some (mkBe (be_round s) (be_net s) (be_handlers s) (be_back s) (be_sent s) 0 None (be_out s ++ [(x, be_recv s)]) (be_adds s) (be_radds s) (be_rounds s))
      | None => None
      end
  end.
(** Several steps, in order (rpc 26-70, send 25-64). *)
Fixpoint brun (s : bench) (l : list bact) : option bench :=
  match l with [] => Some s | a :: l' => match bstep s a with Some s' => brun s' l' | None => None end end.
End WithProgram.
