(** * Model of the time a handshake takes: client.go handshake (380-515) with the deadlines that write (315-338) and read (282-313) set, on
    a connection accepted by Listen (client.go:249-280).

    The handshake writes, reads, writes and reads again, and each of the four sets its deadline first if there is an idle timeout.  Bytes are counted, not
    represented (M_Frame and M_Handshake have them); how many are to be read is up to the peer, which announces it.  Time is a number.  Simplified: what
    the node computes takes no time, so time passes only while the handshake waits for the connection; the callbacks at the end (507-513) are not
    part of it. *)
From Verif Require Import Base.
Local Open Scope nat_scope.

(** Where the goroutine is: [STop i] is before, [SIn i got] inside the [i]-th operation, with [got] bytes done: 0 and 2 are the writes at client.go:395 and 459,
    1 and 3 the reads at 402 and 466. *)
Inductive spc := STop (i : nat) | SIn (i got : nat) | SReady (t : nat) | SFailed (t : nat).

(** The connection and the clock (client.go:282-338). *)
Record slow := mkS {
  s_now : nat;
  s_pc : spc;
  s_rdl : option nat;       (* read deadline *)
  s_wdl : option nat;       (* write deadline *)
  s_in : nat;               (* bytes that have arrived and have not been read *)
  s_room : nat              (* bytes that the connection takes before it is full *)
}.
(** A connection accepted at time [t], client.go:249-262: nothing has arrived, and nothing need fit. *)
Definition s_start (t : nat) : slow := mkS t (STop 0) None None 0 0.

Inductive sact :=
| SArrive (k : nat)         (* the peer sends *)
| SDrain (k : nat)          (* the peer, or the network, takes bytes *)
| SBegin                    (* client.go:283-287, 316-320: the deadline *)
| SMove (k : nat)           (* conn.Read returns, or conn.Write has written, [k] more bytes *)
| SNext                     (* the operation is complete, and what was read is as it should be *)
| SRefuse                   (* what was read is refused: 408-425, 430-449, 472-495, or a size over the limit, 293-297 *)
| SExpire                   (* conn.Read or conn.Write fails since the deadline has passed *)
| STick.                    (* time passes *)

Section Slow.
(** [idle]: idleTimeout, 0 for none; [need i]: how many bytes the [i]-th operation moves (client.go:289-300, 330-337). *)
Variables (idle : nat) (need : nat -> nat).

(** The first and the third operation write, client.go:395, 459. *)
Definition writes (i : nat) : bool := Nat.even i.
(** The deadline that binds operation [i]: client.go:284, 317. *)
Definition limit (s : slow) (i : nat) : option nat := if writes i then s_wdl s else s_rdl s.
(** A deadline that has passed makes conn.Read and conn.Write fail, client.go:289, 299, 333, 337. *)
Definition over (now : nat) (d : option nat) : bool := match d with Some t => t <=? now | None => false end.
(** Bytes that operation [i] can move at once, client.go:289, 299, 337. *)
Definition can (s : slow) (i : nat) : nat := if writes i then s_room s else s_in s.

(** One step (client.go:282-338, 380-495). *)
Definition sstep (s : slow) (a : sact) : option slow :=
  match a with
  | SArrive k => Some (mkS (s_now s) (s_pc s) (s_rdl s) (s_wdl s) (s_in s + k) (s_room s))
  | SDrain k => Some (mkS (s_now s) (s_pc s) (s_rdl s) (s_wdl s) (s_in s) (s_room s + k))
  | SBegin =>
      match s_pc s with
      | STop i =>
          let d := if idle =? 0 then limit s i else Some (s_now s + idle) in
          Some (mkS (s_now s) (SIn i 0) (if writes i then s_rdl s else d) (if writes i then d else s_wdl s) (s_in s) (s_room s))
      | _ => None
      end
  | SMove k =>
      match s_pc s with
      | SIn i got =>
          if (0 <? k) && (k <=? can s i) && (got + k <=? need i) && negb (over (s_now s) (limit s i)) then
            Some (mkS (s_now s) (SIn i (got + k)) (s_rdl s) (s_wdl s) (if writes i then s_in s else s_in s - k) (if writes i then s_room s - k else s_room s))
          else None
      | _ => None
      end
  | SNext =>
      match s_pc s with
      | SIn i got => if got =? need i then Some (mkS (s_now s) (if i =? 3 then SReady (s_now s) else STop (S i)) (s_rdl s) (s_wdl s) (s_in s) (s_room s)) else None
      | _ => None
      end
  | SRefuse =>
      match s_pc s with
      | SIn i got => if writes i then None else Some (mkS (s_now s) (SFailed (s_now s)) (s_rdl s) (s_wdl s) (s_in s) (s_room s))
      | _ => None
      end
  | SExpire =>
      match s_pc s with
      | SIn i got => if (got <? need i) && over (s_now s) (limit s i) then Some (mkS (s_now s) (SFailed (s_now s)) (s_rdl s) (s_wdl s) (s_in s) (s_room s)) else None
      | _ => None
      end
  | STick =>
      (* only while the handshake waits, or is over *)
      let on := Some (mkS (S (s_now s)) (s_pc s) (s_rdl s) (s_wdl s) (s_in s) (s_room s)) in
      match s_pc s with
      | STop _ => None
      | SIn i got => if (got <? need i) && (can s i =? 0) && negb (over (s_now s) (limit s i)) then on else None
      | _ => on
      end
  end.
(** Several steps, in order (client.go:282-338, 380-495). *)
Fixpoint srun (s : slow) (l : list sact) : option slow :=
  match l with [] => Some s | a :: l' => match sstep s a with Some s' => srun s' l' | None => None end end.
End Slow.
