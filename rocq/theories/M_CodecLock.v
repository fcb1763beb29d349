(** * The lock of the codec: a sync.RWMutex, held while functions of the application run. *)
From Verif Require Import Base.
Local Open Scope nat_scope.

(** Calls of EncodeMessage (codec.go:58-76: the message's Marshal runs at line 76 with the lock held for reading), of DecodeMessage
    (codec.go:79-102: the decoder runs at line 95 with the lock held for reading; the error for short data comes before), and of
    RegisterMessage (codec.go:33-56: the lock is held for writing, and nothing of the application runs).  [inner] are the calls that
    Marshal or the decoder makes of the same node, one after another. *)
Inductive call := Encode (inner : list call) | Decode (inner : list call) | Register.

(** What is done to the lock: codec.go:34-35, 59-60, 87-88.  Lock first keeps new readers out, and then waits for those that have the
    lock (sync.RWMutex: "a blocked Lock call excludes new readers from acquiring the lock"). *)
Inductive instr := IRLock | IRUnlock | IAnnounce | IEnter | IUnlock.

(** The steps of a call, codec.go:33-102. *)
Fixpoint steps (c : call) : list instr :=
  match c with
  | Encode inner | Decode inner => IRLock :: flat_map steps inner ++ [IRUnlock]
  | Register => [IAnnounce; IEnter; IUnlock]
  end.

(** A goroutine: how many times it has the lock for reading, and what it has yet to do.  codec.go:33-102. *)
Record gor := mkG { g_held : nat; g_todo : list instr }.
(** sync.RWMutex (codec.go:19): how many readers have it, and which goroutine's Lock keeps new readers out. *)
Record lstate := mkL { l_readers : nat; l_writer : option nat; l_gors : list gor }.

(** Replaces the n-th goroutine, codec.go:33-102. *)
Fixpoint put (n : nat) (g : gor) (l : list gor) : list gor :=
  match l, n with [], _ => [] | _ :: r, O => g :: r | x :: r, S n => x :: put n g r end.

(** Goroutine [i] does its next step, unless it has to wait.  codec.go:34-35, 59-60, 87-88. *)
Definition lstep (s : lstate) (i : nat) : option lstate :=
  match nth_error (l_gors s) i with
  | None => None
  | Some g =>
      match g_todo g with
      | [] => None
      | IRLock :: r => match l_writer s with
          | None => Some (mkL (S (l_readers s)) None (put i (mkG (S (g_held g)) r) (l_gors s)))
          | Some _ => None end
      | IRUnlock :: r => Some (mkL (l_readers s - 1) (l_writer s) (put i (mkG (g_held g - 1) r) (l_gors s)))
      | IAnnounce :: r => match l_writer s with
          | None => Some (mkL (l_readers s) (Some i) (put i (mkG (g_held g) r) (l_gors s)))
          | Some _ => None end
      | IEnter :: r => if l_readers s =? 0 then Some (mkL 0 (l_writer s) (put i (mkG (g_held g) r) (l_gors s))) else None
      | IUnlock :: r => Some (mkL (l_readers s) None (put i (mkG (g_held g) r) (l_gors s)))
      end
  end.

(** A schedule, codec.go:33-102. *)
Fixpoint lrun (s : lstate) (sched : list nat) : option lstate :=
  match sched with [] => Some s | i :: r => match lstep s i with Some s' => lrun s' r | None => None end end.

(** Goroutines that are about to make the given calls, one after another; codec.go:26-31. *)
Definition lstart (gs : list (list call)) : lstate := mkL 0 None (map (fun cs => mkG 0 (flat_map steps cs)) gs).
