(** * How the chat program reads its input and ends: cmd/chat/main.go main (60, 95-110), input (112-133), check (36-41).

    Two goroutines matter: main, which waits for an interrupt (101-103), closes stdin (106), prints an empty line (109) and runs the deferred node.Close
    (60); and input, which reads lines and calls back.  bufio.Reader keeps the lines that it has read ahead; ReadLine takes from these, and reads the file
    only when there is none.  A read of a file that has been closed fails with os.ErrClosed, which is not io.EOF.  A read that is blocked while the file is
    closed stays blocked (as it does at a terminal: the descriptor is released when the read returns) or fails with os.ErrClosed; both are allowed here.

    Simplified: lines are whole (M_Chat has long ones and how they are cut); the file itself fails with nothing but end of file; callback is one step,
    whatever it does; node.Close returns, at any time (C46 is about that); a panic ends the process at once. *)
From Verif Require Import Base.
Local Open Scope nat_scope.

(** main.go:103, 106, 109, 60 and after. *)
Inductive mainpc := PWait | PStdin | PPrint | PClose | PExit.
(** input: at ReadLine (117), blocked in the read of the file below it, at callback (131), returned (120). *)
Inductive inpc := IRead | IBlock | ICall (l : bytes) | IGone.

Record ustate := mkU {
  u_main : mainpc;
  u_in : inpc;
  u_sig : bool;               (* an interrupt is in the channel of 101 *)
  u_closed : bool;            (* stdin has been closed *)
  u_tty : list bytes;         (* lines typed and not yet read from the file *)
  u_eof : bool;               (* the user has ended the input *)
  u_buf : list bytes;         (* lines in the bufio.Reader *)
  u_crash : bool;             (* check has panicked *)
  (* history *)
  u_typed : list bytes;       (* all lines typed *)
  u_called : list bytes       (* the lines given to callback *)
}.
(** When input has been started, main.go:96-98. *)
Definition u_start : ustate := mkU PWait IRead false false [] false [] false [] [].

(** Moves main (main.go:103-110) on. *)
Definition with_main (s : ustate) (p : mainpc) (sig closed : bool) : ustate :=
  mkU p (u_in s) sig closed (u_tty s) (u_eof s) (u_buf s) (u_crash s) (u_typed s) (u_called s).
(** Moves input (main.go:113-133) on. *)
Definition with_in (s : ustate) (p : inpc) (b : list bytes) (called : list bytes) : ustate :=
  mkU (u_main s) p (u_sig s) (u_closed s) (u_tty s) (u_eof s) b (u_crash s) (u_typed s) called.
(** check panics (main.go:37-41), here in input (123). *)
Definition crash (s : ustate) : ustate :=
  mkU (u_main s) IGone (u_sig s) (u_closed s) (u_tty s) (u_eof s) (u_buf s) true (u_typed s) (u_called s).

(** Steps of the user, of main (main.go:103-110) and of input (113-133). *)
Inductive uact :=
| UType (l : bytes)           (* the user types a line *)
| UEof                        (* the user ends the input *)
| UInterrupt                  (* Ctrl+C *)
| UMain                       (* a step of main *)
| UIn                         (* a step of input *)
| UFill (n : nat)             (* the blocked read returns with the first [n] lines *)
| UWake.                      (* the blocked read fails because the file has been closed *)

(** A step of main.go:103-110 and 60. *)
Definition main_step (s : ustate) : option ustate :=
  match u_main s with
  | PWait => if u_sig s then Some (with_main s PStdin false (u_closed s)) else None
  | PStdin => Some (with_main s PPrint (u_sig s) true)
  | PPrint => Some (with_main s PClose (u_sig s) (u_closed s))
  | PClose => Some (with_main s PExit (u_sig s) (u_closed s))
  | PExit => None
  end.

(** A step of main.go:116-132. *)
Definition in_step (s : ustate) : option ustate :=
  match u_in s with
  | IRead =>
      match u_buf s with
      | [] :: b => Some (with_in s IRead b (u_called s))                       (* 127-129 *)
      | l :: b => Some (with_in s (ICall l) b (u_called s))
      | [] => if u_closed s then Some (crash s)                                (* 123 *)
              else Some (with_in s IBlock [] (u_called s))
      end
  | IBlock =>
      match u_eof s, u_tty s with
      | true, [] => Some (with_in s IGone [] (u_called s))                     (* 119-121 *)
      | _, _ => None
      end
  | ICall l => Some (with_in s IRead (u_buf s) (u_called s ++ [l]))            (* 131 *)
  | IGone => None
  end.

(** One step (main.go:96-133); after a panic or the end of main there is none. *)
Definition ustep (s : ustate) (a : uact) : option ustate :=
  if u_crash s then None else
  match u_main s with
  | PExit => None
  | _ =>
      match a with
      | UType l =>
          if u_eof s then None else
          Some (mkU (u_main s) (u_in s) (u_sig s) (u_closed s) (u_tty s ++ [l]) (u_eof s) (u_buf s) (u_crash s) (u_typed s ++ [l]) (u_called s))
      | UEof => Some (mkU (u_main s) (u_in s) (u_sig s) (u_closed s) (u_tty s) true (u_buf s) (u_crash s) (u_typed s) (u_called s))
      | UInterrupt => Some (with_main s (u_main s) true (u_closed s))
      | UMain => main_step s
      | UIn => in_step s
      | UFill n =>
          match u_in s with
          | IBlock => Some (mkU (u_main s) IRead (u_sig s) (u_closed s) (skipn n (u_tty s)) (u_eof s) (firstn n (u_tty s)) (u_crash s) (u_typed s) (u_called s))
          | _ => None
          end
      | UWake =>
          match u_in s with
          | IBlock => if u_closed s then Some (crash s) else None
          | _ => None
          end
      end
  end.
(** Several steps, in order (main.go:96-133). *)
Fixpoint urun (s : ustate) (l : list uact) : option ustate :=
  match l with [] => Some s | a :: l' => match ustep s a with Some s' => urun s' l' | None => None end end.
