(** * The documented examples of messaging: example_messaging_test.go (12-82), example_codec_messaging_test.go (30-131), example_rpc_test.go (12-66),
    example_codec_rpc_test.go (11-76).

    Example_messaging and Example_codecMessaging let two nodes send each other one message in turn: Send, wg.Add(1), wg.Wait(), the receiving node's
    handler printing a line and running wg.Done().  Here the messages are any list.  Example_rPC and Example_codecRPC make one request, whose handler prints a line and
    answers, and prints the answer; here the requests are any list, one after the other.

    The library is reduced to what the examples use: a message that Send has accepted is given to the receiving node's handler once, at any later time
    (C34, C42; the typed example decodes what was encoded, C81); Request returns what the handler answered (C31, C94).  Dialling succeeds, and nobody
    closes a node before main returns.  sync.WaitGroup is a counter: Done below zero panics and ends the process, Wait blocks until it is zero (only main
    adds and waits, so the misuses that WaitGroup detects besides do not occur).  fmt.Printf is one step. *)
From Verif Require Import Base M_Table.
Local Open Scope nat_scope.

(** A printed line: the message in it.  Its wording is fixed by the receiving node (example_messaging_test.go:35, 43). *)
Definition line := bytes.

(** ** Messaging *)

(** main, within one exchange: example_messaging_test.go:60 Send, 66 Add(1), 67 Wait; 71, 77, 78. *)
Inductive mainpc := MSend | MAdd | MWait.
(** A handler's call (34-38, 42-46): about to print, about to run Done, returned. *)
Inductive handpc := HPrint (l : line) | HDone | HReturned.

(** What main (example_messaging_test.go:58-78), the network and the handlers (34-46) are doing, and what has been printed. *)
Record estate := mkE {
  e_left : list line;          (* exchanges that main has not finished, the current one first *)
  e_pc : mainpc;
  e_wg : nat;                  (* wg's counter *)
  e_flight : list line;        (* sent, not yet given to a handler *)
  e_hands : list handpc;       (* the handlers' calls, by number *)
  e_out : list line;           (* printed, oldest first *)
  e_crash : bool               (* the process has panicked *)
}.

(** A step of main, of the network, of handler [i] (example_messaging_test.go:34-78). *)
Inductive eact := EMain | EDeliver | EHand (i : nat).

Section Program.
(** [true]: wg.Add(1) comes before Send.  The examples have it after: [false]. *)
Variable add_first : bool.

(** Before the first Send, example_messaging_test.go:60. *)
Definition e_start (ls : list line) : estate := mkE ls (if add_first then MAdd else MSend) 0 [] [] [] false.

(** One step, example_messaging_test.go:34-78. *)
Definition estep (s : estate) (a : eact) : option estate :=
  if e_crash s then None else
  match e_left s with
  | [] => None                 (* main has returned *)
  | l :: rest =>
      match a with
      | EMain =>
          match e_pc s with
          | MSend => Some (mkE (e_left s) (if add_first then MWait else MAdd) (e_wg s) (e_flight s ++ [l]) (e_hands s) (e_out s) false)
          | MAdd => Some (mkE (e_left s) (if add_first then MSend else MWait) (S (e_wg s)) (e_flight s) (e_hands s) (e_out s) false)
          | MWait => if e_wg s =? 0 then Some (mkE rest (if add_first then MAdd else MSend) (e_wg s) (e_flight s) (e_hands s) (e_out s) false) else None
          end
      | EDeliver =>
          match e_flight s with
          | [] => None
          | m :: fl => Some (mkE (e_left s) (e_pc s) (e_wg s) fl (e_hands s ++ [HPrint m]) (e_out s) false)
          end
      | EHand i =>
          match nth_error (e_hands s) i with
          | Some (HPrint m) => Some (mkE (e_left s) (e_pc s) (e_wg s) (e_flight s) (set_nth i HDone (e_hands s)) (e_out s ++ [m]) false)
          | Some HDone => Some (mkE (e_left s) (e_pc s) (pred (e_wg s)) (e_flight s) (set_nth i HReturned (e_hands s)) (e_out s) (e_wg s =? 0))
          | _ => None
          end
      end
  end.
(** Several steps, in order, example_messaging_test.go:34-78. *)
Fixpoint erun (s : estate) (l : list eact) : option estate :=
  match l with [] => Some s | a :: l' => match estep s a with Some s' => erun s' l' | None => None end end.
End Program.

(** ** Requests *)

(** main: example_rpc_test.go:54 Request; waiting for its answer; 61 printing it. *)
Inductive rpcpc := QAsk | QWait | QPrint (l : line).
(** The handler's call: 33-35 IsRequest holds; 37 print, 39 Send. *)
Inductive servpc := SPrint (l : line) | SSend | SReturned.
(** What main (example_rpc_test.go:12-66), the network and the handlers are doing, and what has been printed. *)
Record qstate := mkQ {
  q_left : list (line * line); (* requests, with the answers that the handler gives them *)
  q_pc : rpcpc;
  q_req : list line;           (* requests on their way *)
  q_ans : list line;           (* answers on their way *)
  q_serv : list servpc;
  q_out : list line
}.
(** A step of main, of the network, of handler [i] (example_rpc_test.go:12-66). *)
Inductive qact := QMain | QDeliver | QServ (i : nat).
(** Before the first Request, example_rpc_test.go:54. *)
Definition q_start (qs : list (line * line)) : qstate := mkQ qs QAsk [] [] [] [].
(** One step, example_rpc_test.go:12-66. *)
Definition qstep (s : qstate) (a : qact) : option qstate :=
  match q_left s with
  | [] => None
  | (req, ans) :: rest =>
      match a with
      | QMain =>
          match q_pc s with
          | QAsk => Some (mkQ (q_left s) QWait (q_req s ++ [req]) (q_ans s) (q_serv s) (q_out s))
          | QWait => match q_ans s with x :: an => Some (mkQ (q_left s) (QPrint x) (q_req s) an (q_serv s) (q_out s)) | [] => None end
          | QPrint x => Some (mkQ rest QAsk (q_req s) (q_ans s) (q_serv s) (q_out s ++ [x]))
          end
      | QDeliver =>
          match q_req s with
          | [] => None
          | m :: rq => Some (mkQ (q_left s) (q_pc s) rq (q_ans s) (q_serv s ++ [SPrint m]) (q_out s))
          end
      | QServ i =>
          match nth_error (q_serv s) i with
          | Some (SPrint m) => Some (mkQ (q_left s) (q_pc s) (q_req s) (q_ans s) (set_nth i SSend (q_serv s)) (q_out s ++ [m]))
          | Some SSend => Some (mkQ (q_left s) (q_pc s) (q_req s) (q_ans s ++ [ans]) (set_nth i SReturned (q_serv s)) (q_out s))
          | _ => None
          end
      end
  end.
(** Several steps, in order, example_rpc_test.go:12-66. *)
Fixpoint qrun (s : qstate) (l : list qact) : option qstate :=
  match l with [] => Some s | a :: l' => match qstep s a with Some s' => qrun s' l' | None => None end end.
