(** * Model of the fields that are read while another goroutine writes them: client.go:110-136 (ID, Logger, SetLogger),
      client.go:497 and 381 (handshake sets c.id, then closes ready), node.go:490-513 (Addr, Logger, ID) and 133-164 (Listen sets
      n.addr and n.id).

    A Go value larger than a machine word is written and read as several words, in any order (Go memory model).  Steps of single
    words interleave; a word itself is never torn, and a read gives the last word written. *)
From Verif Require Import Base M_ID M_Table.
Local Open Scope nat_scope.

(** ** Values as words *)

(** Eight bytes of an array, a pointer to bytes (or nil), a number.  For the values of client.go:114-136 and node.go:495-513. *)
Inductive word := WBytes (b : bytes) | WPtr (p : option bytes) | WNum (n : N).
(** The pointer in the header of a string or slice (client.go:114-116, node.go:495-497). *)
Definition pointer (l : bytes) : word := WPtr (match l with [] => None | _ => Some l end).
(** A string is a pointer and a length.  As n.addr, node.go:495-497. *)
Definition string_words (s : bytes) : list word := [pointer s; WNum (N.of_nat (length s))].
(** id.go:15-27: [32]byte, a slice (pointer, length, capacity), a uint16, a string. Empty and nil slices are not told apart. *)
Definition id_words (e : ID) : list word :=
  [WBytes (firstn 8 (id_key e)); WBytes (firstn 8 (skipn 8 (id_key e))); WBytes (firstn 8 (skipn 16 (id_key e))); WBytes (skipn 24 (id_key e));
   pointer (id_host e); WNum (N.of_nat (length (id_host e))); WNum (N.of_nat (length (id_host e))); WNum (id_port e)] ++ string_words (id_addr e).

(** What a use of the bytes gives: nil with a length is a fault; a length beyond the bytes reads memory of something else, for which
    [Err ErrOther] stands.  Uses of what client.go:114-116 and node.go:495-513 return. *)
Definition deref (p : option bytes) (n : N) : res bytes :=
  if (n =? 0)%N then Ok [] else
  match p with None => Panic | Some l => if (n <=? N.of_nat (length l))%N then Ok (firstn (N.to_nat n) l) else Err ErrOther end.
(** Using the string that node.go:495-497 Addr returned. *)
Definition string_of (ws : list word) : res bytes := match ws with [WPtr p; WNum n] => deref p n | _ => Err ErrOther end.
(** Using the ID that client.go:114-116 or node.go:511-513 returned. *)
Definition id_of (ws : list word) : res ID :=
  match ws with
  | [WBytes a; WBytes b; WBytes c; WBytes d; WPtr hp; WNum hl; WNum _; WNum port; ap; al] =>
      let! host := deref hp hl in let! addr := string_of [ap; al] in Ok (mkID (a ++ b ++ c ++ d) host port addr)
  | _ => Err ErrOther
  end.

(** ** The field *)

Section Field.
Context {A : Type}.

(** A reader: whether it waited for the signal first, and the words it has; or all of them.  client.go:114-116, node.go:495-513. *)
Inductive reader := RGoing (waited : bool) (got : list (option A)) | REnd (waited : bool) (ws : list A).
(** The words; the writer at work, with its value and the words it has still to write; the signal (ready closed, Listen returned).  client.go:381, 497, node.go:133-164. *)
Record field := mkF { f_words : list A; f_writer : option (list A * list nat); f_readers : list reader; f_signal : bool }.
(** The field before anything is written (client.go:88-108, node.go:62-102). *)
Definition new_field (init : list A) : field := mkF init None [] false.

(** Steps of the writer (client.go:497, node.go:133-164), the signal, and readers (client.go:114-116, node.go:495-513). *)
Inductive fact := TWStart (v : list A) | TWWord (j : nat) | TWEnd | TSignal | TRStart (waits : bool) | TRWord (r j : nat) | TREnd (r : nat).

(** The reader has not finished (client.go:114-116, node.go:495-513). *)
Definition going (r : reader) : bool := match r with RGoing _ _ => true | REnd _ _ => false end.
(** The reader has all words; no code of its own (client.go:114-116, node.go:495-513). *)
Fixpoint all_some (l : list (option A)) : option (list A) :=
  match l with
  | [] => Some []
  | None :: _ => None
  | Some x :: r => match all_some r with Some xs => Some (x :: xs) | None => None end
  end.

(** [lock]: the accesses hold the RWMutex (client.go:121-136); otherwise nothing orders them (client.go:114-116, node.go:495, 511).
    One writer at a time: handshake runs once per client, and Listen must not be called concurrently (node.go:108). *)
Definition fstep (lock : bool) (s : field) (a : fact) : option field :=
  match a with
  | TWStart v =>
      match f_writer s with
      | None => if (length v =? length (f_words s)) && negb (lock && existsb going (f_readers s))
                then Some (mkF (f_words s) (Some (v, seq 0 (length v))) (f_readers s) (f_signal s)) else None
      | Some _ => None
      end
  | TWWord j =>
      match f_writer s with
      | Some (v, todo) =>
          if existsb (Nat.eqb j) todo
          then match nth_error v j with
               | Some x => Some (mkF (set_nth j x (f_words s)) (Some (v, filter (fun i => negb (i =? j)) todo)) (f_readers s) (f_signal s))
               | None => None
               end
          else None
      | None => None
      end
  | TWEnd => match f_writer s with Some (_, []) => Some (mkF (f_words s) None (f_readers s) (f_signal s)) | _ => None end
  | TSignal => match f_writer s with None => if f_signal s then None else Some (mkF (f_words s) None (f_readers s) true) | Some _ => None end
  | TRStart waits =>
      if (negb waits || f_signal s) && negb (lock && match f_writer s with Some _ => true | None => false end)
      then Some (mkF (f_words s) (f_writer s) (f_readers s ++ [RGoing waits (repeat None (length (f_words s)))]) (f_signal s)) else None
  | TRWord r j =>
      match nth_error (f_readers s) r with
      | Some (RGoing w got) =>
          match nth_error got j, nth_error (f_words s) j with
          | Some None, Some x => Some (mkF (f_words s) (f_writer s) (set_nth r (RGoing w (set_nth j (Some x) got)) (f_readers s)) (f_signal s))
          | _, _ => None
          end
      | _ => None
      end
  | TREnd r =>
      match nth_error (f_readers s) r with
      | Some (RGoing w got) =>
          match all_some got with
          | Some ws => Some (mkF (f_words s) (f_writer s) (set_nth r (REnd w ws) (f_readers s)) (f_signal s))
          | None => None
          end
      | _ => None
      end
  end.
(** Several steps, in order (client.go:114-136, node.go:495-513). *)
Fixpoint frun (lock : bool) (s : field) (l : list fact) : option field :=
  match l with [] => Some s | a :: r => match fstep lock s a with Some s1 => frun lock s1 r | None => None end end.
End Field.
Arguments reader : clear implicits.
Arguments field : clear implicits.
Arguments fact : clear implicits.
