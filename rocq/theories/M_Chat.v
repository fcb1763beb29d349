(** * The chat program (cmd/chat/main.go): its input, its commands, its messages and what it prints. *)
From Verif Require Import Base M_Addr M_ID M_Msg M_Codec M_Table M_Kad.
From Coq Require Import Strings.Byte.
From Coq Require Strings.String.
Import (notations) Coq.Strings.String.
Local Open Scope nat_scope.

(** ** Text *)

(** unicode/utf8 DecodeRuneInString, used by strings.ToValidUTF8: the number of bytes of the character that [s] begins with,
    from Go's table of first bytes; 0 where Go returns RuneError with width 1, or [s] is empty.  For strings.ToValidUTF8 at cmd/chat/main.go:33. *)
Definition within (lo hi : N) (b : byte) : bool := (lo <=? b2n b)%N && (b2n b <=? hi)%N.
(** DecodeRuneInString's width, see above; for strings.ToValidUTF8 at cmd/chat/main.go:33. *)
Definition rune_len (s : bytes) : nat :=
  match s with
  | [] => 0
  | b0 :: s =>
      if within 0 127 b0 then 1
      else if within 194 223 b0 then match s with b1 :: _ => if within 128 191 b1 then 2 else 0 | _ => 0 end
      else if within 224 239 b0 then
        let (lo, hi) := if (b2n b0 =? 224)%N then (160, 191)%N else if (b2n b0 =? 237)%N then (128, 159)%N else (128, 191)%N in
        match s with b1 :: b2 :: _ => if within lo hi b1 && within 128 191 b2 then 3 else 0 | _ => 0 end
      else if within 240 244 b0 then
        let (lo, hi) := if (b2n b0 =? 240)%N then (144, 191)%N else if (b2n b0 =? 244)%N then (128, 143)%N else (128, 191)%N in
        match s with b1 :: b2 :: b3 :: _ => if within lo hi b1 && within 128 191 b2 && within 128 191 b3 then 4 else 0 | _ => 0 end
      else 0
  end.

(** strings.ToValidUTF8(s, ""), called at main.go:33: characters are copied, bytes that begin none are skipped.  [keep] bytes of the
    current character are still to be copied. *)
Fixpoint to_valid (keep : nat) (s : bytes) : bytes :=
  match s with
  | [] => []
  | b :: s' =>
      match keep with
      | S k => b :: to_valid k s'
      | O => match rune_len s with O => to_valid 0 s' | S k => b :: to_valid k s' end
      end
  end.
(** strings.ToValidUTF8(s, ""), cmd/chat/main.go:33. *)
Definition ToValidUTF8 (s : bytes) : bytes := to_valid 0 s.

(** main.go:24-34: chatMessage, its Marshal and its decoder.  A value is represented by its contents. *)
Definition TChat := TNamed 2001.
(** cmd/chat/main.go:24-30. *)
Definition chat_message (contents : bytes) : value := mkVal TChat contents.
(** cmd/chat/main.go:32-34. *)
Definition unmarshalChatMessage (buf : bytes) : res value := Ok (chat_message (ToValidUTF8 buf)).
(** main.go:63 before main.go:84: Listen binds Kademlia, which registers its four types (protocol.go:176-179). *)
Definition chat_registrations : list (gotype * decoder) := (TChat, mkDec TChat unmarshalChatMessage) :: kad_registrations.

(** ** Input *)

(** Line feed, for cmd/chat/main.go:117 (ReadLine). *)
Definition LF : byte := n2b 10.
(** Carriage return, for cmd/chat/main.go:117 (ReadLine). *)
Definition CR : byte := n2b 13.
(** '/', cmd/chat/main.go:223. *)
Definition slash : byte := n2b 47.
(** bufio.NewReader's default size.  cmd/chat/main.go:114. *)
Definition bufio_size : nat := 4096.

(** Position of the first line feed among the next [n] bytes.  Part of ReadLine, cmd/chat/main.go:117. *)
Fixpoint find_lf (n : nat) (s : bytes) : option nat :=
  match n, s with
  | O, _ | _, [] => None
  | S n', c :: s' => if byte_eqb c LF then Some O else match find_lf n' s' with Some i => Some (S i) | None => None end
  end.
(** Part of ReadLine, cmd/chat/main.go:117. *)
Definition ends_cr (s : bytes) : bool := match rev s with c :: _ => byte_eqb c CR | [] => false end.

(** bufio's ReadLine, called at main.go:117, as a function of all that remains of the standard input: the line and what remains
    ([None]: io.EOF).  A line feed among the next 4096 bytes ends the line, and one CR before it is dropped; otherwise a full buffer is
    returned as it is, except that a CR at its end is left for the next call; otherwise the input has ended.  A failing read is not
    modelled (check at line 123 panics). *)
Definition ReadLine (s : bytes) : option (bytes * bytes) :=
  match find_lf bufio_size s with
  | Some i => let l := firstn i s in Some (if ends_cr l then removelast l else l, skipn (S i) s)
  | None =>
      if bufio_size <=? length s
      then let l := firstn bufio_size s in
           if ends_cr l then Some (firstn (bufio_size - 1) s, skipn (bufio_size - 1) s) else Some (l, skipn bufio_size s)
      else match s with [] => None | _ => Some (s, []) end
  end.

(** main.go:113-133 input: the lines passed to callback, in order; isPrefix is ignored.  Every call of ReadLine takes at least one byte. *)
Fixpoint input_loop (fuel : nat) (s : bytes) : list bytes :=
  match fuel with
  | O => []
  | S fuel' =>
      match ReadLine s with
      | None => []
      | Some (l, s') => match l with [] => input_loop fuel' s' | _ => l :: input_loop fuel' s' end
      end
  end.
(** main.go:113-133 with enough fuel for all of the input. *)
Definition input (stdin : bytes) : list bytes := input_loop (S (length stdin)) stdin.

(** ** Commands and messages *)

(** What chat does with a line (main.go:212-242): print something, or call SendMessage for each peer in turn.  Whether a SendMessage
    fails does not change the later ones (line 239). *)
Inductive chat_act := DoDiscover | DoPeers (ids : list ID) | DoHelp | DoSend (addr : bytes) (v : value).
(** cmd/chat/main.go:212-242 chat. *)
Definition chat (t : table) (line : bytes) : res (list chat_act) :=
  if bytes_eqb line (str "/discover"%string) then Ok [DoDiscover]
  else if bytes_eqb line (str "/peers"%string) then let! ids := Peers t in Ok [DoPeers ids]
  else match line with
       | c :: _ => if byte_eqb c slash then Ok [DoHelp] else let! ids := Peers t in Ok (map (fun id => DoSend (id_addr id) (chat_message line)) ids)
       | [] => let! ids := Peers t in Ok (map (fun id => DoSend (id_addr id) (chat_message line)) ids)
       end.

(** main.go:43-44, 155: the printed form of an ID. *)
Definition printedLength : nat := 8.
(** How cmd/chat/main.go prints an ID, with printedLength (main.go:44), for instance at 155. *)
Definition printed_id (id : ID) : bytes := id_addr id ++ str "("%string ++ firstn printedLength (key_string (id_key id)) ++ str ")"%string.

(** main.go:136-158 handle: what is printed ([None]: nothing).  [c] is the node's codec, [id] the peer's identity, [m] the message. *)
Definition chat_handle (c : codec) (id : ID) (m : message) : option bytes :=
  if IsRequest m then None
  else match decode c (m_data m) with
       | Ok v => if gotype_eq_dec (v_type v) TChat
                 then match v_bytes v with [] => None | contents => Some (printed_id id ++ str "> "%string ++ contents ++ [LF]) end
                 else None
       | _ => None
       end.
