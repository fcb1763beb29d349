(** * Who shares memory with whom: the receive buffer and the data given to handlers, and the data given to Send.

    Go slices with their arrays (M_AEAD's heap), so that a write through one slice shows in every slice of the same array. *)
From Verif Require Import Base M_Msg M_AEAD M_Frame.
Local Open Scope nat_scope.

Section WithGrow.
Variable grow : nat -> nat -> nat.

(** ** Receiving *)

(** client.go:282-313 read, with readerBuf [rb] (client.go:94) in the heap: the header and the body are read into it, the body
    is decrypted in place (aead.go:41-50), and what is returned is a slice of it. *)
Definition read_heap (max : N) (A : option aead) (h : heap) (rb : gslice) (rd : bufrd) : heap * bufrd * res gslice :=
  match reslice rb 0 4 with
  | Err e => (h, rd, Err e)
  | Panic => (h, rd, Panic)
  | Ok front =>
      let '(hd, e, rd1) := read_full 4 rd in
      let h1 := store h front 0 hd in
      match e with
      | Some er => (h1, rd1, Err er)
      | None =>
          let size := be_decode (contents h1 front) in
          if ((0 <? max) && (max <? size))%N then (h1, rd1, Err ErrMessageTooLarge)
          else
            match reslice rb 4 (N.to_nat (u32 (size + 4))) with
            | Err er => (h1, rd1, Err er)
            | Panic => (h1, rd1, Panic)
            | Ok w =>
                let '(d, e2, rd2) := read_full (s_len w) rd1 in
                let h2 := store h1 w 0 d in
                match e2 with
                | Some er => (h2, rd2, Err er)
                | None =>
                    match A with
                    | None => (h2, rd2, Ok w)
                    | Some A => let (h3, r) := decryptAEAD A h2 w in (h3, rd2, r)
                    end
                end
            end
      end
  end.

(** msg.go:24-33 unmarshalMessage: the data is a slice of what was read. *)
Definition unmarshal_slice (h : heap) (s : gslice) : res (N * gslice) :=
  if s_len s <? 8 then Err ErrUnexpectedEOF else
  let! n := reslice s 0 8 in
  let! d := reslice s 8 (s_len s) in
  Ok (be_decode (contents h n), d).

(** client.go:539: msg.data = append([]byte{}, msg.data...). *)
Definition fresh_copy (h : heap) (s : gslice) : heap * gslice :=
  let (h1, e) := make h 0 in append grow h1 e (contents h1 s).

(** The reader and what it has handed out (to handlers through the work channel, or to waiting requests), in order; [w_end] is
    set when recvLoop has ended.  client.go:282-313, 517-558. *)
Record rcv := mkRcv { w_heap : heap; w_buf : gslice; w_rd : bufrd; w_got : list (N * gslice); w_end : option (res unit) }.

(** client.go:94: readerBuf is the only array at first. *)
Definition rcv_start (max : N) (c : conn) : rcv :=
  let (h, b) := make [] (N.to_nat (u32 (4 + max))) in mkRcv h b (mkBuf [] c) [] None.

(** One pass of recvLoop (client.go:520-556), or the holder of message [i] writing [d] into its data at [pos]; Go lets it write
    up to the capacity (by append or reslicing). *)
Inductive ract := RPass | RWrite (i pos : nat) (d : bytes).
(** One round of recvLoop, client.go:517-558, or a write of the application to data it was given. *)
Definition rcv_step (max : N) (A : option aead) (s : rcv) (a : ract) : option rcv :=
  match a with
  | RPass =>
      match w_end s with
      | Some _ => None
      | None =>
          let '(h1, rd1, r) := read_heap max A (w_heap s) (w_buf s) (w_rd s) in
          match (let! sl := r in unmarshal_slice h1 sl) with
          | Panic => Some (mkRcv h1 (w_buf s) rd1 (w_got s) (Some Panic))
          | Err e => Some (mkRcv h1 (w_buf s) rd1 (w_got s) (Some (Err e)))
          | Ok (n, d) => let (h2, c) := fresh_copy h1 d in Some (mkRcv h2 (w_buf s) rd1 (w_got s ++ [(n, c)]) None)
          end
      end
  | RWrite i pos d =>
      match nth_error (w_got s) i with
      | Some (_, sl) => if pos + length d <=? s_cap sl
                        then Some (mkRcv (store (w_heap s) sl pos d) (w_buf s) (w_rd s) (w_got s) (w_end s)) else None
      | None => None
      end
  end.
(** Several steps, in order (client.go:517-558). *)
Fixpoint rcv_run (max : N) (A : option aead) (s : rcv) (l : list ract) : option rcv :=
  match l with [] => Some s | a :: l' => match rcv_step max A s a with Some s' => rcv_run max A s' l' | None => None end end.

(** ** Sending *)

(** The application's slices, the client's queue and the bytes already written, each with its nonce; [n_passed] records, for
    every Send that has returned, the bytes that it was given (it is not part of the program).  client.go:340-347, 587-632. *)
Record snd_state := mkSnd { n_heap : heap; n_user : list gslice; n_queue : list (N * gslice); n_written : list (N * bytes); n_passed : list (N * bytes) }.
(** A connection after its handshake, client.go:88-108. *)
Definition snd_start : snd_state := mkSnd [] [] [] [] [].

(** Steps: the application writes, Send (client.go:340-347), writeLoop takes and writes (587-632). *)
Inductive sact :=
| SMake (d : bytes)                     (* the application makes a slice holding [d] *)
| SReslice (i a b : nat)                (* takes a slice of a slice that it holds *)
| SWrite (i pos : nat) (d : bytes)      (* writes into a slice that it holds *)
| SSend (nonce : N) (i : nat)           (* Node.Send, Node.Request or HandlerContext.Send of a slice that it holds *)
| SSendValue (nonce : N) (op : N) (i : nat)  (* SendMessage and so on, of a value whose Marshal returns a slice that it holds *)
| STake.                                (* the writer marshals the next queued message *)

(** client.go:340-347 send keeps the slice that it is given; codec.go:73-76 encode makes a slice of two bytes and appends to it
    what Marshal returned; client.go:600-601 writes what the slice holds by then.  A batch is taken message by message; the bytes
    after marshalling are M_AEAD's subject. *)
Definition snd_step (s : snd_state) (a : sact) : option snd_state :=
  let '(mkSnd h u q w p) := s in
  match a with
  | SMake d => let (h1, sl) := make h (length d) in Some (mkSnd (store h1 sl 0 d) (u ++ [sl]) q w p)
  | SReslice i a b =>
      match nth_error u i with
      | Some sl => match reslice sl a b with Ok sl' => Some (mkSnd h (u ++ [sl']) q w p) | _ => None end
      | None => None
      end
  | SWrite i pos d =>
      match nth_error u i with
      | Some sl => if pos + length d <=? s_len sl then Some (mkSnd (store h sl pos d) u q w p) else None
      | None => None
      end
  | SSend n i =>
      match nth_error u i with
      | Some sl => Some (mkSnd h u (q ++ [(n, sl)]) w (p ++ [(n, contents h sl)]))
      | None => None
      end
  | SSendValue n op i =>
      match nth_error u i with
      | Some sl =>
          let (h1, b) := make h 2 in
          let h2 := store h1 b 0 (be_encode 2 op) in
          let (h3, b') := append grow h2 b (contents h2 sl) in
          Some (mkSnd h3 u (q ++ [(n, b')]) w (p ++ [(n, be_encode 2 op ++ contents h sl)]))
      | None => None
      end
  | STake =>
      match q with
      | (n, sl) :: q' => Some (mkSnd h u q' (w ++ [(n, contents h sl)]) p)
      | [] => None
      end
  end.
(** Several steps, in order (client.go:340-347, 587-632). *)
Fixpoint snd_run (s : snd_state) (l : list sact) : option snd_state :=
  match l with [] => Some s | a :: l' => match snd_step s a with Some s' => snd_run s' l' | None => None end end.
End WithGrow.
