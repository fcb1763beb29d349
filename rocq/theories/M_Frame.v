(** * Model of the receive path: net.Conn, bufio.Reader, io.ReadFull, Client.read and the decoding part of recvLoop. *)
From Verif Require Import Base M_Msg M_AEAD.
From Coq Require Import Strings.Byte.
Local Open Scope nat_scope.

(** The incoming half of a net.Conn: the chunks the network will deliver, in order, then a final error (io.EOF for an
    orderly close, another error for a reset, a deadline or a locally closed connection).  client.go:62 (conn), read at 289 and 299 through the bufio.Reader. *)
Record conn := mkConn { cn_chunks : list bytes; cn_end : goerr }.

(** net.Conn.Read into a buffer of [n] bytes: one call never crosses a chunk boundary.  The bufio.Reader of client.go:228 and 258 calls it. *)
Definition conn_read (n : nat) (c : conn) : bytes * option goerr * conn :=
  match cn_chunks c with
  | [] => ([], Some (cn_end c), c)
  | ch :: rest =>
      if length ch <=? n then (ch, None, mkConn rest (cn_end c))
      else (firstn n ch, None, mkConn (skipn n ch :: rest) (cn_end c))
  end.

(** bufio.Reader (client.go:228,258): the unread part of its 4096-byte buffer and the connection. *)
Record bufrd := mkBuf { br_buf : bytes; br_conn : conn }.
(** bufio.NewReader's default size; the reader is made at client.go:228 and 258. *)
Definition bufio_size : nat := N.to_nat 4096.

(** bufio.Reader.Read into [n] > 0 bytes (standard library).  io.ReadFull at client.go:289 and 299 calls it. *)
Definition bufio_read (n : nat) (r : bufrd) : bytes * option goerr * bufrd :=
  match br_buf r with
  | [] =>
      if bufio_size <=? n then
        let '(d, e, c) := conn_read n (br_conn r) in (d, e, mkBuf [] c)
      else
        let '(d, e, c) := conn_read bufio_size (br_conn r) in
        match d with
        | [] => ([], e, mkBuf [] c)
        | _ => (firstn n d, None, mkBuf (skipn n d) c)
        end
  | b => (firstn n b, None, mkBuf (skipn n b) (br_conn r))
  end.

(** io.ReadFull = io.ReadAtLeast(r, buf, len(buf)): returns the bytes read and the error; io.EOF after some bytes
    becomes io.ErrUnexpectedEOF.  [fuel] bounds the number of Read calls; [read_full] supplies enough of it
    (P_Frame.read_full_spec shows the bound is never the reason to stop).  client.go:289, 299. *)
Fixpoint read_full_loop (fuel n : nat) (acc : bytes) (r : bufrd) : bytes * option goerr * bufrd :=
  if n <=? length acc then (acc, None, r)
  else match fuel with
       | O => (acc, Some ErrOther, r)
       | S fuel' =>
           let '(d, e, r') := bufio_read (n - length acc) r in
           let acc' := acc ++ d in
           match e with
           | None => read_full_loop fuel' n acc' r'
           | Some er =>
               if n <=? length acc' then (acc', None, r')
               else match acc', er with
                    | _ :: _, ErrEOF => (acc', Some ErrUnexpectedEOF, r')
                    | _, _ => (acc', Some er, r')
                    end
           end
       end.
(** io.ReadFull, client.go:289, 299. *)
Definition read_full (n : nat) (r : bufrd) : bytes * option goerr * bufrd :=
  read_full_loop (length (cn_chunks (br_conn r)) + 2) n [] r.

(** uint32 arithmetic. *)
Definition u32 (n : N) : N := (n mod 2 ^ 32)%N.

(** The reading state of a client: readerBuf and reader (client.go:64,67). *)
Record rstate := mkRS { rs_buf : bytes; rs_rd : bufrd }.

(** client.go:94: readerBuf = make([]byte, 4+maxRecvMessageSize), the sum in uint32 arithmetic. *)
Definition new_rstate (max : N) (c : conn) : rstate :=
  mkRS (zeros (N.to_nat (u32 (4 + max)))) (mkBuf [] c).

(** client.go:282-313 read.  [max] is maxRecvMessageSize (a uint32), [A] the AEAD suite (nil before it is set).
    Read deadlines (lines 283-287) appear as the error ending the connection. *)
Definition client_read (max : N) (A : option aead) (st : rstate) : rstate * res bytes :=
  match slice_to 4 (rs_buf st) with                                   (* line 289: c.readerBuf[:4] *)
  | Err e => (st, Err e)
  | Panic => (st, Panic)
  | Ok _ =>
      let '(hd, e, rd1) := read_full 4 (rs_rd st) in
      let buf1 := go_copy (rs_buf st) hd in
      match e with
      | Some er => (mkRS buf1 rd1, Err er)
      | None =>
          let size := be_decode (firstn 4 buf1) in                    (* line 293 *)
          if ((0 <? max) && (max <? size))%N                          (* line 295 *)
          then (mkRS buf1 rd1, Err ErrMessageTooLarge)
          else
            let hi := N.to_nat (u32 (size + 4)) in                    (* line 299: c.readerBuf[4:size+4] *)
            match slice 4 hi buf1 with
            | Err er => (mkRS buf1 rd1, Err er)
            | Panic => (mkRS buf1 rd1, Panic)
            | Ok w =>
                let '(d, e2, rd2) := read_full (length w) rd1 in
                let buf2 := firstn 4 buf1 ++ go_copy (skipn 4 buf1) d in
                match e2 with
                | Some er => (mkRS buf2 rd2, Err er)
                | None =>
                    let w2 := firstn (hi - 4) (skipn 4 buf2) in
                    match A with
                    | None => (mkRS buf2 rd2, Ok w2)                  (* line 304 *)
                    | Some A => (mkRS buf2 rd2, decrypt_val A w2)     (* line 307; in place, see M_AEAD.decryptAEAD *)
                    end
                end
            end
      end
  end.

(** client.go:520-539: read, then unmarshalMessage, then copy; until the first error.  [fuel] bounds the number of
    messages; [None] means it ran out. *)
Fixpoint recv_all (fuel : nat) (max : N) (A : option aead) (st : rstate) : option (list message * res unit) :=
  match fuel with
  | O => None
  | S fuel' =>
      match client_read max A st with
      | (_, Panic) => Some ([], Panic)
      | (_, Err e) => Some ([], Err e)
      | (st', Ok d) =>
          match unmarshalMessage d with
          | Panic => Some ([], Panic)
          | Err e => Some ([], Err e)
          | Ok m => match recv_all fuel' max A st' with
                    | None => None
                    | Some (ms, r) => Some (m :: ms, r)
                    end
          end
      end
  end.
