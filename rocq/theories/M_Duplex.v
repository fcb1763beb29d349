(** * Two handshakes at the two ends of one connection (client.go:282-338, 380-476), byte by byte.

    Each end writes its first message, reads the other's, writes its second, which depends on what it has read, and reads the other's second.  Each direction
    of the connection holds so many bytes at most; a write takes as many bytes as the schedule likes, up to the room that is left, and blocks while there is none; a read takes
    as many of the bytes that have arrived as the schedule likes, also ones of the next message, which stay in the reader's buffer (bufio).
    Simplified: both ends are honest, so that no signature fails to verify and nothing fails to decrypt (M_Handshake has those); a message is its bytes on the wire, after
    encryption; deadlines do not pass (C52, C93). *)
From Verif Require Import Base.
Local Open Scope nat_scope.

(** What an end says: its first message (client.go:395), and its second given the other's first (client.go:455-459). *)
Record party := mkParty { hello : bytes; answer : bytes -> bytes }.
(** client.go:330-331. *)
Definition frame (p : bytes) : bytes := be_encode 4 (N.of_nat (length p)) ++ p.

(** What client.read finds in its buffer (client.go:289-301): too little, a message that is too large, or a message and what follows it.  [lim] is maxRecvMessageSize. *)
Inductive found := More | Big | Got (p rest : bytes).
(** client.go:289-301. *)
Definition take (lim : N) (buf : bytes) : found :=
  if length buf <? 4 then More else
  let size := be_decode (firstn 4 buf) in
  if ((0 <? lim) && (lim <? size))%N then Big else
  if length buf <? 4 + N.to_nat size then More else Got (firstn (N.to_nat size) (skipn 4 buf)) (skipn (4 + N.to_nat size) buf).

(** Where an end is in handshake (client.go:380-476): writing its first message ([rest]: still to be written), reading the first ([buf]: read and not used yet), writing
    its second, reading the second, done with it; or it has given up (client.go:295). *)
Inductive hpc := HW1 (rest : bytes) | HR1 (buf : bytes) | HW2 (saw rest buf : bytes) | HR2 (saw buf : bytes) | HFin (saw1 saw2 buf : bytes) | HBig.
(** An end: where it is; history: all it has written and all it has read (client.go:333-337, 289, 299). *)
Record side := mkSide { s_pc : hpc; s_out : bytes; s_in : bytes }.

Section WithParty.
Variables (lim : N) (p : party).

(** What follows a read (client.go:402-476). *)
Definition after_read2 (saw buf : bytes) : hpc := match take lim buf with More => HR2 saw buf | Big => HBig | Got q r => HFin saw q r end.
(** What follows a write of part of the second message (client.go:455-466). *)
Definition after_write2 (saw rest buf : bytes) : hpc := match rest with [] => after_read2 saw buf | _ => HW2 saw rest buf end.
(** What follows a read of part of the first (client.go:402-459). *)
Definition after_read1 (buf : bytes) : hpc :=
  match take lim buf with More => HR1 buf | Big => HBig | Got q r => after_write2 q (frame (answer p q)) r end.
(** What follows a write of part of the first (client.go:395-402). *)
Definition after_write1 (rest : bytes) : hpc := match rest with [] => after_read1 [] | _ => HW1 rest end.

(** client.go:380-395. *)
Definition new_side : side := mkSide (after_write1 (frame (hello p))) [] [].

(** One write or one read of this end, of up to [k] bytes (client.go:333-337, 289, 299).  [cap]: what the outgoing direction can hold; [out], [inn]: what the two directions hold. *)
Definition side_step (k cap : nat) (s : side) (out inn : bytes) : option (side * bytes * bytes) :=
  let wr rest (f : bytes -> hpc) :=
    let n := Nat.min k (Nat.min (length rest) (cap - length out)) in
    if n =? 0 then None else Some (mkSide (f (skipn n rest)) (s_out s ++ firstn n rest) (s_in s), out ++ firstn n rest, inn) in
  let rd buf (f : bytes -> hpc) :=
    let n := Nat.min k (length inn) in
    if n =? 0 then None else Some (mkSide (f (buf ++ firstn n inn)) (s_out s) (s_in s ++ firstn n inn), out, skipn n inn) in
  match s_pc s with
  | HW1 rest => wr rest after_write1
  | HR1 buf => rd buf after_read1
  | HW2 saw rest buf => wr rest (fun r => after_write2 saw r buf)
  | HR2 saw buf => rd buf (after_read2 saw)
  | HFin _ _ _ | HBig => None
  end.
End WithParty.

(** A connection and its ends (client.go:208-280). *)
Record duplex := mkDup { d_a : side; d_b : side; d_ab : bytes; d_ba : bytes }.
(** [SA k], [SB k]: an end writes or reads up to [k] bytes (client.go:380-476). *)
Inductive dact := SA (k : nat) | SB (k : nat).

Section WithParties.
(** The ends, their limits, the bytes that each direction can hold. *)
Variables (a b : party) (lim_a lim_b : N) (cap_ab cap_ba : nat).

(** The connection has been made (client.go:232, 262). *)
Definition d_start : duplex := mkDup (new_side lim_a a) (new_side lim_b b) [] [].
(** One step of one end (client.go:380-476). *)
Definition dstep (s : duplex) (x : dact) : option duplex :=
  match x with
  | SA k => match side_step lim_a a k cap_ab (d_a s) (d_ab s) (d_ba s) with Some (e, out, inn) => Some (mkDup e (d_b s) out inn) | None => None end
  | SB k => match side_step lim_b b k cap_ba (d_b s) (d_ba s) (d_ab s) with Some (e, out, inn) => Some (mkDup (d_a s) e inn out) | None => None end
  end.
(** Several steps, in order (client.go:380-476). *)
Fixpoint drun (s : duplex) (l : list dact) : option duplex :=
  match l with [] => Some s | x :: l' => match dstep s x with Some s' => drun s' l' | None => None end end.
End WithParties.
