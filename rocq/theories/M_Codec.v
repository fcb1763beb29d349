(** * Model of codec.go (RegisterMessage, EncodeMessage, DecodeMessage). *)
From Verif Require Import Base.
Local Open Scope nat_scope.

(** reflect.Type: a named (non-pointer) Go type, or a pointer to a type.  As compared at codec.go:37-46. *)
Inductive gotype := TNamed (name : nat) | TPtr (elem : gotype).

(** Equality of reflect.Type values, codec.go:40, 46, 68. *)
Definition gotype_eq_dec (a b : gotype) : {a = b} + {a <> b}.
Proof. decide equality. apply Nat.eq_dec. Defined.

(** A non-nil value stored in the Serializable interface (codec.go:13-16): its dynamic type and what its
    Marshal method returns. *)
Record value := mkVal { v_type : gotype; v_bytes : bytes }.

(** A decoder passed to RegisterMessage: a func([]byte) (T, error).  [d_result] is T, [d_run] its behaviour: it may
    return a value, an error, or panic.  codec.go:33-51. *)
Record decoder := mkDec { d_result : gotype; d_run : bytes -> res value }.

(** codec.go:18-24.  The two maps are association lists, newest binding first. *)
Record codec := mkCodec {
  c_counter : N;                       (* uint16 *)
  c_ser : list (gotype * N);
  c_de : list (N * decoder)
}.

(** codec.go:26-31 newCodec. *)
Definition newCodec : codec := mkCodec 0 [] [].

(** Map lookups c.ser[t] (codec.go:40,68) and c.de[opcode] (codec.go:90). *)
Fixpoint ser_get (t : gotype) (l : list (gotype * N)) : option N :=
  match l with
  | [] => None
  | (u, o) :: l' => if gotype_eq_dec t u then Some o else ser_get t l'
  end.
(** The lookup c.de[opcode], codec.go:90. *)
Fixpoint de_get (o : N) (l : list (N * decoder)) : option decoder :=
  match l with
  | [] => None
  | (p, d) :: l' => if N.eqb o p then Some d else de_get o l'
  end.

(** codec.go:33-56 register.  [t] is the dynamic type of the message value; panics when the type is registered
    already (line 41) or the decoder is not a func([]byte) (T, error) (line 47).  A decoder that is not a function
    at all panics as well; it is represented by a decoder with another result type.  The counter is a uint16, so
    the increment wraps at 65536; the opcode returned is counter - 1 in uint16 arithmetic. *)
Definition register (c : codec) (t : gotype) (d : decoder) : res (codec * N) :=
  match ser_get t (c_ser c) with
  | Some _ => Panic
  | None =>
      if gotype_eq_dec (d_result d) t then
        let counter' := ((c_counter c + 1) mod 65536)%N in
        Ok (mkCodec counter' ((t, c_counter c) :: c_ser c) ((c_counter c, d) :: c_de c),
            ((counter' + 65535) mod 65536)%N)
      else Panic
  end.

(** codec.go:58-76 encode.  [None] is a nil interface, on which reflect.TypeOf(nil).Kind() panics (line 65);
    one level of pointer is stripped (line 66). *)
Definition encode (c : codec) (msg : option value) : res bytes :=
  match msg with
  | None => Panic
  | Some v =>
      let t := match v_type v with TPtr e => e | t => t end in
      match ser_get t (c_ser c) with
      | None => Err ErrNotRegistered
      | Some opcode => Ok (go_copy (zeros 2) (be_encode 2 opcode) ++ v_bytes v)
      end
  end.

(** codec.go:79-102 decode. *)
Definition decode (c : codec) (data : bytes) : res value :=
  if length data <? 2 then Err ErrUnexpectedEOF else
  let! o := slice_to 2 data in
  let! rest := slice_from 2 data in
  match de_get (be_decode o) (c_de c) with
  | None => Err ErrNotRegistered
  | Some d => d_run d rest
  end.

(** A history of RegisterMessage calls, in order, with the opcodes returned (node.go:252-254). *)
Fixpoint register_all (c : codec) (l : list (gotype * decoder)) : res (codec * list N) :=
  match l with
  | [] => Ok (c, [])
  | (t, d) :: l' =>
      let! (c1, o) := register c t d in
      let! (c2, os) := register_all c1 l' in
      Ok (c2, o :: os)
  end.
