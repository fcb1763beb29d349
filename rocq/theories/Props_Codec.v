(** * Properties C05, C06 (typed messages). *)
From Verif Require Import Base M_Codec P_Codec.
Local Open Scope nat_scope.

(** ** C05 *)

(** Registration succeeds (no panic) exactly for histories of pairwise distinct types, each with a decoder of the
    right signature; opcodes are then the registration positions. *)
Theorem C05_register : forall h,
  NoDup (map fst h) -> (forall t d, In (t, d) h -> d_result d = t) -> (N.of_nat (length h) <= 65536)%N ->
  exists c, register_all newCodec h = Ok (c, map N.of_nat (seq 0 (length h))).
Proof.
  intros h ND HS HL. exists (codec_of h).
  change newCodec with (codec_of []). rewrite (register_all_codec_of h []).
  - cbn [app length]. do 2 f_equal. apply map_ext_in. intros i Hi. apply in_seq in Hi. unfold opc. apply N.mod_small. lia.
  - split; [exact ND|]. apply Forall_forall. intros [t d] Hi. apply (HS t d Hi).
Qed.

Theorem C05_register_only : forall h c os,
  register_all newCodec h = Ok (c, os) ->
  NoDup (map fst h) /\ forall t d, In (t, d) h -> d_result d = t.
Proof.
  intros h c os E. apply register_all_ok in E as [[ND F] _]. split; [exact ND|].
  intros t d Hi. rewrite Forall_forall in F. apply (F (t, d) Hi).
Qed.

(** Encoding on one node and decoding on another node that registered the same value types in the same order: the
    wire format is the 16-bit big-endian registration position followed by the message's own bytes, for a value or a
    pointer to it; decoding runs exactly that type's decoder on exactly those bytes. *)
Theorem C05_roundtrip : forall h sender os receiver os' i t d v,
  register_all newCodec h = Ok (sender, os) ->
  register_all newCodec h = Ok (receiver, os') ->
  (N.of_nat (length h) <= 65536)%N ->
  nth_error h i = Some (t, d) ->
  (forall e, t <> TPtr e) ->
  v_type v = t \/ v_type v = TPtr t ->
  encode sender (Some v) = Ok (n2b (N.of_nat i / 256) :: n2b (N.of_nat i) :: v_bytes v) /\
  decode receiver (n2b (N.of_nat i / 256) :: n2b (N.of_nat i) :: v_bytes v) = d_run d (v_bytes v).
Proof.
  intros h s os r os' i t d v Es Er HL Hi HP Hv.
  apply register_all_ok in Es as [[ND F] ->]. apply register_all_ok in Er as [_ ->].
  assert (Hl : i < length h) by (apply nth_error_Some; rewrite Hi; discriminate).
  assert (Ho : opc i = N.of_nat i) by (unfold opc; apply N.mod_small; lia).
  assert (W : n2b (N.of_nat i / 256) :: n2b (N.of_nat i) :: v_bytes v = be_encode 2 (N.of_nat i) ++ v_bytes v) by reflexivity.
  rewrite W. split.
  - rewrite encode_eq.
    assert (X : match v_type v with TPtr e => e | t0 => t0 end = t).
    { destruct Hv as [-> | ->]; [|reflexivity]. destruct t; [reflexivity|]. exfalso. apply (HP t). reflexivity. }
    rewrite X. unfold codec_of. cbn [c_ser]. rewrite (ser_of_nth h 0 i t d ND Hi). cbn [plus]. rewrite Ho. reflexivity.
  - rewrite decode_encoded by lia. unfold codec_of. cbn [c_de]. rewrite <- Ho. change (opc i) with (opc (0 + i)).
    rewrite (de_of_last h 0 i t d Hi); [reflexivity|].
    cbn [plus]. intros k Hk Hk2 E. apply opc_inj in E; lia.
Qed.

Theorem C05_unregistered_type_refused : forall h c os v,
  register_all newCodec h = Ok (c, os) ->
  ~ In (v_type v) (map fst h) ->
  (forall e, v_type v = TPtr e -> ~ In e (map fst h)) ->
  encode c (Some v) = Err ErrNotRegistered.
Proof.
  intros h c os v E Hn Hp. apply register_all_ok in E as [_ ->]. rewrite encode_eq. unfold codec_of. cbn [c_ser].
  rewrite ser_of_none; [reflexivity|]. destruct (v_type v) as [n|e]; [exact Hn|]. apply Hp. reflexivity.
Qed.

Theorem C05_unassigned_opcode_refused : forall h c os opcode data,
  register_all newCodec h = Ok (c, os) -> (opcode < 65536)%N -> (N.of_nat (length h) <= opcode)%N ->
  decode c (n2b (opcode / 256) :: n2b opcode :: data) = Err ErrNotRegistered.
Proof.
  intros h c os o data E Ho HL. apply register_all_ok in E as [_ ->].
  change (n2b (o / 256) :: n2b o :: data) with (be_encode 2 o ++ data). rewrite decode_encoded by exact Ho.
  unfold codec_of. cbn [c_de]. rewrite de_of_absent; [reflexivity|]. cbn [plus]. intros j Hj. unfold opc.
  rewrite N.mod_small by lia. lia.
Qed.

(** Decoding never panics by itself and refuses strings without an opcode; it only panics if a user decoder does. *)
Theorem C05_decode_total : forall c data,
  (length data < 2 -> decode c data = Err ErrUnexpectedEOF) /\
  (2 <= length data -> decode c data = Err ErrNotRegistered \/
     exists o d, In (o, d) (c_de c) /\ decode c data = d_run d (skipn 2 data)).
Proof.
  intros c data. unfold decode. destruct (Nat.ltb_spec (length data) 2) as [H|H]; (split; [auto; lia|]); [lia|]. intros _.
  rewrite slice_to_ok by lia. cbn [bind]. rewrite slice_from_ok by lia. cbn [bind].
  destruct (de_get _ (c_de c)) as [d|] eqn:E; [|auto]. right.
  exists (be_decode (firstn 2 data)), d. split; [|reflexivity]. revert E. generalize (be_decode (firstn 2 data)). intros o.
  induction (c_de c) as [|[p e] l IH]; cbn; [discriminate|]. destruct (N.eqb_spec o p) as [->|]; [intros [= ->]; auto | auto].
Qed.

Definition ex_dec (t : gotype) (tag : N) : decoder := mkDec t (fun b => Ok (mkVal t (n2b tag :: b))).
Definition ex_hist : list (gotype * decoder) := [(TNamed 1, ex_dec (TNamed 1) 1); (TNamed 2, ex_dec (TNamed 2) 2)].
Example C05_nonvacuous :
  exists c, register_all newCodec ex_hist = Ok (c, [0; 1]%N)
    /\ encode c (Some (mkVal (TPtr (TNamed 2)) [n2b 9])) = Ok [n2b 0; n2b 1; n2b 9]
    /\ decode c [n2b 0; n2b 1; n2b 9] = Ok (mkVal (TNamed 2) [n2b 2; n2b 9])
    /\ encode c (Some (mkVal (TNamed 3) [])) = Err ErrNotRegistered.
Proof. eexists. repeat split; reflexivity. Qed.

(** ** C06 *)

(** The documented claim: any registered type, pointers included, any number of later registrations. *)
Definition C06_statement : Prop := forall h c os i t d v,
  register_all newCodec h = Ok (c, os) -> nth_error h i = Some (t, d) -> v_type v = t ->
  exists w, encode c (Some v) = Ok w /\ decode c w = d_run d (v_bytes v).

(** A pointer type is accepted, and then no value of that type can be encoded unless its element type is registered
    too (in which case it is encoded under the element type's opcode). *)
Theorem C06_pointer_types_unusable : forall h c os e v,
  register_all newCodec h = Ok (c, os) -> In (TPtr e) (map fst h) -> ~ In e (map fst h) -> v_type v = TPtr e ->
  encode c (Some v) = Err ErrNotRegistered.
Proof.
  intros h c os e v E Hi Hn Hv. apply register_all_ok in E as [_ ->]. rewrite encode_eq, Hv. unfold codec_of. cbn [c_ser].
  rewrite ser_of_none by exact Hn. reflexivity.
Qed.

(** Registering more than 65536 types makes the wrapped opcode select the later decoder: a message of type number
    [i] is decoded by the decoder of type number [i + 65536]. *)
Theorem C06_opcode_overflow : forall h c os i j t d t' d' v,
  register_all newCodec h = Ok (c, os) -> (N.of_nat (length h) <= 2 * 65536)%N ->
  nth_error h i = Some (t, d) -> nth_error h j = Some (t', d') -> N.of_nat j = (N.of_nat i + 65536)%N ->
  (forall e, t <> TPtr e) -> v_type v = t ->
  exists w, encode c (Some v) = Ok w /\ decode c w = d_run d' (v_bytes v).
Proof.
  intros h c os i j t d t' d' v E HL Hi Hj Hij HP Hv. apply register_all_ok in E as [[ND F] ->].
  assert (Hl' : j < length h) by (apply nth_error_Some; rewrite Hj; discriminate).
  exists (be_encode 2 (opc i) ++ v_bytes v). split.
  - rewrite encode_eq. assert (X : match v_type v with TPtr e => e | t0 => t0 end = t).
    { rewrite Hv. destruct t; [reflexivity|]. exfalso. apply (HP t). reflexivity. }
    rewrite X. unfold codec_of. cbn [c_ser]. rewrite (ser_of_nth h 0 i t d ND Hi). reflexivity.
  - rewrite decode_encoded by apply opc_bound. unfold codec_of. cbn [c_de].
    assert (EO : opc i = opc (0 + j)).
    { unfold opc. rewrite Nat.add_0_l, Hij. replace (N.of_nat i + 65536)%N with (N.of_nat i + 1 * 65536)%N by lia.
      rewrite N.mod_add by lia. reflexivity. }
    rewrite EO. rewrite (de_of_last h 0 j t' d' Hj); [reflexivity|].
    intros k Hk Hk2. rewrite <- EO. cbn [plus]. unfold opc.
    rewrite (N.mod_small (N.of_nat i)) by lia.
    assert (Hlo : N.of_nat k = (1 * 65536 + (N.of_nat k - 65536))%N) by lia.
    rewrite Hlo, N.add_comm, N.mod_add by lia. rewrite N.mod_small by lia. lia.
Qed.

Theorem C06_refuted : ~ C06_statement.
Proof.
  intros H. set (t := TPtr (TNamed 0)).
  destruct (H [(t, ex_dec t 1)] (codec_of [(t, ex_dec t 1)]) [0%N] 0 t (ex_dec t 1) (mkVal t [])) as (w & E & _);
    try reflexivity. discriminate E.
Qed.

(** Both refuting situations are met by concrete histories. *)
Example C06_nonvacuous_overflow :
  exists h j, N.of_nat j = (N.of_nat 0 + 65536)%N /\ N.of_nat (length h) = 65537%N /\
    (exists c os, register_all newCodec h = Ok (c, os)) /\
    (exists d, nth_error h 0 = Some (TNamed 0, d)) /\ (exists d, nth_error h j = Some (TNamed j, d)).
Proof.
  set (f := fun i => (TNamed i, ex_dec (TNamed i) (N.of_nat i))).
  assert (EQ : exists j, N.of_nat j = 65536%N) by (exists (N.to_nat 65536); apply N2Nat.id). destruct EQ as [j Ej].
  exists (map f (seq 0 (S j))), j. split; [exact Ej|]. split; [rewrite map_length, seq_length; lia|]. split; [|split].
  - exists (codec_of (map f (seq 0 (S j)))), (map opc (seq 0 (length (map f (seq 0 (S j)))))).
    apply (register_all_codec_of _ []). split.
    + cbn [app]. rewrite map_map. cbn [fst f].
      apply FinFun.Injective_map_NoDup; [intros a b [= X]; exact X | apply seq_NoDup].
    + apply Forall_forall. intros [t d] Hi. apply in_map_iff in Hi as (i & [= <- <-] & _). reflexivity.
  - exists (ex_dec (TNamed 0) 0). reflexivity.
  - exists (ex_dec (TNamed j) (N.of_nat j)). rewrite nth_error_map, (nth_error_nth' _ 0) by (rewrite seq_length; lia).
    rewrite seq_nth by lia. reflexivity.
Qed.

Print Assumptions C05_register.
Print Assumptions C05_register_only.
Print Assumptions C05_roundtrip.
Print Assumptions C05_unregistered_type_refused.
Print Assumptions C05_unassigned_opcode_refused.
Print Assumptions C05_decode_total.
Print Assumptions C06_pointer_types_unusable.
Print Assumptions C06_opcode_overflow.
Print Assumptions C06_refuted.
