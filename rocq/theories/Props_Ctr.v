(** * C107: what an eavesdropper learns of the messages on a connection. *)
From Verif Require Import Base Spec M_Binary P_Binary M_Msg M_AEAD P_Wire M_Ctr.
From Verif Require Props_Frame.
From Coq Require Import Strings.Byte.
Local Open Scope nat_scope.

(** ** Spec *)

(** Payloads of the same lengths. *)
Definition alike (ps qs : list bytes) : Prop := map (@length byte) ps = map (@length byte) qs.
Definition tag_ok (tag : bytes -> bytes -> bytes) : Prop := forall n c, length (tag n c) = tag_size.

(** Both directions of a connection between two processes that have just started, with nonces as they draw them ([prng]: math/rand's stream):
    any other payloads of the same lengths could have given the same bytes on the wire, under another key stream. *)
Definition C107_statement : Prop := forall prng tag pa pb qa qb, tag_ok tag -> alike pa qa -> alike pb qb -> forall ks, exists ks',
  wire (ctr ks tag) (session_nonces prng 12 (length pa)) pa = wire (ctr ks' tag) (session_nonces prng 12 (length pa)) qa /\
  wire (ctr ks tag) (session_nonces prng 12 (length pb)) pb = wire (ctr ks' tag) (session_nonces prng 12 (length pb)) qb.

(** ** XOR *)

Lemma xor_byte_comm a b : xor_byte a b = xor_byte b a.
Proof. unfold xor_byte. rewrite N.lxor_comm. reflexivity. Qed.
Lemma xor_byte_assoc a b c : xor_byte (xor_byte a b) c = xor_byte a (xor_byte b c).
Proof. unfold xor_byte at 1 3. rewrite !b2n_xor, N.lxor_assoc. reflexivity. Qed.
Lemma xor_byte_self a : xor_byte a a = x00.
Proof. unfold xor_byte. rewrite N.lxor_nilpotent. reflexivity. Qed.
Lemma xor_byte_zero a : xor_byte a x00 = a.
Proof. unfold xor_byte. change (b2n x00) with 0%N. rewrite N.lxor_0_r. apply n2b_b2n. Qed.
Lemma xor_byte_back a b : xor_byte (xor_byte a b) b = a.
Proof. rewrite xor_byte_assoc, xor_byte_self. apply xor_byte_zero. Qed.

Lemma pad_from_length g p : forall i, length (pad_from g i p) = length p.
Proof. induction p as [|b r IH]; intros i; cbn; [reflexivity|]. rewrite IH. reflexivity. Qed.
Lemma pad_length g p : length (pad g p) = length p.
Proof. apply pad_from_length. Qed.
Lemma pad_from_back g p : forall i, pad_from g i (pad_from g i p) = p.
Proof. induction p as [|b r IH]; intros i; cbn; [reflexivity|]. rewrite xor_byte_back, IH. reflexivity. Qed.

(** GCM meets the contract of an AEAD, so all that is proved of encrypted connections applies. *)
Theorem C107_contract : forall ks tag, tag_ok tag -> Props_Frame.aead_contract (ctr ks tag).
Proof.
  intros ks tag T. repeat split; cbn [seal open overhead nonce_size ctr].
  - intros n p _. rewrite app_length, pad_length, T. reflexivity.
  - intros n p _. assert (B : pad (ks n) (pad (ks n) p) = p) by apply pad_from_back. set (c := pad (ks n) p) in *. rewrite app_length, T.
    destruct (Nat.ltb_spec (length c + tag_size) tag_size); [lia|]. replace (length c + tag_size - tag_size) with (length c) by lia.
    rewrite skipn_app, Nat.sub_diag, skipn_all, firstn_app, Nat.sub_diag, firstn_all. cbn [app skipn firstn]. rewrite app_nil_r.
    destruct (bytes_eqb_spec (tag n c) (tag n c)); [|contradiction]. f_equal. exact B.
  - intros n c H. apply Nat.ltb_lt in H. rewrite H. reflexivity.
  - intros n c p. destruct (Nat.ltb_spec (length c) tag_size); [discriminate|]. destruct (bytes_eqb _ _); [|discriminate]. intros H1. injection H1 as <-. rewrite pad_length, firstn_length. lia.
Qed.
Print Assumptions C107_contract.

(** The model's writer is this writer. *)
Theorem C107_frames : forall A rnds ms, frames (Some A) rnds ms = wire A rnds (map msg_marshal ms).
Proof. intros A rnds ms. revert rnds. induction ms as [|m r IH]; intros rnds; cbn; [reflexivity|]. rewrite IH. reflexivity. Qed.
Print Assumptions C107_frames.

(** ** Distinct nonces: a one-time pad *)

(** The key stream under which the second payload of each triple gives the ciphertext of the first. *)
Fixpoint swap (ts : list (bytes * bytes * bytes)) (ks : stream) : stream :=
  match ts with
  | [] => ks
  | (n, p, q) :: r => fun n' i => if bytes_eqb n n' then (if i <? length p then xor_byte (ks n' i) (xor_byte (nth i p x00) (nth i q x00)) else ks n' i) else swap r ks n' i
  end.
Lemma swap_back ts : forall ks n i, swap ts (swap ts ks) n i = ks n i.
Proof.
  induction ts as [|[[n0 p] q] r IH]; intros ks n i; cbn [swap]; [reflexivity|]. destruct (bytes_eqb_spec n0 n) as [E|N].
  - destruct (i <? length p); [apply xor_byte_back | reflexivity].
  - transitivity (swap r (swap r ks) n i); [|apply IH]. clear - N.
    assert (X : forall r k1 k2, (forall i, k1 n i = k2 n i) -> forall i, swap r k1 n i = swap r k2 n i).
    { clear. induction r as [|[[n1 p1] q1] r IH]; intros k1 k2 H i; cbn [swap]; [apply H|]. destruct (bytes_eqb n1 n); [rewrite H; reflexivity | apply IH, H]. }
    apply X. intros j. cbn [swap]. destruct (bytes_eqb_spec n0 n); [contradiction | reflexivity].
Qed.
Lemma swap_at ts : NoDup (map (fun t => fst (fst t)) ts) -> forall n p q, In (n, p, q) ts -> forall ks i, i < length p -> swap ts ks n i = xor_byte (ks n i) (xor_byte (nth i p x00) (nth i q x00)).
Proof.
  induction ts as [|[[n0 p0] q0] r IH]; intros D n p q H ks i L; [destruct H|]. cbn [map fst] in D. inversion D as [|? ? Ni Dr]; subst. cbn [swap]. destruct H as [E|H].
  - injection E as -> -> ->. destruct (bytes_eqb_spec n n); [|contradiction]. apply Nat.ltb_lt in L. rewrite L. reflexivity.
  - destruct (bytes_eqb_spec n0 n) as [-> |_]; [exfalso; apply Ni; apply in_map_iff; exists (n, p, q); auto|]. apply IH; assumption.
Qed.
Lemma pad_same g h p : forall q i, length p = length q -> (forall j, j < length p -> h (i + j) = xor_byte (g (i + j)) (xor_byte (nth j p x00) (nth j q x00))) -> pad_from g i p = pad_from h i q.
Proof.
  induction p as [|a p IH]; intros [|b q] i L H; try discriminate; [reflexivity|]. cbn [pad_from]. f_equal.
  - specialize (H 0 ltac:(cbn; lia)). rewrite Nat.add_0_r in H. rewrite H. cbn [nth]. rewrite (xor_byte_comm (g i)), <- xor_byte_assoc. f_equal.
    rewrite (xor_byte_comm a b), <- xor_byte_assoc, xor_byte_self, (xor_byte_comm x00), xor_byte_zero. reflexivity.
  - apply IH; [cbn in L; lia|]. intros j Hj. specialize (H (S j) ltac:(cbn; lia)). replace (S i + j) with (i + S j) by lia. exact H.
Qed.

Fixpoint triples (rnds ps qs : list bytes) : list (bytes * bytes * bytes) :=
  match rnds, ps, qs with n :: rnds, p :: ps, q :: qs => (n, p, q) :: triples rnds ps qs | _, _, _ => [] end.
Lemma triples_nonces rnds : forall ps qs, length rnds = length ps -> length ps = length qs -> map (fun t => fst (fst t)) (triples rnds ps qs) = rnds.
Proof. induction rnds as [|n rnds IH]; intros [|p ps] [|q qs] H H'; try discriminate; cbn; [reflexivity|]. f_equal. apply IH; cbn in *; lia. Qed.
Lemma alike_length ps : forall qs, alike ps qs -> length ps = length qs.
Proof. intros qs H. apply (f_equal (@length nat)) in H. rewrite !map_length in H. exact H. Qed.

Lemma wire_swap tag ts ks ks' : (forall n p q, In (n, p, q) ts -> forall i, i < length p -> ks' n i = xor_byte (ks n i) (xor_byte (nth i p x00) (nth i q x00))) ->
  forall rnds ps qs, length rnds = length ps -> alike ps qs -> (forall t, In t (triples rnds ps qs) -> In t ts) -> wire (ctr ks tag) rnds ps = wire (ctr ks' tag) rnds qs.
Proof.
  intros H. induction rnds as [|n rnds IH]; intros [|p ps] [|q qs] L A I; try discriminate; [reflexivity|]. unfold alike in A. cbn [map] in A. injection A as A0 A.
  cbn [wire hd tl]. rewrite (IH ps qs); [|cbn in L; lia | exact A | intros t Ht; apply I; right; exact Ht]. f_equal.
  assert (E : pad (ks n) p = pad (ks' n) q). { apply pad_same; [exact A0|]. intros j Hj. cbn [Nat.add]. apply (H n p q); [apply I; left; reflexivity | exact Hj]. }
  unfold frame_bytes, encrypt_val, ctr. cbn [seal]. rewrite E. reflexivity.
Qed.

(** If no nonce comes twice on a connection, in both directions together, an eavesdropper learns the lengths only: for any other payloads of the
    same lengths, a change of the key stream that is its own inverse turns the bytes on the wire for these into those for the others.
    So all are equally likely. *)
Theorem C107_partial : forall tag ra rb pa pb qa qb, NoDup (ra ++ rb) -> length ra = length pa -> length rb = length pb -> alike pa qa -> alike pb qb ->
  exists f : stream -> stream, (forall ks n i, f (f ks) n i = ks n i) /\
    forall ks, wire (ctr ks tag) ra pa = wire (ctr (f ks) tag) ra qa /\ wire (ctr ks tag) rb pb = wire (ctr (f ks) tag) rb qb.
Proof.
  intros tag ra rb pa pb qa qb D La Lb Aa Ab. set (ts := triples ra pa qa ++ triples rb pb qb). exists (swap ts). split; [intros; apply swap_back|].
  assert (M : map (fun t => fst (fst t)) ts = ra ++ rb) by (unfold ts; rewrite map_app, !triples_nonces; auto using alike_length).
  intros ks. assert (H : forall n p q, In (n, p, q) ts -> forall i, i < length p -> swap ts ks n i = xor_byte (ks n i) (xor_byte (nth i p x00) (nth i q x00))) by (intros n p q Hi i Li; apply swap_at; [rewrite M; exact D | exact Hi | exact Li]).
  split; apply (wire_swap tag ts ks (swap ts ks) H); auto; intros t Ht; unfold ts; apply in_or_app; auto.
Qed.
Print Assumptions C107_partial.

(** ** The same nonce twice *)

(** What the eavesdropper does: take the frames apart, and combine two ciphertexts with a known text. *)
Fixpoint bodies (fuel : nat) (w : bytes) : list bytes :=
  match fuel with
  | O => []
  | S f => if length w <? 4 then [] else let n := N.to_nat (be_decode (firstn 4 w)) in firstn n (skipn 4 w) :: bodies f (skipn n (skipn 4 w))
  end.
Definition text_of (body : bytes) : bytes := let c := skipn 12 body in firstn (length c - tag_size) c.
Definition reveal (i : nat) (wa wb : bytes) (known : bytes) : bytes :=
  xor_bytes (xor_bytes (text_of (nth i (bodies (S (length wa)) wa) [])) (text_of (nth i (bodies (S (length wb)) wb) []))) known.

Lemma bodies_wire ks tag : tag_ok tag -> forall rnds ps fuel, length rnds = length ps -> Forall (fun n => length n = 12) rnds -> Forall (fun p => (N.of_nat (length p) + 28 < 2 ^ 32)%N) ps -> length ps < fuel ->
  bodies fuel (wire (ctr ks tag) rnds ps) = map (fun np => encrypt_val (ctr ks tag) (fst np) (snd np)) (combine rnds ps).
Proof.
  intros T. induction rnds as [|n rnds IH]; intros [|p ps] fuel L Fn Fp Lf; try discriminate; destruct fuel as [|fuel]; try (cbn in Lf; lia); [reflexivity|].
  inversion Fn as [|? ? Hn Fn']; inversion Fp as [|? ? Hp Fp']; subst. cbn [wire hd tl combine map fst snd bodies]. unfold frame_bytes.
  set (b := encrypt_val (ctr ks tag) n p). assert (Lb : length b = length p + 28) by (unfold b, encrypt_val, ctr; cbn [seal]; rewrite !app_length, pad_length, T, Hn; unfold tag_size; lia).
  rewrite <- app_assoc. set (w := wire (ctr ks tag) rnds ps).
  assert (L4 : length (be_encode 4 (N.of_nat (length b))) = 4) by apply be_encode_length.
  assert (F : firstn 4 (be_encode 4 (N.of_nat (length b)) ++ b ++ w) = be_encode 4 (N.of_nat (length b))) by (rewrite firstn_app, L4, Nat.sub_diag, firstn_O, app_nil_r; apply firstn_all2; lia).
  assert (K : skipn 4 (be_encode 4 (N.of_nat (length b)) ++ b ++ w) = b ++ w) by (rewrite skipn_app, L4, Nat.sub_diag, skipn_all2 by lia; reflexivity).
  destruct (Nat.ltb_spec (length (be_encode 4 (N.of_nat (length b)) ++ b ++ w)) 4) as [C|_]; [rewrite app_length, L4 in C; lia|].
  rewrite F, K, be_decode_encode_small by (change (256 ^ N.of_nat 4)%N with (2 ^ 32)%N; lia). rewrite Nat2N.id.
  rewrite firstn_app, Nat.sub_diag, firstn_all, skipn_app, Nat.sub_diag, skipn_all. cbn [firstn skipn app]. rewrite app_nil_r. f_equal. apply IH; auto; cbn in *; lia.
Qed.
Lemma text_enc ks tag n p : tag_ok tag -> length n = 12 -> text_of (encrypt_val (ctr ks tag) n p) = pad (ks n) p.
Proof.
  intros T Hn. unfold text_of, encrypt_val, ctr. cbn [seal]. rewrite skipn_app, Hn, Nat.sub_diag, skipn_all2 by lia. cbn [skipn app].
  rewrite app_length, T. replace (length (pad (ks n) p) + tag_size - tag_size) with (length (pad (ks n) p)) by lia. rewrite firstn_app, Nat.sub_diag, firstn_all. cbn [firstn]. apply app_nil_r.
Qed.
Lemma pads_cancel g p : forall q i, xor_bytes (pad_from g i p) (pad_from g i q) = xor_bytes p q.
Proof.
  induction p as [|a p IH]; intros [|b q] i; cbn [pad_from xor_bytes]; auto. rewrite IH. f_equal.
  rewrite (xor_byte_comm b), <- xor_byte_assoc, xor_byte_back. reflexivity.
Qed.
Lemma xor_back p : forall q, length p = length q -> xor_bytes (xor_bytes p q) p = q.
Proof. induction p as [|a p IH]; intros [|b q] L; try discriminate; [reflexivity|]. cbn. rewrite IH by (cbn in L; lia). f_equal. rewrite (xor_byte_comm a), xor_byte_back. reflexivity. Qed.
Lemma xor_back_min p : forall q, xor_bytes (xor_bytes p q) p = firstn (length p) q.
Proof. induction p as [|a p IH]; intros [|b q]; cbn [xor_bytes firstn length]; [reflexivity | reflexivity | reflexivity |]. rewrite IH. f_equal. rewrite (xor_byte_comm a), xor_byte_back. reflexivity. Qed.

(** Where the two ends use the same nonce, who knows what one of them said, knows what the other said, up to that length; from the bytes on the wire, without any key. *)
Theorem C107_known_text : forall ks tag ra rb pa pb i n p q, tag_ok tag -> length ra = length pa -> length rb = length pb ->
  Forall (fun n => length n = 12) (ra ++ rb) -> Forall (fun p => (N.of_nat (length p) + 28 < 2 ^ 32)%N) (pa ++ pb) ->
  nth_error ra i = Some n -> nth_error rb i = Some n -> nth_error pa i = Some p -> nth_error pb i = Some q ->
  reveal i (wire (ctr ks tag) ra pa) (wire (ctr ks tag) rb pb) p = firstn (length p) q.
Proof.
  intros ks tag ra rb pa pb i n p q T La Lb Fn Fp Na Nb Pa Pb. apply Forall_app in Fn as [Fna Fnb]. apply Forall_app in Fp as [Fpa Fpb].
  assert (Lw : forall rnds ps, length ps <= length (wire (ctr ks tag) rnds ps)).
  { intros rnds ps. revert rnds. induction ps as [|x ps IH]; intros rnds; cbn [wire length]; [lia|]. rewrite app_length. specialize (IH (tl rnds)). unfold frame_bytes. rewrite app_length, be_encode_length. lia. }
  assert (B : forall rnds ps x, length rnds = length ps -> Forall (fun n => length n = 12) rnds -> Forall (fun p => (N.of_nat (length p) + 28 < 2 ^ 32)%N) ps -> nth_error rnds i = Some n -> nth_error ps i = Some x ->
    text_of (nth i (bodies (S (length (wire (ctr ks tag) rnds ps))) (wire (ctr ks tag) rnds ps)) []) = pad (ks n) x).
  { intros rnds ps x L F1 F2 N1 P1. rewrite bodies_wire; auto; [|specialize (Lw rnds ps); lia].
    assert (C : nth_error (combine rnds ps) i = Some (n, x)).
    { clear - N1 P1. revert rnds ps N1 P1. induction i as [|j IH]; intros [|a rnds] [|b ps] N1 P1; try discriminate; cbn in *; [congruence | apply IH; assumption]. }
    rewrite (nth_error_nth _ _ _ (map_nth_error _ _ _ C)). cbn [fst snd]. apply text_enc; [exact T|]. rewrite Forall_forall in F1. apply F1. eapply nth_error_In. exact N1. }
  unfold reveal. rewrite (B ra pa p), (B rb pb q) by assumption. unfold pad. rewrite pads_cancel. apply xor_back_min.
Qed.
Print Assumptions C107_known_text.

(** Two processes that have just started do use the same nonces, one after the other. *)
Theorem C107_fresh : forall ks tag prng pa pb i p q, tag_ok tag -> Forall (fun p => (N.of_nat (length p) + 28 < 2 ^ 32)%N) (pa ++ pb) -> nth_error pa i = Some p -> nth_error pb i = Some q ->
  reveal i (wire (ctr ks tag) (session_nonces prng 12 (length pa)) pa) (wire (ctr ks tag) (session_nonces prng 12 (length pb)) pb) p = firstn (length p) q.
Proof.
  intros ks tag prng pa pb i p q T F Pa Pb. assert (Ia : i < length pa) by (apply nth_error_Some; congruence). assert (Ib : i < length pb) by (apply nth_error_Some; congruence).
  destruct (Props_Frame.C11_same_nonces prng 12 (length pa) (length pb) i Ia Ib) as (n & N1 & N2).
  apply (C107_known_text ks tag _ _ pa pb i n p q); auto; try (unfold session_nonces; rewrite map_length, seq_length; reflexivity).
  apply Forall_app. split; apply Forall_forall; intros x Hx; unfold session_nonces in Hx; apply in_map_iff in Hx as (j & <- & _); unfold rand_read; rewrite map_length, seq_length; reflexivity.
Qed.
Print Assumptions C107_fresh.

Definition tag0 (n c : bytes) : bytes := zeros 16.
Lemma tag0_ok : tag_ok tag0.
Proof. intros n c. reflexivity. Qed.

Theorem C107_refuted : ~ C107_statement.
Proof.
  intros H. destruct (H (fun _ => x00) tag0 [[x01]] [[x03]] [[x01]] [[x02]] tag0_ok eq_refl eq_refl (fun _ _ => x00)) as (ks' & Ea & Eb).
  assert (X : forall ks p q, length p = 1 -> length q = 1 -> reveal 0 (wire (ctr ks tag0) (session_nonces (fun _ => x00) 12 1) [p]) (wire (ctr ks tag0) (session_nonces (fun _ => x00) 12 1) [q]) p = q).
  { intros ks p q Lp Lq. etransitivity; [apply (C107_fresh ks tag0 (fun _ => x00) [p] [q] 0 p q tag0_ok); auto | rewrite firstn_all2 by lia; reflexivity].
    cbn [app]. repeat constructor; rewrite ?Lp, ?Lq; reflexivity. }
  cbn [length] in Ea, Eb. pose proof (X (fun _ _ => x00) [x01] [x03] eq_refl eq_refl) as Y. rewrite Ea, Eb in Y. rewrite (X ks' [x01] [x02] eq_refl eq_refl) in Y. discriminate.
Qed.
Print Assumptions C107_refuted.

(** A key stream that differs by nonce and position; the two ends say different things of different lengths, twice. *)
Definition ks1 : stream := fun n i => n2b (be_decode n + N.of_nat i * 7 + 3).
Definition prng1 (i : nat) : byte := n2b (N.of_nat (i * i) + 5).
Example C107_nonvacuous : let pa := [[x01; x02]; [x10; x20; x30]] in let pb := [[x41; x42; x43]; [x51; x52]] in
  NoDup (session_nonces prng1 12 2) /\ NoDup (session_nonces prng1 12 2 ++ map (map (fun b => xor_byte b x80)) (session_nonces prng1 12 2)) /\
  reveal 0 (wire (ctr ks1 tag0) (session_nonces prng1 12 2) pa) (wire (ctr ks1 tag0) (session_nonces prng1 12 2) pb) [x01; x02] = [x41; x42] /\
  reveal 1 (wire (ctr ks1 tag0) (session_nonces prng1 12 2) pa) (wire (ctr ks1 tag0) (session_nonces prng1 12 2) pb) [x10; x20; x30] = [x51; x52].
Proof.
  cbv zeta. split; [|split; [|split; vm_compute; reflexivity]]; vm_compute; repeat constructor; cbn [In]; intros C; repeat (destruct C as [C|C]; try discriminate); exact C.
Qed.
