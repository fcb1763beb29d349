(** Proofs about codec.go. *)
From Verif Require Import Base M_Codec.
From Coq Require Import Sorting.Permutation.
Local Open Scope nat_scope.

Definition opc (i : nat) : N := (N.of_nat i mod 65536)%N.

(** The codec after history [h] (oldest first). *)
Fixpoint ser_of (i : nat) (h : list (gotype * decoder)) : list (gotype * N) :=
  match h with [] => [] | (t, _) :: h' => ser_of (S i) h' ++ [(t, opc i)] end.
Fixpoint de_of (i : nat) (h : list (gotype * decoder)) : list (N * decoder) :=
  match h with [] => [] | (_, d) :: h' => de_of (S i) h' ++ [(opc i, d)] end.

Definition good (h : list (gotype * decoder)) : Prop :=
  NoDup (map fst h) /\ Forall (fun td => d_result (snd td) = fst td) h.

Lemma ser_get_app t a b : ser_get t (a ++ b) = match ser_get t a with Some o => Some o | None => ser_get t b end.
Proof. induction a as [|[u o] a IH]; [reflexivity|]. cbn. destruct (gotype_eq_dec t u); [reflexivity | exact IH]. Qed.
Lemma de_get_app o a b : de_get o (a ++ b) = match de_get o a with Some d => Some d | None => de_get o b end.
Proof. induction a as [|[p d] a IH]; [reflexivity|]. cbn. destruct (N.eqb o p); [reflexivity | exact IH]. Qed.

Lemma ser_of_none t h : forall i, ~ In t (map fst h) -> ser_get t (ser_of i h) = None.
Proof.
  induction h as [|[u d] h IH]; intros i Hn; [reflexivity|]. cbn [ser_of map fst In] in *.
  rewrite ser_get_app, IH by tauto. cbn. destruct (gotype_eq_dec t u) as [->|]; [tauto | reflexivity].
Qed.

Lemma ser_of_nth h : forall i j t d, NoDup (map fst h) -> nth_error h j = Some (t, d) ->
  ser_get t (ser_of i h) = Some (opc (i + j)).
Proof.
  induction h as [|[u e] h IH]; intros i j t d ND Hj; [destruct j; discriminate|].
  cbn [map fst] in ND. inversion ND as [|? ? Hu ND']; subst. cbn [ser_of]. rewrite ser_get_app.
  destruct j as [|j]; cbn [nth_error] in Hj.
  - injection Hj as -> ->. rewrite ser_of_none by exact Hu. cbn.
    destruct (gotype_eq_dec t t); [|contradiction]. rewrite Nat.add_0_r. reflexivity.
  - rewrite (IH (S i) j t d ND' Hj). f_equal. f_equal. lia.
Qed.

Lemma ser_get_in t l : ser_get t l <> None <-> In t (map fst l).
Proof.
  induction l as [|[u o] l IH]; cbn; [tauto|]. destruct (gotype_eq_dec t u) as [->|Hn].
  - split; [auto | intros _; discriminate].
  - rewrite IH. split; [auto|]. intros [->|]; [contradiction | assumption].
Qed.

Lemma ser_of_snoc h td : forall i, ser_of i (h ++ [td]) = (fst td, opc (i + length h)) :: ser_of i h.
Proof.
  induction h as [|[u e] h IH]; intros i; cbn [app ser_of length].
  - destruct td. cbn. rewrite Nat.add_0_r. reflexivity.
  - rewrite IH. cbn [app]. replace (S i + length h) with (i + S (length h)) by lia. reflexivity.
Qed.
Lemma de_of_snoc h td : forall i, de_of i (h ++ [td]) = (opc (i + length h), snd td) :: de_of i h.
Proof.
  induction h as [|[u e] h IH]; intros i; cbn [app de_of length].
  - destruct td. cbn. rewrite Nat.add_0_r. reflexivity.
  - rewrite IH. cbn [app]. replace (S i + length h) with (i + S (length h)) by lia. reflexivity.
Qed.

Lemma ser_of_fst h i : Permutation (map fst (ser_of i h)) (map fst h).
Proof.
  revert i. induction h as [|[u e] h IH]; intros i; [constructor|]. cbn [ser_of map fst].
  rewrite map_app. cbn. rewrite Permutation_app_comm. cbn. constructor. apply IH.
Qed.

Definition codec_of (h : list (gotype * decoder)) : codec :=
  mkCodec (opc (length h)) (ser_of 0 h) (de_of 0 h).

Lemma opc_succ i : ((opc i + 1) mod 65536)%N = opc (S i).
Proof. unfold opc. rewrite N.add_mod_idemp_l by lia. f_equal. lia. Qed.
Lemma opc_pred i : ((opc (S i) + 65535) mod 65536)%N = opc i.
Proof.
  unfold opc. rewrite N.add_mod_idemp_l by lia.
  replace (N.of_nat (S i) + 65535)%N with (N.of_nat i + 1 * 65536)%N by lia. apply N.mod_add. lia.
Qed.

Lemma register_codec_of h t d :
  ~ In t (map fst h) -> d_result d = t ->
  register (codec_of h) t d = Ok (codec_of (h ++ [(t, d)]), opc (length h)).
Proof.
  intros Hn Hd. unfold register, codec_of. cbn [c_ser c_counter c_de].
  rewrite ser_of_none by exact Hn. destruct (gotype_eq_dec (d_result d) t); [|contradiction]. cbv zeta.
  rewrite opc_succ, opc_pred, ser_of_snoc, de_of_snoc, app_length. cbn [length fst snd plus].
  rewrite Nat.add_1_r. reflexivity.
Qed.

Lemma register_codec_of_bad h t d :
  In t (map fst h) \/ d_result d <> t -> register (codec_of h) t d = Panic.
Proof.
  intros H. unfold register, codec_of. cbn [c_ser].
  destruct (ser_get t (ser_of 0 h)) eqn:E; [reflexivity|].
  destruct H as [H|H].
  - exfalso. assert (X : ser_get t (ser_of 0 h) <> None); [|congruence].
    apply ser_get_in. eapply Permutation_in; [|exact H]. apply Permutation_sym, ser_of_fst.
  - destruct (gotype_eq_dec (d_result d) t); [contradiction | reflexivity].
Qed.

Lemma NoDup_app_mid {A} (x : A) a b : NoDup (a ++ x :: b) -> ~ In x a.
Proof. intros H Hi. apply NoDup_remove_2 in H. apply H. apply in_or_app. auto. Qed.

Lemma register_all_codec_of l : forall h, good (h ++ l) ->
  register_all (codec_of h) l = Ok (codec_of (h ++ l), map opc (seq (length h) (length l))).
Proof.
  induction l as [|[t d] l IH]; intros h [ND F].
  - rewrite app_nil_r. reflexivity.
  - cbn [register_all]. rewrite map_app in ND. cbn [map fst] in ND.
    rewrite register_codec_of.
    + cbn [bind]. rewrite IH.
      * cbn [bind]. rewrite <- app_assoc. cbn [app length seq map]. rewrite app_length. cbn [length].
        rewrite Nat.add_1_r. reflexivity.
      * rewrite <- app_assoc. cbn [app]. split; [rewrite map_app; exact ND | exact F].
    + eapply NoDup_app_mid. exact ND.
    + rewrite Forall_forall in F. apply (F (t, d)). apply in_or_app. right. left. reflexivity.
Qed.

Lemma register_all_ok l c os : register_all newCodec l = Ok (c, os) -> good l /\ c = codec_of l.
Proof.
  assert (G : forall l h c os, good h -> register_all (codec_of h) l = Ok (c, os) -> good (h ++ l) /\ c = codec_of (h ++ l)).
  { clear. induction l as [|[t d] l IH]; intros h c os [ND F] E.
    - injection E as <- <-. rewrite app_nil_r. split; [split|]; auto.
    - cbn [register_all] in E.
      destruct (in_dec gotype_eq_dec t (map fst h)) as [Hi|Hn];
        [rewrite register_codec_of_bad in E by auto; discriminate|].
      destruct (gotype_eq_dec (d_result d) t) as [Hd|Hd];
        [|rewrite register_codec_of_bad in E by auto; discriminate].
      rewrite register_codec_of in E by assumption. cbn [bind] in E.
      destruct (register_all (codec_of (h ++ [(t, d)])) l) as [[c2 os2]|e|] eqn:E2; try discriminate.
      cbn [bind] in E. injection E as <- <-.
      replace (h ++ (t, d) :: l) with ((h ++ [(t, d)]) ++ l) by (rewrite <- app_assoc; reflexivity).
      eapply IH; [|exact E2]. split.
      + rewrite map_app. cbn [map fst]. apply (Permutation_NoDup (l := t :: map fst h)).
        * apply Permutation_cons_append.
        * constructor; assumption.
      + apply Forall_app. split; [exact F|]. constructor; [exact Hd | constructor]. }
  intros E. apply (G l [] c os); [|exact E]. split; constructor.
Qed.

Lemma opc_inj i j : (N.of_nat i < 65536)%N -> (N.of_nat j < 65536)%N -> opc i = opc j -> i = j.
Proof. unfold opc. intros Hi Hj. rewrite !N.mod_small by lia. lia. Qed.

Lemma de_of_absent o h : forall i, (forall j, j < length h -> opc (i + j) <> o) -> de_get o (de_of i h) = None.
Proof.
  induction h as [|[u e] h IH]; intros i Hn; [reflexivity|]. cbn [de_of length] in *.
  rewrite de_get_app, IH.
  - cbn. destruct (N.eqb_spec o (opc i)) as [E|E]; [|reflexivity].
    exfalso. apply (Hn 0); [lia|]. rewrite Nat.add_0_r. auto.
  - intros j Hj. replace (S i + j) with (i + S j) by lia. apply Hn. lia.
Qed.

(** The decoder found under an opcode is the one registered LAST under it. *)
Lemma de_of_last h : forall i j t d,
  nth_error h j = Some (t, d) ->
  (forall k, j < k -> k < length h -> opc (i + k) <> opc (i + j)) ->
  de_get (opc (i + j)) (de_of i h) = Some d.
Proof.
  induction h as [|[u e] h IH]; intros i j t d Hj HL; [destruct j; discriminate|].
  cbn [de_of length] in *. rewrite de_get_app. destruct j as [|j]; cbn [nth_error] in Hj.
  - injection Hj as -> ->. rewrite de_of_absent.
    + cbn. rewrite Nat.add_0_r, N.eqb_refl. reflexivity.
    + intros k Hk. replace (S i + k) with (i + S k) by lia. apply HL; lia.
  - replace (i + S j) with (S i + j) by lia. rewrite (IH (S i) j t d Hj); [reflexivity|].
    intros k Hk Hl. replace (S i + k) with (i + S k) by lia. replace (S i + j) with (i + S j) by lia. apply HL; lia.
Qed.

Lemma decode_encoded c o data :
  (o < 65536)%N -> decode c (be_encode 2 o ++ data) =
    match de_get o (c_de c) with None => Err ErrNotRegistered | Some d => d_run d data end.
Proof.
  intros Ho. unfold decode. rewrite app_length, be_encode_length.
  destruct (Nat.ltb_spec (2 + length data) 2) as [?|?]; [lia|].
  rewrite slice_to_ok by (rewrite app_length, be_encode_length; lia). cbn [bind].
  rewrite slice_from_ok by (rewrite app_length, be_encode_length; lia). cbn [bind].
  rewrite firstn_app_exact by apply be_encode_length. rewrite skipn_app_exact by apply be_encode_length.
  rewrite be_decode_encode_small; [reflexivity|]. exact Ho.
Qed.

Lemma opc_bound i : (opc i < 65536)%N.
Proof. unfold opc. apply N.mod_upper_bound. lia. Qed.

Lemma encode_eq c v :
  encode c (Some v) =
  match ser_get (match v_type v with TPtr e => e | t => t end) (c_ser c) with
  | None => Err ErrNotRegistered
  | Some o => Ok (be_encode 2 o ++ v_bytes v)
  end.
Proof.
  unfold encode. cbv zeta. destruct (ser_get _ (c_ser c)); [|reflexivity].
  rewrite go_copy_full; [reflexivity|]. rewrite be_encode_length, zeros_length. reflexivity.
Qed.
