(** * Proofs about M_ParseIP: net.ParseIP reads what net.IP.String writes. *)
From Verif Require Import Base Spec M_Addr M_ID M_Node P_Wire P_Keys P_Node M_ParseIP.
From Coq Require Import Strings.Byte Init.Decimal Numbers.DecimalN.
Local Open Scope nat_scope.

(** ** Decimal *)

Definition not_digit (s : bytes) : Prop := match s with [] => True | c :: _ => ((48 <=? b2n c) && (b2n c <=? 57))%N = false end.
Definition not_hex (s : bytes) : Prop := match s with [] => True | c :: _ => from_hex_char c = None end.

Lemma itoa_byte_check : forallb (fun b => match dtoi (itoa (b2n b)) with Some (n, c, []) => (n =? b2n b)%N && negb (Nat.ltb 1 c && (match itoa (b2n b) with z :: _ => byte_eqb z (n2b 48) | [] => false end)) | _ => false end)
  (map (fun k => n2b (N.of_nat k)) (seq 0 256)) = true.
Proof. vm_compute. reflexivity. Qed.

Lemma dtoi_loop_app s : forall n i m j t, dtoi_loop n i s = Some (m, j, []) -> not_digit t -> dtoi_loop n i (s ++ t) = Some (m, j, t).
Proof.
  induction s as [|c s IH]; intros n i m j t E H; cbn in *.
  - injection E as -> ->. destruct t as [|c t]; [reflexivity|]. cbn in *. rewrite H. reflexivity.
  - destruct (_ && _)%bool; [|discriminate]. cbv zeta in *. destruct (_ <=? _)%N; [discriminate|]. apply IH; assumption.
Qed.

Lemma dtoi_app s n c t : dtoi s = Some (n, c, []) -> not_digit t -> dtoi (s ++ t) = Some (n, c, t).
Proof.
  unfold dtoi. intros E H. destruct (dtoi_loop 0 0 s) as [[[m i] r]|] eqn:D; [|discriminate].
  destruct i; [discriminate|]. injection E as -> <- ->. rewrite (dtoi_loop_app s _ _ _ _ t D H). reflexivity.
Qed.

Lemma all_bytes b : In b (map (fun k => n2b (N.of_nat k)) (seq 0 256)).
Proof.
  apply in_map_iff. exists (N.to_nat (b2n b)). rewrite N2Nat.id, n2b_b2n. split; [reflexivity|].
  apply in_seq. pose proof (b2n_bound b). lia.
Qed.

Lemma itoa_byte b t : not_digit t -> exists c, dtoi (itoa (b2n b) ++ t) = Some (b2n b, c, t) /\
  (Nat.ltb 1 c && (match itoa (b2n b) ++ t with z :: _ => byte_eqb z (n2b 48) | [] => false end)) = false.
Proof.
  intros H. pose proof itoa_byte_check as A. rewrite forallb_forall in A. specialize (A b (all_bytes b)). cbn beta in A.
  destruct (dtoi (itoa (b2n b))) as [[[n c] [|x r]]|] eqn:D; try discriminate.
  apply andb_true_iff in A as [A1 A2]. apply N.eqb_eq in A1. subst n. exists c. split; [apply dtoi_app; assumption|].
  apply negb_true_iff in A2. destruct (itoa (b2n b)) as [|z w] eqn:E; [exfalso; exact (itoa_nonnil _ E)|]. exact A2.
Qed.

Lemma octet k b first s : (match s with [] => True | c :: _ => c = dot end) ->
  octets (S k) first ((if first then [] else [dot]) ++ itoa (b2n b) ++ s) = match octets k false s with Some l => Some (b :: l) | None => None end.
Proof.
  intros H. cbn [octets].
  replace (if first then Some ((if first then [] else [dot]) ++ itoa (b2n b) ++ s)
           else match (if first then [] else [dot]) ++ itoa (b2n b) ++ s with c :: s' => if byte_eqb c dot then Some s' else None | [] => None end)
    with (Some (itoa (b2n b) ++ s)) by (destruct first; reflexivity).
  destruct (itoa_byte b s) as (c & D & Z).
  { destruct s; [exact I|]. subst. reflexivity. }
  rewrite D, Z. pose proof (b2n_bound b). destruct (N.ltb_spec 255 (b2n b)); [lia|]. rewrite n2b_b2n. reflexivity.
Qed.

Lemma parse_quad a b c d : parse_ipv4 (quad_string [a; b; c; d]) = Some (v4_in_v6_prefix ++ [a; b; c; d]).
Proof.
  unfold parse_ipv4, quad_string. cbn [map].
  pose proof (octet 3 a true (dot :: itoa (b2n b) ++ dot :: itoa (b2n c) ++ dot :: itoa (b2n d)) eq_refl) as Oa.
  pose proof (octet 2 b false (dot :: itoa (b2n c) ++ dot :: itoa (b2n d)) eq_refl) as Ob.
  pose proof (octet 1 c false (dot :: itoa (b2n d)) eq_refl) as Oc.
  pose proof (octet 0 d false [] I) as Od. rewrite app_nil_r in Od.
  cbn [Datatypes.app] in Oa, Ob, Oc, Od.
  rewrite Oa, Ob, Oc, Od. reflexivity.
Qed.

(** ** Hexadecimal *)

Lemma xtoi_hex16 g t : (g < 65536)%N -> not_hex t -> exists c, xtoi (hex16 g ++ t) = Some (g, c, t).
Proof.
  intros H T. unfold hex16, xtoi.
  assert (M : forall x, from_hex_char (hex_digit (x mod 16)) = Some (x mod 16)%N) by (intros; apply hex_digit_inv, N.mod_lt; lia).
  assert (E : forall n i, xtoi_loop n i t = Some (n, i, t)) by (intros; destruct t as [|c t]; [reflexivity|]; cbn in *; rewrite T; reflexivity).
  assert (L : forall x, (x < 65536)%N -> (16777215 <=? x)%N = false) by (intros; apply N.leb_gt; lia).
  pose proof (N.div_mod g 16 ltac:(lia)) as D1. pose proof (N.div_mod (g / 16) 16 ltac:(lia)) as D2.
  pose proof (N.div_mod (g / 16 / 16) 16 ltac:(lia)) as D3.
  replace (g / 16 / 16)%N with (g / 256)%N in * by (rewrite N.div_div by lia; reflexivity).
  replace (g / 256 / 16)%N with (g / 4096)%N in * by (rewrite N.div_div by lia; reflexivity).
  pose proof (N.mod_lt g 16 ltac:(lia)). pose proof (N.mod_lt (g / 16) 16 ltac:(lia)). pose proof (N.mod_lt (g / 256) 16 ltac:(lia)).
  destruct (N.leb_spec 4096 g); [|destruct (N.leb_spec 256 g); [|destruct (N.leb_spec 16 g)]]; cbn [Datatypes.app xtoi_loop].
  - rewrite hex_digit_inv by lia. cbv zeta. rewrite L by lia. rewrite !M. cbv zeta. rewrite !L by lia. rewrite E. eexists. do 3 f_equal. lia.
  - rewrite hex_digit_inv by lia. cbv zeta. rewrite L by lia. rewrite !M. cbv zeta. rewrite !L by lia. rewrite E. eexists. do 3 f_equal. lia.
  - rewrite hex_digit_inv by lia. cbv zeta. rewrite L by lia. rewrite !M. cbv zeta. rewrite !L by lia. rewrite E. eexists. do 3 f_equal. lia.
  - rewrite hex_digit_inv by lia. cbv zeta. rewrite L by lia. rewrite E. eexists. do 3 f_equal.
Qed.

(** ** Groups *)

Fixpoint ungroups (gs : list N) : bytes := match gs with [] => [] | g :: gs' => n2b (g / 256) :: n2b (g mod 256) :: ungroups gs' end.

Lemma ungroups_groups : forall k l, length l = 2 * k -> ungroups (groups l) = l.
Proof.
  induction k as [|k IH]; intros [|a [|b l]] H; try discriminate H; try (cbn in H; lia); [reflexivity|].
  cbn [groups ungroups]. rewrite IH by (cbn in H; lia). pose proof (b2n_bound a). pose proof (b2n_bound b).
  rewrite N.div_add_l, N.div_small, N.add_0_r by lia. rewrite N.add_comm, N.mod_add, N.mod_small by lia.
  rewrite !n2b_b2n. reflexivity.
Qed.
Lemma groups_length : forall k l, length l = 2 * k -> length (groups l) = k.
Proof. induction k as [|k IH]; intros [|a [|b l]] H; try discriminate H; try (cbn in H; lia); [reflexivity|]. cbn [groups length]. rewrite IH by (cbn in H; lia). reflexivity. Qed.
Lemma ungroups_length gs : length (ungroups gs) = 2 * length gs.
Proof. induction gs; cbn [ungroups length]; lia. Qed.
Lemma ungroups_app a b : ungroups (a ++ b) = ungroups a ++ ungroups b.
Proof. induction a; cbn; [reflexivity|]. rewrite IHa. reflexivity. Qed.
Lemma ungroups_zeros n : ungroups (repeat 0%N n) = zeros (2 * n).
Proof. induction n; [reflexivity|]. replace (2 * S n) with (S (S (2 * n))) by lia. cbn [repeat ungroups]. rewrite IHn. reflexivity. Qed.

Lemma hex16_head g t : (g < 65536)%N -> exists c w, hex16 g ++ t = c :: w /\ byte_eqb c colon = false /\ byte_eqb c dot = false.
Proof.
  intros H. assert (A : forall k, k < 16 -> byte_eqb (hex_digit (N.of_nat k)) colon = false /\ byte_eqb (hex_digit (N.of_nat k)) dot = false).
  { intros k Hk. do 16 (destruct k as [|k]; [split; reflexivity|]). lia. }
  assert (B : forall n, (n < 16)%N -> byte_eqb (hex_digit n) colon = false /\ byte_eqb (hex_digit n) dot = false).
  { intros n Hn. specialize (A (N.to_nat n) ltac:(lia)). rewrite N2Nat.id in A. exact A. }
  unfold hex16. destruct (N.leb_spec 4096 g); [|destruct (N.leb_spec 256 g); [|destruct (N.leb_spec 16 g)]]; cbn [Datatypes.app];
    do 2 eexists; (split; [reflexivity|]); apply B; try assumption; apply N.div_lt_upper_bound; lia.
Qed.

Lemma join_head gs t : Forall (fun g => g < 65536)%N gs -> gs <> [] -> exists c w, join_groups gs ++ t = c :: w /\ byte_eqb c colon = false.
Proof.
  intros H N. destruct gs as [|g gs]; [congruence|]. inversion H; subst.
  destruct gs as [|g' gs].
  - destruct (hex16_head g t H2) as (c & w & E & C & _). exists c, w. auto.
  - change (join_groups (g :: g' :: gs)) with (hex16 g ++ colon :: join_groups (g' :: gs)). rewrite <- app_assoc.
    destruct (hex16_head g ((colon :: join_groups (g' :: gs)) ++ t) H2) as (c & w & E & C & _). exists c, w. auto.
Qed.

(** A group followed by a colon, and not by two. *)
Lemma v6_one k out ell g d w : (g < 65536)%N -> byte_eqb d colon = false ->
  v6_loop (S k) out ell (hex16 g ++ colon :: d :: w) = v6_loop k (out ++ ungroups [g]) ell (d :: w).
Proof.
  intros H D. cbn [v6_loop]. destruct (xtoi_hex16 g (colon :: d :: w) H eq_refl) as (c & ->).
  destruct (N.ltb_spec 65535 g); [lia|]. change (byte_eqb colon dot) with false. change (byte_eqb colon colon) with true. cbn iota.
  rewrite D. reflexivity.
Qed.

Lemma v6_end : forall gs k out ell, Forall (fun g => g < 65536)%N gs -> gs <> [] -> length gs <= k ->
  v6_loop k out ell (join_groups gs) = Some (out ++ ungroups gs, ell, []).
Proof.
  induction gs as [|g gs IH]; intros k out ell H N L; [congruence|]. inversion H; subst. destruct k as [|k]; [cbn in L; lia|].
  destruct gs as [|g' gs].
  - cbn [join_groups v6_loop]. destruct (xtoi_hex16 g [] H2 I) as (c & E). rewrite app_nil_r in E. rewrite E.
    destruct (N.ltb_spec 65535 g); [lia|]. reflexivity.
  - change (join_groups (g :: g' :: gs)) with (hex16 g ++ colon :: join_groups (g' :: gs)).
    destruct (join_head (g' :: gs) [] H3 ltac:(discriminate)) as (d & w & E & D). rewrite app_nil_r in E. rewrite E.
    rewrite v6_one by assumption. rewrite <- E. rewrite IH; [|exact H3|discriminate|cbn in *; lia].
    rewrite <- app_assoc, <- ungroups_app. reflexivity.
Qed.

Lemma v6_mid : forall gs k out t, Forall (fun g => g < 65536)%N gs -> gs <> [] -> length gs <= k ->
  v6_loop k out None (join_groups gs ++ colon :: colon :: t) =
  match t with
  | [] => Some (out ++ ungroups gs, Some (length (out ++ ungroups gs)), [])
  | _ => v6_loop (k - length gs) (out ++ ungroups gs) (Some (length (out ++ ungroups gs))) t
  end.
Proof.
  induction gs as [|g gs IH]; intros k out t H N L; [congruence|]. inversion H; subst. destruct k as [|k]; [cbn in L; lia|].
  destruct gs as [|g' gs].
  - cbn [join_groups v6_loop]. destruct (xtoi_hex16 g (colon :: colon :: t) H2 eq_refl) as (c & E). rewrite E.
    destruct (N.ltb_spec 65535 g); [lia|]. change (byte_eqb colon dot) with false. change (byte_eqb colon colon) with true. cbn iota.
    replace (S k - length [g]) with k by (cbn; lia). reflexivity.
  - change (join_groups (g :: g' :: gs)) with (hex16 g ++ colon :: join_groups (g' :: gs)). rewrite <- app_assoc. cbn [Datatypes.app].
    destruct (join_head (g' :: gs) (colon :: colon :: t) H3 ltac:(discriminate)) as (d & w & E & D). rewrite E.
    rewrite v6_one by assumption. rewrite <- E. rewrite IH; [|exact H3|discriminate|cbn in *; lia].
    rewrite <- app_assoc, <- ungroups_app. reflexivity.
Qed.

(** ** The run of zero groups *)

Lemma zrun_spec l : zrun l <= length l /\ firstn (zrun l) l = repeat 0%N (zrun l).
Proof.
  induction l as [|g l IH]; cbn [zrun]; [auto|]. destruct (N.eqb_spec g 0); [|cbn; split; [lia | reflexivity]].
  subst. cbn. split; [lia|]. f_equal. apply IH.
Qed.

Definition run_at (gs : list N) (b : nat * nat) : Prop := fst b + snd b <= length gs /\ firstn (snd b) (skipn (fst b) gs) = repeat 0%N (snd b).

Lemma longest_run_spec gs : forall l i best, skipn i gs = l -> i <= length gs -> run_at gs best -> run_at gs (longest_run i l best).
Proof.
  induction l as [|g l IH]; intros i best E L B; cbn [longest_run]; [exact B|].
  assert (E' : skipn (S i) gs = l).
  { replace (S i) with (1 + i) by lia. rewrite <- (skipn_skipn 1 i). rewrite E. reflexivity. }
  assert (L' : S i <= length gs) by (pose proof (f_equal (@length N) E) as X; rewrite skipn_length in X; cbn in X; lia).
  destruct (Nat.ltb _ _); [|apply IH; assumption].
  apply IH; [exact E' | exact L' |]. destruct (zrun_spec (g :: l)) as [Z1 Z2]. split; cbn [fst snd].
  - pose proof (f_equal (@length N) E) as X. rewrite skipn_length in X. lia.
  - rewrite E. exact Z2.
Qed.

(** ** net.ParseIP of net.IP.String *)

Lemma first_sep_itoa d s : first_sep (uint_bytes d ++ s) = first_sep s.
Proof. induction d; cbn [uint_bytes Datatypes.app first_sep]; auto; change (byte_eqb (n2b ?x) dot || byte_eqb (n2b ?x) colon) with false; exact IHd. Qed.

Lemma first_sep_hex16 g s : (g < 65536)%N -> first_sep (hex16 g ++ s) = first_sep s.
Proof.
  intros H. assert (A : forall k, k < 16 -> byte_eqb (hex_digit (N.of_nat k)) dot || byte_eqb (hex_digit (N.of_nat k)) colon = false).
  { intros k Hk. do 16 (destruct k as [|k]; [reflexivity|]). lia. }
  assert (B : forall n, (n < 16)%N -> byte_eqb (hex_digit n) dot || byte_eqb (hex_digit n) colon = false).
  { intros n Hn. specialize (A (N.to_nat n) ltac:(lia)). rewrite N2Nat.id in A. exact A. }
  assert (M : forall x, (x mod 16 < 16)%N) by (intros; apply N.mod_lt; lia).
  unfold hex16. destruct (N.leb_spec 4096 g); [|destruct (N.leb_spec 256 g); [|destruct (N.leb_spec 16 g)]]; cbn [Datatypes.app first_sep];
    rewrite !B by (first [apply M | assumption | apply N.div_lt_upper_bound; lia]); reflexivity.
Qed.

Lemma first_sep_join gs t : Forall (fun g => g < 65536)%N gs -> 2 <= length gs -> first_sep (join_groups gs ++ t) = Some colon.
Proof.
  intros H L. destruct gs as [|g [|g' gs]]; cbn in L; try lia. inversion H; subst.
  change (join_groups (g :: g' :: gs)) with (hex16 g ++ colon :: join_groups (g' :: gs)). rewrite <- app_assoc.
  rewrite first_sep_hex16 by assumption. reflexivity.
Qed.

Lemma first_sep_short gs t : Forall (fun g => g < 65536)%N gs -> first_sep (join_groups gs ++ colon :: t) = Some colon.
Proof.
  intros H. destruct gs as [|g [|g' gs]]; [reflexivity| |apply first_sep_join; [exact H | cbn; lia]].
  inversion H; subst. cbn [join_groups]. rewrite first_sep_hex16 by assumption. reflexivity.
Qed.

Lemma parse_v6_string i : length i = 16 -> parse_ip (v6_string i) = Some i.
Proof.
  intros H. pose proof (groups_bound (length i) i ltac:(lia)) as G. pose proof (ungroups_groups 8 i H) as U.
  pose proof (groups_length 8 i H) as GL. unfold v6_string. set (gs := groups i) in *.
  pose proof (longest_run_spec gs gs 0 (0, 0) eq_refl ltac:(lia) ltac:(split; [cbn; lia | reflexivity])) as R.
  destruct (longest_run 0 gs (0, 0)) as [e n] eqn:E. destruct R as [R1 R2]. cbn [fst snd] in R1, R2.
  assert (S3 : gs = firstn e gs ++ repeat 0%N n ++ skipn (e + n) gs).
  { rewrite <- R2. rewrite (Nat.add_comm e n), <- skipn_skipn, firstn_skipn, firstn_skipn. reflexivity. }
  assert (Ga : Forall (fun g => g < 65536)%N (firstn e gs)) by (apply Forall_firstn; exact G).
  assert (Gb : Forall (fun g => g < 65536)%N (skipn (e + n) gs)) by (apply Forall_skipn; exact G).
  assert (La : length (firstn e gs) = e) by (rewrite firstn_length; lia).
  assert (Lb : length (skipn (e + n) gs) = 8 - (e + n)) by (rewrite skipn_length; lia).
  assert (U3 : i = ungroups (firstn e gs) ++ zeros (2 * n) ++ ungroups (skipn (e + n) gs)).
  { rewrite <- U at 1. rewrite S3 at 1. rewrite !ungroups_app, ungroups_zeros. reflexivity. }
  destruct (Nat.leb_spec 2 n) as [N2|N2].
  - unfold parse_ip. rewrite first_sep_short by exact Ga. change (byte_eqb colon dot) with false. cbn iota.
    set (a := firstn e gs) in *. set (b := skipn (e + n) gs) in *. clearbody a b. clear S3 R2 E. clearbody gs.
    assert (F : forall ua ub, ua = ungroups a -> ub = ungroups b ->
              v6_finish (Some (ua ++ ub, Some (length ua), [])) = Some i).
    { intros ua ub -> ->. cbn [v6_finish]. rewrite app_length, !ungroups_length, La, Lb.
      destruct (Nat.ltb_spec (2 * e + 2 * (8 - (e + n))) 16); [|lia].
      replace (firstn (2 * e) (ungroups a ++ ungroups b)) with (ungroups a) by (rewrite firstn_app_exact; [reflexivity | rewrite ungroups_length; lia]).
      replace (skipn (2 * e) (ungroups a ++ ungroups b)) with (ungroups b).
      2:{ rewrite skipn_app, skipn_all2 by (rewrite ungroups_length; lia). rewrite ungroups_length, La, Nat.sub_diag. reflexivity. }
      rewrite U3. replace (16 - (2 * e + 2 * (8 - (e + n)))) with (2 * n) by lia. reflexivity. }
    destruct (Nat.eq_dec e 0) as [E0|E0].
    + destruct a as [|x a]; [|cbn in La; lia]. cbn [join_groups Datatypes.app parse_ipv6]. change (byte_eqb colon colon && byte_eqb colon colon) with true. cbn iota.
      destruct b as [|y b].
      * cbn [join_groups]. cbn [length] in Lb. rewrite U3. cbn [ungroups Datatypes.app]. rewrite app_nil_r. replace (2 * n) with 16 by lia. reflexivity.
      * pose proof (join_head (y :: b) [] Gb ltac:(discriminate)) as (c & w & J & _). rewrite app_nil_r in J. rewrite J, <- J.
        rewrite v6_end; [apply (F [] _ eq_refl eq_refl) | exact Gb | discriminate | rewrite Lb; lia].
    + assert (An : a <> []) by (intros ->; cbn in La; lia).
      assert (K : parse_ipv6 (join_groups a ++ colon :: colon :: join_groups b) = v6_finish (v6_loop 8 [] None (join_groups a ++ colon :: colon :: join_groups b))).
      { destruct (join_head a (colon :: colon :: join_groups b) Ga An) as (c & w & J & C). rewrite J. unfold parse_ipv6.
        destruct w; [reflexivity|]. rewrite C. reflexivity. }
      rewrite K, v6_mid by (first [exact Ga | exact An | lia]). cbn [Datatypes.app].
      destruct b as [|y b].
      * cbn [join_groups]. specialize (F _ [] eq_refl eq_refl). rewrite app_nil_r in F. exact F.
      * pose proof (join_head (y :: b) [] Gb ltac:(discriminate)) as (c & w & J & _). rewrite app_nil_r in J. rewrite J, <- J.
        rewrite v6_end; [apply (F _ _ eq_refl eq_refl) | exact Gb | discriminate | rewrite Lb, La; lia].
  - clear S3 R2 E U3. clearbody gs. unfold parse_ip.
    pose proof (first_sep_join gs [] G ltac:(lia)) as Fs. rewrite app_nil_r in Fs. rewrite Fs. change (byte_eqb colon dot) with false. cbn iota.
    assert (Gn : gs <> []) by (intros ->; cbn in GL; lia).
    assert (K : parse_ipv6 (join_groups gs) = v6_finish (v6_loop 8 [] None (join_groups gs))).
    { destruct (join_head gs [] G Gn) as (c & w & J & C). rewrite app_nil_r in J. rewrite J. unfold parse_ipv6.
      destruct w; [reflexivity|]. rewrite C. reflexivity. }
    rewrite K, v6_end by (first [exact G | exact Gn | lia]). cbn [Datatypes.app v6_finish]. rewrite ungroups_length, GL. cbn. rewrite U. reflexivity.
Qed.

Lemma to4_length i q : to4 i = Some q -> length q = 4 /\ to16 i = v4_in_v6_prefix ++ q.
Proof.
  unfold to4, to16. destruct (Nat.eqb_spec (length i) 4) as [E|E].
  - intros H. injection H as <-. auto.
  - destruct (Nat.eqb_spec (length i) 16) as [E16|]; [|discriminate]. destruct (bytes_eqb _ _) eqn:B; [|discriminate].
    cbn [andb]. intros H. assert (q = skipn 12 i) as -> by congruence. apply bytes_eqb_eq in B.
    rewrite skipn_length, E16. split; [reflexivity|]. rewrite <- B. symmetry. apply firstn_skipn.
Qed.

Theorem parse_ip_string i : length i = 4 \/ length i = 16 -> parse_ip (ip_string i) = Some (to16 i).
Proof.
  intros H. unfold ip_string. destruct i as [|x i]; [destruct H; discriminate|]. set (j := x :: i) in *.
  destruct (to4 j) as [q|] eqn:T.
  - apply to4_length in T as [L ->]. destruct q as [|a [|b [|c [|d [|? ?]]]]]; try discriminate L.
    rewrite <- parse_quad. unfold parse_ip. unfold quad_string at 1. cbn [map]. unfold itoa at 1. rewrite first_sep_itoa. reflexivity.
  - destruct H as [H|H].
    + unfold to4 in T. rewrite H in T. discriminate.
    + rewrite H. cbn [Nat.eqb]. rewrite parse_v6_string by exact H. unfold to16. rewrite H. reflexivity.
Qed.
