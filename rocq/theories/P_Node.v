(** * Proofs about M_Node. *)
From Verif Require Import Base Spec M_Addr M_ID M_ParseIP M_Node P_Wire.
From Coq Require Import Strings.Byte Init.Decimal Numbers.DecimalN.
From Coq Require Strings.String.
Import (notations) Coq.Strings.String.
Local Open Scope nat_scope.

(** ** Options *)

Lemma fold_field {A} (g : node -> A) (f : node_option -> option A) :
  (forall n o, g (apply_option n o) = or_default (g n) (f o)) ->
  forall os n, g (fold_left apply_option os n) = or_default (g n) (last_some f os).
Proof.
  intros H os. induction os as [|o os IH]; intros n; [reflexivity|].
  cbn [fold_left last_some]. rewrite IH, H. destruct (last_some f os); reflexivity.
Qed.

Lemma last_some_map {A B C} (f : A -> option B) (g : A -> option C) (h : B -> C) l :
  (forall x, g x = option_map h (f x)) -> last_some g l = option_map h (last_some f l).
Proof. intros H. induction l as [|x l IH]; [reflexivity|]. cbn. rewrite IH, H. destruct (last_some f l); reflexivity. Qed.

Lemma fold_inv (P : node -> Prop) os : (forall n o, P n -> P (apply_option n o)) -> forall n, P n -> P (fold_left apply_option os n).
Proof. intros H. induction os as [|o os IH]; intros n Hn; [exact Hn|]. apply IH, H, Hn. Qed.

(** Two options that set a common field. *)
Definition fields (o : node_option) : list nat :=
  match o with
  | WithMaxDialAttempts _ => [0] | WithMaxInbound _ => [1] | WithMaxOutbound _ => [2] | WithMaxRecv _ => [3]
  | WithNumWorkers _ => [4] | WithIdleTimeout _ => [5] | WithLogger _ => [6] | WithID _ => [7; 11]
  | WithPrivateKey _ => [8] | WithBindHost _ => [9] | WithBindPort _ => [10] | WithAddress _ => [11]
  end.

Lemma apply_commute n o1 o2 : (forall x, In x (fields o1) -> ~ In x (fields o2)) ->
  apply_option (apply_option n o1) o2 = apply_option (apply_option n o2) o1.
Proof.
  intros H. destruct n, o1, o2; cbn [fields] in H; try reflexivity;
    try (exfalso; apply (H 0); cbn; tauto); try (exfalso; apply (H 1); cbn; tauto);
    try (exfalso; apply (H 2); cbn; tauto); try (exfalso; apply (H 3); cbn; tauto);
    try (exfalso; apply (H 4); cbn; tauto); try (exfalso; apply (H 5); cbn; tauto);
    try (exfalso; apply (H 6); cbn; tauto); try (exfalso; apply (H 7); cbn; tauto);
    try (exfalso; apply (H 8); cbn; tauto); try (exfalso; apply (H 9); cbn; tauto);
    try (exfalso; apply (H 10); cbn; tauto); try (exfalso; apply (H 11); cbn; tauto).
Qed.

(** ** Decimal text *)

Lemma parse_digits_pos d : forall p, parse_digits (Npos p) (uint_bytes d) = Some (Npos (Pos.of_uint_acc d p)).
Proof.
  induction d; intros p; cbn [uint_bytes parse_digits Pos.of_uint_acc]; try reflexivity;
    rewrite b2n_n2b; cbn [N.modulo N.leb andb]; vm_compute (_ mod 256)%N; cbn [N.leb N.compare Pos.compare Pos.compare_cont andb];
    match goal with |- parse_digits ?a _ = _ => match goal with |- _ = Some (N.pos (Pos.of_uint_acc _ ?q)) => replace a with (Npos q) by lia end end;
    apply IHd.
Qed.

Lemma parse_digits_zero d : parse_digits 0 (uint_bytes d) = Some (N.of_uint d).
Proof.
  induction d; cbn [uint_bytes parse_digits]; try reflexivity;
    rewrite b2n_n2b; vm_compute (_ mod 256)%N; cbn [N.leb N.compare Pos.compare Pos.compare_cont andb];
    match goal with |- parse_digits ?a _ = _ => let v := eval vm_compute in a in change a with v end;
    first [apply IHd | apply parse_digits_pos].
Qed.

Lemma parse_uint16_itoa n : (n < 65536)%N -> parse_uint16 (itoa n) = Some n.
Proof.
  intros H. unfold parse_uint16. destruct (itoa n) as [|c s] eqn:E; [exfalso; exact (itoa_nonnil n E)|].
  rewrite <- E. unfold itoa. rewrite parse_digits_zero, DecimalN.Unsigned.of_to.
  destruct (N.ltb_spec n 65536); [reflexivity | lia].
Qed.

Lemma parse_uint16_bound s p : parse_uint16 s = Some p -> (p < 65536)%N.
Proof.
  unfold parse_uint16. destruct s; [discriminate|]. destruct (parse_digits 0 _) as [v|]; [|discriminate].
  destruct (N.ltb_spec v 65536); [|discriminate]. intros E. injection E as <-. assumption.
Qed.

Lemma parse_uint16_itoa_big n : (65536 <= n)%N -> parse_uint16 (itoa n) = None.
Proof.
  intros H. unfold parse_uint16. destruct (itoa n) as [|c s] eqn:E; [reflexivity|].
  rewrite <- E. unfold itoa. rewrite parse_digits_zero, DecimalN.Unsigned.of_to.
  destruct (N.ltb_spec n 65536); [lia | reflexivity].
Qed.

(** ** Host and port text *)

(** No byte of [s] is a square bracket / a colon. *)
Definition plain (s : bytes) : bool := forallb (fun c => negb (byte_eqb c lbracket || byte_eqb c rbracket)) s.
Definition no_colon (s : bytes) : bool := forallb (fun c => negb (byte_eqb c colon)) s.

Lemma plain_app a b : plain (a ++ b) = plain a && plain b.
Proof. apply forallb_app. Qed.

Lemma uint_bytes_plain d : plain (uint_bytes d) = true /\ no_colon (uint_bytes d) = true.
Proof. unfold plain, no_colon. induction d; cbn [uint_bytes forallb]; auto; destruct IHd as [-> ->]; auto. Qed.

Lemma itoa_plain n : plain (itoa n) = true /\ no_colon (itoa n) = true.
Proof. apply uint_bytes_plain. Qed.

Lemma hex_digit_plain n : (n < 16)%N -> plain [hex_digit n] = true.
Proof.
  intros H. assert (A : forall k, k < 16 -> plain [hex_digit (N.of_nat k)] = true).
  { intros k Hk. do 16 (destruct k as [|k]; [reflexivity|]). lia. }
  specialize (A (N.to_nat n) ltac:(lia)). rewrite N2Nat.id in A. exact A.
Qed.

Lemma plain_cons c s : plain (c :: s) = plain [c] && plain s.
Proof. change (c :: s) with ([c] ++ s). apply plain_app. Qed.

Lemma hex16_plain g : (g < 65536)%N -> plain (hex16 g) = true.
Proof.
  intros H. unfold hex16.
  assert (M : forall x, plain [hex_digit (x mod 16)] = true).
  { intros x. apply hex_digit_plain. apply N.mod_lt. lia. }
  destruct (N.leb_spec 4096 g); [|destruct (N.leb_spec 256 g); [|destruct (N.leb_spec 16 g)]].
  - rewrite !(plain_cons _ (_ :: _)), !M, hex_digit_plain; [reflexivity|]. apply N.div_lt_upper_bound; lia.
  - rewrite !(plain_cons _ (_ :: _)), !M, hex_digit_plain; [reflexivity|]. apply N.div_lt_upper_bound; lia.
  - rewrite !(plain_cons _ (_ :: _)), !M, hex_digit_plain; [reflexivity|]. apply N.div_lt_upper_bound; lia.
  - apply hex_digit_plain. assumption.
Qed.

Lemma groups_bound : forall n l, length l <= n -> Forall (fun g => g < 65536)%N (groups l).
Proof.
  induction n as [|n IH]; intros [|a [|b l]] H; cbn in *; try constructor; try lia.
  - pose proof (b2n_bound a). pose proof (b2n_bound b). lia.
  - apply IH. lia.
Qed.

Lemma join_groups_plain gs : Forall (fun g => g < 65536)%N gs -> plain (join_groups gs) = true.
Proof.
  induction 1 as [|g gs Hg H IH]; [reflexivity|]. destruct gs as [|g' gs]; [apply hex16_plain; exact Hg|].
  change (join_groups (g :: g' :: gs)) with (hex16 g ++ colon :: join_groups (g' :: gs)).
  rewrite plain_app, hex16_plain by exact Hg. rewrite plain_cons. exact IH.
Qed.

Lemma Forall_firstn {A} (P : A -> Prop) n l : Forall P l -> Forall P (firstn n l).
Proof. intros H. revert n. induction H; intros [|n]; cbn; constructor; auto. Qed.
Lemma Forall_skipn {A} (P : A -> Prop) n l : Forall P l -> Forall P (skipn n l).
Proof. intros H. revert n. induction H; intros [|n]; cbn; auto. Qed.

Lemma v6_string_plain i : plain (v6_string i) = true.
Proof.
  unfold v6_string. pose proof (groups_bound (length i) i ltac:(lia)) as G.
  destruct (longest_run _ _ _) as [e n]. destruct (Nat.leb 2 n).
  - rewrite plain_app, join_groups_plain by (apply Forall_firstn; exact G).
    rewrite plain_cons, plain_cons. cbn [plain forallb]. apply join_groups_plain. apply Forall_skipn. exact G.
  - apply join_groups_plain. exact G.
Qed.

Lemma hex_encode_plain l : plain (hex_encode l) = true.
Proof.
  induction l as [|b l IH]; [reflexivity|]. cbn [hex_encode]. pose proof (b2n_bound b).
  rewrite plain_cons, (plain_cons (hex_digit (b2n b mod 16))), IH, !hex_digit_plain; [reflexivity| |].
  - apply N.mod_lt. lia.
  - apply N.div_lt_upper_bound; lia.
Qed.

Lemma quad_string_plain q : plain (quad_string q) = true.
Proof.
  unfold quad_string. destruct q as [|a [|b [|c [|d [|e q]]]]]; try reflexivity. cbn [map].
  assert (D : forall s, plain (dot :: s) = plain s) by reflexivity.
  repeat rewrite ?plain_app, ?D. rewrite !(proj1 (itoa_plain _)). reflexivity.
Qed.

Lemma ip_string_plain i : plain (ip_string i) = true.
Proof.
  unfold ip_string. destruct i as [|b i]; [reflexivity|].
  destruct (to4 (b :: i)) as [q|]; [apply quad_string_plain|].
  destruct (Nat.eqb _ 16); [apply v6_string_plain|]. rewrite plain_cons, hex_encode_plain. reflexivity.
Qed.

Lemma index_none c s : forallb (fun x => negb (byte_eqb x c)) s = true -> index_byte c s = None /\ last_byte c s = None.
Proof.
  induction s as [|x s IH]; cbn; intros H; [auto|]. apply andb_true_iff in H as [H1 H2].
  apply negb_true_iff in H1. rewrite H1. destruct (IH H2) as [-> ->]. auto.
Qed.

Lemma contains_none c s : forallb (fun x => negb (byte_eqb x c)) s = true -> contains c s = false.
Proof. intros H. unfold contains. rewrite (proj1 (index_none c s H)). reflexivity. Qed.

Lemma index_mid c a b : forallb (fun x => negb (byte_eqb x c)) a = true -> index_byte c (a ++ c :: b) = Some (length a).
Proof.
  induction a as [|x a IH]; cbn; intros H; [rewrite byte_eqb_refl; reflexivity|].
  apply andb_true_iff in H as [H1 H2]. apply negb_true_iff in H1. rewrite H1, IH by exact H2. reflexivity.
Qed.

Lemma last_mid c a b : forallb (fun x => negb (byte_eqb x c)) b = true -> last_byte c (a ++ c :: b) = Some (length a).
Proof.
  intros H. induction a as [|x a IH]; cbn.
  - rewrite (proj2 (index_none c b H)), byte_eqb_refl. reflexivity.
  - rewrite IH. reflexivity.
Qed.

Lemma plain_brackets s : plain s = true ->
  forallb (fun x => negb (byte_eqb x lbracket)) s = true /\ forallb (fun x => negb (byte_eqb x rbracket)) s = true.
Proof.
  unfold plain. induction s as [|x s IH]; cbn; [auto|]. intros H. apply andb_true_iff in H as [H1 H2].
  apply negb_true_iff in H1. apply orb_false_iff in H1 as [-> ->]. cbn. auto.
Qed.

Lemma split_join h p : plain h = true -> plain p = true -> no_colon p = true ->
  split_host_port (join_host_port h p) = Ok (h, p).
Proof.
  intros Hh Hp Cp. destruct (plain_brackets h Hh) as [Hl Hr]. destruct (plain_brackets p Hp) as [Pl Pr].
  unfold join_host_port. destruct (existsb (fun b => byte_eqb b colon || byte_eqb b percent) h) eqn:E.
  - unfold split_host_port.
    change (lbracket :: h ++ rbracket :: colon :: p) with ((lbracket :: h) ++ rbracket :: colon :: p).
    replace ((lbracket :: h) ++ rbracket :: colon :: p) with (((lbracket :: h) ++ [rbracket]) ++ colon :: p)
      by (rewrite <- app_assoc; reflexivity).
    rewrite last_mid by exact Cp.
    replace (((lbracket :: h) ++ [rbracket]) ++ colon :: p) with ((lbracket :: h) ++ rbracket :: colon :: p)
      by (rewrite <- app_assoc; reflexivity).
    rewrite index_mid by (cbn [forallb]; rewrite Hr; reflexivity).
    cbn [app]. rewrite byte_eqb_refl.
    rewrite app_length. cbn [length]. rewrite Nat.add_1_r, Nat.eqb_refl.
    rewrite contains_none.
    2:{ change (skipn 1 ((lbracket :: h) ++ rbracket :: colon :: p)) with (h ++ rbracket :: colon :: p).
        rewrite forallb_app, Hl. cbn [forallb]. rewrite Pl. reflexivity. }
    rewrite contains_none.
    2:{ change (skipn (S (S (length h))) ((lbracket :: h) ++ rbracket :: colon :: p))
          with (skipn (S (length h)) (h ++ rbracket :: colon :: p)).
        rewrite skipn_app, skipn_all2 by lia. replace (S (length h) - length h) with 1 by lia.
        exact Pr. }
    change (skipn (S (S (S (length h)))) ((lbracket :: h) ++ rbracket :: colon :: p))
      with (skipn (S (S (length h))) (h ++ rbracket :: colon :: p)).
    change (skipn 1 ((lbracket :: h) ++ rbracket :: colon :: p)) with (h ++ rbracket :: colon :: p).
    cbn [orb]. f_equal. f_equal.
    + rewrite firstn_app_exact by lia. reflexivity.
    + rewrite skipn_app, skipn_all2 by lia. replace (S (S (length h)) - length h) with 2 by lia. reflexivity.
  - unfold split_host_port. rewrite last_mid by exact Cp.
    assert (Hc : forallb (fun x => negb (byte_eqb x colon)) h = true).
    { clear - E. induction h as [|x h IH]; [reflexivity|]. cbn in *. apply orb_false_iff in E as [E1 E2].
      apply orb_false_iff in E1 as [-> _]. cbn. auto. }
    destruct (h ++ colon :: p) as [|c s] eqn:Es; [destruct h; discriminate|].
    assert (Hb : byte_eqb c lbracket = false).
    { destruct h as [|x h]; cbn in Es; injection Es as <- _; [reflexivity|].
      cbn in Hl. apply andb_true_iff in Hl as [Hl _]. apply negb_true_iff. exact Hl. }
    rewrite Hb, <- Es. rewrite firstn_app_exact by reflexivity.
    rewrite (contains_none colon h Hc).
    rewrite contains_none.
    2:{ rewrite forallb_app, Hl. cbn [forallb]. rewrite Pl. reflexivity. }
    rewrite contains_none.
    2:{ rewrite forallb_app, Hr. cbn [forallb]. rewrite Pr. reflexivity. }
    cbn [orb]. f_equal. f_equal. rewrite skipn_app, skipn_all2 by lia. replace (S (length h) - length h) with 1 by lia. reflexivity.
Qed.

Lemma split_tcpaddr i port : split_host_port (tcpaddr_string i port) = Ok (match i with [] => [] | _ => ip_string i end, itoa port).
Proof.
  unfold tcpaddr_string. apply split_join; [|apply itoa_plain|apply itoa_plain].
  destruct i; [reflexivity | apply ip_string_plain].
Qed.

(** ** Bind callbacks leave the identity alone *)

Lemma api_steps_frame cs : forall n, let n' := fold_left api_step cs n in
  n_id n' = n_id n /\ n_addr n' = n_addr n /\ n_publicKey n' = n_publicKey n /\ n_host n' = n_host n /\
  n_port n' = n_port n /\ n_listening n' = n_listening n.
Proof.
  induction cs as [|c cs IH]; intros n; cbn [fold_left]; [auto 10|].
  destruct (IH (api_step n c)) as (-> & -> & -> & -> & -> & ->).
  destruct c; cbn; unfold node_bind, node_handle; destruct (n_listening n) eqn:E; cbn; auto 10.
Qed.

Lemma bind_all_frame cb ps : forall n, let n' := fst (bind_all cb ps n) in
  n_id n' = n_id n /\ n_addr n' = n_addr n /\ n_publicKey n' = n_publicKey n /\ n_host n' = n_host n /\
  n_port n' = n_port n /\ n_listening n' = n_listening n.
Proof.
  induction ps as [|p ps IH]; intros n; cbn [bind_all]; [cbn; auto 10|].
  destruct (cb p) as [[cs [e|]]|]; cbn [fst].
  - apply api_steps_frame.
  - destruct (IH (fold_left api_step cs n)) as (-> & -> & -> & -> & -> & ->). apply api_steps_frame.
  - apply IH.
Qed.

(** ** Addresses *)

Lemma to4_to16 i : length i = 4 -> to4 (to16 i) = Some i.
Proof.
  intros H. unfold to16, to4. rewrite H, Nat.eqb_refl, app_length, H. cbn [v4_in_v6_prefix].
  destruct i as [|a [|b [|c [|d [|e i]]]]]; try discriminate. reflexivity.
Qed.

Lemma bytes_eqb_sym a b : bytes_eqb a b = bytes_eqb b a.
Proof.
  destruct (bytes_eqb a b) eqn:E.
  - apply bytes_eqb_eq in E as ->. symmetry. apply bytes_eqb_refl.
  - destruct (bytes_eqb b a) eqn:E'; [|reflexivity]. apply bytes_eqb_eq in E' as ->. rewrite bytes_eqb_refl in E. discriminate.
Qed.

Lemma bytes_eqb_app : forall a c b d, length a = length c -> bytes_eqb (a ++ b) (c ++ d) = bytes_eqb a c && bytes_eqb b d.
Proof.
  induction a as [|x a IH]; intros [|y c] b d H; try discriminate; [reflexivity|].
  cbn. rewrite IH by (cbn in H; lia). apply andb_assoc.
Qed.

Lemma ip_equal_to16 i j : length i = 4 -> length j = 16 -> ip_equal (to16 i) j = ip_equal i j.
Proof.
  intros H J. unfold ip_equal, to16. rewrite H, J, Nat.eqb_refl, app_length, H.
  change (length (repeat Byte.x00 10 ++ [Byte.xff; Byte.xff]) + 4) with 16. cbn [Nat.eqb andb].
  transitivity (bytes_eqb (v4_in_v6_prefix ++ i) (firstn 12 j ++ skipn 12 j)); [rewrite firstn_skipn; reflexivity|].
  rewrite bytes_eqb_app by (rewrite firstn_length, J; reflexivity). rewrite (bytes_eqb_sym v4_in_v6_prefix). reflexivity.
Qed.

Lemma to16_same i : length i = 4 \/ length i = 16 ->
  is_loopback (to16 i) = is_loopback i /\ is_unspecified (to16 i) = is_unspecified i /\ ip_string (to16 i) = ip_string i.
Proof.
  intros [H|H].
  - assert (T4 : to4 i = Some i) by (unfold to4; rewrite H; reflexivity).
    unfold is_loopback, is_unspecified, ip_string. rewrite !ip_equal_to16, to4_to16, T4 by (assumption || reflexivity).
    split; [reflexivity|]. split; [reflexivity|]. destruct i; [discriminate|]. unfold to16. rewrite H. reflexivity.
  - unfold to16. rewrite H. auto.
Qed.

Lemma ip_string_not_nil i : i <> [] -> bytes_eqb (ip_string i) (str "<nil>"%string) = false.
Proof.
  intros H. destruct i as [|x i]; [congruence|]. unfold ip_string.
  destruct (bytes_eqb _ _) eqn:E; [|reflexivity]. apply bytes_eqb_eq in E. exfalso.
  assert (P : forall s, plain s = true -> True) by auto. clear P.
  destruct (to4 (x :: i)) as [q|] eqn:T.
  - assert (Q : length q = 4).
    { unfold to4 in T. destruct (Nat.eqb (length (x :: i)) 4) eqn:E4.
      - injection T as <-. apply Nat.eqb_eq. exact E4.
      - destruct (Nat.eqb (length (x :: i)) 16) eqn:E16; [|discriminate].
        destruct (bytes_eqb (firstn 12 (x :: i)) _) eqn:E12; [|discriminate]. apply Nat.eqb_eq in E16.
        assert (q = skipn 12 (x :: i)) as -> by (cbn [andb] in T; congruence).
        rewrite skipn_length. rewrite E16. reflexivity. }
    assert (Hd : In dot (quad_string q)).
    { destruct q as [|a [|b [|c [|d [|e q]]]]]; try discriminate. unfold quad_string. cbn [map].
      apply in_or_app. right. left. reflexivity. }
    rewrite E in Hd. vm_compute in Hd. intuition discriminate.
  - destruct (Nat.eqb (length (x :: i)) 16) eqn:E16.
    + assert (Hc : In colon (v6_string (x :: i))).
      { unfold v6_string. destruct (longest_run _ _ _) as [e n]. destruct (Nat.leb 2 n).
        - apply in_or_app. right. left. reflexivity.
        - apply Nat.eqb_eq in E16. do 3 (destruct i as [|? i]; [discriminate|]).
          cbn [groups]. apply in_or_app. right. left. reflexivity. }
      rewrite E in Hc. vm_compute in Hc. intuition discriminate.
    + vm_compute in E. discriminate.
Qed.

Lemma normalize_ip_public i : i <> [] -> is_loopback i = false -> is_unspecified i = false -> normalize_ip i = ip_string i.
Proof.
  intros H L U. unfold normalize_ip, resolve_ip. rewrite L, U. cbn [orb]. rewrite ip_string_not_nil by exact H. reflexivity.
Qed.

(** ** Listen *)

Lemma listen_id_addr env n i p : n_addr n <> [] -> e_resolve env (n_addr n) = Ok (i, p) ->
  listen_id env n = match parse_ip (match resolve_ip i with [] => [] | _ => ip_string (resolve_ip i) end) with
                    | None => Err ErrOther
                    | Some h => match parse_uint16 (itoa p) with
                                | None => Err ErrOther
                                | Some p => Ok (set_id (NewID (n_publicKey n) h p) n)
                                end
                    end.
Proof.
  intros Ha Hr. unfold listen_id. destruct (n_addr n) as [|c a] eqn:E; [congruence|].
  unfold resolve_address. rewrite Hr. cbn [bind]. rewrite split_tcpaddr. reflexivity.
Qed.

Lemma listen_id_frame env n n' : listen_id env n = Ok n' ->
  n_publicKey n' = n_publicKey n /\ n_protocols n' = n_protocols n /\ n_handlers n' = n_handlers n /\
  n_listening n' = n_listening n /\ id_key (n_id n') = n_publicKey n.
Proof.
  unfold listen_id. destruct (n_addr n) as [|c a].
  - intros H. assert (n' = _) as -> by (injection H as H; symmetry; exact H). repeat split.
  - destruct (resolve_address _ _) as [r| |]; cbn [bind]; try discriminate.
    destruct (split_host_port r) as [[h p]| |]; cbn [bind]; try discriminate.
    destruct (parse_ip h); [|discriminate]. destruct (parse_uint16 p); [|discriminate].
    intros H. assert (n' = _) as -> by (injection H as H; symmetry; exact H). repeat split.
Qed.

Lemma split_host_port_total s : split_host_port s <> Panic.
Proof.
  unfold split_host_port. destruct (last_byte colon s); [|discriminate]. destruct s; [discriminate|].
  destruct (byte_eqb _ _).
  - destruct (index_byte _ _); [|discriminate]. destruct (Nat.eqb _ _); [|discriminate]. destruct (_ || _); discriminate.
  - destruct (contains _ _); [discriminate|]. destruct (_ || _); discriminate.
Qed.

Lemma listen_id_total env n : (forall a, e_resolve env a <> Panic) -> listen_id env n <> Panic.
Proof.
  intros H. unfold listen_id. destruct (n_addr n) as [|c a]; [discriminate|]. unfold resolve_address.
  specialize (H (c :: a)). destruct (e_resolve env (c :: a)) as [[i p]| |]; cbn [bind]; [|discriminate|congruence].
  pose proof (split_host_port_total (tcpaddr_string (resolve_ip i) p)).
  destruct (split_host_port _) as [[h q]| |]; cbn [bind]; [|discriminate|congruence].
  destruct (parse_ip h); [|discriminate]. destruct (parse_uint16 q); discriminate.
Qed.

Lemma bind_all_ok cb ps : (forall p cs e, In p ps -> cb p = Some (cs, e) -> e = None) -> forall n, snd (bind_all cb ps n) = None.
Proof.
  induction ps as [|p ps IH]; intros H n; [reflexivity|]. cbn [bind_all]. destruct (cb p) as [[cs [e|]]|] eqn:E.
  - exfalso. pose proof (H p cs (Some e) (or_introl eq_refl) E). discriminate.
  - apply IH. intros; eapply H; [right|]; eassumption.
  - apply IH. intros; eapply H; [right|]; eassumption.
Qed.
