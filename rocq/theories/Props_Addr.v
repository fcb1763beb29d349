(** * Addresses as names of endpoints: C95. *)
From Verif Require Import Base Spec M_Addr M_ID M_ParseIP M_Node P_Wire P_Keys P_Node P_ParseIP.
From Coq Require Import Strings.Byte.
From Coq Require Strings.String.
Import (notations) Coq.Strings.String.
Local Open Scope nat_scope.

(** ** C95 *)

(** A host that an address leaves out: none, the own machine, or all interfaces. *)
Definition left_out (h : ip) : bool := match h with [] => true | _ => is_loopback h || is_unspecified h end.

(** A host that is an address: 4 or 16 bytes. *)
Definition valid_ip (h : ip) : Prop := length h = 4 \/ length h = 16.

Lemma ip_equal_refl i : ip_equal i i = true.
Proof. unfold ip_equal. rewrite Nat.eqb_refl. apply bytes_eqb_refl. Qed.

(** net.IP.Equal is equality of the 16-byte forms, for addresses; and equality, for other byte strings. *)
Lemma ip_equal_iff i j : ip_equal i j = true <-> i = j \/ (valid_ip i /\ valid_ip j /\ to16 i = to16 j).
Proof.
  unfold ip_equal, valid_ip, to16. split.
  - destruct (Nat.eqb_spec (length i) (length j)) as [E|E]; [intros H; left; apply bytes_eqb_eq; exact H|].
    destruct (Nat.eqb_spec (length i) 4) as [I4|I4], (Nat.eqb_spec (length j) 16) as [J16|J16]; cbn [andb].
    + intros H. apply andb_true_iff in H as [H1 H2]. apply bytes_eqb_eq in H1, H2. right. rewrite J16. cbn [Nat.eqb].
      split; [auto|]. split; [auto|]. rewrite H2. change (repeat x00 10 ++ [xff; xff])%list with v4_in_v6_prefix. rewrite <- H1. apply firstn_skipn.
    + destruct (Nat.eqb_spec (length i) 16); [lia|]. discriminate.
    + destruct (Nat.eqb_spec (length j) 4); [lia|]. rewrite andb_false_r. discriminate.
    + destruct (Nat.eqb_spec (length i) 16) as [I16|], (Nat.eqb_spec (length j) 4) as [J4|]; cbn [andb]; try discriminate.
      intros H. apply andb_true_iff in H as [H1 H2]. apply bytes_eqb_eq in H1, H2. right.
      split; [auto|]. split; [auto|]. rewrite <- H2. change (repeat x00 10 ++ [xff; xff])%list with v4_in_v6_prefix. rewrite <- H1. symmetry. apply firstn_skipn.
  - intros [-> | (I & J & E)]; [rewrite Nat.eqb_refl; apply bytes_eqb_refl|].
    change (repeat x00 10 ++ [xff; xff])%list with v4_in_v6_prefix in E.
    assert (F : forall q, firstn 12 (v4_in_v6_prefix ++ q) = v4_in_v6_prefix /\ skipn 12 (v4_in_v6_prefix ++ q) = q) by (intros; split; reflexivity).
    destruct I as [I|I], J as [J|J]; rewrite I, J in E |- *; cbn [Nat.eqb andb] in E |- *.
    + apply app_inv_head in E. subst. apply bytes_eqb_refl.
    + subst j. destruct (F i) as [-> ->]. rewrite !bytes_eqb_refl. reflexivity.
    + subst i. destruct (F j) as [-> ->]. rewrite !bytes_eqb_refl. reflexivity.
    + subst. apply bytes_eqb_refl.
Qed.

Lemma first_sep_hex l : first_sep (hex_encode l) = None.
Proof.
  assert (A : forall k, k < 16 -> byte_eqb (hex_digit (N.of_nat k)) dot || byte_eqb (hex_digit (N.of_nat k)) colon = false).
  { intros k Hk. do 16 (destruct k as [|k]; [reflexivity|]). lia. }
  assert (B : forall n, (n < 16)%N -> byte_eqb (hex_digit n) dot || byte_eqb (hex_digit n) colon = false).
  { intros n Hn. specialize (A (N.to_nat n) ltac:(lia)). rewrite N2Nat.id in A. exact A. }
  induction l as [|b l IH]; [reflexivity|]. cbn [hex_encode first_sep]. pose proof (b2n_bound b).
  rewrite !B; [exact IH | apply N.mod_lt; lia | apply N.div_lt_upper_bound; lia].
Qed.

Lemma ip_string_odd i : i <> [] -> ~ valid_ip i -> ip_string i = n2b 63 :: hex_encode i.
Proof.
  intros H V. unfold ip_string, valid_ip in *. destruct i as [|x i]; [congruence|].
  assert (to4 (x :: i) = None) as ->.
  { unfold to4. destruct (Nat.eqb_spec (length (x :: i)) 4); [tauto|]. destruct (Nat.eqb_spec (length (x :: i)) 16); [tauto | reflexivity]. }
  destruct (Nat.eqb_spec (length (x :: i)) 16); [tauto | reflexivity].
Qed.

Lemma valid_dec i : {valid_ip i} + {~ valid_ip i}.
Proof. unfold valid_ip. destruct (Nat.eq_dec (length i) 4), (Nat.eq_dec (length i) 16); auto. right. tauto. Qed.

Lemma ip_string_iff i j : i <> [] -> j <> [] -> (ip_string i = ip_string j <-> ip_equal i j = true).
Proof.
  intros Hi Hj. rewrite ip_equal_iff. split.
  - intros E. destruct (valid_dec i) as [Vi|Vi], (valid_dec j) as [Vj|Vj].
    + right. split; [exact Vi|]. split; [exact Vj|]. pose proof (parse_ip_string i Vi) as P. rewrite E, (parse_ip_string j Vj) in P. congruence.
    + exfalso. pose proof (parse_ip_string i Vi) as P. rewrite E, (ip_string_odd j Hj Vj) in P. unfold parse_ip in P.
      cbn [first_sep] in P. change (byte_eqb (n2b 63) dot || byte_eqb (n2b 63) colon) with false in P. cbn iota in P. rewrite first_sep_hex in P. discriminate.
    + exfalso. pose proof (parse_ip_string j Vj) as P. rewrite <- E, (ip_string_odd i Hi Vi) in P. unfold parse_ip in P.
      cbn [first_sep] in P. change (byte_eqb (n2b 63) dot || byte_eqb (n2b 63) colon) with false in P. cbn iota in P. rewrite first_sep_hex in P. discriminate.
    + left. rewrite !ip_string_odd in E by assumption. apply hex_encode_inj. congruence.
  - intros [-> | (Vi & Vj & E)]; [reflexivity|].
    destruct (to16_same i Vi) as (_ & _ & <-). rewrite E. apply to16_same. exact Vj.
Qed.

Lemma ip_string_nonempty i : i <> [] -> ip_string i <> [].
Proof.
  intros H E. destruct (valid_dec i) as [V|V].
  - pose proof (parse_ip_string i V) as P. rewrite E in P. discriminate.
  - rewrite ip_string_odd in E by assumption. discriminate.
Qed.

Lemma normalize_cases h : normalize_ip h = if left_out h then [] else ip_string h.
Proof.
  unfold left_out. destruct h as [|x h]; [reflexivity|]. set (i := x :: h) in *.
  destruct (is_loopback i || is_unspecified i) eqn:E.
  - unfold normalize_ip, resolve_ip. rewrite E. reflexivity.
  - apply orb_false_iff in E as [E1 E2]. apply normalize_ip_public; [discriminate | exact E1 | exact E2].
Qed.

Lemma left_out_equal h h' : ip_equal h h' = true -> left_out h = left_out h'.
Proof.
  intros E. apply ip_equal_iff in E as [-> | (V & V' & E)]; [reflexivity|].
  destruct (to16_same h V) as (L & U & _), (to16_same h' V') as (L' & U' & _).
  assert (A : forall i, valid_ip i -> left_out i = is_loopback i || is_unspecified i) by (intros [|? ?] [W|W]; [discriminate W | discriminate W | reflexivity | reflexivity]).
  rewrite (A h V), (A h' V'), <- L, <- U, <- L', <- U', E. reflexivity.
Qed.

Lemma itoa_inj a b : itoa a = itoa b -> a = b.
Proof.
  intros E. pose proof (parse_digits_zero (N.to_uint a)) as A. fold (itoa a) in A. rewrite E in A.
  unfold itoa in A. rewrite parse_digits_zero, !DecimalN.Unsigned.of_to in A. congruence.
Qed.

Lemma normalize_plain h : plain (normalize_ip h) = true.
Proof. rewrite normalize_cases. destruct (left_out h); [reflexivity | apply ip_string_plain]. Qed.

(** Two identities have the same address exactly if they have the same port and either the same host, whether it is held in 4 bytes or in 16,
    or both a host that an address leaves out. *)
Theorem C95_same_address : forall k k' h h' p p',
  id_addr (NewID k h p) = id_addr (NewID k' h' p') <->
  p = p' /\ (ip_equal h h' = true \/ (left_out h = true /\ left_out h' = true)).
Proof.
  intros k k' h h' p p'. cbn [NewID id_addr].
  pose proof (split_join (normalize_ip h) (itoa p) (normalize_plain h) (proj1 (itoa_plain p)) (proj2 (itoa_plain p))) as S1.
  pose proof (split_join (normalize_ip h') (itoa p') (normalize_plain h') (proj1 (itoa_plain p')) (proj2 (itoa_plain p'))) as S2.
  split.
  - intros E. rewrite E, S2 in S1. assert (Eh : normalize_ip h = normalize_ip h') by congruence. assert (Ep : itoa p = itoa p') by congruence.
    split; [apply itoa_inj; exact Ep|]. rewrite !normalize_cases in Eh.
    assert (Nn : forall i, left_out i = false -> i <> []) by (intros i L ->; discriminate).
    destruct (left_out h) eqn:L, (left_out h') eqn:L'; [right; auto|exfalso|exfalso|left].
    + symmetry in Eh. exact (ip_string_nonempty h' (Nn _ L') Eh).
    + exact (ip_string_nonempty h (Nn _ L) Eh).
    + apply ip_string_iff; auto.
  - intros [-> H]. f_equal. rewrite !normalize_cases. destruct H as [H|[-> ->]]; [|reflexivity].
    rewrite (left_out_equal h h' H). destruct (left_out h') eqn:L'; [reflexivity|].
    apply ip_string_iff; [..|exact H].
    + pose proof (left_out_equal h h' H) as X. intros ->. rewrite L' in X. discriminate.
    + intros ->. discriminate.
Qed.

(** Read back with net.SplitHostPort, net.ParseIP and strconv.ParseUint, as Listen does (node.go:146-160), the address of an identity gives its host and port;
    but for a host that it leaves out. *)
Theorem C95_read_back : forall k h p, valid_ip h -> (p < 65536)%N -> left_out h = false ->
  exists hs ps, split_host_port (id_addr (NewID k h p)) = Ok (hs, ps) /\ parse_ip hs = Some (to16 h) /\ parse_uint16 ps = Some p.
Proof.
  intros k h p V P L. exists (ip_string h), (itoa p). cbn [NewID id_addr]. rewrite normalize_cases, L.
  split; [apply split_join; [apply ip_string_plain | apply itoa_plain | apply itoa_plain]|].
  split; [apply parse_ip_string; exact V | apply parse_uint16_itoa; exact P].
Qed.

Theorem C95_no_host : forall k h p, left_out h = true ->
  split_host_port (id_addr (NewID k h p)) = Ok ([], itoa p) /\ parse_ip [] = None.
Proof.
  intros k h p L. cbn [NewID id_addr]. rewrite normalize_cases, L. split; [|reflexivity].
  apply split_join; [reflexivity | apply itoa_plain | apply itoa_plain].
Qed.

(** 2001:db8:0:1::1, with a run of zeros that is not abbreviated before the one that is. *)
Definition ex_v6 : ip := map n2b [32; 1; 13; 184; 0; 0; 0; 1; 0; 0; 0; 0; 0; 0; 0; 1]%N.
Definition ex_v4 : ip := map n2b [10; 1; 2; 3]%N.
Example C95_nonvacuous :
  id_addr (NewID ZeroPublicKey ex_v6 9000) = str "[2001:db8:0:1::1]:9000"%string /\ valid_ip ex_v6 /\ left_out ex_v6 = false /\
  id_addr (NewID ZeroPublicKey ex_v4 80) = id_addr (NewID ZeroPublicKey (to16 ex_v4) 80) /\ ip_equal ex_v4 (to16 ex_v4) = true /\
  id_addr (NewID ZeroPublicKey ipv6_loopback 80) = id_addr (NewID ZeroPublicKey ipv4_zero 80) /\ left_out ipv6_loopback = true /\ left_out ipv4_zero = true.
Proof. repeat (split; [vm_compute; auto|]). vm_compute. reflexivity. Qed.

Print Assumptions C95_same_address.
Print Assumptions C95_read_back.
Print Assumptions C95_no_host.
