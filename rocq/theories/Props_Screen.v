(** * C120: what the chat program prints about peers. *)
From Verif Require Import Base Spec M_Addr M_ID M_Msg M_Codec M_Table M_Kad M_Chat M_Screen P_Codec P_Wire P_Node P_Keys P_Text P_Lines Props_Codec Props_Chat.
From Verif Require Props_Addr.
From Coq Require Import Strings.Byte.
From Coq Require Strings.String.
Import (notations) Coq.Strings.String.
Local Open Scope nat_scope.

(** ** The claims *)
(** IDs as the library makes them: NewID, from a key of 32 bytes. *)
Definition made (id : ID) : Prop := exists k h p, key32 k /\ id = NewID k h p.
(** What a reader is told of a peer: the address and the first eight hexadecimal digits, that is four bytes, of the key. *)
Definition told (id : ID) : bytes * bytes := (id_addr id, firstn 4 (id_key id)).

(** The list of /peers, and that of /discover, tells which peers it is of. *)
Definition C120_statement : Prop := forall a b, Forall made a -> Forall made b -> peers_line a = peers_line b -> a = b.

(** ** Bytes of addresses *)
Definition ab (b : byte) : Prop := b2n b <> 40%N /\ ~ (65 <= b2n b <= 90)%N.
Local Ltac abl := unfold ab; rewrite b2n_small; lia.
Lemma ab_hex_digit n : (n < 16)%N -> ab (hex_digit n).
Proof. intros H. unfold hex_digit. destruct (N.ltb_spec n 10); abl. Qed.
Lemma ab_uint d : Forall ab (uint_bytes d).
Proof. induction d; cbn [uint_bytes]; constructor; try assumption; abl. Qed.
Lemma ab_hex l : Forall ab (hex_encode l).
Proof.
  induction l as [|b l IH]; [constructor|]. cbn [hex_encode]. pose proof (b2n_bound b). constructor; [|constructor; [|exact IH]]; apply ab_hex_digit.
  - apply N.div_lt_upper_bound; lia.
  - apply N.mod_lt. lia.
Qed.
Lemma ab_hex16 g : (g < 65536)%N -> Forall ab (hex16 g).
Proof.
  intros H. unfold hex16. assert (M : forall x, ab (hex_digit (x mod 16))) by (intros x; apply ab_hex_digit; apply N.mod_lt; lia).
  destruct (N.leb_spec 4096 g); [|destruct (N.leb_spec 256 g); [|destruct (N.leb_spec 16 g)]]; repeat (constructor; [first [apply M | apply ab_hex_digit; try assumption; apply N.div_lt_upper_bound; lia]|]); constructor.
Qed.
Lemma ab_colon : ab colon.
Proof. unfold colon. abl. Qed.
Lemma ab_join gs : Forall (fun g => g < 65536)%N gs -> Forall ab (join_groups gs).
Proof.
  induction 1 as [|g gs Hg H IH]; [constructor|]. destruct gs as [|g' gs]; [apply ab_hex16; exact Hg|].
  change (join_groups (g :: g' :: gs)) with (hex16 g ++ colon :: join_groups (g' :: gs)). apply Forall_app. split; [apply ab_hex16; exact Hg|].
  constructor; [apply ab_colon | exact IH].
Qed.
Lemma ab_ip i : Forall ab (ip_string i).
Proof.
  unfold ip_string. destruct i as [|b i]; [repeat constructor; unfold ab; cbn; lia|].
  destruct (to4 (b :: i)) as [q|].
  - unfold quad_string. destruct q as [|q0 [|q1 [|q2 [|q3 [|q4 q]]]]]; cbn [map]; try constructor.
    assert (D : ab dot) by (unfold dot; abl).
    apply Forall_app; split; [apply ab_uint|]. constructor; [exact D|]. apply Forall_app; split; [apply ab_uint|]. constructor; [exact D|].
    apply Forall_app; split; [apply ab_uint|]. constructor; [exact D|]. apply ab_uint.
  - destruct (Nat.eqb _ 16).
    + unfold v6_string. pose proof (groups_bound (length (b :: i)) (b :: i) ltac:(lia)) as G. destruct (longest_run _ _ _) as [e n]. destruct (Nat.leb 2 n).
      * apply Forall_app. split; [apply ab_join, Forall_firstn, G|]. constructor; [apply ab_colon|]. constructor; [apply ab_colon|]. apply ab_join, Forall_skipn, G.
      * apply ab_join, G.
    + constructor; [abl | apply ab_hex].
Qed.
Lemma ab_addr k h p : Forall ab (id_addr (NewID k h p)) /\ id_addr (NewID k h p) <> [].
Proof.
  cbn [NewID id_addr]. assert (Hn : Forall ab (normalize_ip h)) by (unfold normalize_ip; destruct (bytes_eqb _ _); [constructor | apply ab_ip]).
  unfold join_host_port. destruct (existsb _ _).
  - split; [|discriminate]. constructor; [unfold lbracket; abl|]. apply Forall_app. split; [exact Hn|].
    constructor; [unfold rbracket; abl|]. constructor; [apply ab_colon | apply ab_uint].
  - split; [|intros E; apply app_eq_nil in E as [_ E]; discriminate]. apply Forall_app. split; [exact Hn|]. constructor; [apply ab_colon | apply ab_uint].
Qed.

(** ** Reading back *)
Lemma cut_at (c : byte) (a b a' b' : bytes) : ~ In c a -> ~ In c a' -> a ++ c :: b = a' ++ c :: b' -> a = a' /\ b = b'.
Proof.
  revert a'. induction a as [|x a IH]; intros [|y a'] N N' E; cbn in E.
  - injection E as ->. auto.
  - exfalso. injection E as -> _. apply N'. left. reflexivity.
  - exfalso. injection E as -> _. apply N. left. reflexivity.
  - injection E as -> E. destruct (IH a') as [-> ->]; auto; intros X; [apply N|apply N']; right; exact X.
Qed.
Lemma cut_len (a b a' b' : bytes) : length a = length a' -> a ++ b = a' ++ b' -> a = a' /\ b = b'.
Proof. revert a'. induction a as [|x a IH]; intros [|y a'] L E; cbn in *; try discriminate; [auto|]. injection E as -> E. destruct (IH a' ltac:(lia) E) as [-> ->]. auto. Qed.
Lemma paren_not (l : bytes) : Forall ab l -> ~ In Byte.x28 l.
Proof. intros F I. destruct (proj1 (Forall_forall _ _) F _ I) as [N _]. apply N. reflexivity. Qed.
Lemma prefix_told k : key32 k -> length (firstn printedLength (key_string k)) = 8 /\ firstn printedLength (key_string k) = hex_encode (firstn 4 k).
Proof.
  unfold key32, key_string, printedLength. intros K. destruct k as [|a [|b [|c [|d k]]]]; try discriminate K. cbn. auto.
Qed.
Lemma printed_cut i j r r' : made i -> made j -> printed_id i ++ r = printed_id j ++ r' -> told i = told j /\ r = r'.
Proof.
  intros (k & h & p & K & ->) (k' & h' & p' & K' & ->) E. unfold printed_id in E. rewrite <- !app_assoc in E.
  destruct (ab_addr k h p) as [A _], (ab_addr k' h' p') as [A' _]. cbn [str String.list_byte_of_string] in E.
  destruct (cut_at Byte.x28 _ _ _ _ (paren_not _ A) (paren_not _ A') E) as [E1 E2]. change (id_key (NewID k h p)) with k in E2. change (id_key (NewID k' h' p')) with k' in E2.
  destruct (prefix_told k K) as [L P], (prefix_told k' K') as [L' P'].
  cbn [app] in E2. destruct (cut_len _ _ _ _ (eq_trans L (eq_sym L')) E2) as [E3 E4]. injection E4 as ->.
  split; [|reflexivity]. unfold told. change (id_key (NewID k h p)) with k. change (id_key (NewID k' h' p')) with k'. rewrite P, P' in E3. apply hex_encode_inj in E3. congruence.
Qed.
Lemma join_cut a : forall b r r', Forall made a -> Forall made b -> length a = length b -> join_comma (map printed_id a) ++ r = join_comma (map printed_id b) ++ r' -> map told a = map told b.
Proof.
  induction a as [|x a IH]; intros [|y b] r r' Fa Fb L E; try discriminate L; [reflexivity|].
  inversion Fa as [|? ? Mx Fa']; inversion Fb as [|? ? My Fb']; subst. cbn [map join_comma] in E.
  destruct a as [|x' a], b as [|y' b]; try discriminate L; cbn [map] in E.
  - destruct (printed_cut _ _ _ _ Mx My E) as [T _]. cbn [map]. congruence.
  - rewrite <- !app_assoc in E. destruct (printed_cut _ _ _ _ Mx My E) as [T E']. apply app_inv_head in E'. cbn [length] in L.
    specialize (IH (y' :: b) r r' Fa' Fb' ltac:(cbn [length]; lia) E'). cbn [map] in *. congruence.
Qed.
Lemma counted_cut a b : Forall made a -> Forall made b -> counted a = counted b -> map told a = map told b.
Proof.
  intros Fa Fb E. unfold counted in E.
  assert (S : forall n, ~ In Byte.x20 (itoa n)).
  { intros n I. pose proof (pb_uint (N.to_uint n)) as F. unfold itoa in I. clear F. revert I. induction (N.to_uint n); cbn [uint_bytes In]; intros I; try contradiction; destruct I as [I|I]; try exact (IHu I); try discriminate I. }
  change (str " peer(s): ["%string) with (Byte.x20 :: str "peer(s): ["%string) in E.
  rewrite <- !app_comm_cons in E. destruct (cut_at Byte.x20 _ _ _ _ (S _) (S _) E) as [E1 E2]. apply Props_Addr.itoa_inj in E1. apply app_inv_head in E2.
  eapply join_cut; try eassumption. lia.
Qed.

(** Of each peer in the list the address and four bytes of the key can be read, in order; so too for /discover. *)
Theorem C120_partial : forall a b, Forall made a -> Forall made b ->
  (peers_line a = peers_line b -> map told a = map told b) /\ (discover_line a = discover_line b -> map told a = map told b).
Proof.
  intros a b Fa Fb. split; intros E.
  - unfold peers_line in E. apply app_inv_head in E. exact (counted_cut a b Fa Fb E).
  - destruct a as [|x a], b as [|y b]; try reflexivity; [exfalso..|].
    + discriminate E.
    + discriminate E.
    + unfold discover_line in E. apply app_inv_head in E. exact (counted_cut _ _ Fa Fb E).
Qed.
Print Assumptions C120_partial.

(** The refutation: two keys that begin alike, at one address. *)
Definition sc_id (b : byte) : ID := NewID (repeat Byte.x07 31 ++ [b]) [Byte.x0a; Byte.x00; Byte.x00; Byte.x01] 9000.
Lemma sc_made b : made (sc_id b).
Proof. exists (repeat Byte.x07 31 ++ [b]), [Byte.x0a; Byte.x00; Byte.x00; Byte.x01], 9000%N. split; reflexivity. Qed.
Theorem C120_refuted : ~ C120_statement.
Proof.
  intros H. specialize (H [sc_id Byte.x01] [sc_id Byte.x02] (Forall_cons _ (sc_made _) (Forall_nil _)) (Forall_cons _ (sc_made _) (Forall_nil _)) ltac:(vm_compute; reflexivity)).
  discriminate H.
Qed.
Print Assumptions C120_refuted.

(** ** A peer's message that is shown as one line is none of the program's own lines. *)
Theorem C120_apart : forall c who m out, made who -> chat_handle c who m = Some out ->
  (forall id, out <> learned id) /\ (forall id, out <> forgotten id) /\ (forall id, out <> help_line id) /\ (forall ids, out <> discover_line ids) /\ (forall ids, out <> peers_line ids).
Proof.
  intros c who m out (k & h & p & K & ->) E.
  assert (F : exists b r, out = b :: r /\ ab b).
  { unfold chat_handle in E. destruct (IsRequest m); [discriminate|]. destruct (decode c (m_data m)) as [v| |]; try discriminate. destruct (gotype_eq_dec _ _); [|discriminate].
    destruct (v_bytes v) as [|b0 r0]; [discriminate|]. injection E as <-. destruct (ab_addr k h p) as [A N]. unfold printed_id. destruct (id_addr (NewID k h p)) as [|b r]; [contradiction|].
    inversion A; subst. cbn [app]. eauto. }
  destruct F as (b & r & -> & _ & U).
  assert (G : forall c0 l, (65 <= b2n c0 <= 90)%N -> b :: r <> c0 :: l) by (intros c0 l Hc Q; injection Q as -> _; contradiction).
  split; [intros id; apply G; cbn; lia|]. split; [intros id; apply G; cbn; lia|]. split; [intros id; apply G; cbn; lia|].
  split; [intros [|x ids]; apply G; cbn; lia|]. intros ids; apply G; cbn; lia.
Qed.
Print Assumptions C120_apart.

(** ** At the start every address is pinged once, in order, and each that fails is named, with its error, in order. *)
Definition failure_line (a e : bytes) : bytes := str "Failed to ping bootstrap node ("%string ++ a ++ str "). Skipping... [error: "%string ++ e ++ str "]"%string ++ [LF].
Theorem C120_bootstrap : forall ping addrs, exists outcomes, fst (bootstrap ping addrs) = addrs /\
  length outcomes = length addrs /\ (forall n a, nth_error addrs n = Some a -> nth_error outcomes n = Some (ping n a)) /\
  snd (bootstrap ping addrs) = concat (map (fun ao => match snd ao with Some e => failure_line (fst ao) e | None => [] end) (combine addrs outcomes)).
Proof.
  intros ping addrs. unfold bootstrap.
  enough (H : forall n0, exists outcomes, fst (bootstrap_from n0 ping addrs) = addrs /\
    length outcomes = length addrs /\ (forall n a, nth_error addrs n = Some a -> nth_error outcomes n = Some (ping (n0 + n) a)) /\
    snd (bootstrap_from n0 ping addrs) = concat (map (fun ao => match snd ao with Some e => failure_line (fst ao) e | None => [] end) (combine addrs outcomes))) by exact (H 0).
  induction addrs as [|a r IH]; intros n0.
  - exists []. repeat split; try reflexivity. intros [|n] a E; discriminate E.
  - destruct (IH (S n0)) as (os & H1 & H2 & H3 & H4). exists (ping n0 a :: os). cbn [bootstrap_from]. destruct (bootstrap_from (S n0) ping r) as [pinged out]. cbn [fst snd] in *. subst pinged out.
    split; [destruct (ping n0 a); reflexivity|]. split; [cbn [length]; lia|]. split.
    + intros [|n] x E; cbn [nth_error] in *; [injection E as ->; rewrite Nat.add_0_r; reflexivity|]. rewrite <- Nat.add_succ_comm. exact (H3 n x E).
    + cbn [combine map concat fst snd]. destruct (ping n0 a) as [e|]; [|reflexivity]. unfold failure_line. cbn [snd]. rewrite <- !app_assoc. reflexivity.
Qed.
Print Assumptions C120_bootstrap.

Example C120_nonvacuous : Forall made [sc_id Byte.x01; NewID (repeat Byte.x09 32) [] 80] /\
  peers_line [sc_id Byte.x01; NewID (repeat Byte.x09 32) [] 80] = str "You know 2 peer(s): [10.0.0.1:9000(07070707), :80(09090909)]"%string ++ [LF] /\
  bootstrap (fun n _ => if n =? 1 then Some (str "no"%string) else None) [str "a"%string; str "b"%string; str "c"%string] =
    ([str "a"%string; str "b"%string; str "c"%string], str "Failed to ping bootstrap node (b). Skipping... [error: no]"%string ++ [LF]).
Proof.
  split; [constructor; [apply sc_made|constructor; [|constructor]]; exists (repeat Byte.x09 32), [], 80%N; split; reflexivity|]. split; vm_compute; reflexivity.
Qed.
