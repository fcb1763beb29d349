(** * C124: which messages the receiver's limit lets through. *)
From Verif Require Import Base M_Msg M_AEAD M_Frame P_Wire P_AEAD P_Frame Props_Frame.
From Verif Require M_Node P_Node Spec.
From Coq Require Import Strings.Byte.
Local Open Scope nat_scope.

(** ** Spec *)

(** The bytes of [ms], sent one after another, arrive whole, in pieces of whatever size; then the connection ends. *)
Definition all_arrived (A : option aead) (nonces : list bytes) (ms : list message) (chunks : list bytes) : Prop :=
  writer_ok A nonces (length ms) /\ concat chunks = frames A nonces ms /\ forall m, In m ms -> (m_nonce m < 2 ^ 64)%N /\ (wire_size A m < 2 ^ 32)%N.

(** The messages before the first that takes more than [L] bytes on the wire, not counting the length in front of it. *)
Fixpoint fitting (A : option aead) (L : N) (ms : list message) : list message :=
  match ms with
  | [] => []
  | m :: r => if (wire_size A m <=? L)%N then m :: fitting A L r else []
  end.

(** ** C124 *)

(** Messages whose data is no more than the receiver's limit are all handed on. *)
Definition C124_statement : Prop := forall L A nonces ms chunks ending fuel,
  (1 <= L)%N -> (L + 4 < 2 ^ 32)%N -> all_arrived A nonces ms chunks -> length ms < fuel ->
  (forall m, In m ms -> (N.of_nat (length (m_data m)) <= L)%N) ->
  recv_all fuel L A (new_rstate L (mkConn chunks ending)) = Some (ms, Err ending).

Lemma fitting_fits A L ms m : In m (fitting A L ms) -> In m ms /\ (wire_size A m <= L)%N.
Proof.
  induction ms as [|x ms IH]; [intros []|]. cbn [fitting]. destruct (N.leb_spec (wire_size A x) L) as [H|H]; [|intros []].
  intros [-> | I]; [split; [left; reflexivity | exact H]|]. destruct (IH I). split; [right|]; assumption.
Qed.

Lemma fitting_split A L ms : fitting A L ms = ms \/
  exists m r, ms = fitting A L ms ++ m :: r /\ (L < wire_size A m)%N.
Proof.
  induction ms as [|x ms IH]; [left; reflexivity|]. cbn [fitting]. destruct (N.leb_spec (wire_size A x) L) as [H|H].
  - destruct IH as [IH|(m & r & IH & B)]; [left; congruence|]. right. exists m, r. split; [cbn; f_equal; exact IH | exact B].
  - right. exists x, ms. split; [reflexivity | exact H].
Qed.

Lemma suite_drop A : forall (ms rest : list message) nonces, suite_ok A nonces (length (ms ++ rest)) ->
  exists rn, suite_ok A rn (length rest) /\ suite_ok A (firstn (length ms) nonces) (length ms) /\
    frames A nonces (ms ++ rest) = frames A (firstn (length ms) nonces) ms ++ frames A rn rest.
Proof.
  induction ms as [|m ms IH]; intros rest nonces H.
  - exists nonces. split; [exact H|]. split; [|reflexivity]. destruct A as [a|]; [|exact I]. destruct H as (X1 & X2 & _). split; [exact X1|]. split; [exact X2|]. split; [reflexivity | constructor].
  - destruct (IH rest (tl nonces) (suite_ok_tl _ _ _ H)) as (rn & S1 & S2 & E). exists rn. split; [exact S1|].
    destruct nonces as [|n0 nonces].
    + destruct A as [a|]; [destruct H as (_ & _ & Z & _); discriminate|]. split; [exact I|]. cbn [app frames length firstn hd tl] in *. rewrite E, <- app_assoc.
      rewrite (frames_none ms [] (firstn (length ms) [])). reflexivity.
    + cbn [tl length firstn] in *. split.
      * destruct A as [a|]; [|exact I]. destruct S2 as (Y1 & Y2 & Y3 & Y4). destruct H as (_ & _ & _ & X4). split; [exact Y1|]. split; [exact Y2|]. split; [cbn [length]; f_equal; exact Y3|].
        constructor; [inversion X4; assumption | exact Y4].
      * cbn [app frames hd tl]. rewrite E, <- app_assoc. reflexivity.
Qed.

(** A message that does not fit is refused when its length has been read. *)
Lemma recv_big L A rnds n m rest k st :
  suite_ok A rnds (S n) -> (1 <= L)%N -> (L + 4 < 2 ^ 32)%N -> N.of_nat (length (rs_buf st)) = (4 + L)%N ->
  (L < wire_size A m)%N -> (wire_size A m < 2 ^ 32)%N ->
  rd_bytes (rs_rd st) = frame_bytes A (hd [] rnds) (msg_marshal m) ++ rest ->
  recv_all (S k) L A st = Some ([], Err ErrMessageTooLarge).
Proof.
  intros HS HL1 HL2 HB Hm Hm2 E. pose proof (body_length A rnds n m HS) as BL.
  destruct (client_read_spec L A st) as (st' & _ & _ & _ & _ & K & _). cbv zeta in *. cbn [recv_all].
  unfold frame_bytes in E. cbv zeta in E. fold (body A (hd [] rnds) (msg_marshal m)) in E. set (b := body A (hd [] rnds) (msg_marshal m)) in *.
  assert (L4 : length (be_encode 4 (N.of_nat (length b))) = 4) by apply be_encode_length.
  assert (W : N.of_nat (length b) = wire_size A m) by (rewrite BL; unfold body_size, wire_size; reflexivity).
  assert (Ls : 4 <= length (rd_bytes (rs_rd st))) by (rewrite E, !app_length; lia).
  assert (F : be_decode (firstn 4 (rd_bytes (rs_rd st))) = wire_size A m).
  { rewrite E, <- app_assoc, (firstn_app_exact _ _ _ L4), be_decode_encode_small by (change (256 ^ N.of_nat 4)%N with (2 ^ 32)%N; lia). exact W. }
  destruct K as [-> _]; try lia. reflexivity.
Qed.

(** What is handed on, exactly: the messages before the first that does not fit, and nothing after it, however small; then
    ErrMessageTooLarge, or how the connection ended when all fit. *)
Theorem C124_partial : forall L A nonces ms chunks ending fuel,
  (1 <= L)%N -> (L + 4 < 2 ^ 32)%N -> all_arrived A nonces ms chunks -> length ms < fuel ->
  recv_all fuel L A (new_rstate L (mkConn chunks ending)) =
    Some (fitting A L ms, Err (if forallb (fun m => wire_size A m <=? L)%N ms then ending else ErrMessageTooLarge)).
Proof.
  intros L A nonces ms chunks ending fuel H1 H2 (HW & HC & HM) HF.
  destruct (forallb (fun m => wire_size A m <=? L)%N ms) eqn:Fa.
  - rewrite forallb_forall in Fa. assert (fitting A L ms = ms) as ->.
    { clear - Fa. induction ms as [|x ms IH]; [reflexivity|]. cbn [fitting]. rewrite (Fa x) by (left; reflexivity). f_equal. apply IH. intros y I. apply Fa. right. exact I. }
    apply (C07_frames_roundtrip L A nonces); auto. intros m I. split; [apply HM, I|]. apply N.leb_le, Fa, I.
  - destruct (fitting_split A L ms) as [Q|(m & r & Q & B)].
    { exfalso. assert (forallb (fun m => wire_size A m <=? L)%N ms = true); [|congruence]. apply forallb_forall. intros m I. rewrite <- Q in I.
      apply fitting_fits in I as [_ I]. apply N.leb_le, I. }
    apply writer_suite in HW. set (f := fitting A L ms) in *. assert (Ff : forall x, In x f -> In x ms /\ (wire_size A x <= L)%N) by (intros x; apply fitting_fits).
    clearbody f. subst ms. destruct (suite_drop A f (m :: r) nonces HW) as (rn & S1 & S2 & E).
    assert (LB : N.of_nat (length (rs_buf (new_rstate L (mkConn chunks ending)))) = (4 + L)%N).
    { cbn [rs_buf new_rstate]. rewrite zeros_length. unfold u32. rewrite N.mod_small by lia. lia. }
    rewrite app_length in HF. cbn [length] in HF.
    destruct (recv_frames L A H1 H2 f (firstn (length f) nonces) (fuel - length f) (frames A rn (m :: r)) (new_rstate L (mkConn chunks ending)))
      as (st' & B' & _ & Lb & K); [exact S2 | exact LB | | rewrite <- E; exact HC |].
    { apply Forall_forall. intros x Hx. destruct (Ff x Hx) as [I J]. split; [apply HM, I | exact J]. }
    replace (length f + (fuel - length f)) with fuel in K by lia. rewrite K. replace (fuel - length f) with (S (fuel - length f - 1)) by lia.
    rewrite (recv_big L A rn (length r) m (frames A (tl rn) r)); auto; [rewrite app_nil_r; reflexivity | congruence |].
    apply HM. apply in_or_app. right. left. reflexivity.
Qed.

(** Over AES-GCM (a nonce of 12 bytes and a tag of 16): messages with up to 36 bytes less than the limit all arrive; one with more is not
    handed on, nor is anything sent after it. *)
Theorem C124_payload : forall L a nonces ms chunks ending fuel,
  nonce_size a = 12 -> overhead a = 16 -> (1 <= L)%N -> (L + 4 < 2 ^ 32)%N -> all_arrived (Some a) nonces ms chunks -> length ms < fuel ->
  exists got e, recv_all fuel L (Some a) (new_rstate L (mkConn chunks ending)) = Some (got, Err e) /\
    ((forall m, In m ms -> (N.of_nat (length (m_data m)) + 36 <= L)%N) -> got = ms /\ e = ending) /\
    (forall j m, nth_error ms j = Some m -> (L < N.of_nat (length (m_data m)) + 36)%N ->
       length got <= j /\ e = ErrMessageTooLarge) /\
    exists rest, ms = got ++ rest.
Proof.
  intros L a nonces ms chunks ending fuel Na Oa H1 H2 HA HF. eexists _, _. split; [exact (C124_partial L (Some a) nonces ms chunks ending fuel H1 H2 HA HF)|].
  assert (WS : forall m, wire_size (Some a) m = (N.of_nat (length (m_data m)) + 36)%N) by (intros m; unfold wire_size; rewrite Na, Oa; lia).
  split; [|split].
  - intros Hs. assert (Fa : forallb (fun m => wire_size (Some a) m <=? L)%N ms = true).
    { apply forallb_forall. intros m I. apply N.leb_le. rewrite WS. apply Hs, I. }
    rewrite Fa. split; [|reflexivity]. destruct (fitting_split (Some a) L ms) as [Q|(m & r & Q & B)]; [exact Q|]. exfalso.
    rewrite forallb_forall in Fa. assert (I : In m ms) by (rewrite Q; apply in_or_app; right; left; reflexivity). specialize (Fa m I). apply N.leb_le in Fa. lia.
  - intros j m Ej B. rewrite <- WS in B. split.
    + destruct (Nat.le_gt_cases (length (fitting (Some a) L ms)) j) as [X|X]; [exact X|]. exfalso.
      destruct (fitting_split (Some a) L ms) as [Q|(m' & r & Q & _)].
      * assert (I : In m (fitting (Some a) L ms)) by (rewrite Q; eapply nth_error_In; exact Ej). apply fitting_fits in I as [_ I]. lia.
      * rewrite Q, nth_error_app1 in Ej by exact X. apply nth_error_In, fitting_fits in Ej as [_ Ej]. lia.
    + destruct (forallb _ ms) eqn:Fa; [|reflexivity]. exfalso. rewrite forallb_forall in Fa. specialize (Fa m (nth_error_In _ _ Ej)). apply N.leb_le in Fa. lia.
  - destruct (fitting_split (Some a) L ms) as [Q|(m & r & Q & _)]; [exists []; rewrite Q, app_nil_r; reflexivity | eauto].
Qed.

(** A node made without the option has a limit of 4 MiB; data of 4 MiB does not get through to it, nor what is sent after, and data of 36
    bytes less does. *)
Theorem C124_default : forall ncpu gen opts n a nonces ms chunks ending fuel,
  M_Node.NewNode ncpu gen opts = Ok n -> (forall l, ~ In (M_Node.WithMaxRecv l) opts) ->
  nonce_size a = 12 -> overhead a = 16 -> all_arrived (Some a) nonces ms chunks -> length ms < fuel ->
  M_Node.n_maxRecv n = 4194304%N /\
  exists got e, recv_all fuel (M_Node.n_maxRecv n) (Some a) (new_rstate (M_Node.n_maxRecv n) (mkConn chunks ending)) = Some (got, Err e) /\
    ((forall m, In m ms -> (N.of_nat (length (m_data m)) <= 4194268)%N) -> got = ms /\ e = ending) /\
    (forall j m, nth_error ms j = Some m -> (4194268 < N.of_nat (length (m_data m)))%N -> length got <= j /\ e = ErrMessageTooLarge).
Proof.
  intros ncpu gen opts n a nonces ms chunks ending fuel HN NO Na Oa HA HF.
  assert (M : M_Node.n_maxRecv n = 4194304%N).
  { unfold M_Node.NewNode in HN. cbv zeta in HN. set (m := fold_left M_Node.apply_option opts (M_Node.default_node ncpu)) in HN.
    assert (Km : M_Node.n_maxRecv m = 4194304%N).
    { unfold m. rewrite (P_Node.fold_field M_Node.n_maxRecv (fun o => match o with M_Node.WithMaxRecv k => Some k | _ => None end)) by (intros ? []; reflexivity).
      assert (Spec.last_some (fun o => match o with M_Node.WithMaxRecv k => Some k | _ => None end) opts = None) as ->; [|reflexivity].
      clear - NO. induction opts as [|o opts IH]; [reflexivity|]. cbn. rewrite IH by (intros l J; apply (NO l); right; exact J).
      destruct o; try reflexivity. exfalso. eapply NO. left. reflexivity. }
    set (m1 := match M_Node.n_logger m with None => _ | Some _ => m end) in HN.
    assert (L1 : M_Node.n_maxRecv m1 = 4194304%N) by (unfold m1; destruct (M_Node.n_logger m); exact Km). clearbody m1.
    destruct (bytes_eqb (M_Node.n_privateKey m1) _).
    - destruct gen as [k| |]; try discriminate. cbn [bind] in HN.
      match type of HN with Ok (if ?c then _ else _) = _ => destruct c end; match type of HN with Ok ?x = Ok _ => assert (n = x) as -> by congruence end; exact L1.
    - cbn [bind] in HN.
      match type of HN with Ok (if ?c then _ else _) = _ => destruct c end; match type of HN with Ok ?x = Ok _ => assert (n = x) as -> by congruence end; exact L1. }
  split; [exact M|]. rewrite M.
  destruct (C124_payload 4194304 a nonces ms chunks ending fuel Na Oa ltac:(lia) ltac:(lia) HA HF) as (got & e & R & P1 & P2 & _).
  exists got, e. split; [exact R|]. split.
  - intros H. apply P1. intros m I. specialize (H m I). lia.
  - intros j m E B. apply (P2 j m E). lia.
Qed.

(** *** A message as large as the limit, followed by an empty one *)

Definition ex_big : list message := [mkMsg 0 [n2b 5]; mkMsg 0 (zeros 20); mkMsg 0 []].
Lemma ex_big_arrived : all_arrived None [] ex_big [frames None [] ex_big].
Proof.
  split; [exact I|]. split; [cbn [concat]; rewrite app_nil_r; reflexivity|]. intros m [<-|[<-|[<-|[]]]]; vm_compute; auto.
Qed.

Theorem C124_refuted : ~ C124_statement.
Proof.
  intros X. specialize (X 20%N None [] ex_big [frames None [] ex_big] ErrEOF 4 ltac:(lia) ltac:(vm_compute; reflexivity) ex_big_arrived ltac:(cbn; lia)).
  assert (E : recv_all 4 20 None (new_rstate 20 (mkConn [frames None [] ex_big] ErrEOF)) = Some ([mkMsg 0 [n2b 5]], Err ErrMessageTooLarge)) by (vm_compute; reflexivity).
  rewrite E in X. assert (Y : Some ([mkMsg 0 [n2b 5]], Err ErrMessageTooLarge) = Some (ex_big, @Err unit ErrEOF)); [|discriminate].
  apply X. intros m [<-|[<-|[<-|[]]]]; vm_compute; discriminate.
Qed.

(** A cipher with the sizes of AES-GCM; a limit of 40 lets through data of 4 bytes, and not of 5. *)
Definition wide : aead := mkAEAD 12 16 (fun n p => zeros 16 ++ p)
  (fun n c => if length c <? 16 then None else if bytes_eqb (firstn 16 c) (zeros 16) then Some (skipn 16 c) else None).
Lemma wide_ok : aead_contract wide.
Proof.
  split; [|split; [|split]]; cbn [wide seal open overhead nonce_size].
  - intros n p _. rewrite app_length, zeros_length. lia.
  - intros n p _. destruct (Nat.ltb_spec (length (zeros 16 ++ p)) 16) as [H|H]; [rewrite app_length, zeros_length in H; lia|].
    change 16 with (length (zeros 16)) at 1 4. rewrite firstn_app_exact, skipn_app_exact by reflexivity. rewrite bytes_eqb_refl. reflexivity.
  - intros n c H. destruct (Nat.ltb_spec (length c) 16); [reflexivity | lia].
  - intros n c p H. destruct (Nat.ltb_spec (length c) 16) as [|Hc]; [discriminate|]. destruct (bytes_eqb _ _); [|discriminate]. assert (p = skipn 16 c) as -> by congruence.
    rewrite skipn_length. lia.
Qed.

Definition ex_fit (k : nat) : list message := [mkMsg 0 [n2b 1]; mkMsg 3 (zeros k); mkMsg 0 []].
Definition ex_fit_nonces : list bytes := [zeros 12; zeros 12; zeros 12].
Lemma ex_fit_arrived k : k < 100 -> all_arrived (Some wide) ex_fit_nonces (ex_fit k) [frames (Some wide) ex_fit_nonces (ex_fit k)].
Proof.
  intros H. split; [split; [exact wide_ok|]; split; [reflexivity|]; repeat constructor|]. split; [cbn [concat]; apply app_nil_r|].
  intros m [<-|[<-|[<-|[]]]]; unfold wire_size; cbn [m_nonce m_data length wide nonce_size overhead]; rewrite ?zeros_length; split; lia.
Qed.
Example C124_nonvacuous :
  nonce_size wide = 12 /\ overhead wide = 16 /\
  all_arrived (Some wide) ex_fit_nonces (ex_fit 4) [frames (Some wide) ex_fit_nonces (ex_fit 4)] /\
  all_arrived (Some wide) ex_fit_nonces (ex_fit 5) [frames (Some wide) ex_fit_nonces (ex_fit 5)] /\
  recv_all 4 40 (Some wide) (new_rstate 40 (mkConn [frames (Some wide) ex_fit_nonces (ex_fit 4)] ErrEOF)) = Some (ex_fit 4, Err ErrEOF) /\
  recv_all 4 40 (Some wide) (new_rstate 40 (mkConn [frames (Some wide) ex_fit_nonces (ex_fit 5)] ErrEOF)) = Some ([mkMsg 0 [n2b 1]], Err ErrMessageTooLarge) /\
  exists n, M_Node.NewNode 4 (Ok (repeat Byte.x01 64)) [M_Node.WithNumWorkers 2] = Ok n.
Proof.
  split; [reflexivity|]. split; [reflexivity|]. split; [apply ex_fit_arrived; lia|]. split; [apply ex_fit_arrived; lia|].
  split; [vm_compute; reflexivity|]. split; [vm_compute; reflexivity|]. eexists. vm_compute. reflexivity.
Qed.

Print Assumptions C124_refuted.
Print Assumptions C124_partial.
Print Assumptions C124_payload.
Print Assumptions C124_default.
