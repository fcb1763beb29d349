(** * C82: Kademlia's remote calls between two nodes. *)
From Verif Require Import Base Spec M_ID M_Msg M_Codec M_Table M_Kad M_Rpc P_Wire P_Codec P_Table Props_Codec Props_Wire Props_Kad Props_KadProto.
From Coq Require Import Strings.Byte.
Local Open Scope nat_scope.

Lemma decoded_ids x l : UnmarshalFindNodeResponse x = Ok l -> Forall id16 l /\ length l <= 255.
Proof.
  rewrite UnmarshalFindNodeResponse_spec. destruct x as [|k r]; [discriminate|].
  pose proof (b2n_bound k) as Bk. set (n := N.to_nat (b2n k)) in *.
  destruct (Nat.ltb_spec (length r) (50 * n)) as [H|H]; [discriminate|]. intros [= <-]. split.
  - apply Forall_forall. intros e He. apply in_map_iff in He as (i & <- & Hi). apply in_seq in Hi.
    unfold id_at. cbv zeta. eexists _, _, _. split; [reflexivity|]. rewrite !firstn_length, !skipn_length.
    split; [lia|]. split; [lia|].
    match goal with |- (be_decode ?z < _)%N => pose proof (be_decode_bound z) as Q; assert (Lz : length z = 2) by (rewrite firstn_length, !skipn_length; lia) end.
    rewrite Lz in Q. exact Q.
  - rewrite map_length, seq_length. lia.
Qed.

Section C82.
Context (before after : list (gotype * decoder)) (cA cB : codec) (osA osB : list N).
Hypothesis REGA : register_all newCodec (before ++ kad_registrations ++ after) = Ok (cA, osA).
Hypothesis REGB : register_all newCodec (before ++ kad_registrations ++ after) = Ok (cB, osB).
Hypothesis SIZE : (N.of_nat (length (before ++ kad_registrations ++ after)) <= 65536)%N.
Let b := length before.

(** A live peer that speaks Kademlia answers a ping; what is sent is an empty message under the ping's opcode. *)
Theorem C82_ping : forall t, kad_Ping cA (served cB t) = (Some (tagged (b + 0) []), Ok tt).
Proof.
  intros t. unfold kad_Ping, RequestMessage. destruct (kad_decode before after cA osA REGA SIZE 0 1001 _ [] eq_refl) as [_ E].
  change (mkVal TPing Ping_marshal) with (mkVal (TNamed 1001) []). rewrite E. unfold served.
  rewrite (C60_ping before after cB osB REGB SIZE t []). cbn [bind]. fold b.
  destruct (kad_decode before after cA osA REGA SIZE 1 1002 _ [] eq_refl) as [D _]. fold b in D. rewrite D. cbn [d_run UnmarshalPing bind v_type].
  destruct (gotype_eq_dec TPong TPong); [reflexivity | congruence].
Qed.

(** Whatever the peer does, Ping reports success exactly when the response carries the pong's opcode. *)
Theorem C82_ping_iff : forall net,
  (forall ty d x, In (ty, d) (before ++ after) -> match d_run d x with Ok v => v_type v = ty | Err _ => True | Panic => False end) ->
  fst (kad_Ping cA net) = Some (tagged (b + 0) []) /\
  (snd (kad_Ping cA net) = Ok tt <-> exists payload, net (tagged (b + 0) []) = Ok (tagged (b + 1) payload)).
Proof.
  intros net HU. unfold kad_Ping, RequestMessage. destruct (kad_decode before after cA osA REGA SIZE 0 1001 _ [] eq_refl) as [_ E].
  change (mkVal TPing Ping_marshal) with (mkVal (TNamed 1001) []). rewrite E. fold b. cbn [fst snd]. split; [reflexivity|].
  split.
  - intros H. destruct (net (tagged (b + 0) [])) as [r|e|]; [|discriminate|discriminate]. cbn [bind] in H.
    destruct (decode cA r) as [v|e|] eqn:D; [|discriminate|discriminate]. cbn [bind] in H.
    destruct (gotype_eq_dec (v_type v) TPong) as [T|]; [|discriminate].
    destruct r as [|x [|y data]]; [discriminate | discriminate |].
    set (o := be_decode [x; y]).
    assert (Ho : (o < 65536)%N) by (unfold o; exact (be_decode_bound [x; y])).
    assert (Ex : x :: y :: data = n2b (o / 256) :: n2b o :: data).
    { unfold o. change (x :: y :: data) with ([x; y] ++ data). change (n2b (be_decode [x; y] / 256) :: n2b (be_decode [x; y]) :: data) with (be_encode 2 (be_decode [x; y]) ++ data).
      pose proof (be_encode_decode [x; y]) as Q. cbn [length] in Q. rewrite Q. reflexivity. }
    rewrite Ex in D.
    destruct (N.ltb_spec o (N.of_nat (length (before ++ kad_registrations ++ after)))) as [Lo|Lo].
    2: { rewrite (C05_unassigned_opcode_refused _ cA osA o data REGA Ho Lo) in D. discriminate. }
    destruct (nth_error (before ++ kad_registrations ++ after) (N.to_nat o)) as [[ty d]|] eqn:En.
    2: { apply nth_error_None in En. lia. }
    destruct (register_all_ok _ _ _ REGA) as [[ND HT] G].
    assert (Ed : d_run d data = Ok v).
    { rewrite <- D. change (n2b (o / 256) :: n2b o :: data) with (be_encode 2 o ++ data). rewrite G, decode_encoded by exact Ho. cbn [codec_of c_de].
      rewrite <- (N2Nat.id o) at 1. rewrite <- (N.mod_small (N.of_nat (N.to_nat o)) 65536) by lia. fold (opc (N.to_nat o)).
      rewrite (de_of_last _ 0 (N.to_nat o) ty d); [reflexivity|exact En|].
      intros j Hj Hl C. clear - Hj Hl C SIZE Lo Ho. cbn [Nat.add] in C. apply opc_inj in C; lia. }
    assert (Ty : ty = TPong).
    { apply nth_error_In in En. apply in_app_or in En as [En|En]; [|apply in_app_or in En as [En|En]].
      - specialize (HU ty d data (in_or_app _ _ _ (or_introl En))). rewrite Ed in HU. congruence.
      - cbn in En. destruct En as [En|[En|[En|[En|[]]]]]; injection En as <- <-; cbn [d_run bind UnmarshalPing] in Ed.
        + injection Ed as <-. discriminate T.
        + reflexivity.
        + destruct (UnmarshalFindNodeRequest data); [|discriminate|discriminate]. injection Ed as <-. discriminate T.
        + destruct (UnmarshalFindNodeResponse data); [|discriminate|discriminate]. injection Ed as <-. discriminate T.
      - specialize (HU ty d data (in_or_app _ _ _ (or_intror En))). rewrite Ed in HU. congruence. }
    assert (Eo : N.to_nat o = b + 1).
    { pose proof (kad_nth before after SIZE 1 _ eq_refl) as K. fold b in K.
      eapply NoDup_nth_error; [exact ND | rewrite map_length; apply nth_error_Some; rewrite En; discriminate |].
      rewrite !nth_error_map, En, K, Ty. reflexivity. }
    exists data. rewrite Ex. unfold tagged. rewrite <- Eo, N2Nat.id. reflexivity.
  - intros [p ->]. cbn [bind]. destruct (kad_decode before after cA osA REGA SIZE 1 1002 _ p eq_refl) as [D _]. fold b in D. rewrite D.
    cbn [d_run UnmarshalPing bind v_type]. destruct (gotype_eq_dec TPong TPong); [reflexivity | congruence].
Qed.

(** A lookup at a live peer whose table holds IDs as nodes announce them: the peer counts as found, and exactly the (at most
    sixteen) entries that it answers with arrive: distinct recorded peers other than the key asked for, nearest first. *)
Theorem C82_lookup : forall self ops t es id, table_of self ops t -> Entries t = Ok es -> Forall id16 es -> key32 (id_key id) ->
  exists l, lookupRequest cA (served cB t) id = (Some (tagged (b + 2) (id_key id)), Ok (Some id, Some l)) /\
    length l = Nat.min 16 (length (filter (other_than (id_key id)) es)) /\ NoDup l /\
    (forall e, In e l -> In e es /\ id_key e <> id_key id) /\ sorted_by (fun e => dist (id_key e) (id_key id)) l.
Proof.
  intros self ops t es id HT HE HI HK.
  destruct (C60_find_node before after cB osB REGB SIZE self ops t es (id_key id) HT HE HK) as (l & HH & LL & ND & IN & SO).
  exists l. split; [|auto]. unfold lookupRequest, RequestMessage.
  destruct (kad_decode before after cA osA REGA SIZE 2 1003 _ (id_key id) eq_refl) as [_ E].
  change (mkVal TFindNodeRequest (FindNodeRequest_marshal (id_key id))) with (mkVal (TNamed 1003) (id_key id)). rewrite E.
  fold b in HH |- *. unfold served. rewrite HH. cbn [bind].
  destruct (kad_decode before after cA osA REGA SIZE 3 1004 _ (FindNodeResponse_marshal l) eq_refl) as [D _]. fold b in D. rewrite D. cbn [d_run].
  assert (F : Forall id16 l) by (apply Forall_forall; intros e He; rewrite Forall_forall in HI; apply HI, IN, He).
  assert (R : UnmarshalFindNodeResponse (FindNodeResponse_marshal l) = Ok l).
  { rewrite <- (app_nil_r (FindNodeResponse_marshal l)). apply C23_response_roundtrip; [exact F | lia]. }
  rewrite R. cbn [bind v_type v_bytes]. destruct (gotype_eq_dec TFindNodeResponse TFindNodeResponse); [|congruence]. rewrite R. reflexivity.
Qed.

(** A value whose type is not registered is not sent. *)
Theorem C82_unregistered_not_sent : forall net v, ~ In (v_type v) (map fst (before ++ kad_registrations ++ after)) ->
  (forall e, v_type v = TPtr e -> ~ In e (map fst (before ++ kad_registrations ++ after))) ->
  RequestMessage cA net v = (None, Err ErrNotRegistered).
Proof.
  intros net v H1 H2. unfold RequestMessage. rewrite (C05_unregistered_type_refused _ cA osA v REGA H1 H2). reflexivity.
Qed.

(** Nothing a peer answers crashes a lookup, as long as user decoders do not; what counts as found is the peer asked. *)
Theorem C82_lookup_total : forall net id, (forall d, net d <> Panic) ->
  (forall ty d x, In (ty, d) (before ++ after) -> match d_run d x with Ok v => v_type v = ty | Err _ => True | Panic => False end) ->
  fst (lookupRequest cA net id) = Some (tagged (b + 2) (id_key id)) /\
  (snd (lookupRequest cA net id) = Ok (None, None) \/ exists l, snd (lookupRequest cA net id) = Ok (Some id, Some l) /\ length l <= 255).
Proof.
  intros net id HN HU. unfold lookupRequest, RequestMessage.
  destruct (kad_decode before after cA osA REGA SIZE 2 1003 _ (id_key id) eq_refl) as [_ E].
  change (mkVal TFindNodeRequest (FindNodeRequest_marshal (id_key id))) with (mkVal (TNamed 1003) (id_key id)). rewrite E.
  fold b. cbn [fst snd]. split; [reflexivity|].
  destruct (net (tagged (b + 2) (id_key id))) as [r|e|] eqn:En; [|auto|destruct (HN _ En)]. cbn [bind].
  destruct (C05_decode_total cA r) as [T1 T2].
  destruct (Nat.lt_ge_cases (length r) 2) as [Hl|Hl]; [rewrite (T1 Hl); auto|].
  destruct (T2 Hl) as [X|(o & d & Hi & X)]; rewrite X; [auto|].
  destruct (register_all_ok _ _ _ REGA) as [[ND HT] G]. rewrite G in Hi.
  assert (Hd : exists ty, In (ty, d) (before ++ kad_registrations ++ after)).
  { clear - Hi. cbn [codec_of c_de] in Hi. revert Hi. generalize (before ++ kad_registrations ++ after) as h. intros h Hi.
    revert Hi. generalize 0. induction h as [|[u e] h IH]; intros i Hi; [destruct Hi|]. cbn [de_of] in Hi.
    apply in_app_or in Hi as [Hi|[Hi|[]]]; [destruct (IH _ Hi) as [ty Ht]; exists ty; right; exact Ht|].
    injection Hi as _ <-. exists u. left. reflexivity. }
  destruct Hd as [ty Hd]. assert (Cs : In (ty, d) (before ++ after) \/ In (ty, d) kad_registrations).
  { apply in_app_or in Hd as [Hd|Hd]; [left; apply in_or_app; auto|]. apply in_app_or in Hd as [Hd|Hd]; [auto | left; apply in_or_app; auto]. }
  assert (G2 : match d_run d (skipn 2 r) with
               | Panic => False | Err _ => True
               | Ok v => v_type v <> TFindNodeResponse \/ exists l, UnmarshalFindNodeResponse (v_bytes v) = Ok l end).
  { destruct Cs as [Cs|Cs].
    - specialize (HU ty d (skipn 2 r) Cs). destruct (d_run d (skipn 2 r)) as [v| |]; auto. left. intros C.
      assert (ty = TFindNodeResponse) as -> by congruence. clear - ND Cs.
      rewrite !map_app in ND. apply in_app_or in Cs as [Cs|Cs]; apply (in_map fst) in Cs; cbn [fst] in Cs.
      + apply (nodup_app_disj _ _ _ ND Cs). apply in_or_app. left. cbn. auto.
      + apply NoDup_app_remove_l in ND. apply (nodup_app_disj _ _ TFindNodeResponse ND); [cbn; auto | exact Cs].
    - destruct (C03_decoders_never_panic (skipn 2 r)) as (_ & _ & NP1 & NP2 & _).
      cbn in Cs. destruct Cs as [Cs|[Cs|[Cs|[Cs|[]]]]]; injection Cs as <- <-; cbn [d_run bind UnmarshalPing v_type v_bytes].
      + left. discriminate.
      + left. discriminate.
      + destruct (UnmarshalFindNodeRequest (skipn 2 r)); [left; discriminate | exact I | congruence].
      + destruct (UnmarshalFindNodeResponse (skipn 2 r)) as [l| |] eqn:El; [|exact I|congruence]. right. cbn [v_bytes].
        exists l. destruct (decoded_ids _ _ El) as [F Hl']. rewrite <- (app_nil_r (FindNodeResponse_marshal l)).
        apply C23_response_roundtrip; assumption. }
  destruct (d_run d (skipn 2 r)) as [v| |]; [|auto|contradiction].
  destruct (gotype_eq_dec (v_type v) TFindNodeResponse) as [T|]; [|auto]. destruct G2 as [G2|[l Gl]]; [congruence|].
  rewrite Gl. cbn [bind]. right. exists l. split; [reflexivity|]. exact (proj2 (decoded_ids _ _ Gl)).
Qed.
End C82.
Print Assumptions C82_ping.
Print Assumptions C82_ping_iff.
Print Assumptions C82_lookup.
Print Assumptions C82_unregistered_not_sent.
Print Assumptions C82_lookup_total.

(** Two nodes with one further message type of their own; the asked peer's table holds eighteen entries. *)
Definition rpc_hist : list (gotype * decoder) := [(TNamed 1, ex_dec (TNamed 1) 0)] ++ kad_registrations ++ [].
Definition rpc_codec : codec := match register_all newCodec rpc_hist with Ok (c, _) => c | _ => newCodec end.
Definition id_of (a x : N) : ID := NewID (n2b a :: zeros 30 ++ [n2b x]) (zeros 10 ++ map n2b [255; 255; 10; 0; 0; x]%N) (9000 + x).
Definition rpc_self : ID := id_of 1 1.
Definition rpc_ids : list ID := map (id_of 128) [1;2;3;4;5;6;7;8;9;10]%N ++ map (id_of 2) [1;2;3;4;5;6;7;8]%N.
Definition rpc_table : table := mk_table rpc_self (map OpUpdate rpc_ids).
Definition rpc_entries : list ID := map (id_of 128) [10;9;8;7;6;5;4;3;2;1]%N ++ map (id_of 2) [8;7;6;5;4;3;2;1]%N ++ [rpc_self].
Example C82_nonvacuous :
  (exists os, register_all newCodec rpc_hist = Ok (rpc_codec, os)) /\
  (forall ty d x, In (ty, d) ([(TNamed 1, ex_dec (TNamed 1) 0)] ++ []) -> match d_run d x with Ok v => v_type v = ty | Err _ => True | Panic => False end) /\
  table_of rpc_self (map OpUpdate rpc_ids) rpc_table /\
  Entries rpc_table = Ok rpc_entries /\ length rpc_entries = 19 /\ Forall id16 rpc_entries /\
  kad_Ping rpc_codec (served rpc_codec rpc_table) = (Some (tagged 1 []), Ok tt) /\
  kad_Ping rpc_codec (fun _ => Ok (tagged 1 [])) = (Some (tagged 1 []), Err ErrOther) /\
  (exists l, snd (lookupRequest rpc_codec (served rpc_codec rpc_table) (id_of 128 3)) = Ok (Some (id_of 128 3), Some l) /\ length l = 16 /\
     hd_error l = Some (id_of 128 2)).
Proof.
  split.
  { destruct (C05_register rpc_hist) as [c E].
    - repeat (constructor; [cbn; intuition discriminate|]). constructor.
    - intros t d H. cbn in H. repeat destruct H as [H|H]; try (injection H as <- <-; reflexivity). destruct H.
    - vm_compute. discriminate.
    - unfold rpc_codec. rewrite E. eexists. reflexivity. }
  split; [intros ty d x [[= <- <-]|[]]; reflexivity|].
  split; [apply mk_table_of; [reflexivity | repeat constructor]|].
  split; [vm_compute; reflexivity|]. split; [reflexivity|].
  split; [repeat (constructor; [eexists _, _, _; split; [reflexivity|]; repeat split; reflexivity|]); constructor|].
  split; [vm_compute; reflexivity|]. split; [vm_compute; reflexivity|].
  eexists. split; [vm_compute; reflexivity|]. split; vm_compute; reflexivity.
Qed.
