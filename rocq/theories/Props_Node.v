(** * Node configuration, Listen's address logic, Bind/Handle: C53, C54, C55, C57, C58, C61, C62. *)
From Verif Require Import Base Spec M_Addr M_ID M_ParseIP M_Node P_Wire P_Node P_ParseIP.
From Coq Require Import Strings.Byte Strings.String.
Local Open Scope N_scope.

(** ** C53 *)

(** Zero stands for the documented fallback. *)
Definition nonzero_or (d k : N) : N := if k =? 0 then d else k.

(** Every setting of a new node, as a function of the options alone. *)
Theorem C53_settings : forall ncpu gen opts n, NewNode ncpu gen opts = Ok n ->
  let last {A} (f : node_option -> option A) := last_some f opts in
  n_maxDialAttempts n = or_default 3 (last (fun o => match o with WithMaxDialAttempts k => Some (nonzero_or 1 k) | _ => None end)) /\
  n_maxInbound n = or_default 128 (last (fun o => match o with WithMaxInbound k => Some (nonzero_or 128 k) | _ => None end)) /\
  n_maxOutbound n = or_default 128 (last (fun o => match o with WithMaxOutbound k => Some (nonzero_or 128 k) | _ => None end)) /\
  n_numWorkers n = or_default ncpu (last (fun o => match o with WithNumWorkers k => Some (nonzero_or 1 k) | _ => None end)) /\
  n_maxRecv n = or_default (4 * 1024 * 1024) (last (fun o => match o with WithMaxRecv k => Some k | _ => None end)) /\
  n_idleTimeout n = or_default 0%Z (last (fun o => match o with WithIdleTimeout d => Some d | _ => None end)) /\
  n_logger n = Some (or_default 0%nat (last (fun o => match o with WithLogger l => Some (or_default 0%nat l) | _ => None end))) /\
  n_host n = or_default [] (last (fun o => match o with WithBindHost h => Some h | _ => None end)) /\
  n_port n = or_default 0 (last (fun o => match o with WithBindPort p => Some p | _ => None end)) /\
  n_addr n = or_default [] (last (fun o => match o with WithAddress a => Some a | WithID id => Some (id_addr id) | _ => None end)) /\
  n_protocols n = [] /\ n_handlers n = [] /\ n_listening n = false.
Proof.
  intros ncpu gen opts n H last. subst last. unfold NewNode in H.
  set (m := fold_left apply_option opts (default_node ncpu)) in H.
  assert (F : forall A (g : node -> A) f, (forall n o, g (apply_option n o) = or_default (g n) (f o)) ->
              g m = or_default (g (default_node ncpu)) (last_some f opts))
    by (intros; apply fold_field; assumption).
  assert (L : n_logger m = or_default None (last_some (fun o => match o with WithLogger l => Some (Some (or_default 0%nat l)) | _ => None end) opts)).
  { apply (F _ n_logger). intros n' o; destruct o; try reflexivity. destruct l; reflexivity. }
  assert (L' : (match n_logger m with None => Some 0%nat | Some l => Some l end)
               = Some (or_default 0%nat (last_some (fun o => match o with WithLogger l => Some (or_default 0%nat l) | _ => None end) opts))).
  { set (f := fun o => match o with WithLogger l => Some (or_default 0%nat l) | _ => None end).
    set (g := fun o => match o with WithLogger l => Some (Some (or_default 0%nat l)) | _ => None end) in L.
    rewrite L, (last_some_map f g Some) by (intros []; reflexivity).
    destruct (last_some f opts); reflexivity. }
  assert (P : n_protocols m = [] /\ n_handlers m = [] /\ n_listening m = false).
  { unfold m. apply (fold_inv (fun n => n_protocols n = [] /\ n_handlers n = [] /\ n_listening n = false)).
    - intros n0 [] H0; exact H0.
    - repeat split. }
  pose proof (F _ n_maxDialAttempts (fun o => match o with WithMaxDialAttempts k => Some (nonzero_or 1 k) | _ => None end)
                ltac:(intros ? []; reflexivity)) as F1.
  pose proof (F _ n_maxInbound (fun o => match o with WithMaxInbound k => Some (nonzero_or 128 k) | _ => None end)
                ltac:(intros ? []; reflexivity)) as F2.
  pose proof (F _ n_maxOutbound (fun o => match o with WithMaxOutbound k => Some (nonzero_or 128 k) | _ => None end)
                ltac:(intros ? []; reflexivity)) as F3.
  pose proof (F _ n_numWorkers (fun o => match o with WithNumWorkers k => Some (nonzero_or 1 k) | _ => None end)
                ltac:(intros ? []; reflexivity)) as F4.
  pose proof (F _ n_maxRecv (fun o => match o with WithMaxRecv k => Some k | _ => None end)
                ltac:(intros ? []; reflexivity)) as F5.
  pose proof (F _ n_idleTimeout (fun o => match o with WithIdleTimeout d => Some d | _ => None end)
                ltac:(intros ? []; reflexivity)) as F6.
  pose proof (F _ n_host (fun o => match o with WithBindHost h => Some h | _ => None end)
                ltac:(intros ? []; reflexivity)) as F7.
  pose proof (F _ n_port (fun o => match o with WithBindPort p => Some p | _ => None end)
                ltac:(intros ? []; reflexivity)) as F8.
  pose proof (F _ n_addr (fun o => match o with WithAddress a => Some a | WithID id => Some (id_addr id) | _ => None end)
                ltac:(intros ? []; reflexivity)) as F9.
  clear F L. cbn [default_node n_maxDialAttempts n_maxInbound n_maxOutbound n_numWorkers n_maxRecv n_idleTimeout n_host n_port n_addr] in *.
  change (N.shiftl 4 20) with (4 * 1024 * 1024) in F5.
  set (m1 := match n_logger m with None => set_logger (Some 0%nat) m | Some _ => m end) in H.
  assert (M1 : n_maxDialAttempts m1 = n_maxDialAttempts m /\ n_maxInbound m1 = n_maxInbound m /\ n_maxOutbound m1 = n_maxOutbound m /\
    n_numWorkers m1 = n_numWorkers m /\ n_maxRecv m1 = n_maxRecv m /\ n_idleTimeout m1 = n_idleTimeout m /\
    n_logger m1 = (match n_logger m with None => Some 0%nat | Some l => Some l end) /\
    n_host m1 = n_host m /\ n_port m1 = n_port m /\ n_addr m1 = n_addr m /\ n_protocols m1 = n_protocols m /\
    n_handlers m1 = n_handlers m /\ n_listening m1 = n_listening m).
  { unfold m1. destruct (n_logger m) eqn:E; cbn; rewrite ?E; repeat split. }
  clearbody m1.
  destruct P as (P1 & P2 & P3), M1 as (A1 & A2 & A3 & A4 & A5 & A6 & A7 & A8 & A9 & A10 & A11 & A12 & A13).
  pose proof (conj (eq_trans A1 F1) (conj (eq_trans A2 F2) (conj (eq_trans A3 F3) (conj (eq_trans A4 F4) (conj (eq_trans A5 F5)
    (conj (eq_trans A6 F6) (conj (eq_trans A7 L') (conj (eq_trans A8 F7) (conj (eq_trans A9 F8) (conj (eq_trans A10 F9)
    (conj (eq_trans A11 P1) (conj (eq_trans A12 P2) (eq_trans A13 P3))))))))))))) as M1.
  destruct (bytes_eqb (n_privateKey m1) ZeroPrivateKey).
  - destruct gen as [k| |]; try discriminate. cbn [bind] in H.
    match type of H with Ok (if ?c then _ else _) = _ => destruct c end;
      assert (n = _) as -> by (injection H as H; symmetry; exact H); exact M1.
  - cbn [bind] in H.
    match type of H with Ok (if ?c then _ else _) = _ => destruct c end;
      assert (n = _) as -> by (injection H as H; symmetry; exact H); exact M1.
Qed.

(** The keys: the configured private key unless it is all zero, then the generated one. *)
Theorem C53_keys : forall ncpu gen opts n, NewNode ncpu gen opts = Ok n ->
  let given := or_default (repeat Byte.x00 64) (last_some (fun o => match o with WithPrivateKey k => Some k | _ => None end) opts) in
  (n_privateKey n = given \/ (given = repeat Byte.x00 64 /\ exists k, gen = Ok k /\ (List.length k = 64%nat -> n_privateKey n = k))) /\
  (given <> repeat Byte.x00 64 -> n_privateKey n = given) /\
  (List.length (n_privateKey n) = 64%nat -> n_publicKey n = skipn 32 (n_privateKey n)) /\
  (forall id, last_some (fun o => match o with WithID id => Some id | _ => None end) opts = Some id ->
    id_key id <> repeat Byte.x00 32 -> n_id n = id).
Proof.
  intros ncpu gen opts n H given. unfold NewNode in H.
  set (m := fold_left apply_option opts (default_node ncpu)) in H.
  assert (K : n_privateKey m = given).
  { apply (fold_field n_privateKey (fun o => match o with WithPrivateKey k => Some k | _ => None end)). intros ? []; reflexivity. }
  assert (I : n_id m = or_default ZeroID (last_some (fun o => match o with WithID id => Some id | _ => None end) opts)).
  { apply (fold_field n_id (fun o => match o with WithID id => Some id | _ => None end)). intros ? []; reflexivity. }
  set (m1 := match n_logger m with None => set_logger (Some 0%nat) m | Some _ => m end) in H.
  assert (K1 : n_privateKey m1 = given) by (unfold m1; destruct (n_logger m); exact K).
  assert (I1 : n_id m1 = n_id m) by (unfold m1; destruct (n_logger m); reflexivity).
  rewrite I in I1. clear K I. clearbody m1 m.
  assert (D : forall m2 n, Ok (if bytes_eqb (id_key (n_id m2)) ZeroPublicKey && negb (Nat.eqb (List.length (n_host m2)) 0) && (0 <? n_port m2)
                             then set_id (NewID (n_publicKey m2) (n_host m2) (n_port m2)) m2 else m2) = Ok n ->
                    n_privateKey n = n_privateKey m2 /\ n_publicKey n = n_publicKey m2 /\
                    (id_key (n_id m2) <> ZeroPublicKey -> n_id n = n_id m2)).
  { clear. intros m2 n E. destruct (bytes_eqb (id_key (n_id m2)) ZeroPublicKey) eqn:Z.
    - apply bytes_eqb_eq in Z. cbn [andb] in E.
      destruct (negb _ && _); assert (n = _) as -> by (injection E as E; symmetry; exact E); (split; [reflexivity|]; split; [reflexivity|]; intros N; exfalso; exact (N Z)).
    - cbn [andb] in E. assert (n = _) as -> by (injection E as E; symmetry; exact E). repeat split. }
  rewrite K1 in H.
  destruct (bytes_eqb given ZeroPrivateKey) eqn:Z.
  - apply bytes_eqb_eq in Z. destruct gen as [k| |]; try discriminate. cbn [bind] in H. apply D in H as (D1 & D2 & D3). cbn [n_privateKey n_publicKey n_id set_priv set_pub] in D1, D2, D3.
    split; [right; split; [exact Z|]; exists k; split; [reflexivity|]; intros Lk; rewrite D1; apply go_copy_full; rewrite Lk; reflexivity|].
    split; [intros N; exfalso; apply N; exact Z|]. split; [intros L64; rewrite D2; unfold Public; rewrite <- D1; apply go_copy_full; rewrite skipn_length, L64; reflexivity|].
    intros id E N. rewrite I1, E in D3. apply D3. exact N.
  - cbn [bind] in H. apply D in H as (D1 & D2 & D3). cbn [n_privateKey n_publicKey n_id set_priv set_pub] in D1, D2, D3. rewrite K1 in D1.
    split; [left; exact D1|]. split; [intros _; exact D1|]. split; [intros L64; rewrite D2; unfold Public; rewrite K1, <- D1; apply go_copy_full; rewrite skipn_length, L64; reflexivity|].
    intros id E N. rewrite I1, E in D3. apply D3. exact N.
Qed.

(** NewNode fails only when key generation does. *)
Theorem C53_total : forall ncpu gen opts,
  (exists n, NewNode ncpu gen opts = Ok n) \/ (forall k, gen <> Ok k).
Proof.
  intros ncpu gen opts. unfold NewNode. cbv zeta.
  match goal with |- context [bytes_eqb ?a ZeroPrivateKey] => destruct (bytes_eqb a ZeroPrivateKey) end.
  - destruct gen as [k|e|]; [left; eexists; reflexivity | right; discriminate | right; discriminate].
  - left. eexists. reflexivity.
Qed.

Theorem C53_at_least_one : forall ncpu gen opts n, NewNode ncpu gen opts = Ok n -> 1 <= ncpu ->
  1 <= n_maxDialAttempts n /\ 1 <= n_maxInbound n /\ 1 <= n_maxOutbound n /\ 1 <= n_numWorkers n.
Proof.
  intros ncpu gen opts n H C. destruct (C53_settings ncpu gen opts n H) as (A & B & D & E & _). cbv zeta in *.
  assert (X : forall d f, 1 <= d -> (forall o k, f o = Some k -> 1 <= k) -> 1 <= or_default d (last_some f opts)).
  { clear. intros d f Hd Hf. induction opts as [|o os IH]; [exact Hd|]. cbn. destruct (last_some f os) as [v|] eqn:E; [exact IH|].
    destruct (f o) eqn:Eo; [|exact Hd]. cbn. eapply Hf; eassumption. }
  rewrite A, B, D, E.
  assert (Z : forall d k, 1 <= d -> 1 <= nonzero_or d k) by (intros d k Hd; unfold nonzero_or; destruct (N.eqb_spec k 0); lia).
  repeat split; apply X; try lia; intros [] v Hv; try discriminate; injection Hv as <-; apply Z; lia.
Qed.

(** Settings touched by an option, by name. *)
Definition settings (o : node_option) : list string :=
  match o with
  | WithMaxDialAttempts _ => ["dial attempts"] | WithMaxInbound _ => ["inbound"] | WithMaxOutbound _ => ["outbound"]
  | WithMaxRecv _ => ["receive size"] | WithNumWorkers _ => ["workers"] | WithIdleTimeout _ => ["idle timeout"]
  | WithLogger _ => ["logger"] | WithID _ => ["id"; "address"] | WithPrivateKey _ => ["private key"]
  | WithBindHost _ => ["host"] | WithBindPort _ => ["port"] | WithAddress _ => ["address"]
  end%string.

Theorem C53_order_irrelevant : forall ncpu gen before after o1 o2,
  (forall x, In x (settings o1) -> ~ In x (settings o2)) ->
  NewNode ncpu gen (before ++ o1 :: o2 :: after) = NewNode ncpu gen (before ++ o2 :: o1 :: after).
Proof.
  intros ncpu gen before after o1 o2 H. unfold NewNode. rewrite !fold_left_app. cbn [fold_left].
  rewrite (apply_commute _ o1 o2); [reflexivity|].
  intros x A B. destruct o1, o2; cbn in A, B; repeat destruct A as [<-|A]; try tauto; repeat destruct B as [B|B]; try discriminate; try tauto;
    (eapply H; [left; reflexivity | left; reflexivity]) || (eapply H; [left; reflexivity | right; left; reflexivity])
    || (eapply H; [right; left; reflexivity | left; reflexivity]) || (eapply H; [right; left; reflexivity | right; left; reflexivity]).
Qed.

Example C53_nonvacuous :
  let opts := [WithMaxInbound 3; WithNumWorkers 0; WithMaxInbound 0; WithPrivateKey (repeat Byte.x01 64); WithBindPort 9000] in
  exists n, NewNode 8 (Err ErrOther) opts = Ok n /\ n_maxInbound n = 128 /\ n_numWorkers n = 1 /\ n_maxDialAttempts n = 3 /\ n_port n = 9000.
Proof. eexists. split; [vm_compute; reflexivity|]. repeat split. Qed.

(** ** C54 *)

Definition second : Z := 1000000000%Z.

(** As the documentation of WithNodeIdleTimeout has it ("By default, ... 3 seconds"). *)
Definition C54_statement : Prop := forall ncpu gen opts n,
  (forall d, ~ In (WithIdleTimeout d) opts) -> NewNode ncpu gen opts = Ok n -> n_idleTimeout n = (3 * second)%Z.

(** The timeout of such a node is always 0, which disables it. *)
Theorem C54_default_is_disabled : forall ncpu gen opts n,
  (forall d, ~ In (WithIdleTimeout d) opts) -> NewNode ncpu gen opts = Ok n -> n_idleTimeout n = 0%Z.
Proof.
  intros ncpu gen opts n H E. destruct (C53_settings ncpu gen opts n E) as (_ & _ & _ & _ & _ & T & _). rewrite T.
  clear T E. induction opts as [|o os IH]; [reflexivity|]. cbn.
  destruct (last_some _ os) eqn:L.
  - apply IH. intros d Hd. apply (H d). right. exact Hd.
  - destruct o; try reflexivity. exfalso. apply (H d). left. reflexivity.
Qed.

Theorem C54_refuted : ~ C54_statement.
Proof.
  intros H. specialize (H 1 (Ok (repeat Byte.x01 64)) []).
  assert (E : exists n, NewNode 1 (Ok (repeat Byte.x01 64)) [] = Ok n) by (eexists; vm_compute; reflexivity).
  destruct E as [n E]. pose proof (H n (fun d A => A) E) as A.
  pose proof (C54_default_is_disabled 1 (Ok (repeat Byte.x01 64)) [] n (fun d A => A) E) as B. rewrite B in A. discriminate.
Qed.

(** ** C55 *)

(** What a history registers: the arguments of the calls made while the flag was down. *)
Fixpoint registered (f : api_call -> list nat) (listening : bool) (h : list hist_event) : list nat :=
  match h with
  | [] => []
  | HFlag b :: h' => registered f b h'
  | HCall c :: h' => (if listening then [] else f c) ++ registered f listening h'
  end.
Definition bind_args (c : api_call) : list nat := match c with CallBind ps => ps | CallHandle _ => [] end.
Definition handle_args (c : api_call) : list nat := match c with CallHandle hs => hs | CallBind _ => [] end.

Theorem C55_registration_order : forall h n,
  n_protocols (fold_left hist_step h n) = n_protocols n ++ registered bind_args (n_listening n) h /\
  n_handlers (fold_left hist_step h n) = n_handlers n ++ registered handle_args (n_listening n) h.
Proof.
  induction h as [|e h IH]; intros n; cbn [fold_left registered].
  - rewrite !app_nil_r. auto.
  - destruct (IH (hist_step n e)) as [-> ->]. destruct e as [c|b]; cbn [hist_step].
    + unfold api_step, node_bind, node_handle. destruct c, (n_listening n) eqn:L; cbn; rewrite ?L, ?app_assoc, ?app_nil_r; auto.
    + auto.
Qed.

Theorem C55_frozen_while_listening : forall cs n, n_listening n = true -> fold_left api_step cs n = n.
Proof.
  induction cs as [|c cs IH]; intros n L; [reflexivity|]. cbn [fold_left].
  assert (api_step n c = n) as -> by (destruct c; cbn; unfold node_bind, node_handle; rewrite L; reflexivity). apply IH, L.
Qed.

Example C55_nonvacuous :
  let n := default_node 4 in
  n_protocols (fold_left hist_step [HCall (CallBind [1%nat]); HCall (CallHandle [7%nat]); HCall (CallBind [2%nat]); HFlag true; HCall (CallBind [3%nat])] n)
  = [1%nat; 2%nat].
Proof. reflexivity. Qed.

(** ** C57 *)

(** Bound address announced when no public address is configured. *)
Theorem C57_bound_address : forall env n, n_listening n = false -> n_addr n = [] -> lr_err (Listen env n) = None ->
  exists host port, e_listen env (join_host_port (normalize_ip (n_host n)) (itoa (n_port n))) = Ok (Some (host, port)) /\
    let n' := lr_node (Listen env n) in
    n_id n' = mkID (n_publicKey n) host (port mod 65536) (n_addr n') /\
    n_addr n' = join_host_port (normalize_ip host) (itoa (port mod 65536)) /\ n_publicKey n' = n_publicKey n.
Proof.
  intros env n L A. unfold Listen. rewrite L.
  destruct (e_listen env _) as [[[host port]|]| |]; try discriminate.
  destruct (listen_id env _) as [n2| |] eqn:E; try discriminate.
  unfold listen_id in E. cbn [n_addr set_port set_host] in E. rewrite A in E.
  assert (n2 = _) as -> by (injection E as E; symmetry; exact E). clear E.
  match goal with |- context [bind_all ?cb ?ps ?n] => pose proof (bind_all_frame cb ps n) as F; destruct (bind_all cb ps n) as [n3 [e|]] end;
    [discriminate|]. intros _. exists host, port. split; [reflexivity|]. cbn in F |- *.
  destruct F as (F1 & F2 & F3 & _). rewrite F1, F2, F3. repeat split.
Qed.

(** Configured address: with a resolver that understands it, the ID announces exactly that host and port. *)
Theorem C57_configured_address : forall env n i p,
  n_listening n = false -> n_addr n <> [] -> e_resolve env (n_addr n) = Ok (i, p) -> p < 65536 ->
  (List.length i = 4%nat \/ List.length i = 16%nat) -> is_loopback i = false -> is_unspecified i = false ->
  lr_err (Listen env n) = None ->
  let n' := lr_node (Listen env n) in
  n_id n' = mkID (n_publicKey n) (to16 i) p (join_host_port (ip_string i) (itoa p)) /\ n_addr n' = n_addr n /\
  n_publicKey n' = n_publicKey n.
Proof.
  intros env n i p L A R P Li Lo Un. pose proof (parse_ip_string i Li) as Pi. unfold Listen. rewrite L.
  destruct (e_listen env _) as [[[host port]|]| |]; try discriminate.
  rewrite (listen_id_addr env (set_port (port mod 65536) (set_host host n)) i p A R).
  assert (resolve_ip i = i) as -> by (unfold resolve_ip; rewrite Lo, Un; reflexivity).
  assert (Ni : i <> []) by (intros ->; destruct Li; discriminate).
  replace (match i with [] => [] | _ => ip_string i end) with (ip_string i) by (destruct i; [congruence | reflexivity]).
  rewrite Pi, parse_uint16_itoa by exact P.
  match goal with |- context [bind_all ?cb ?ps ?n] => pose proof (bind_all_frame cb ps n) as F; destruct (bind_all cb ps n) as [n3 [e|]] end;
    [discriminate|]. intros _. cbn in F |- *. destruct F as (F1 & F2 & F3 & _). rewrite F1, F2, F3.
  split; [|auto]. unfold NewID. f_equal. f_equal. destruct (to16_same i Li) as (T1 & T2 & T3).
  rewrite normalize_ip_public, T3; [reflexivity| |congruence|congruence].
  unfold to16. destruct (Nat.eqb _ _); [discriminate | exact Ni].
Qed.

(** In every case of success, the ID carries the node's own key. *)
Theorem C57_own_key : forall env n, lr_err (Listen env n) = None -> id_key (n_id (lr_node (Listen env n))) = n_publicKey n.
Proof.
  intros env n. unfold Listen. destruct (n_listening n); [discriminate|].
  destruct (e_listen env _) as [[[host port]|]| |]; try discriminate.
  destruct (listen_id env _) as [n2| |] eqn:E; try discriminate. apply listen_id_frame in E as (_ & _ & _ & _ & E).
  pose proof (bind_all_frame (e_bind_cb env) (n_protocols n2) n2) as F.
  destruct (bind_all _ _ _) as [n3 [e|]]; [discriminate|]. intros _. cbn in *. destruct F as (-> & _). exact E.
Qed.

(** A failed Listen leaves no listener of its own behind and starts no goroutine. *)
Theorem C57_failure_closes : forall env n e, (forall a, e_resolve env a <> Panic) ->
  lr_err (Listen env n) = Some e -> lr_listener_open (Listen env n) = false /\ lr_started (Listen env n) = false.
Proof.
  intros env n e R. unfold Listen. destruct (n_listening n); [auto|].
  destruct (e_listen env _) as [[[host port]|]| |]; cbn; auto.
  pose proof (listen_id_total env (set_port (port mod 65536) (set_host host n)) R).
  destruct (listen_id env _) as [n2| |]; cbn; auto; [|congruence].
  destruct (bind_all _ _ _) as [n3 [e'|]]; cbn; auto. discriminate.
Qed.

(** It succeeds whenever the socket can be bound, the address is resolvable and routable, and no callback objects. *)
Theorem C57_succeeds : forall env n host port,
  n_listening n = false ->
  e_listen env (join_host_port (normalize_ip (n_host n)) (itoa (n_port n))) = Ok (Some (host, port)) ->
  (n_addr n = [] \/ exists i p, e_resolve env (n_addr n) = Ok (i, p) /\ p < 65536 /\ (List.length i = 4%nat \/ List.length i = 16%nat) /\
     is_loopback i = false /\ is_unspecified i = false) ->
  (forall q cs e, In q (n_protocols n) -> e_bind_cb env q = Some (cs, e) -> e = None) ->
  lr_err (Listen env n) = None /\ lr_listener_open (Listen env n) = true /\ lr_started (Listen env n) = true.
Proof.
  intros env n host port L E A B. unfold Listen. rewrite L, E.
  assert (I : exists n2, listen_id env (set_port (port mod 65536) (set_host host n)) = Ok n2).
  { destruct (n_addr n) as [|c a] eqn:Ea.
    - unfold listen_id. cbn [n_addr set_port set_host]. rewrite Ea. eexists. reflexivity.
    - destruct A as [A|(i & p & R & P & Li & Lo & Un)]; [discriminate|]. pose proof (parse_ip_string i Li) as Pi.
      rewrite (listen_id_addr env (set_port (port mod 65536) (set_host host n)) i p) by (cbn; rewrite Ea; first [discriminate | exact R]).
      assert (resolve_ip i = i) as -> by (unfold resolve_ip; rewrite Lo, Un; reflexivity).
      replace (match i with [] => [] | _ => ip_string i end) with (ip_string i)
        by (destruct i; [destruct Li; discriminate | reflexivity]).
      rewrite Pi, parse_uint16_itoa by exact P. eexists. reflexivity. }
  destruct I as [n2 I]. rewrite I. apply listen_id_frame in I as (_ & I & _). cbn in I.
  pose proof (bind_all_ok (e_bind_cb env) (n_protocols n2)) as O. rewrite I in O.
  specialize (O B n2). rewrite I. destruct (bind_all _ _ _) as [n3 [e|]]; cbn in *; [discriminate | auto].
Qed.

Definition ex_env : listen_env :=
  mkEnv (fun _ => Ok (Some (to16 (map n2b [192; 168; 1; 9]), 9000)))
        (fun a => if bytes_eqb a (text "node.example:80") then Ok (map n2b [10; 1; 2; 3], 80) else Err ErrOther)
        (fun p => Some ([CallHandle [p]], None)).
Definition ex_node (a : bytes) : node := fold_left apply_option [WithAddress a] (default_node 4).

Example C57_nonvacuous :
  let n := node_bind [5%nat] (ex_node (text "node.example:80")) in
  lr_err (Listen ex_env n) = None /\ n_handlers (lr_node (Listen ex_env n)) = [5%nat] /\
  id_addr (n_id (lr_node (Listen ex_env n))) = text "10.1.2.3:80" /\
  is_loopback (map n2b [10; 1; 2; 3]) = false /\ is_unspecified (map n2b [10; 1; 2; 3]) = false /\
  id_addr (n_id (lr_node (Listen ex_env (ex_node [])))) = text "192.168.1.9:9000" /\
  lr_err (Listen ex_env (ex_node (text "other:80"))) = Some ErrOther.
Proof. vm_compute. repeat split. Qed.

(** ** C58 *)

Definition C58_statement : Prop := forall env n i p host port,
  n_listening n = false -> n_addr n <> [] -> e_resolve env (n_addr n) = Ok (i, p) -> p < 65536 ->
  (List.length i = 4%nat \/ List.length i = 16%nat) -> is_loopback i = true \/ is_unspecified i = true ->
  e_listen env (join_host_port (normalize_ip (n_host n)) (itoa (n_port n))) = Ok (Some (host, port)) ->
  (forall q cs e, In q (n_protocols n) -> e_bind_cb env q = Some (cs, e) -> e = None) ->
  lr_err (Listen env n) = None.

(** No such configuration ever works, whatever the rest of the world does. *)
Theorem C58_never_usable : forall env n i p,
  n_addr n <> [] -> e_resolve env (n_addr n) = Ok (i, p) -> i = [] \/ is_loopback i = true \/ is_unspecified i = true ->
  lr_err (Listen env n) <> None.
Proof.
  intros env n i p A R U. unfold Listen. destruct (n_listening n); [discriminate|].
  destruct (e_listen env _) as [[[host port]|]| |]; try discriminate.
  rewrite (listen_id_addr env (set_port (port mod 65536) (set_host host n)) i p A R).
  assert (resolve_ip i = []) as -> by (unfold resolve_ip; destruct U as [-> | [-> | ->]]; rewrite ?orb_true_r; reflexivity).
  discriminate.
Qed.

Definition loop_env : listen_env :=
  mkEnv (fun _ => Ok (Some (to16 (map n2b [127; 0; 0; 1]), 9000)))
        (fun a => Ok (map n2b [127; 0; 0; 1], 9000))
        (fun p => None).

Theorem C58_refuted : ~ C58_statement.
Proof.
  intros H.
  refine (C58_never_usable loop_env (ex_node (text "127.0.0.1:9000")) (map n2b [127; 0; 0; 1]) 9000 _ eq_refl (or_intror (or_introl eq_refl)) _);
    [discriminate|].
  apply (H loop_env _ (map n2b [127; 0; 0; 1]) 9000 (to16 (map n2b [127; 0; 0; 1])) 9000); try reflexivity; try discriminate; auto;
    try (left; reflexivity).
Qed.

(** ** C61: calls to Bind that overlap *)

Definition bind_start (l : bool) (ps : list nat) (args : list (list nat)) : bind_state :=
  mkBS l ps (map (fun a => (a, BStart)) args).
Definition all_returned (s : bind_state) : Prop := forall a pc, In (a, pc) (bs_calls s) -> pc = BDone.

(** "Bind may be called concurrently": whatever the interleaving, the protocols of every call are registered. *)
Definition C61_statement : Prop := forall ps args sched,
  let s := fold_left bind_step sched (bind_start false ps args) in
  all_returned s -> forall a p, In a args -> In p a -> In p (bs_protocols s).

Theorem C61_refuted : ~ C61_statement.
Proof.
  intros H. specialize (H [] [[1%nat]; [2%nat]] [0; 1; 0; 1; 0; 1]%nat). cbn in H.
  specialize (H ltac:(intros a pc [E|[E|[]]]; injection E as <- <-; reflexivity) [1%nat] 1%nat (or_introl eq_refl) (or_introl eq_refl)).
  destruct H as [H|[]]. discriminate.
Qed.

(** Calls that do not overlap are all registered, in order. *)
Theorem C61_sequential_partial : forall args ps,
  bs_protocols (fold_left bind_step (List.concat (map (fun i => [i; i; i]) (seq 0 (List.length args)))) (bind_start false ps args))
  = ps ++ List.concat args.
Proof.
  intros args ps.
  assert (G : forall args done ps, bs_protocols (fold_left bind_step (List.concat (map (fun i => [i; i; i]) (seq (List.length done) (List.length args))))
               (mkBS false ps (done ++ map (fun a => (a, BStart)) args))) = ps ++ List.concat args).
  { clear. induction args as [|a args IH]; intros done ps; [cbn; rewrite app_nil_r; reflexivity|].
    cbn [List.length seq map List.concat app fold_left].
    assert (SN : forall (x y : list nat * bind_pc) l, set_nth (List.length done) y (done ++ x :: l) = done ++ y :: l).
    { clear. intros. induction done; cbn; congruence. }
    assert (NE : forall (x : list nat * bind_pc) l, nth_error (done ++ x :: l) (List.length done) = Some x).
    { clear. intros. induction done; cbn; auto. }
    unfold bind_step at 4. cbn [bs_calls bs_listening bs_protocols]. rewrite NE, SN.
    unfold bind_step at 3. cbn [bs_calls bs_listening bs_protocols]. rewrite NE, SN.
    unfold bind_step at 2. cbn [bs_calls bs_listening bs_protocols]. rewrite NE, SN.
    specialize (IH (done ++ [(a, BDone)]) (ps ++ a)). rewrite app_length, Nat.add_1_r in IH.
    rewrite <- app_assoc in IH. cbn [app] in IH. rewrite IH, <- app_assoc. reflexivity. }
  apply (G args [] ps).
Qed.

(** Nothing is registered once the flag is up, and nothing that no call asked for ever is. *)
Theorem C61_only_requested_partial : forall sched l ps args,
  let s := fold_left bind_step sched (bind_start l ps args) in
  (forall p, In p (bs_protocols s) -> In p ps \/ exists a, In a args /\ In p a) /\ (l = true -> bs_protocols s = ps).
Proof.
  intros sched l ps args.
  set (J := fun s : bind_state => bs_listening s = l /\ map fst (bs_calls s) = args /\
    (forall p, In p (bs_protocols s) -> In p ps \/ exists a, In a args /\ In p a) /\
    (forall a l' p, In (a, BAppended l') (bs_calls s) -> In p l' -> In p ps \/ exists a, In a args /\ In p a) /\
    (l = true -> bs_protocols s = ps /\ forall a pc, In (a, pc) (bs_calls s) -> pc = BStart \/ pc = BDone)).
  assert (SN : forall (x : list nat * bind_pc) i c, In x (set_nth i c (A := list nat * bind_pc) []) -> False) by (intros ? []; auto).
  assert (IN : forall i (c x : list nat * bind_pc) cs, In x (set_nth i c cs) -> x = c \/ In x cs).
  { clear. intros i c x cs. revert i. induction cs as [|y cs IH]; intros [|i] H; cbn in *; auto.
    - destruct H; auto.
    - destruct H as [H|H]; auto. destruct (IH i H); auto. }
  assert (MF : forall i ps0 pc pc' (cs : list (list nat * bind_pc)), nth_error cs i = Some (ps0, pc) -> map fst (set_nth i (ps0, pc') cs) = map fst cs).
  { clear. intros i ps0 pc pc' cs. revert i. induction cs as [|y cs IH]; intros [|i] H; cbn in *; try discriminate.
    - injection H as ->. reflexivity.
    - f_equal. apply IH, H. }
  assert (Jstep : forall s i, J s -> J (bind_step s i)).
  { intros s i (J1 & J2 & J3 & J4 & J5). unfold bind_step.
    destruct (nth_error (bs_calls s) i) as [[a pc]|] eqn:E; [|exact (conj J1 (conj J2 (conj J3 (conj J4 J5))))].
    pose proof (nth_error_In _ _ E) as Hin.
    assert (Ha : In a args) by (rewrite <- J2; apply (in_map fst _ _ Hin)).
    destruct pc; unfold J; cbn [bs_listening bs_calls bs_protocols].
    - split; [exact J1|]. split; [erewrite MF by exact E; exact J2|]. split; [exact J3|]. split.
      + intros a' l' p H. apply IN in H as [H|H]; [destruct (bs_listening s); discriminate | eauto].
      + intros T. split; [apply J5, T|]. intros a' pc' H. apply IN in H as [H|H]; [|apply J5 in H; auto].
        rewrite J1, T in H. injection H as _ ->. auto.
    - split; [exact J1|]. split; [erewrite MF by exact E; exact J2|]. split; [exact J3|]. split.
      + intros a' l' p H Hp. apply IN in H as [H|H]; [|eauto]. injection H as -> ->.
        apply in_app_or in Hp as [Hp|Hp]; [auto | right; eauto].
      + intros T. exfalso. destruct (proj2 (J5 T) a BLoaded Hin); discriminate.
    - split; [exact J1|]. split; [erewrite MF by exact E; exact J2|]. split; [intros p Hp; eapply J4; eauto|]. split.
      + intros a' l' p H Hp. apply IN in H as [H|H]; [discriminate | eauto].
      + intros T. exfalso. destruct (proj2 (J5 T) a _ Hin); discriminate.
    - exact (conj J1 (conj J2 (conj J3 (conj J4 J5)))). }
  assert (J0 : J (bind_start l ps args)).
  { unfold J, bind_start. cbn. split; [reflexivity|]. split; [rewrite map_map; apply map_id|]. split; [auto|]. split.
    - intros a l' p H. apply in_map_iff in H as (x & H & _). discriminate.
    - intros _. split; [reflexivity|]. intros a pc H. apply in_map_iff in H as (x & H & _). injection H as _ <-. auto. }
  assert (JJ : forall sched s, J s -> J (fold_left bind_step sched s)) by (intros sc; induction sc; cbn; auto).
  destruct (JJ sched _ J0) as (_ & _ & A & _ & B). split; [exact A|]. intros T. apply B, T.
Qed.

Example C61_nonvacuous :
  bs_protocols (fold_left bind_step [1; 0; 1; 0; 1; 0]%nat (bind_start false [9%nat] [[1%nat]; [2%nat]])) = [9%nat; 1%nat] /\
  bs_protocols (fold_left bind_step [0; 0; 0; 1; 1; 1]%nat (bind_start false [9%nat] [[1%nat]; [2%nat]])) = [9%nat; 1%nat; 2%nat].
Proof. split; reflexivity. Qed.

(** ** C62: Bind after Listen *)

(** "If the node is already listening, Bind silently returns and does nothing": after Listen returned nil. *)
Definition C62_statement : Prop := forall env n c,
  lr_err (Listen env n) = None -> api_step (lr_node (Listen env n)) c = lr_node (Listen env n).

(** The flag is raised by a goroutine Listen starts; when Listen returns it is still down, so calls still register. *)
Theorem C62_flag_down_on_return : forall env n, lr_err (Listen env n) = None ->
  n_listening (lr_node (Listen env n)) = false /\ lr_started (Listen env n) = true.
Proof.
  intros env n. unfold Listen. destruct (n_listening n) eqn:L; [discriminate|].
  destruct (e_listen env _) as [[[host port]|]| |]; try discriminate.
  destruct (listen_id env _) as [n2| |] eqn:E; try discriminate. apply listen_id_frame in E as (_ & _ & _ & E & _).
  pose proof (bind_all_frame (e_bind_cb env) (n_protocols n2) n2) as F.
  destruct (bind_all _ _ _) as [n3 [e|]]; [discriminate|]. intros _. cbn in *. split; [|reflexivity].
  destruct F as (_ & _ & _ & _ & _ & ->). rewrite E. exact L.
Qed.

Theorem C62_refuted : ~ C62_statement.
Proof.
  intros H. specialize (H ex_env (ex_node []) (CallBind [3%nat]) ltac:(vm_compute; reflexivity)).
  apply (f_equal n_protocols) in H. vm_compute in H. discriminate.
Qed.

(** From the moment the goroutine raised the flag until it lowers it again, calls have no effect. *)
Theorem C62_partial : forall env n cs, lr_err (Listen env n) = None ->
  let n' := hist_step (lr_node (Listen env n)) (HFlag true) in
  fold_left hist_step (map HCall cs) n' = n'.
Proof.
  intros env n cs _ n'. assert (L : n_listening n' = true) by reflexivity. clearbody n'.
  rewrite <- (C55_frozen_while_listening cs n' L) at 2. clear L. revert n'. induction cs as [|c cs IH]; intros n'; cbn; auto.
Qed.

Print Assumptions C53_settings.
Print Assumptions C53_keys.
Print Assumptions C53_total.
Print Assumptions C53_at_least_one.
Print Assumptions C53_order_irrelevant.
Print Assumptions C54_default_is_disabled.
Print Assumptions C54_refuted.
Print Assumptions C55_registration_order.
Print Assumptions C55_frozen_while_listening.
Print Assumptions C57_bound_address.
Print Assumptions C57_configured_address.
Print Assumptions C57_own_key.
Print Assumptions C57_failure_closes.
Print Assumptions C57_succeeds.
Print Assumptions C58_never_usable.
Print Assumptions C58_refuted.
Print Assumptions C61_refuted.
Print Assumptions C61_sequential_partial.
Print Assumptions C61_only_requested_partial.
Print Assumptions C62_flag_down_on_return.
Print Assumptions C62_refuted.
Print Assumptions C62_partial.
