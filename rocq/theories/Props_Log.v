(** * C83: what the log gives away. *)
From Verif Require Import Base M_Addr M_ID M_Msg M_AEAD M_Frame M_Handshake M_Log P_Keys Props_Handshake.
From Coq Require Import Strings.Byte Strings.String.
Import List.ListNotations.
Local Open Scope list_scope.
Local Open Scope nat_scope.

(** Somebody who has a node's log and a recording of what it received, but no key: they take the session key from the log, and
    read the recording with it. *)
Definition logged_key (log : list entry) : option bytes :=
  match find (fun f => bytes_eqb (fst f) (str "session_key"%string)) (flat_map en_fields log) with Some (_, v) => Some v | None => None end.
Definition eavesdrop (C : crypto) (L : N) (fuel : nat) (log : list entry) (wire : conn) : option (list message * res unit) :=
  match logged_key log with
  | None => None
  | Some hex =>
      match hex_decode hex with
      | Ok key =>
          match gcm C key with
          | Ok suite =>
              let (st1, _) := client_read L None (new_rstate L wire) in
              let (st2, _) := client_read L (Some suite) st1 in
              recv_all fuel L (Some suite) st2
          | _ => None
          end
      | _ => None
      end
  end.

(** C83 in full: whatever one does with log and recording alone, there is a session whose messages one does not obtain that way. *)
Definition C83_statement (C : crypto) (L : N) : Prop := forall (eve : nat -> list entry -> conn -> option (list message * res unit)),
  exists e base remote quiet (outb : bool) fuel c id r,
    (if outb then outbound_recv C L e fuel c else inbound_recv C L e fuel c) = (Ok id, r) /\
    find (fun f => bytes_eqb (fst f) (str "session_key"%string)) base = None /\
    eve fuel (conn_log C L e base remote quiet outb fuel c) c <> r.

Lemma session_key_ok C L e st id : hr_peer (handshake C L e st) = Ok id ->
  exists key suite st1 r1 st2 r2, session_key C L e st = Ok key /\ gcm C key = Ok suite /\ client_read L None st = (st1, r1) /\
    client_read L (Some suite) st1 = (st2, r2) /\ hr_suite (handshake C L e st) = Some suite /\ hr_rd (handshake C L e st) = st2.
Proof.
  unfold handshake, session_key. intros H. destruct (he_eph e) as [[pub sec]| |]; cbn [bind]; try discriminate.
  destruct (he_w1 e); [discriminate|]. destruct (client_read L None st) as [st1 r1]. cbn [snd]. destruct r1 as [data| |]; cbn [bind] in *; try discriminate.
  destruct (hs_open C data) as [pk| |]; cbn [bind] in *; try discriminate.
  destruct (ecdh C sec pk) as [shared| |]; cbn [bind] in *; try discriminate.
  destruct (gcm C shared) as [suite| |] eqn:G; cbn [bind] in *; try discriminate.
  destruct (he_w2 e); [discriminate|]. destruct (client_read L (Some suite) st1) as [st2 r2] eqn:R2. cbn [hr_suite hr_rd] in *.
  exists shared, suite, st1, (Ok data), st2, r2. auto 9.
Qed.

Lemma find_app {A} (f : A -> bool) l1 l2 : find f l1 = None -> find f (l1 ++ l2) = find f l2.
Proof. induction l1 as [|x l1 IH]; [reflexivity|]. cbn. destruct (f x); [discriminate | apply IH]. Qed.

(** C83 is false: the log of every session that completes its handshake, together with the bytes received, yields every message
    that the node received in it. *)
Theorem C83_eavesdrop : forall C L e base remote quiet (outb : bool) fuel c id r,
  (if outb then outbound_recv C L e fuel c else inbound_recv C L e fuel c) = (Ok id, r) ->
  find (fun f => bytes_eqb (fst f) (str "session_key"%string)) base = None ->
  eavesdrop C L fuel (conn_log C L e base remote quiet outb fuel c) c = r.
Proof.
  intros C L e base remote quiet outb fuel c id r H NB. unfold eavesdrop.
  assert (HP : hr_peer (handshake C L e (new_rstate L c)) = Ok id) by (destruct outb; injection H as H1 H2; exact H1).
  destruct (session_key_ok C L e (new_rstate L c) id HP) as (key & suite & st1 & r1 & st2 & r2 & K & G & R1 & R2 & S1 & S2).
  assert (F : client_fields C L e base remote (new_rstate L c) = base ++ session_fields id remote key) by (unfold client_fields; rewrite HP, K; reflexivity).
  assert (LK : logged_key (conn_log C L e base remote quiet outb fuel c) = Some (hex_encode key)).
  { unfold conn_log. rewrite F, H. unfold logged_key. cbn [app flat_map en_fields]. rewrite <- app_assoc, find_app by exact NB. reflexivity. }
  rewrite LK, hex_decode_encode, G, R1, R2. unfold outbound_recv, inbound_recv in H. rewrite HP, S1, S2 in H. destruct outb; injection H as H2; exact H2.
Qed.

Theorem C83_refuted : forall C L, ~ C83_statement C L.
Proof.
  intros C L X. destruct (X (eavesdrop C L)) as (e & base & remote & quiet & outb & fuel & c & id & r & H & NB & Q).
  apply Q. exact (C83_eavesdrop _ _ _ _ _ _ _ _ _ _ _ H NB).
Qed.

(** C83, as far as it holds: the log depends on who the peer is, the session key and how the connection ended, and on nothing else:
    not on the node's long-term key, the ephemeral keys beyond the session key, or the messages. *)
Theorem C83_partial : forall C C' L L' e e' base remote quiet (outb : bool) fuel fuel' c c' peer ms ms' er,
  (if outb then outbound_recv C L e fuel c else inbound_recv C L e fuel c) = (peer, Some (ms, Err er)) ->
  (if outb then outbound_recv C' L' e' fuel' c' else inbound_recv C' L' e' fuel' c') = (peer, Some (ms', Err er)) ->
  session_key C L e (new_rstate L c) = session_key C' L' e' (new_rstate L' c') ->
  conn_log C L e base remote quiet outb fuel c = conn_log C' L' e' base remote quiet outb fuel' c'.
Proof.
  intros C C' L L' e e' base remote quiet outb fuel fuel' c c' peer ms ms' er H H' K. unfold conn_log, client_fields. rewrite H, H', K.
  assert (hr_peer (handshake C L e (new_rstate L c)) = peer) as -> by (destruct outb; injection H as H1 H2; exact H1).
  assert (hr_peer (handshake C' L' e' (new_rstate L' c')) = peer) as -> by (destruct outb; injection H' as H1 H2; exact H1).
  reflexivity.
Qed.
(** A connection whose handshake failed logs none of these fields; nor does one that ends quietly, if the logger drops debug entries. *)
Theorem C83_failed_partial : forall C L e base remote quiet (outb : bool) fuel c peer r,
  (if outb then outbound_recv C L e fuel c else inbound_recv C L e fuel c) = (peer, r) -> (forall id, peer <> Ok id) ->
  Forall (fun x => en_fields x = base) (conn_log C L e base remote quiet outb fuel c).
Proof.
  intros C L e base remote quiet outb fuel c peer r H N. unfold conn_log, client_fields. rewrite H.
  assert (HP : hr_peer (handshake C L e (new_rstate L c)) = peer) by (destruct outb; injection H as H1 H2; exact H1). rewrite HP.
  destruct peer as [id| |]; [destruct (N id eq_refl)|..]; cbn [app]; apply Forall_app; split.
  all: destruct r as [[ms [x|er|]]|]; try (destruct outb; repeat constructor; fail); destruct outb, (quiet er); repeat constructor.
Qed.
Theorem C83_quiet_partial : forall C L e base remote quiet (outb : bool) fuel c peer ms er,
  (if outb then outbound_recv C L e fuel c else inbound_recv C L e fuel c) = (peer, Some (ms, Err er)) -> quiet er = true ->
  filter (at_least Warn) (conn_log C L e base remote quiet outb fuel c) = [].
Proof.
  intros C L e base remote quiet outb fuel c peer ms er H Q. unfold conn_log. rewrite H, Q, orb_true_r. destruct outb, peer; reflexivity.
Qed.

(** Not vacuous: a session of two real endpoints; a message is received, and read off the log and the wire. *)
Definition log_ms : list message := [mkMsg 0 [n2b 5]].
Definition log_conn : conn := mkConn [stream_b ++ frames (Some Props_Frame.toy) [[n2b 6; n2b 7]] log_ms] ErrEOF.
Example C83_nonvacuous :
  inbound_recv toy_crypto 200 env_a 3 log_conn = (Ok (he_id env_b), Some (log_ms, Err ErrEOF)) /\
  eavesdrop toy_crypto 200 3 (conn_log toy_crypto 200 env_a [] (str "x"%string) (fun _ => true) false 3 log_conn) log_conn = Some (log_ms, Err ErrEOF).
Proof. split; vm_compute; reflexivity. Qed.

Print Assumptions C83_eavesdrop.
Print Assumptions C83_refuted.
Print Assumptions C83_partial.
Print Assumptions C83_failed_partial.
Print Assumptions C83_quiet_partial.
