(** * The chat program: C89 (text), C90 (lines), C91 (who gets a line), C92 (what is shown). *)
From Verif Require Import Base Spec M_Addr M_ID M_Msg M_Codec M_Table M_Kad M_Chat P_Codec P_Wire P_Node P_Text P_Lines Props_Codec.
From Verif Require Props_Kad.
From Coq Require Import Strings.Byte Sorting.Permutation.
From Coq Require Strings.String.
Import (notations) Coq.Strings.String.
Local Open Scope nat_scope.

(** The codec of every chat program, and how a line is delivered: SendMessage encodes it, it travels as a message with nonce 0 (C81),
    and the receiver's handler prints. *)
Definition chat_codec (c : codec) : Prop := exists os, register_all newCodec chat_registrations = Ok (c, os).
Definition heard (c : codec) (sender : ID) (v : value) : option bytes :=
  match encode c (Some v) with Ok data => chat_handle c sender (mkMsg 0 data) | _ => None end.

Lemma chat_wire c contents : chat_codec c ->
  encode c (Some (chat_message contents)) = Ok (n2b 0 :: n2b 0 :: contents) /\
  decode c (n2b 0 :: n2b 0 :: contents) = Ok (chat_message (ToValidUTF8 contents)).
Proof.
  intros [os H].
  exact (C05_roundtrip chat_registrations c os c os 0 TChat (mkDec TChat unmarshalChatMessage) (chat_message contents) H H
           ltac:(cbv; discriminate) eq_refl ltac:(intros e E; discriminate) (or_introl eq_refl)).
Qed.

Lemma heard_is c sender contents : chat_codec c ->
  heard c sender (chat_message contents) =
  match ToValidUTF8 contents with [] => None | t => Some (printed_id sender ++ str "> "%string ++ t ++ [LF]) end.
Proof.
  intros H. destruct (chat_wire c contents H) as [E D]. unfold heard. rewrite E. unfold chat_handle. cbn [IsRequest m_nonce m_data N.ltb N.compare].
  rewrite D. unfold chat_message. cbn [v_type v_bytes]. destruct (gotype_eq_dec TChat TChat); [|congruence]. destruct (ToValidUTF8 contents); reflexivity.
Qed.

(** ** C89 *)

(** The contents of a received chat message: the received bytes without those that belong to no UTF-8 character, and nothing else is
    that.  So they are always text, and text is left alone, also in front of junk. *)
Theorem C89_text : forall data out,
  (exists v, unmarshalChatMessage data = Ok v /\ v_type v = TChat /\ v_bytes v = out) <-> cleaned data out.
Proof.
  intros data out. split.
  - intros (v & E & _ & <-). injection E as <-. apply to_valid_cleaned.
  - intros H. apply cleaned_det in H as ->. eexists. repeat split.
Qed.
Theorem C89_valid : forall data v, unmarshalChatMessage data = Ok v -> valid_text (v_bytes v).
Proof. intros data v E. injection E as <-. eapply cleaned_valid. apply to_valid_cleaned. Qed.
Theorem C89_kept : forall cs junk, Forall scalar cs ->
  unmarshalChatMessage (text_of cs) = Ok (chat_message (text_of cs)) /\
  exists rest, unmarshalChatMessage (text_of cs ++ junk) = Ok (chat_message (text_of cs ++ rest)) /\ cleaned junk rest.
Proof.
  intros cs junk H. split.
  - unfold unmarshalChatMessage. rewrite <- (app_nil_r (text_of cs)) at 1. rewrite to_valid_text by exact H. cbn. rewrite app_nil_r. reflexivity.
  - exists (ToValidUTF8 junk). split; [unfold unmarshalChatMessage; rewrite to_valid_text by exact H; reflexivity | apply to_valid_cleaned].
Qed.
(** From the sender's text to the receiver's, through the codec. *)
Theorem C89_shown : forall c sender cs, chat_codec c -> Forall scalar cs -> cs <> [] ->
  heard c sender (chat_message (text_of cs)) = Some (printed_id sender ++ str "> "%string ++ text_of cs ++ [LF]).
Proof.
  intros c sender cs Hc F NE. rewrite heard_is by exact Hc. rewrite <- (app_nil_r (text_of cs)), to_valid_text by exact F. cbn [ToValidUTF8 to_valid].
  rewrite !app_nil_r. destruct cs as [|x cs]; [congruence|]. unfold text_of. cbn [flat_map]. destruct (utf8_ne x) as (b & l & ->). reflexivity.
Qed.

Definition ex_codec : codec := match register_all newCodec chat_registrations with Ok (c, _) => c | _ => newCodec end.
Lemma ex_codec_ok : chat_codec ex_codec.
Proof. eexists. reflexivity. Qed.

(** One character of each length, and junk of every kind: a stray continuation byte, an overlong form, a surrogate, a cut character. *)
Example C89_nonvacuous : Forall scalar [72; 233; 8364; 128512]%N /\
  text_of [72; 233; 8364; 128512]%N = map n2b [72; 195; 169; 226; 130; 172; 240; 159; 152; 128]%N /\
  unmarshalChatMessage (map n2b [72; 128; 192; 175; 195; 169; 237; 160; 128; 226; 130; 172; 240; 159; 152; 128; 226; 130]%N)
    = Ok (chat_message (text_of [72; 233; 8364; 128512]%N)) /\ chat_codec ex_codec.
Proof.
  split; [repeat constructor; unfold scalar; lia|]. split; [vm_compute; reflexivity|]. split; [vm_compute; reflexivity | exact ex_codec_ok].
Qed.

(** ** C90 *)

Definition command (l : bytes) : bool := match l with c :: _ => byte_eqb c slash | [] => false end.

(** What the [i]-th of the known peers is shown of what is typed: for each line passed to chat, the [i]-th SendMessage that it makes. *)
Definition shown_at (c : codec) (me : ID) (t : table) (i : nat) (stdin : bytes) : list bytes :=
  flat_map (fun line => match chat t line with
                        | Ok acts => match nth_error acts i with
                                     | Some (DoSend _ v) => match heard c me v with Some out => [out] | None => [] end
                                     | _ => []
                                     end
                        | _ => []
                        end) (input stdin).

(** Every typed line that is not a command is shown at every peer that it is sent to, as one message and as typed. *)
Definition C90_statement : Prop := forall c me t ids i stdin, chat_codec c -> Peers t = Ok ids -> i < length ids ->
  (forall l, In l (typed stdin) -> valid_text l) ->
  shown_at c me t i stdin = map (fun l => printed_id me ++ str "> "%string ++ l ++ [LF]) (filter (fun l => negb (command l)) (typed stdin)).

(** Lines of at most 4095 bytes. *)
Definition short_lines (stdin : bytes) : Prop := forall a l b, stdin = a ++ l ++ b -> ~ In LF l -> length l < 4096.

Lemma typed_ne s : Forall (fun l => l <> []) (typed s).
Proof.
  unfold typed. apply Forall_forall. intros l I. apply filter_In in I as [_ I]. intros ->. discriminate.
Qed.

Lemma chat_acts t ids l : Peers t = Ok ids -> l <> [] ->
  exists acts, chat t l = Ok acts /\
    (command l = false -> acts = map (fun id => DoSend (id_addr id) (chat_message l)) ids) /\
    (command l = true -> exists a, acts = [a] /\ forall addr v, a <> DoSend addr v).
Proof.
  intros P NE. unfold chat.
  destruct (bytes_eqb l (str "/discover"%string)) eqn:E1.
  { apply bytes_eqb_eq in E1 as ->. eexists. split; [reflexivity|]. split; [discriminate|]. intros _. eexists. split; [reflexivity | discriminate]. }
  destruct (bytes_eqb l (str "/peers"%string)) eqn:E2.
  { apply bytes_eqb_eq in E2 as ->. rewrite P. eexists. split; [reflexivity|]. split; [discriminate|]. intros _. eexists. split; [reflexivity | discriminate]. }
  destruct l as [|c l]; [congruence|]. cbn [command]. destruct (byte_eqb c slash).
  - eexists. split; [reflexivity|]. split; [discriminate|]. intros _. eexists. split; [reflexivity | discriminate].
  - rewrite P. eexists. split; [reflexivity|]. split; [reflexivity | discriminate].
Qed.

Theorem C90_partial : forall c me t ids i stdin, chat_codec c -> Peers t = Ok ids -> i < length ids ->
  (forall l, In l (typed stdin) -> valid_text l) -> short_lines stdin ->
  shown_at c me t i stdin = map (fun l => printed_id me ++ str "> "%string ++ l ++ [LF]) (filter (fun l => negb (command l)) (typed stdin)).
Proof.
  intros c me t ids i stdin Hc P Hi V Sh. unfold shown_at. rewrite (input_typed stdin Sh). pose proof (typed_ne stdin) as NE.
  induction (typed stdin) as [|l ls IH]; [reflexivity|]. cbn [flat_map filter map]. inversion NE as [|x y NEl NEs]; subst.
  rewrite IH by (try exact NEs; intros; apply V; right; assumption). clear IH.
  destruct (chat_acts t ids l P NEl) as (acts & -> & A1 & A2). destruct (command l) eqn:C; cbn [negb].
  - destruct (A2 eq_refl) as (a & -> & Na). destruct i as [|i]; [|destruct i; reflexivity]. cbn [nth_error]. destruct a; try reflexivity. exfalso. eapply Na. reflexivity.
  - rewrite (A1 eq_refl), nth_error_map. destruct (nth_error ids i) as [id|] eqn:E; [|apply nth_error_None in E; lia]. cbn [option_map].
    destruct (V l (or_introl eq_refl)) as (cs & F & ->). rewrite C89_shown; auto. intros ->. apply NEl. reflexivity.
Qed.

(** In general the pieces passed on make up what is typed, without loss and in order, each of at most 4096 bytes. *)
Theorem C90_pieces : forall stdin, concat (input stdin) = concat (typed stdin) /\ Forall (fun l => l <> [] /\ length l <= 4096) (input stdin).
Proof. intros stdin. split; [apply input_concat | apply input_pieces]. Qed.

(** A line of more than 4096 bytes is passed on in pieces: the peers see several messages; a piece that begins with a slash is a
    command, and is not sent at all; a character across the cut is lost by every peer. *)
Definition ex_table : table := Props_Kad.mk_table (Props_Kad.ex_id 1 1) [OpUpdate (Props_Kad.ex_id 255 1)].
Definition ex_me : ID := Props_Kad.ex_id 9 9.
Definition letter : byte := n2b 97.

Lemma ascii_valid l : Forall (fun b => b2n b < 128)%N l -> valid_text l.
Proof.
  induction 1 as [|b l Hb _ (cs & F & ->)]; [exists []; split; [constructor | reflexivity]|].
  exists (b2n b :: cs). split; [constructor; [unfold scalar; lia | exact F]|]. unfold text_of. cbn [flat_map]. unfold utf8 at 2.
  destruct (N.ltb_spec (b2n b) 128); [|lia]. rewrite n2b_b2n. reflexivity.
Qed.

Lemma long_typed l : ~ In LF l -> l <> [] -> typed l = [l].
Proof. intros N NE. unfold typed. rewrite lines_end by exact N. destruct l; [congruence | reflexivity]. Qed.

Definition long_line : bytes := repeat letter 4097.
Lemma long_line_two : length (shown_at ex_codec ex_me ex_table 0 long_line) = 2.
Proof. vm_compute. reflexivity. Qed.
Lemma ex_table_peers : exists ids, Peers ex_table = Ok ids /\ length ids = 1.
Proof. eexists. split; [vm_compute; reflexivity | reflexivity]. Qed.
Lemma repeat_ne n : n <> 0 -> repeat letter n <> [].
Proof. intros H. destruct n; [congruence | discriminate]. Qed.
Lemma repeat_typed n : n <> 0 -> typed (repeat letter n) = [repeat letter n].
Proof. intros H. apply long_typed; [intros I; apply repeat_spec in I; discriminate | apply repeat_ne; exact H]. Qed.
Lemma repeat_valid n : valid_text (repeat letter n).
Proof. apply ascii_valid, Forall_forall; intros b I; apply repeat_spec in I as ->; reflexivity. Qed.

Theorem C90_refuted : ~ C90_statement.
Proof.
  intros X. destruct ex_table_peers as (ids & P & LI). pose proof long_line_two as L. unfold long_line in L.
  assert (Z : exists n, n <> 0 /\ length (shown_at ex_codec ex_me ex_table 0 (repeat letter n)) = 2) by (exists 4097; split; [discriminate | exact L]).
  destruct Z as (n & Hn & Z). clear L.
  specialize (X ex_codec ex_me ex_table ids 0 (repeat letter n) ex_codec_ok P ltac:(lia)). rewrite (repeat_typed n Hn) in X.
  specialize (X ltac:(intros l [<-|[]]; apply repeat_valid)). rewrite X in Z. cbn [filter map] in Z.
  destruct (negb (command (repeat letter n))); discriminate.
Qed.

Example C90_cut : let s := repeat letter 4096 ++ str "/peers"%string in
  valid_text s /\ typed s = [s] /\ input s = [repeat letter 4096; str "/peers"%string] /\
  (exists ids, chat ex_table (str "/peers"%string) = Ok [DoPeers ids]) /\
  shown_at ex_codec ex_me ex_table 0 s = [printed_id ex_me ++ str "> "%string ++ repeat letter 4096 ++ [LF]].
Proof.
  intros s. split; [apply ascii_valid, Forall_forall; intros b I; apply in_app_or in I as [I|I];
    [apply repeat_spec in I as ->; reflexivity | repeat (destruct I as [<-|I]; [reflexivity|]); destruct I]|].
  split; [apply long_typed; [intros I; apply in_app_or in I as [I|I]; [apply repeat_spec in I; discriminate |
     repeat (destruct I as [I|I]; [discriminate|]); destruct I] | discriminate]|].
  split; [vm_compute; reflexivity|]. split; [eexists; vm_compute; reflexivity|]. vm_compute. reflexivity.
Qed.
Example C90_lost : let s := repeat letter 4095 ++ utf8 233 in
  shown_at ex_codec ex_me ex_table 0 s = [printed_id ex_me ++ str "> "%string ++ repeat letter 4095 ++ [LF]] /\ scalar 233.
Proof. split; [vm_compute; reflexivity | unfold scalar; lia]. Qed.

Example C90_nonvacuous : let s := str "hello"%string ++ [Byte.x0d; Byte.x0a; Byte.x0a] ++ str "/help"%string ++ [LF] ++ utf8 8364 in
  typed s = [str "hello"%string; str "/help"%string; utf8 8364] /\ short_lines s /\ (forall l, In l (typed s) -> valid_text l) /\
  shown_at ex_codec ex_me ex_table 0 s =
    [printed_id ex_me ++ str "> hello"%string ++ [LF]; printed_id ex_me ++ str "> "%string ++ utf8 8364 ++ [LF]].
Proof.
  intros s. assert (T : typed s = [str "hello"%string; str "/help"%string; utf8 8364]) by (vm_compute; reflexivity).
  split; [exact T|]. split.
  - intros a l b E _. apply (f_equal (@length byte)) in E. rewrite !app_length in E. cbn in E. lia.
  - split; [|vm_compute; reflexivity]. rewrite T. intros l [<-|[<-|[<-|[]]]].
    + apply ascii_valid. repeat constructor.
    + apply ascii_valid. repeat constructor.
    + exists [8364]%N. split; [repeat constructor; unfold scalar; lia | reflexivity].
Qed.

(** ** C91 *)

(** The texts passed to SendMessage with address [addr]. *)
Definition sent_to (t : table) (addr : bytes) (stdin : bytes) : list bytes :=
  flat_map (fun line => match chat t line with
                        | Ok acts => flat_map (fun a => match a with DoSend a' v => if bytes_eqb a' addr then [v_bytes v] else [] | _ => [] end) acts
                        | _ => []
                        end) (input stdin).

(** Every known peer is sent every line that is not a command, once. *)
Definition C91_statement : Prop := forall self ops t es id stdin, table_of self ops t -> Entries t = Ok es -> In id es -> id_key id <> id_key self ->
  sent_to t (id_addr id) stdin = filter (fun l => negb (command l)) (input stdin).

(** For every table and line: the sixteen closest peers, once each, in order of distance; a command is sent to nobody. *)
Theorem C91_closest : forall self ops t es line, table_of self ops t -> Entries t = Ok es -> line <> [] ->
  exists ids acts, chat t line = Ok acts /\
    k_smallest (fun e => dist (id_key e) (id_key self)) 16 (filter (fun e => negb (bytes_eqb (id_key e) (id_key self))) es) ids /\
    (command line = false -> acts = map (fun id => DoSend (id_addr id) (chat_message line)) ids) /\
    (command line = true -> forall addr v, ~ In (DoSend addr v) acts).
Proof.
  intros self ops t es line T E NE. destruct (Props_Kad.C18_peers self ops t es T E) as (ids & P & K).
  destruct (chat_acts t ids line P NE) as (acts & C & A1 & A2). exists ids, acts. split; [exact C|]. split; [exact K|]. split; [exact A1|].
  intros H addr v I. destruct (A2 H) as (a & -> & Na). destruct I as [I|[]]. exact (Na addr v I).
Qed.

Lemma once {A} (f : A -> bytes) (v : bytes) l x : NoDup (map f l) -> In x l ->
  flat_map (fun y => if bytes_eqb (f y) (f x) then [v] else []) l = [v].
Proof.
  induction l as [|y l IH]; intros ND I; [destruct I|]. cbn [map] in ND. inversion ND as [|? ? N1 N2]; subst. cbn [flat_map].
  destruct (bytes_eqb (f y) (f x)) eqn:E.
  - apply bytes_eqb_eq in E. assert (Z : flat_map (fun y => if bytes_eqb (f y) (f x) then [v] else []) l = []); [|rewrite Z; reflexivity].
    clear - N1 E. rewrite <- E. induction l as [|z l IH]; [reflexivity|]. cbn [flat_map map] in *.
    destruct (bytes_eqb (f z) (f y)) eqn:F; [apply bytes_eqb_eq in F; exfalso; apply N1; left; exact F|]. apply IH. intros X. apply N1. right. exact X.
  - destruct I as [->|I]; [rewrite bytes_eqb_refl in E; discriminate|]. apply IH; assumption.
Qed.

(** With at most sixteen other peers, at different addresses, the claim holds. *)
Theorem C91_partial : forall self ops t es id stdin, table_of self ops t -> Entries t = Ok es -> In id es -> id_key id <> id_key self ->
  let others := filter (fun e => negb (bytes_eqb (id_key e) (id_key self))) es in
  length others <= 16 -> NoDup (map id_addr others) ->
  sent_to t (id_addr id) stdin = filter (fun l => negb (command l)) (input stdin).
Proof.
  intros self ops t es id stdin T E I Nk others L ND.
  destruct (Props_Kad.C18_peers self ops t es T E) as (ids & P & (Lk & NDk & Inc & _)). change (filter (Props_Kad.other_than (id_key self)) es) with others in Lk, Inc.
  assert (PM : Permutation ids others) by (apply NoDup_Permutation_bis; [exact NDk | lia | exact Inc]).
  assert (NDa : NoDup (map id_addr ids)) by (eapply Permutation_NoDup; [apply Permutation_map; symmetry; exact PM | exact ND]).
  assert (Ii : In id ids).
  { apply (Permutation_in _ (Permutation_sym PM)). apply filter_In. split; [exact I|]. destruct (bytes_eqb (id_key id) (id_key self)) eqn:Q; [|reflexivity].
    apply bytes_eqb_eq in Q. congruence. }
  unfold sent_to. pose proof (input_pieces stdin) as IP. induction (input stdin) as [|l ls IH]; [reflexivity|]. inversion IP as [|? ? [NE _] IP']; subst.
  cbn [flat_map filter]. rewrite IH by exact IP'. clear IH. destruct (chat_acts t ids l P NE) as (acts & -> & A1 & A2). destruct (command l) eqn:C; cbn [negb].
  - destruct (A2 eq_refl) as (a & -> & Na). destruct a; try reflexivity. exfalso. eapply Na. reflexivity.
  - rewrite (A1 eq_refl). rewrite flat_map_concat_map, map_map, <- flat_map_concat_map. cbn [v_bytes chat_message].
    rewrite (once id_addr l ids id NDa Ii). reflexivity.
Qed.

(** A peer that came back with a new key is known twice at one address: it is sent every line twice. *)
Theorem C91_refuted : ~ C91_statement.
Proof.
  intros X. set (a := Props_Kad.ex_id 255 1). set (b := mkID (Props_Kad.ex_key 64 2) (id_host a) (id_port a) (id_addr a)).
  set (ops := [OpUpdate a; OpUpdate b]). set (t := Props_Kad.mk_table (Props_Kad.ex_id 1 1) ops).
  assert (T : table_of (Props_Kad.ex_id 1 1) ops t) by (apply Props_Kad.mk_table_of; [reflexivity | repeat constructor]).
  assert (E : exists es, Entries t = Ok es /\ In a es).
  { eexists. split; [vm_compute; reflexivity|]. vm_compute. auto. }
  destruct E as (es & E & I). specialize (X _ _ _ es a (str "hi"%string) T E I ltac:(vm_compute; discriminate)).
  apply (f_equal (@length bytes)) in X. vm_compute in X. discriminate.
Qed.

Lemma left_out t ids addr : Peers t = Ok ids -> forallb (fun x => negb (bytes_eqb (id_addr x) addr)) ids = true ->
  forall stdin, sent_to t addr stdin = [].
Proof.
  intros P NI stdin. unfold sent_to.
  pose proof (input_pieces stdin) as IP. induction (input stdin) as [|l ls IH]; [reflexivity|]. inversion IP as [|? ? [NE _] IP']; subst. cbn [flat_map].
  rewrite IH, app_nil_r by exact IP'. clear IH. destruct (chat_acts t ids l P NE) as (acts & -> & A1 & A2). destruct (command l) eqn:C.
  - destruct (A2 eq_refl) as (a & -> & Na). destruct a; try reflexivity. exfalso. eapply Na. reflexivity.
  - rewrite (A1 eq_refl). clear - NI. induction ids as [|x ids IH]; [reflexivity|]. cbn [forallb map flat_map] in *. apply andb_true_iff in NI as [N1 N2].
    rewrite IH by exact N2. destruct (bytes_eqb (id_addr x) addr); [discriminate | reflexivity].
Qed.

(** Eighteen peers at addresses of their own. *)
Definition far_ops : list table_op := map (fun i => OpUpdate (NewID (Props_Kad.ex_key 200 i) [] i)) [1; 2; 3; 4; 5; 6; 7; 8; 9; 10; 11; 12; 13; 14; 15; 16]%N ++
  map (fun i => OpUpdate (NewID (Props_Kad.ex_key 100 i) [] (i + 20))) [1; 2]%N.
Definition far_table : table := Props_Kad.mk_table (NewID (Props_Kad.ex_key 1 1) [] 50) far_ops.
Definition far_es : list ID := match Entries far_table with Ok es => es | _ => [] end.
Definition far_ids : list ID := match Peers far_table with Ok l => l | _ => [] end.
Definition far_id : ID := NewID (Props_Kad.ex_key 200 16) [] 16.

Fixpoint nodupb (l : list bytes) : bool := match l with [] => true | x :: l => negb (existsb (bytes_eqb x) l) && nodupb l end.
Lemma nodupb_ok l : nodupb l = true -> NoDup l.
Proof.
  induction l as [|x l IH]; intros H; [constructor|]. cbn [nodupb] in H. apply andb_true_iff in H as [H1 H2]. constructor; [|apply IH; exact H2].
  intros I. assert (E : existsb (bytes_eqb x) l = true) by (apply existsb_exists; exists x; split; [exact I | apply bytes_eqb_refl]).
  rewrite E in H1. discriminate.
Qed.

(** A peer is sent nothing when sixteen others are closer, though it is at an address of its own. *)
Theorem C91_left_out : exists self ops t es id, table_of self ops t /\ Entries t = Ok es /\ In id es /\ id_key id <> id_key self /\
  NoDup (map id_addr es) /\ forall stdin, sent_to t (id_addr id) stdin = [].
Proof.
  exists (NewID (Props_Kad.ex_key 1 1) [] 50), far_ops, far_table, far_es, far_id.
  split; [apply Props_Kad.mk_table_of; [reflexivity | repeat constructor]|]. split; [vm_compute; reflexivity|].
  split; [vm_compute; repeat (first [left; reflexivity | right])|]. split; [vm_compute; discriminate|]. split.
  - apply nodupb_ok. vm_compute. reflexivity.
  - apply (left_out far_table far_ids); vm_compute; reflexivity.
Qed.

Example C91_nonvacuous : let t := ex_table in let id := Props_Kad.ex_id 255 1 in
  (exists es, Entries t = Ok es /\ In id es /\ length (filter (fun e => negb (bytes_eqb (id_key e) (Props_Kad.ex_key 1 1))) es) = 1) /\
  sent_to t (id_addr id) (str "hi"%string ++ [LF] ++ str "/peers"%string ++ [LF] ++ str "bye"%string) = [str "hi"%string; str "bye"%string].
Proof.
  intros t id. split; [|vm_compute; reflexivity]. eexists. split; [vm_compute; reflexivity|]. split; [vm_compute; auto | vm_compute; reflexivity].
Qed.

(** ** C92 *)

(** A line on the screen. *)
Definition row (out r : bytes) : Prop := exists a b, out = a ++ r ++ LF :: b /\ ~ In LF r /\ (a = [] \/ exists a', a = a' ++ [LF]).

(** Every line that a received message puts on the screen begins with the name of the peer that sent it. *)
Definition C92_statement : Prop := forall c id m out r, chat_codec c -> chat_handle c id m = Some out -> row out r ->
  exists shown, r = printed_id id ++ str "> "%string ++ shown.

(** The names of peers that completed a handshake are plain text on one line. *)
Definition plain_byte (b : byte) : Prop := (32 < b2n b < 127)%N.

Lemma pb_hex_digit n : (n < 16)%N -> plain_byte (hex_digit n).
Proof. intros H. unfold hex_digit, plain_byte. destruct (N.ltb_spec n 10); rewrite b2n_small; lia. Qed.
Lemma pb_uint d : Forall plain_byte (uint_bytes d).
Proof. induction d; cbn [uint_bytes]; constructor; try assumption; unfold plain_byte; rewrite b2n_small; lia. Qed.
Lemma pb_hex l : Forall plain_byte (hex_encode l).
Proof.
  induction l as [|b l IH]; [constructor|]. cbn [hex_encode]. pose proof (b2n_bound b). constructor; [|constructor; [|exact IH]]; apply pb_hex_digit.
  - apply N.div_lt_upper_bound; lia.
  - apply N.mod_lt. lia.
Qed.
Lemma pb_hex16 g : (g < 65536)%N -> Forall plain_byte (hex16 g).
Proof.
  intros H. unfold hex16. assert (M : forall x, plain_byte (hex_digit (x mod 16))) by (intros x; apply pb_hex_digit; apply N.mod_lt; lia).
  destruct (N.leb_spec 4096 g); [|destruct (N.leb_spec 256 g); [|destruct (N.leb_spec 16 g)]]; repeat (constructor; [first [apply M | apply pb_hex_digit; try assumption; apply N.div_lt_upper_bound; lia]|]); constructor.
Qed.
Lemma pb_colon : plain_byte colon.
Proof. unfold plain_byte, colon. rewrite b2n_small; lia. Qed.
Lemma pb_join gs : Forall (fun g => g < 65536)%N gs -> Forall plain_byte (join_groups gs).
Proof.
  induction 1 as [|g gs Hg H IH]; [constructor|]. destruct gs as [|g' gs]; [apply pb_hex16; exact Hg|].
  change (join_groups (g :: g' :: gs)) with (hex16 g ++ colon :: join_groups (g' :: gs)). apply Forall_app. split; [apply pb_hex16; exact Hg|].
  constructor; [apply pb_colon | exact IH].
Qed.
Lemma pb_ip i : Forall plain_byte (ip_string i).
Proof.
  unfold ip_string. destruct i as [|b i]; [repeat constructor; unfold plain_byte; cbn; lia|].
  destruct (to4 (b :: i)) as [q|].
  - unfold quad_string. destruct q as [|q0 [|q1 [|q2 [|q3 [|q4 q]]]]]; cbn [map]; try constructor.
    assert (D : plain_byte dot) by (unfold plain_byte, dot; rewrite b2n_small; lia).
    apply Forall_app; split; [apply pb_uint|]. constructor; [exact D|]. apply Forall_app; split; [apply pb_uint|]. constructor; [exact D|].
    apply Forall_app; split; [apply pb_uint|]. constructor; [exact D|]. apply pb_uint.
  - destruct (Nat.eqb _ 16).
    + unfold v6_string. pose proof (groups_bound (length (b :: i)) (b :: i) ltac:(lia)) as G. destruct (longest_run _ _ _) as [e n]. destruct (Nat.leb 2 n).
      * apply Forall_app. split; [apply pb_join, Forall_firstn, G|]. constructor; [apply pb_colon|]. constructor; [apply pb_colon|]. apply pb_join, Forall_skipn, G.
      * apply pb_join, G.
    + constructor; [unfold plain_byte; rewrite b2n_small; lia | apply pb_hex].
Qed.
Lemma pb_printed k h p : Forall plain_byte (printed_id (NewID k h p)).
Proof.
  unfold printed_id. cbn [NewID id_addr id_key]. apply Forall_app. split.
  - assert (Hn : Forall plain_byte (normalize_ip h)) by (unfold normalize_ip; destruct (bytes_eqb _ _); [constructor | apply pb_ip]).
    unfold join_host_port. destruct (existsb _ _).
    + constructor; [unfold plain_byte, lbracket; rewrite b2n_small; lia|]. apply Forall_app. split; [exact Hn|].
      constructor; [unfold plain_byte, rbracket; rewrite b2n_small; lia|]. constructor; [apply pb_colon | apply pb_uint].
    + apply Forall_app. split; [exact Hn|]. constructor; [apply pb_colon | apply pb_uint].
  - apply Forall_app. split; [repeat constructor; unfold plain_byte; cbn; lia|]. apply Forall_app. split; [|repeat constructor; unfold plain_byte; cbn; lia].
    apply Forall_firstn. apply pb_hex.
Qed.
Lemma pb_no_lf l : Forall plain_byte l -> ~ In LF l.
Proof. intros F I. rewrite Forall_forall in F. specialize (F LF I). unfold plain_byte in F. change (b2n LF) with 10%N in F. lia. Qed.
Lemma pb_valid l : Forall plain_byte l -> valid_text l.
Proof. intros F. apply ascii_valid. eapply Forall_impl; [|exact F]. cbn. intros b Hb. unfold plain_byte in Hb. lia. Qed.

Lemma valid_app a b : valid_text a -> valid_text b -> valid_text (a ++ b).
Proof. intros (ca & Fa & ->) (cb & Fb & ->). exists (ca ++ cb). split; [apply Forall_app; auto|]. unfold text_of. symmetry. apply flat_map_app. Qed.

(** What one peer can put on the screen with one message: its own line, and any line of anybody else, exactly as that one's own
    message would put it there. *)
Theorem C92_forged : forall c me k h p a b, chat_codec c -> valid_text a -> valid_text b -> a <> [] -> b <> [] ->
  let victim := NewID k h p in
  exists contents x y, heard c me (chat_message a) = Some x /\ heard c victim (chat_message b) = Some y /\
    heard c me (chat_message contents) = Some (x ++ y).
Proof.
  intros c me k h p a b Hc Va Vb Na Nb victim.
  assert (D : forall who t, valid_text t -> t <> [] -> heard c who (chat_message t) = Some (printed_id who ++ str "> "%string ++ t ++ [LF])).
  { intros who t (cs & F & ->) NE. apply C89_shown; auto. intros ->. apply NE. reflexivity. }
  exists (a ++ [LF] ++ printed_id victim ++ str "> "%string ++ b). eexists. eexists. split; [apply D; assumption|]. split; [apply D; assumption|].
  rewrite D.
  - f_equal. rewrite <- !app_assoc. reflexivity.
  - apply valid_app; [exact Va|]. apply valid_app; [apply ascii_valid; repeat constructor|]. apply valid_app; [apply pb_valid, pb_printed|].
    apply valid_app; [apply ascii_valid; repeat constructor | exact Vb].
  - intros E. apply app_eq_nil in E as [E _]. contradiction.
Qed.

Lemma app_split (a b c d : bytes) : ~ In LF a -> ~ In LF c -> a ++ LF :: b = c ++ LF :: d -> a = c /\ b = d.
Proof.
  revert c. induction a as [|x a IH]; intros [|y c] Na Nc E; cbn in E.
  - injection E as E. auto.
  - injection E as E1 E2. subst y. exfalso. apply Nc. left. reflexivity.
  - injection E as E1 E2. subst x. exfalso. apply Na. left. reflexivity.
  - injection E as -> E. destruct (IH c) as [-> ->]; auto; intros I; [apply Na | apply Nc]; right; exact I.
Qed.

Lemma letter_valid : valid_text [letter].
Proof. apply ascii_valid. repeat constructor. Qed.
Lemma letter_ne : [letter] <> [].
Proof. discriminate. Qed.

Theorem C92_refuted : ~ C92_statement.
Proof.
  intros X. destruct (ex_intro chat_codec ex_codec ex_codec_ok) as (c & Hc).
  assert (ND : forall shown, printed_id (NewID (repeat LF 32) [] 2) ++ str "> "%string ++ [letter] <> printed_id (NewID (repeat letter 32) [] 1) ++ str "> "%string ++ shown)
    by (intros shown Q; apply (f_equal (fun l => nth_error l 1)) in Q; vm_compute in Q; discriminate Q).
  pose proof (pb_printed (repeat LF 32) [] 2) as PV.
  destruct (C92_forged c (NewID (repeat letter 32) [] 1) (repeat LF 32) [] 2 [letter] [letter] Hc letter_valid letter_valid letter_ne letter_ne)
    as (contents & x & y & Hx & Hy & H).
  generalize dependent (NewID (repeat letter 32) [] 1). generalize dependent (NewID (repeat LF 32) [] 2). intros victim PV Hy me ND Hx H.
  assert (E1 : Forall scalar [97%N] /\ [97%N] <> [] /\ text_of [97%N] = [letter]) by (split; [repeat constructor; unfold scalar; lia | split; [discriminate | reflexivity]]).
  destruct E1 as (F1 & N1 & T1).
  assert (Ex : x = printed_id me ++ str "> "%string ++ [letter] ++ [LF]) by (pose proof (C89_shown c me [97%N] Hc F1 N1) as Q; rewrite T1, Hx in Q; congruence).
  assert (Ey : y = printed_id victim ++ str "> "%string ++ [letter] ++ [LF]) by (pose proof (C89_shown c victim [97%N] Hc F1 N1) as Q; rewrite T1, Hy in Q; congruence).
  unfold heard in H. destruct (encode c (Some (chat_message contents))) as [data| |]; [|discriminate H|discriminate H].
  destruct (X c me (mkMsg 0 data) (x ++ y) (printed_id victim ++ str "> "%string ++ [letter]) Hc H) as [shown Q].
  - exists x, []. split; [rewrite Ey; rewrite <- !app_assoc; reflexivity|]. split.
    + intros I. apply in_app_or in I as [I|I]; [revert I; apply pb_no_lf, PV|]. repeat (destruct I as [I|I]; [discriminate I|]). destruct I.
    + right. rewrite Ex. exists (printed_id me ++ str "> "%string ++ [letter]). rewrite <- !app_assoc. reflexivity.
  - exact (ND shown Q).
Qed.

Lemma cleaned_in s o b : cleaned s o -> In b o -> In b s.
Proof.
  induction 1 as [|c s out _ _ IH|x s out _ _ IH]; intros I; [exact I | | right; auto].
  apply in_app_or in I as [I|I]; apply in_or_app; auto.
Qed.

Lemma de_of_inv o h : forall i d, de_get o (de_of i h) = Some d -> exists j t, nth_error h j = Some (t, d) /\ o = opc (i + j).
Proof.
  induction h as [|[u e] h IH]; intros i d H; [discriminate H|]. cbn [de_of] in H. rewrite de_get_app in H.
  destruct (de_get o (de_of (S i) h)) as [d'|] eqn:E.
  - injection H as ->. destruct (IH (S i) d E) as (j & t & N & Q). exists (S j), t. split; [exact N|]. rewrite Q. f_equal. lia.
  - cbn [de_get] in H. destruct (N.eqb_spec o (opc i)) as [Q|]; [|discriminate H]. injection H as ->. exists 0, u. split; [reflexivity|]. rewrite Nat.add_0_r. exact Q.
Qed.

(** What does hold.  Only messages that are not requests, decode as chat messages and have text are shown; the first line is the
    sender's; and there is no other line when the received bytes contain no line feed. *)
Theorem C92_partial : forall c k h p m out, chat_codec c -> let id := NewID k h p in chat_handle c id m = Some out ->
  m_nonce m = 0%N /\ exists data shown, m_data m = n2b 0 :: n2b 0 :: data /\ cleaned data shown /\ shown <> [] /\
    out = printed_id id ++ str "> "%string ++ shown ++ [LF] /\
    (~ In LF data -> forall r, row out r -> r = printed_id id ++ str "> "%string ++ shown).
Proof.
  intros c k h p m out Hc id H. unfold chat_handle in H. unfold IsRequest in H. destruct (N.ltb_spec 0 (m_nonce m)); [discriminate|].
  split; [lia|]. destruct (decode c (m_data m)) as [v| |] eqn:D; try discriminate. destruct (gotype_eq_dec (v_type v) TChat) as [T|]; [|discriminate].
  assert (DD : exists data, m_data m = n2b 0 :: n2b 0 :: data /\ v = chat_message (ToValidUTF8 data)).
  { destruct Hc as [os Hc]. apply register_all_ok in Hc as [_ ->]. unfold decode in D. destruct (m_data m) as [|b0 [|b1 data]]; try discriminate D.
    cbn [length Nat.ltb Nat.leb] in D. rewrite slice_to_ok in D by (cbn; lia). cbn [bind firstn] in D. rewrite slice_from_ok in D by (cbn; lia). cbn [bind skipn] in D.
    destruct (de_get (be_decode [b0; b1]) (c_de (codec_of chat_registrations))) as [d|] eqn:G; [|discriminate D].
    destruct (de_of_inv _ _ _ _ G) as (j & t & Nj & Ej).
    assert (CJ : j = 0 \/ exists d', d' = d /\ forall v, d_run d' data = Ok v -> v_type v <> TChat).
    { clear - Nj. unfold chat_registrations, kad_registrations in Nj. destruct j as [|[|[|[|[|j]]]]]; [left; reflexivity | right | right | right | right | destruct j; discriminate Nj];
        cbn [nth_error] in Nj; injection Nj as <- <-; (eexists; split; [reflexivity|]); intros v; cbn [d_run].
      - intros E. injection E as <-. discriminate.
      - intros E. injection E as <-. discriminate.
      - cbv [bind]. destruct (UnmarshalFindNodeRequest data); intros E; [injection E as <-; discriminate | discriminate E | discriminate E].
      - cbv [bind]. destruct (UnmarshalFindNodeResponse data); intros E; [injection E as <-; discriminate | discriminate E | discriminate E]. }
    destruct CJ as [-> |(d' & -> & Q)]; [|exfalso; exact (Q v D T)].
    injection Nj as _ <-. cbn [d_run] in D. injection D as <-. exists data. split; [|reflexivity].
    assert (Z : [b0; b1] = be_encode 2 0). { change 0%N with (opc (0 + 0)). rewrite <- Ej. symmetry. apply (be_encode_decode [b0; b1]). }
    change (be_encode 2 0) with [n2b 0; n2b 0] in Z. injection Z as -> ->. reflexivity. }
  destruct DD as (data & Ed & ->). cbn [v_bytes chat_message] in H. exists data, (ToValidUTF8 data). split; [exact Ed|].
  split; [apply to_valid_cleaned|]. set (shown := ToValidUTF8 data) in *. assert (NE : shown <> []) by (destruct shown; discriminate). split; [exact NE|].
  assert (Eo : out = printed_id id ++ str "> "%string ++ shown ++ [LF]) by (destruct shown; [congruence | injection H as <-; reflexivity]).
  split; [exact Eo|]. intros NL r (a & b & E & Nr & Ha).
  assert (NS : ~ In LF shown) by (intros I; apply NL; eapply cleaned_in; [apply to_valid_cleaned | exact I]).
  set (w := printed_id id ++ str "> "%string ++ shown).
  assert (Nw : ~ In LF w).
  { intros I. apply in_app_or in I as [I|I]; [revert I; apply pb_no_lf, pb_printed|]. apply in_app_or in I as [I|I]; [|exact (NS I)].
    repeat (destruct I as [I|I]; [discriminate|]). destruct I. }
  assert (Ew : w ++ LF :: [] = a ++ r ++ LF :: b) by (rewrite <- E, Eo; unfold w; rewrite <- !app_assoc; reflexivity).
  destruct Ha as [-> |(a' & ->)].
  - cbn [app] in Ew. apply app_split in Ew as [Ew _]; auto.
  - rewrite <- app_assoc in Ew. cbn [app] in Ew. exfalso. destruct (split_lf a') as [Na|(l & r' & -> & Nl)].
    + apply app_split in Ew as [_ Ew]; auto. destruct r; discriminate.
    + rewrite <- app_assoc in Ew. cbn [app] in Ew. apply app_split in Ew as [_ Ew]; auto. destruct r'; discriminate.
Qed.

(** The name shown does not tell two keys apart that agree on their first four bytes, at the same address. *)
Theorem C92_names : forall pre x y h p, length pre = 4 -> printed_id (NewID (pre ++ x) h p) = printed_id (NewID (pre ++ y) h p).
Proof.
  intros pre x y h p L. unfold printed_id. cbn [NewID id_addr id_key]. do 2 f_equal. f_equal.
  destruct pre as [|a [|b [|c [|d [|e pre]]]]]; try discriminate. reflexivity.
Qed.

Example C92_nonvacuous : let me := NewID (repeat letter 32) [] 1 in
  chat_handle ex_codec me (mkMsg 0 (n2b 0 :: n2b 0 :: str "hi"%string)) = Some (str ":1(61616161)> hi"%string ++ [LF]) /\
  heard ex_codec me (chat_message (str "hi"%string ++ [LF] ++ str "10.0.0.1:9000(deadbeef)> bye"%string)) =
    Some (str ":1(61616161)> hi"%string ++ [LF] ++ str "10.0.0.1:9000(deadbeef)> bye"%string ++ [LF]).
Proof. split; vm_compute; reflexivity. Qed.

Print Assumptions C89_text.
Print Assumptions C89_valid.
Print Assumptions C89_kept.
Print Assumptions C89_shown.
Print Assumptions C90_partial.
Print Assumptions C90_pieces.
Print Assumptions C90_refuted.
Print Assumptions C91_closest.
Print Assumptions C91_partial.
Print Assumptions C91_refuted.
Print Assumptions C91_left_out.
Print Assumptions C92_forged.
Print Assumptions C92_refuted.
Print Assumptions C92_partial.
Print Assumptions C92_names.
