(** * C132: what is typed as a command is carried out and not sent, and nothing else is carried out. *)
From Verif Require Import Base Spec M_Addr M_ID M_Msg M_Codec M_Table M_Kad M_Chat P_Text P_Lines Props_Chat.
From Coq Require Import Strings.Byte.
From Coq Require Strings.String.
Import (notations) Coq.Strings.String.
Local Open Scope nat_scope.

(** ** Spec *)

(** All that the program does with what is typed, in order, while it knows the same peers. *)
Definition carried_out (t : table) (stdin : bytes) : list chat_act := flat_map (fun l => match chat t l with Ok acts => acts | _ => [] end) (input stdin).
(** Kinds of what is done. *)
Definition discovers (a : chat_act) : bool := match a with DoDiscover => true | _ => false end.
Definition helps (a : chat_act) : bool := match a with DoHelp => true | _ => false end.
Definition lists (a : chat_act) : bool := match a with DoPeers _ => true | _ => false end.
Definition sends (a : chat_act) : bool := match a with DoSend _ _ => true | _ => false end.
Definition is_discover (l : bytes) : bool := bytes_eqb l (str "/discover"%string).
Definition is_peers (l : bytes) : bool := bytes_eqb l (str "/peers"%string).

(** ** C132 *)

(** Lines that begin with a slash are sent to nobody; others are only sent. *)
Definition C132_statement : Prop := forall t ids stdin, Peers t = Ok ids ->
  ((forall l, In l (typed stdin) -> command l = true) -> forall a, In a (carried_out t stdin) -> sends a = false) /\
  ((forall l, In l (typed stdin) -> command l = false) -> forall a, In a (carried_out t stdin) -> sends a = true).

Lemma command_kinds l : (is_discover l = true -> command l = true /\ is_peers l = false) /\ (is_peers l = true -> command l = true).
Proof.
  unfold is_discover, is_peers. split; intros H; apply bytes_eqb_eq in H; subst l; [split|]; vm_compute; reflexivity.
Qed.

(** Lines of at most 4095 bytes: /discover discovers, /peers lists the peers that Peers returns, any other line that begins with a slash prints the help, each as
    often and in the order typed; every other line is sent to each of these peers, and nothing else is done. *)
Theorem C132_partial : forall t ids stdin, Peers t = Ok ids -> short_lines stdin ->
  length (filter discovers (carried_out t stdin)) = length (filter is_discover (typed stdin)) /\
  filter lists (carried_out t stdin) = map (fun _ => DoPeers ids) (filter is_peers (typed stdin)) /\
  length (filter helps (carried_out t stdin)) = length (filter (fun l => command l && negb (is_discover l) && negb (is_peers l)) (typed stdin)) /\
  filter sends (carried_out t stdin) = flat_map (fun l => map (fun id => DoSend (id_addr id) (chat_message l)) ids) (filter (fun l => negb (command l)) (typed stdin)) /\
  map sends (carried_out t stdin) = flat_map (fun l => if command l then [false] else map (fun _ => true) ids) (typed stdin).
Proof.
  intros t ids stdin P Sh. unfold carried_out. rewrite (input_typed stdin Sh). induction (typed stdin) as [|l ls IH]; [repeat split; reflexivity|].
  destruct IH as (I1 & I2 & I3 & I4 & I5).
  assert (N0 : forall (f : chat_act -> bool) v, (forall a, f (DoSend a v) = false) -> filter f (map (fun id => DoSend (id_addr id) v) ids) = []).
  { clear. intros f v F. induction ids as [|i ids IH]; cbn; [reflexivity|]. rewrite F. exact IH. }
  assert (N1 : forall v, filter sends (map (fun id => DoSend (id_addr id) v) ids) = map (fun id => DoSend (id_addr id) v) ids).
  { clear. intros v. induction ids as [|i ids IH]; cbn; [reflexivity|]. rewrite IH. reflexivity. }
  assert (N2 : forall v, map sends (map (fun id => DoSend (id_addr id) v) ids) = map (fun _ => true) ids) by (intros v; rewrite map_map; reflexivity).
  destruct (command_kinds l) as [K1 K2].
  assert (C : chat t l = Ok (if is_discover l then [DoDiscover] else if is_peers l then [DoPeers ids] else if command l then [DoHelp] else map (fun id => DoSend (id_addr id) (chat_message l)) ids)).
  { unfold chat, is_discover, is_peers, command. destruct (bytes_eqb l (str "/discover"%string)); [reflexivity|]. rewrite P. cbn [bind]. destruct (bytes_eqb l (str "/peers"%string)); [reflexivity|].
    destruct l as [|c l']; [reflexivity|]. destruct (byte_eqb c slash); reflexivity. }
  cbn [flat_map]. rewrite C. clear C. rewrite !filter_app, map_app, !app_length, I1, I2, I3, I4, I5. cbn [filter].
  destruct (is_discover l) eqn:D.
  - destruct (K1 eq_refl) as [-> ->]. cbn. repeat split; reflexivity.
  - destruct (is_peers l) eqn:Pe.
    + rewrite (K2 eq_refl). cbn. repeat split; reflexivity.
    + destruct (command l) eqn:Co; cbn [andb negb].
      * cbn. repeat split; reflexivity.
      * rewrite !N0 by reflexivity. rewrite N1, N2. cbn [flat_map length app]. repeat split; reflexivity.
Qed.

(** For input of any form: what is sent is no empty line, no more than 4096 bytes, and begins with no slash. *)
Theorem C132_sent : forall t ids stdin addr v, Peers t = Ok ids -> In (DoSend addr v) (carried_out t stdin) ->
  v_bytes v <> [] /\ length (v_bytes v) <= 4096 /\ command (v_bytes v) = false /\ In (v_bytes v) (input stdin) /\ In addr (map id_addr ids).
Proof.
  intros t ids stdin addr v P H. unfold carried_out in H. apply in_flat_map in H as (l & Hl & H). pose proof (proj2 (C90_pieces stdin)) as F. rewrite Forall_forall in F. destruct (F l Hl) as [F1 F2].
  unfold chat in H. destruct (bytes_eqb l (str "/discover"%string)); [destruct H as [H|[]]; discriminate|]. rewrite P in H. cbn [bind] in H.
  destruct (bytes_eqb l (str "/peers"%string)); [destruct H as [H|[]]; discriminate|]. destruct l as [|c l']; [congruence|].
  destruct (byte_eqb c slash) eqn:E; [destruct H as [H|[]]; discriminate|]. apply in_map_iff in H as (id & H & Hid). injection H as <- <-. cbn [chat_message v_bytes].
  repeat split; auto. apply in_map, Hid.
Qed.

(** A line that begins with a slash and goes on for more than 4096 bytes: what follows those is sent to the peers. *)
Definition long_command : bytes := slash :: repeat letter 4096.

Theorem C132_refuted : ~ C132_statement.
Proof.
  intros X. destruct ex_table_peers as (ids & P & LI). destruct (X ex_table ids long_command P) as [X1 _].
  assert (T : typed long_command = [long_command]) by (vm_compute; reflexivity).
  assert (I : existsb sends (carried_out ex_table long_command) = true) by (vm_compute; reflexivity).
  apply existsb_exists in I as (a & Ha & Sa). rewrite (X1 ltac:(intros l; rewrite T; intros [<-|[]]; reflexivity) a Ha) in Sa. discriminate.
Qed.

Example C132_nonvacuous : let s := str "/discover"%string ++ [LF] ++ str "hi"%string ++ [LF] ++ str "/what"%string ++ [LF] ++ str "/peers"%string ++ [LF] in
  short_lines s /\ typed s = [str "/discover"%string; str "hi"%string; str "/what"%string; str "/peers"%string] /\
  map sends (carried_out ex_table s) = [false; true; false; false].
Proof.
  intros s. split; [|split; vm_compute; reflexivity].
  intros a l b E _. assert (L : length s = 26) by reflexivity. rewrite E, !app_length in L. lia.
Qed.

Print Assumptions C132_refuted.
Print Assumptions C132_partial.
Print Assumptions C132_sent.
