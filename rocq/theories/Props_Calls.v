(** * C94: concurrent typed calls over one encrypted connection. *)
From Verif Require Import Base Spec M_Addr M_ID M_Msg M_AEAD M_Frame M_Codec M_Handshake M_Pipe M_Maps M_Calls
  P_Wire P_Conn P_Codec Props_Maps Props_Frame Props_Codec Props_Handshake Props_Pipe.
Local Open Scope nat_scope.

(** ** Specification *)

(** The two nodes after the schedule [l]. *)
Definition cx_does (cA cB : codec) (l : list cxact) (s : cxstate) : Prop := cxrun cA cB cx_start l = Some s.
(** Call number [j] (the messages of the caller's node are numbered in the order in which it queued them) of a value [v], waiting on channel [ch]. *)
Definition is_call (s : cxstate) (j : nat) (v : value) (ch : nat) : Prop := exists a, nth_error (cx_out s) j = Some a /\ am_val a = v /\ am_ch a = Some ch.
(** The handler of message [j] has answered with [w]: message [k] of the way back. *)
Definition answer (s : cxstate) (j : nat) (w : value) (k : nat) : Prop := exists b, nth_error (cx_back s) k = Some b /\ bm_src b = j /\ bm_val b = w.

(** ** Invariant *)
Definition own (s : cxstate) (j : nat) (a : amsg) : Prop :=
  match am_ch a with
  | None => m_nonce (am_msg a) = 0%N
  | Some ch => (0 < m_nonce (am_msg a))%N /\ ch < rm_made (cx_map s) /\
      ((exists k b, k < cx_read s /\ nth_error (cx_back s) k = Some b /\ bm_src b = j /\ In (ch, k) (cx_resp s)) \/
       (rm_get (m_nonce (am_msg a)) (rm_entries (cx_map s)) = Some ch /\ forall k b, k < cx_read s -> nth_error (cx_back s) k = Some b -> bm_src b <> j))
  end.
Record cx_inv (cA cB : codec) (s : cxstate) : Prop := {
  ci_nonce : (rm_nonce (cx_map s) < 2 ^ 64)%N;
  ci_bound : forall a, In a (cx_out s) -> (m_nonce (am_msg a) < 2 ^ 64)%N;
  ci_map : rm_get 0 (rm_entries (cx_map s)) = None;
  ci_own : forall j a, nth_error (cx_out s) j = Some a -> own s j a;
  ci_chan : forall j a j' a' ch, nth_error (cx_out s) j = Some a -> nth_error (cx_out s) j' = Some a' -> am_ch a = Some ch -> am_ch a' = Some ch -> j = j';
  ci_back : forall b, In b (cx_back s) -> exists a, nth_error (cx_out s) (bm_src b) = Some a /\ m_nonce (bm_msg b) = m_nonce (am_msg a) /\ encode cB (Some (bm_val b)) = Ok (m_data (bm_msg b));
  ci_once : forall k b k' b', nth_error (cx_back s) k = Some b -> nth_error (cx_back s) k' = Some b' -> bm_src b = bm_src b' -> (0 < m_nonce (bm_msg b))%N -> k = k';
  ci_enc : forall a, In a (cx_out s) -> encode cA (Some (am_val a)) = Ok (m_data (am_msg a));
  ci_resp : forall ch k, In (ch, k) (cx_resp s) -> exists b a, nth_error (cx_back s) k = Some b /\ nth_error (cx_out s) (bm_src b) = Some a /\ am_ch a = Some ch;
  ci_work : forall k, In k (cx_work s) -> exists b, nth_error (cx_back s) k = Some b /\ m_nonce (bm_msg b) = 0%N;
  ci_seen : cx_seen s <= length (cx_out s);
  ci_read : cx_read s <= length (cx_back s)
}.

Lemma nth_app {A} (l : list A) x i y : nth_error (l ++ [x]) i = Some y -> nth_error l i = Some y \/ (i = length l /\ y = x).
Proof.
  intros H. destruct (Nat.lt_ge_cases i (length l)) as [L|L]; [left; rewrite nth_error_app1 in H; auto|right].
  rewrite nth_error_app2 in H by exact L. destruct (i - length l) as [|d] eqn:E; [|destruct d; discriminate H]. injection H as <-. split; [lia|reflexivity].
Qed.
Lemma nth_old {A} (l : list A) x i y : nth_error l i = Some y -> nth_error (l ++ [x]) i = Some y.
Proof. intros H. rewrite nth_error_app1; [exact H|]. apply nth_error_Some. congruence. Qed.
Lemma next_nonce r r' ch n : nextNonce r = (r', Some (ch, n)) -> n = rm_nonce r'.
Proof. unfold nextNonce. destruct (rm_get _ _); intros H; [discriminate H|]. injection H as <- _ <-. reflexivity. Qed.

Lemma cx_step_inv cA cB s x s' : cx_inv cA cB s -> cxstep cA cB s x = Some s' -> cx_inv cA cB s'.
Proof.
  intros I E. destruct x as [v|v| |j w|]; cbn [cxstep] in E.
  - (* CxCall *)
    destruct (encode cA (Some v)) as [data| |] eqn:En; [|injection E as <-; exact I|injection E as <-; exact I].
    destruct (nextNonce (cx_map s)) as [m o] eqn:Nx. destruct (nextNonce_spec _ _ _ (ci_nonce _ _ _ I) Nx) as (Nb & Sp).
    destruct o as [[ch n]|].
    + pose proof (next_nonce _ _ _ _ Nx) as Nn. destruct Sp as (Ch & Md & Nz & Ng & Me). injection E as <-.
      assert (Keep : forall j a, nth_error (cx_out s) j = Some a -> own (mkCX m (cx_out s ++ [mkAM v (mkMsg n data) (Some ch)]) (cx_seen s) (cx_back s) (cx_read s) (cx_resp s) (cx_work s)) j a).
      { intros j a Ha. pose proof (ci_own _ _ _ I j a Ha) as O. unfold own in O |- *. destruct (am_ch a) as [c|]; [|exact O]. cbn [cx_map cx_read cx_back cx_resp]. destruct O as (O1 & O2 & O3). split; [exact O1|]. split; [lia|].
        destruct O3 as [O3|[O3 O4]]; [left; exact O3|right]. split; [|exact O4]. rewrite Me. cbn [rm_get]. destruct (N.eqb_spec (m_nonce (am_msg a)) n) as [Q|_]; [|exact O3]. rewrite Q in O3. congruence. }
      constructor; cbn [cx_map cx_out cx_seen cx_back cx_read cx_resp cx_work].
      * exact Nb.
      * intros a Ha. apply in_app_or in Ha as [Ha|[<- |[]]]; [exact (ci_bound _ _ _ I a Ha)|cbn; rewrite Nn; exact Nb].
      * rewrite Me. cbn [rm_get]. destruct (N.eqb_spec 0 n) as [Q|_]; [congruence|exact (ci_map _ _ _ I)].
      * intros j a Ha. apply nth_app in Ha as [Ha|[-> ->]]; [exact (Keep j a Ha)|]. unfold own. cbn [am_ch am_msg m_nonce cx_map cx_read cx_back cx_resp]. split; [lia|]. split; [lia|]. right.
        split; [rewrite Me; cbn [rm_get]; rewrite N.eqb_refl; reflexivity|]. intros k b _ Hb Q. destruct (ci_back _ _ _ I b (nth_error_In _ _ Hb)) as (a & Ha & _). rewrite Q in Ha.
        assert (length (cx_out s) < length (cx_out s)) by (apply nth_error_Some; congruence). lia.
      * intros j a j' a' c Ha Ha' Ca Ca'. apply nth_app in Ha as [Ha|[-> ->]], Ha' as [Ha'|[-> ->]].
        -- exact (ci_chan _ _ _ I j a j' a' c Ha Ha' Ca Ca').
        -- pose proof (ci_own _ _ _ I j a Ha) as O. unfold own in O. rewrite Ca in O. cbn in Ca'. assert (ch = c) by congruence. lia.
        -- pose proof (ci_own _ _ _ I j' a' Ha') as O. unfold own in O. rewrite Ca' in O. cbn in Ca. assert (ch = c) by congruence. lia.
        -- reflexivity.
      * intros b Hb. destruct (ci_back _ _ _ I b Hb) as (a & Ha & X). exists a. split; [apply nth_old; exact Ha|exact X].
      * exact (ci_once _ _ _ I).
      * intros a Ha. apply in_app_or in Ha as [Ha|[<- |[]]]; [exact (ci_enc _ _ _ I a Ha)|exact En].
      * intros c k H. destruct (ci_resp _ _ _ I c k H) as (b & a & Hb & Ha & X). exists b, a. split; [exact Hb|]. split; [apply nth_old; exact Ha|exact X].
      * exact (ci_work _ _ _ I).
      * pose proof (ci_seen _ _ _ I). rewrite app_length. cbn. lia.
      * exact (ci_read _ _ _ I).
    + destruct Sp as (Me & Md). injection E as <-. constructor; cbn [cx_map cx_out cx_seen cx_back cx_read cx_resp cx_work]; try apply I.
      * exact Nb.
      * rewrite Me. apply I.
      * intros j a Ha. pose proof (ci_own _ _ _ I j a Ha) as O. unfold own in O |- *. cbn [cx_map cx_read cx_back cx_resp]. rewrite Me, Md. exact O.
  - (* CxSay *)
    destruct (encode cA (Some v)) as [data| |] eqn:En; [|injection E as <-; exact I|injection E as <-; exact I]. injection E as <-.
    constructor; cbn [cx_map cx_out cx_seen cx_back cx_read cx_resp cx_work]; try apply I.
    + intros a Ha. apply in_app_or in Ha as [Ha|[<- |[]]]; [exact (ci_bound _ _ _ I a Ha)|reflexivity].
    + intros j a Ha. apply nth_app in Ha as [Ha|[-> ->]]; [exact (ci_own _ _ _ I j a Ha)|reflexivity].
    + intros j a j' a' c Ha Ha' Ca Ca'. apply nth_app in Ha as [Ha|[-> ->]], Ha' as [Ha'|[-> ->]]; try discriminate. exact (ci_chan _ _ _ I j a j' a' c Ha Ha' Ca Ca').
    + intros b Hb. destruct (ci_back _ _ _ I b Hb) as (a & Ha & X). exists a. split; [apply nth_old; exact Ha|exact X].
    + intros a Ha. apply in_app_or in Ha as [Ha|[<- |[]]]; [exact (ci_enc _ _ _ I a Ha)|exact En].
    + intros c k H. destruct (ci_resp _ _ _ I c k H) as (b & a & Hb & Ha & X). exists b, a. split; [exact Hb|]. split; [apply nth_old; exact Ha|exact X].
    + pose proof (ci_seen _ _ _ I). rewrite app_length. cbn. lia.
  - (* CxServe *)
    destruct (Nat.ltb_spec (cx_seen s) (length (cx_out s))) as [L|L]; [|discriminate]. injection E as <-. constructor; cbn [cx_map cx_out cx_seen cx_back cx_read cx_resp cx_work]; try apply I. lia.
  - (* CxAnswer *)
    destruct (j <? cx_seen s); [|discriminate]. destruct (nth_error (cx_out s) j) as [a|] eqn:Ha; [|discriminate].
    destruct (encode cB (Some w)) as [data| |] eqn:En; [|injection E as <-; exact I|injection E as <-; exact I].
    destruct ((0 <? m_nonce (am_msg a))%N && answered s j) eqn:An; [injection E as <-; exact I|]. injection E as <-.
    assert (New : forall b, In b (cx_back s) -> bm_src b = j -> (0 < m_nonce (am_msg a))%N -> False).
    { intros b Hb Q P. apply Bool.andb_false_iff in An as [An|An]; [apply N.ltb_ge in An; lia|]. unfold answered in An. assert (existsb (fun b0 => bm_src b0 =? j) (cx_back s) = true) as X; [|congruence].
      apply existsb_exists. exists b. split; [exact Hb|]. apply Nat.eqb_eq. exact Q. }
    constructor; cbn [cx_map cx_out cx_seen cx_back cx_read cx_resp cx_work]; try apply I.
    + intros i c Hc. pose proof (ci_own _ _ _ I i c Hc) as O. unfold own in O |- *. destruct (am_ch c) as [ch|]; [|exact O]. cbn [cx_map cx_read cx_back cx_resp]. destruct O as (O1 & O2 & O3). split; [exact O1|]. split; [exact O2|].
      destruct O3 as [(k & b & K1 & K2 & K3)|[O3 O4]]; [left; exists k, b; split; [exact K1|]; split; [apply nth_old; exact K2|exact K3]|right]. split; [exact O3|].
      intros k b Lk Hb. apply nth_app in Hb as [Hb|[-> ->]]; [exact (O4 k b Lk Hb)|]. pose proof (ci_read _ _ _ I). lia.
    + intros b Hb. apply in_app_or in Hb as [Hb|[<- |[]]]; [exact (ci_back _ _ _ I b Hb)|]. exists a. cbn. auto.
    + intros k b k' b' Hb Hb' Q P. apply nth_app in Hb as [Hb|[-> ->]], Hb' as [Hb'|[-> ->]].
      * exact (ci_once _ _ _ I k b k' b' Hb Hb' Q P).
      * exfalso. cbn in Q. apply nth_error_In in Hb. destruct (ci_back _ _ _ I b Hb) as (a0 & Ha0 & X & _). rewrite Q, Ha in Ha0. injection Ha0 as <-. apply (New b Hb Q). lia.
      * exfalso. cbn in Q, P. apply nth_error_In in Hb'. apply (New b' Hb' (eq_sym Q) P).
      * reflexivity.
    + intros c k H. destruct (ci_resp _ _ _ I c k H) as (b & a0 & Hb & X). exists b, a0. split; [apply nth_old; exact Hb|exact X].
    + intros k H. destruct (ci_work _ _ _ I k H) as (b & Hb & X). exists b. split; [apply nth_old; exact Hb|exact X].
    + pose proof (ci_read _ _ _ I). rewrite app_length. cbn. lia.
  - (* CxRead *)
    destruct (nth_error (cx_back s) (cx_read s)) as [b|] eqn:Hb; [|discriminate].
    destruct (findRequest (cx_map s) (m_nonce (bm_msg b))) as [m o] eqn:Fi. destruct (findRequest_spec _ _ _ _ Fi) as (Eo & Fn & Fm & Fg).
    destruct (ci_back _ _ _ I b (nth_error_In _ _ Hb)) as (a & Ha & Nm & _). pose proof (ci_own _ _ _ I _ a Ha) as O. unfold own in O.
    assert (Lr : S (cx_read s) <= length (cx_back s)) by (apply nth_error_Some; congruence).
    destruct (am_ch a) as [ch|] eqn:Ca.
    + destruct O as (O1 & O2 & O3).
      assert (O4 : rm_get (m_nonce (am_msg a)) (rm_entries (cx_map s)) = Some ch).
      { destruct O3 as [(k & b' & K1 & K2 & K3 & _)|[O3 _]]; [|exact O3]. assert (k = cx_read s); [|lia]. apply (ci_once _ _ _ I k b' (cx_read s) b K2 Hb); [congruence|].
        destruct (ci_back _ _ _ I b' (nth_error_In _ _ K2)) as (a' & Ha' & Nm' & _). rewrite K3, Ha in Ha'. injection Ha' as <-. rewrite Nm'. exact O1. }
      rewrite Nm, O4 in Eo. subst o. injection E as <-. constructor; cbn [cx_map cx_out cx_seen cx_back cx_read cx_resp cx_work]; try apply I.
      * rewrite Fn. apply I.
      * rewrite Fg. destruct (N.eqb_spec 0 (m_nonce (bm_msg b))); [reflexivity|apply I].
      * intros i c Hc. pose proof (ci_own _ _ _ I i c Hc) as Oc. unfold own in Oc |- *. destruct (am_ch c) as [ch'|] eqn:Cc; [|exact Oc]. cbn [cx_map cx_read cx_back cx_resp]. destruct Oc as (P1 & P2 & P3). split; [exact P1|]. split; [lia|].
        destruct P3 as [(k & b' & K1 & K2 & K3 & K4)|[P3 P4]]; [left; exists k, b'; split; [lia|]; split; [exact K2|]; split; [exact K3|apply in_or_app; auto]|].
        destruct (Nat.eq_dec (bm_src b) i) as [Q|Q].
        -- left. exists (cx_read s), b. split; [lia|]. split; [exact Hb|]. split; [exact Q|]. apply in_or_app. right. left. rewrite Q, Hc in Ha. injection Ha as <-. congruence.
        -- right. split.
           ++ rewrite Fg. destruct (N.eqb_spec (m_nonce (am_msg c)) (m_nonce (bm_msg b))) as [W|_]; [|exact P3]. exfalso. rewrite W, Nm, O4 in P3. injection P3 as <-. apply Q. exact (ci_chan _ _ _ I _ _ _ _ _ Ha Hc Ca Cc).
           ++ intros k b' Lk Hk. destruct (Nat.eq_dec k (cx_read s)) as [-> |Z]; [rewrite Hb in Hk; injection Hk as <-; exact Q|apply (P4 k b'); [lia|exact Hk]].
      * intros c k H. apply in_app_or in H as [H|[H|[]]]; [exact (ci_resp _ _ _ I c k H)|]. injection H as <- <-. exists b, a. auto.
      * exact Lr.
    + assert (Z : m_nonce (bm_msg b) = 0%N) by congruence. rewrite Z, (ci_map _ _ _ I) in Eo. subst o. injection E as <-. constructor; cbn [cx_map cx_out cx_seen cx_back cx_read cx_resp cx_work]; try apply I.
      * rewrite Fn. apply I.
      * rewrite Fg. apply I.
      * intros i c Hc. pose proof (ci_own _ _ _ I i c Hc) as Oc. unfold own in Oc |- *. destruct (am_ch c) as [ch'|] eqn:Cc; [|exact Oc]. cbn [cx_map cx_read cx_back cx_resp]. destruct Oc as (P1 & P2 & P3). split; [exact P1|]. split; [lia|].
        destruct P3 as [(k & b' & K1 & K2 & K3 & K4)|[P3 P4]]; [left; exists k, b'; split; [lia|]; auto|right]. split; [rewrite Fg; exact P3|].
        intros k b' Lk Hk. destruct (Nat.eq_dec k (cx_read s)) as [-> |W]; [|apply (P4 k b'); [lia|exact Hk]]. rewrite Hb in Hk. injection Hk as <-. intros Q. rewrite Q, Hc in Ha. injection Ha as <-. congruence.
      * intros k H. apply in_app_or in H as [H|[<- |[]]]; [exact (ci_work _ _ _ I k H)|]. exists b. auto.
      * exact Lr.
Qed.
Lemma cx_reach cA cB l s : cx_does cA cB l s -> cx_inv cA cB s.
Proof.
  unfold cx_does. intros R. assert (I0 : cx_inv cA cB cx_start) by (constructor; cbn; try (intros; contradiction); try (intros [|?]; discriminate); try reflexivity; try lia; intros [|?] ? [|?]; discriminate).
  revert I0 R. generalize cx_start. induction l as [|x l IH]; cbn [cxrun]; intros s0 I0 R; [injection R as <-; exact I0|].
  destruct (cxstep cA cB s0 x) as [s1|] eqn:E; [|discriminate]. exact (IH s1 (cx_step_inv _ _ _ _ _ I0 E) R).
Qed.

(** ** Theorems *)

Section C94.
Context (hist : list (gotype * decoder)) (cA cB : codec) (osA osB : list N).
(** The two nodes registered the same types in the same order. *)
Hypothesis REGA : register_all newCodec hist = Ok (cA, osA).
Hypothesis REGB : register_all newCodec hist = Ok (cB, osB).
Hypothesis SIZE : (N.of_nat (length hist) <= 65536)%N.
Hypothesis PLAIN : forall t d, In (t, d) hist -> forall e, t <> TPtr e.

Lemma typed c os c' os' v d data : register_all newCodec hist = Ok (c, os) -> register_all newCodec hist = Ok (c', os') -> registered hist v d -> encode c (Some v) = Ok data -> decode c' data = d_run d (v_bytes v).
Proof.
  intros R R' Rv E. destruct (encode_all_ok hist c os R SIZE PLAIN [(0%N, v)]) as (ms & E1 & F); [intros n w [[= <- <-]|[]]; eauto|].
  cbn [encode_all] in E1. rewrite E in E1. cbn [bind] in E1. injection E1 as <-. inversion F as [|? ? ? ? (_ & _ & X) _]; subst. exact (X c' os' d R' Rv).
Qed.

(** Whatever a call is sent is the answer that the other node's handler gave to that very call, decoded as the registered decoder of its type does;
    the handler had been given the value of the call, decoded likewise; and a call is sent only one answer. *)
Theorem C94_own_answer : forall l s j v ch k, cx_does cA cB l s -> is_call s j v ch -> In (ch, k) (cx_resp s) ->
  exists a b, nth_error (cx_out s) j = Some a /\ nth_error (cx_back s) k = Some b /\ answer s j (bm_val b) k /\
    (forall d, registered hist v d -> handler_sees cB (am_msg a) = d_run d (v_bytes v)) /\
    (forall d, registered hist (bm_val b) d -> call_result cA (bm_msg b) = d_run d (v_bytes (bm_val b))) /\
    forall k', In (ch, k') (cx_resp s) -> k' = k.
Proof.
  intros l s j v ch k R (a & Ha & Va & Ca) H. pose proof (cx_reach _ _ _ _ R) as I. destruct (ci_resp _ _ _ I ch k H) as (b & a' & Hb & Ha' & Ca').
  assert (Q : bm_src b = j) by exact (ci_chan _ _ _ I _ _ _ _ _ Ha' Ha Ca' Ca). exists a, b. split; [exact Ha|]. split; [exact Hb|]. split; [exists b; auto|].
  destruct (ci_back _ _ _ I b (nth_error_In _ _ Hb)) as (a2 & Ha2 & Nm & Eb). split; [|split].
  - intros d Rd. unfold handler_sees. apply (typed cA osA cB osB v d _ REGA REGB Rd). rewrite <- Va. exact (ci_enc _ _ _ I a (nth_error_In _ _ Ha)).
  - intros d Rd. unfold call_result. exact (typed cB osB cA osA _ d _ REGB REGA Rd Eb).
  - intros k' H'. destruct (ci_resp _ _ _ I ch k' H') as (b' & a3 & Hb' & Ha3 & Ca3). assert (Q' : bm_src b' = j) by exact (ci_chan _ _ _ I _ _ _ _ _ Ha3 Ha Ca3 Ca).
    apply (ci_once _ _ _ I k' b' k b Hb' Hb); [congruence|]. destruct (ci_back _ _ _ I b' (nth_error_In _ _ Hb')) as (a4 & Ha4 & Nm' & _). rewrite Nm', Q', Ha in *. injection Ha4 as <-.
    pose proof (ci_own _ _ _ I j a Ha) as O. unfold own in O. rewrite Ca in O. tauto.
Qed.

(** Every answer to a call that the caller's node has read was sent to that call; none of them was given to its handlers. *)
Theorem C94_all_answers : forall l s j v ch w k, cx_does cA cB l s -> is_call s j v ch -> answer s j w k ->
  (k < cx_read s -> In (ch, k) (cx_resp s)) /\ ~ In k (cx_work s).
Proof.
  intros l s j v ch w k R (a & Ha & Va & Ca) (b & Hb & Sb & Wb). pose proof (cx_reach _ _ _ _ R) as I. pose proof (ci_own _ _ _ I j a Ha) as O. unfold own in O. rewrite Ca in O. destruct O as (O1 & O2 & O3).
  destruct (ci_back _ _ _ I b (nth_error_In _ _ Hb)) as (a2 & Ha2 & Nm & _). rewrite Sb, Ha in Ha2. injection Ha2 as <-. split.
  - intros L. destruct O3 as [(k' & b' & K1 & K2 & K3 & K4)|[_ O4]]; [|destruct (O4 k b L Hb Sb)]. assert (k = k') as ->; [|exact K4]. apply (ci_once _ _ _ I k b k' b' Hb K2); [congruence|rewrite Nm; exact O1].
  - intros W. destruct (ci_work _ _ _ I k W) as (b' & Hb' & Z). rewrite Hb in Hb'. injection Hb' as <-. lia.
Qed.

(** And nothing keeps an answer from being read: reading on, the caller's node comes to it. *)
Theorem C94_read_on : forall l s j v ch w k, cx_does cA cB l s -> is_call s j v ch -> answer s j w k ->
  exists n s', cxrun cA cB s (repeat CxRead n) = Some s' /\ In (ch, k) (cx_resp s').
Proof.
  intros l s j v ch w k R Hc Hk. pose proof (cx_reach _ _ _ _ R) as I.
  assert (G : forall n s0, k < length (cx_back s0) -> S k - cx_read s0 <= n -> exists m s1, cxrun cA cB s0 (repeat CxRead m) = Some s1 /\ k < cx_read s1 /\ cx_out s1 = cx_out s0 /\ cx_back s1 = cx_back s0).
  { clear. induction n as [|n IH]; intros s0 Lb Ln; [exists 0, s0; cbn; repeat split; auto; lia|]. destruct (Nat.lt_ge_cases k (cx_read s0)) as [X|X]; [exists 0, s0; cbn; auto|].
    destruct (nth_error (cx_back s0) (cx_read s0)) as [b|] eqn:Hb; [|apply nth_error_None in Hb; lia].
    assert (exists s1, cxstep cA cB s0 CxRead = Some s1 /\ cx_read s1 = S (cx_read s0) /\ cx_out s1 = cx_out s0 /\ cx_back s1 = cx_back s0) as (s1 & E & E1 & E2 & E3).
    { cbn [cxstep]. rewrite Hb. destruct (findRequest _ _) as [m [c|]]; eexists; (split; [reflexivity|]); cbn; auto. }
    destruct (IH s1) as (m & s2 & R2 & L2 & O2 & B2); [rewrite E3; exact Lb|lia|]. exists (S m), s2. cbn [repeat cxrun]. rewrite E. split; [exact R2|]. split; [exact L2|]. split; congruence. }
  pose proof Hk as (b & Hb & _). assert (Lb : k < length (cx_back s)) by (apply nth_error_Some; congruence).
  destruct (G _ s Lb (le_n _)) as (n & s' & R' & L' & O' & B'). exists n, s'. split; [exact R'|].
  assert (RR : cx_does cA cB (l ++ repeat CxRead n) s').
  { unfold cx_does in *. clear - R R'. revert R. generalize cx_start. induction l as [|x l IH]; cbn [cxrun app]; intros s0 R; [injection R as ->; exact R'|]. destruct (cxstep cA cB s0 x); [exact (IH _ R)|discriminate]. }
  refine (proj1 (C94_all_answers _ s' j v ch w k RR _ _) L').
  - destruct Hc as (a & Ha & X). exists a. rewrite O'. auto.
  - destruct Hk as (b' & Hb' & X). exists b'. rewrite B'. auto.
Qed.

(** That the connection is such a pair of queues: whatever the two writers have taken their messages in batches and the network has cut the two encrypted
    streams into, each node receives exactly the messages that the other has queued, in order (premises of C81). *)
Theorem C94_wire : forall l s C L suite shared eA pubA secA eB pubB secB chA chB endA endB grow bsA bsB outA outB fuel,
  cx_does cA cB l s -> party C suite eA pubA secA -> party C suite eB pubB secB ->
  ecdh C secA pubB = Ok shared -> ecdh C secB pubA = Ok shared -> gcm C shared = Ok suite -> aead_contract suite ->
  (N.max 96 (N.of_nat (114 + nonce_size suite + overhead suite)) <= L)%N -> (L + 4 < 2 ^ 32)%N ->
  (forall v, In v (map am_val (cx_out s) ++ map bm_val (cx_back s)) -> (value_size suite v <= L)%N /\ exists d, registered hist v d) ->
  (forall c n, n <= grow c n) ->
  let hA := handshake C L eA (new_rstate L (mkConn chA endA)) in
  let hB := handshake C L eB (new_rstate L (mkConn chB endB)) in
  batches_of suite (map am_msg (cx_out s)) bsA -> write_loop grow (hr_suite hA) bsA = Ok outA ->
  batches_of suite (map bm_msg (cx_back s)) bsB -> write_loop grow (hr_suite hB) bsB = Ok outB ->
  concat chA = hr_sent hB ++ outB -> concat chB = hr_sent hA ++ outA ->
  length (cx_out s) < fuel -> length (cx_back s) < fuel ->
  inbound_recv C L eB fuel (mkConn chB endB) = (Ok (he_id eA), Some (map am_msg (cx_out s), Err endB)) /\
  outbound_recv C L eA fuel (mkConn chA endA) = (Ok (he_id eB), Some (map bm_msg (cx_back s), Err endA)).
Proof.
  intros l s C L suite shared eA pubA secA eB pubB secB chA chB endA endB grow bsA bsB outA outB fuel R PA PB EA EB HG HC HL1 HL2 HV G hA hB BA WA BB WB QA QB FA FB.
  pose proof (cx_reach _ _ _ _ R) as I.
  assert (EnA : forall out, (forall a, In a out -> encode cA (Some (am_val a)) = Ok (m_data (am_msg a))) -> encode_all cA (map (fun a => (m_nonce (am_msg a), am_val a)) out) = Ok (map am_msg out)).
  { clear. induction out as [|a out IH]; intros H; [reflexivity|]. cbn [map encode_all]. rewrite (H a (or_introl eq_refl)). cbn [bind]. rewrite IH by (intros; apply H; right; assumption). cbn [bind]. destruct a as [v [n d] c]. reflexivity. }
  assert (EnB : forall out, (forall b, In b out -> encode cB (Some (bm_val b)) = Ok (m_data (bm_msg b))) -> encode_all cB (map (fun b => (m_nonce (bm_msg b), bm_val b)) out) = Ok (map bm_msg out)).
  { clear. induction out as [|a out IH]; intros H; [reflexivity|]. cbn [map encode_all]. rewrite (H a (or_introl eq_refl)). cbn [bind]. rewrite IH by (intros; apply H; right; assumption). cbn [bind]. destruct a as [j v [n d]]. reflexivity. }
  split.
  - refine (proj1 (deliver_exact C L suite shared eA pubA secA eB pubB secB chA chB endA endB outB hist cA osA cB osB _ (map am_msg (cx_out s)) grow bsA outA fuel
      PA PB EA EB HG HC HL1 HL2 REGA REGB SIZE PLAIN _ G (EnA (cx_out s) (ci_enc _ _ _ I)) BA WA QA QB _)); [|rewrite map_length; exact FA].
    intros n v H. apply in_map_iff in H as (a & [= <- <-] & Ia). split; [exact (ci_bound _ _ _ I a Ia)|]. apply HV, in_or_app. left. apply in_map. exact Ia.
  - refine (proj1 (proj2 (deliver_exact C L suite shared eB pubB secB eA pubA secA chB chA endB endA outA hist cB osB cA osA _ (map bm_msg (cx_back s)) grow bsB outB fuel
      PB PA EB EA HG HC HL1 HL2 REGB REGA SIZE PLAIN _ G (EnB (cx_back s) _) BB WB QB QA _))); [| |rewrite map_length; exact FB].
    + intros n v H. apply in_map_iff in H as (b & [= <- <-] & Ib). split; [|apply HV, in_or_app; right; apply in_map; exact Ib].
      destruct (ci_back _ _ _ I b Ib) as (a & Ha & Nm & _). rewrite Nm. exact (ci_bound _ _ _ I a (nth_error_In _ _ Ha)).
    + intros b Ib. destruct (ci_back _ _ _ I b Ib) as (a & _ & _ & X). exact X.
Qed.
End C94.
Print Assumptions C94_own_answer.
Print Assumptions C94_all_answers.
Print Assumptions C94_read_on.
Print Assumptions C94_wire.

(** Two calls and a plain message; the second call is answered first. *)
Definition cx_ex : list cxact :=
  [CxCall (mkVal (TNamed 1) [n2b 5]); CxCall (mkVal (TPtr (TNamed 2)) [n2b 6; n2b 7]); CxSay (mkVal (TNamed 2) []); CxServe; CxServe; CxServe;
   CxAnswer 1 (mkVal (TNamed 1) [n2b 8]); CxAnswer 1 (mkVal (TNamed 1) [n2b 1]); CxAnswer 2 (mkVal (TNamed 1) []); CxAnswer 0 (mkVal (TNamed 2) [n2b 9]); CxRead; CxRead; CxRead].
Definition cx_ex_state : cxstate := match cxrun pipe_codec pipe_codec cx_start cx_ex with Some s => s | None => cx_start end.
Definition cx_bsA : list (list bytes * list message) := [([[n2b 1; n2b 2]; [n2b 3; n2b 4]], firstn 2 (map am_msg (cx_out cx_ex_state))); ([[n2b 5; n2b 6]], skipn 2 (map am_msg (cx_out cx_ex_state)))].
Definition cx_bsB : list (list bytes * list message) := [([[n2b 1; n2b 2]], firstn 1 (map bm_msg (cx_back cx_ex_state))); ([[n2b 3; n2b 4]; [n2b 5; n2b 6]], skipn 1 (map bm_msg (cx_back cx_ex_state)))].
Definition loop_out (bs : list (list bytes * list message)) : bytes := match write_loop (fun _ n => n) (Some toy) bs with Ok o => o | _ => [] end.
Example C94_nonvacuous :
  cx_does pipe_codec pipe_codec cx_ex cx_ex_state /\ (exists os, register_all newCodec ex_hist = Ok (pipe_codec, os)) /\
  is_call cx_ex_state 0 (mkVal (TNamed 1) [n2b 5]) 0 /\ is_call cx_ex_state 1 (mkVal (TPtr (TNamed 2)) [n2b 6; n2b 7]) 1 /\
  cx_resp cx_ex_state = [(1, 0); (0, 2)] /\ cx_work cx_ex_state = [1] /\ length (cx_back cx_ex_state) = 3 /\
  answer cx_ex_state 0 (mkVal (TNamed 2) [n2b 9]) 2 /\ answer cx_ex_state 1 (mkVal (TNamed 1) [n2b 8]) 0 /\
  map (fun b => call_result pipe_codec (bm_msg b)) (cx_back cx_ex_state) = [Ok (mkVal (TNamed 1) [n2b 1; n2b 8]); Ok (mkVal (TNamed 1) [n2b 1]); Ok (mkVal (TNamed 2) [n2b 2; n2b 9])] /\
  let chA := [firstn 100 (stream_b ++ loop_out cx_bsB); skipn 100 (stream_b ++ loop_out cx_bsB)] in
  let chB := [firstn 170 (stream_a ++ loop_out cx_bsA); []; skipn 170 (stream_a ++ loop_out cx_bsA)] in
  let hA := handshake toy_crypto 200 env_a (new_rstate 200 (mkConn chA ErrEOF)) in
  let hB := handshake toy_crypto 200 env_b (new_rstate 200 (mkConn chB ErrOther)) in
  party toy_crypto toy env_a eph_a (eph_a ++ eph_a) /\ party toy_crypto toy env_b eph_b (eph_b ++ eph_b) /\
  batches_of toy (map am_msg (cx_out cx_ex_state)) cx_bsA /\ write_loop (fun _ n => n) (hr_suite hA) cx_bsA = Ok (loop_out cx_bsA) /\
  batches_of toy (map bm_msg (cx_back cx_ex_state)) cx_bsB /\ write_loop (fun _ n => n) (hr_suite hB) cx_bsB = Ok (loop_out cx_bsB) /\
  concat chA = hr_sent hB ++ loop_out cx_bsB /\ concat chB = hr_sent hA ++ loop_out cx_bsA /\
  outbound_recv toy_crypto 200 env_a 4 (mkConn chA ErrEOF) = (Ok (he_id env_b), Some (map bm_msg (cx_back cx_ex_state), Err ErrEOF)).
Proof.
  split; [vm_compute; reflexivity|]. split; [eexists; vm_compute; reflexivity|]. split; [eexists; split; [vm_compute; reflexivity|split; reflexivity]|]. split; [eexists; split; [vm_compute; reflexivity|split; reflexivity]|].
  split; [vm_compute; reflexivity|]. split; [vm_compute; reflexivity|]. split; [vm_compute; reflexivity|].
  split; [eexists; split; [vm_compute; reflexivity|split; reflexivity]|]. split; [eexists; split; [vm_compute; reflexivity|split; reflexivity]|]. split; [vm_compute; reflexivity|].
  intros chA chB hA hB. split; [apply toy_party; reflexivity|]. split; [apply toy_party; reflexivity|].
  split; [split; [vm_compute; reflexivity|repeat constructor]|]. split; [vm_compute; reflexivity|]. split; [split; [vm_compute; reflexivity|repeat constructor]|]. split; [vm_compute; reflexivity|].
  split; [vm_compute; reflexivity|]. split; [vm_compute; reflexivity|]. vm_compute. reflexivity.
Qed.
