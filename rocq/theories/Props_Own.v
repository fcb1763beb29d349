(** * Who may change the bytes: C84 (data passed to Send), C85 (data given to handlers). *)
From Verif Require Import Base M_Msg M_AEAD M_Frame M_Own P_Wire P_AEAD P_Frame Props_Frame.
From Coq Require Import Strings.Byte.
Local Open Scope nat_scope.

(** ** C85 *)

Lemma read_full_len n r d e r' : read_full n r = (d, e, r') -> match e with None => length d = n | Some _ => length d < n end.
Proof.
  intros E. destruct (read_full_spec n r) as (x & _ & F1 & F2).
  destruct (Nat.le_gt_cases n (length (rd_bytes r))) as [H|H].
  - destruct (F1 H) as [F _]. rewrite F in E. injection E as <- <- <-. rewrite firstn_length. lia.
  - destruct (F2 H) as [F _]. rewrite F in E. injection E as <- <- <-. exact H.
Qed.

(** The outcome of a read does not depend on what the buffer holds. *)
Definition read_val (max : N) (A : option aead) (len : nat) (rd : bufrd) : bufrd * res bytes :=
  if negb (4 <=? len) then (rd, Panic) else
  let '(hd, e, rd1) := read_full 4 rd in
  match e with
  | Some er => (rd1, Err er)
  | None =>
      let size := be_decode hd in
      if ((0 <? max) && (max <? size))%N then (rd1, Err ErrMessageTooLarge) else
      let hi := N.to_nat (u32 (size + 4)) in
      if (4 <=? hi) && (hi <=? len) then
        let '(d, e2, rd2) := read_full (hi - 4) rd1 in
        match e2 with Some er => (rd2, Err er) | None => (rd2, body_result A d) end
      else (rd1, Panic)
  end.

Lemma client_read_val max A st st' r : client_read max A st = (st', r) ->
  read_val max A (length (rs_buf st)) (rs_rd st) = (rs_rd st', r) /\ length (rs_buf st') = length (rs_buf st).
Proof.
  destruct st as [buf rd]. unfold client_read, read_val. cbn [rs_buf rs_rd].
  assert (Hslice : slice_to 4 buf = if 4 <=? length buf then Ok (firstn 4 buf) else Panic).
  { unfold slice_to, slice. cbn [skipn Nat.leb andb]. rewrite Nat.sub_0_r. reflexivity. }
  rewrite Hslice. destruct (Nat.leb_spec 4 (length buf)) as [H4|H4]; cbn [negb].
  2:{ intros E. injection E as <- <-. auto. }
  destruct (read_full 4 rd) as [[hd e] rd1] eqn:R1. pose proof (read_full_len _ _ _ _ _ R1) as L1.
  destruct e as [er|]. { intros E. injection E as <- <-. split; [reflexivity | apply go_copy_length]. }
  assert (G1 : firstn 4 (go_copy buf hd) = hd).
  { unfold go_copy. rewrite firstn_all2 with (n := length buf) by lia. rewrite firstn_app_exact by exact L1. reflexivity. }
  cbv zeta. rewrite G1. set (size := be_decode hd). set (buf1 := go_copy buf hd) in *.
  assert (LB1 : length buf1 = length buf) by apply go_copy_length.
  destruct ((0 <? max) && (max <? size))%N. { intros E. injection E as <- <-. auto. }
  set (hi := N.to_nat (u32 (size + 4))).
  assert (HS : slice 4 hi buf1 = if (4 <=? hi) && (hi <=? length buf) then Ok (firstn (hi - 4) (skipn 4 buf1)) else Panic)
    by (unfold slice; rewrite LB1; reflexivity).
  rewrite HS. destruct ((4 <=? hi) && (hi <=? length buf)) eqn:EH. 2:{ intros E. injection E as <- <-. auto. }
  apply andb_true_iff in EH as [Ha Hb]. apply Nat.leb_le in Ha, Hb.
  assert (LW : length (firstn (hi - 4) (skipn 4 buf1)) = hi - 4) by (rewrite firstn_length, skipn_length; lia).
  rewrite LW. destruct (read_full (hi - 4) rd1) as [[d e2] rd2] eqn:R2. pose proof (read_full_len _ _ _ _ _ R2) as L2.
  set (buf2 := hd ++ go_copy (skipn 4 buf1) d).
  assert (LB2 : length buf2 = length buf).
  { unfold buf2. rewrite app_length, go_copy_length, skipn_length. lia. }
  destruct e2 as [er|]. { intros E. injection E as <- <-. auto. }
  assert (W : firstn (hi - 4) (skipn 4 buf2) = d).
  { unfold buf2. rewrite skipn_app_exact by exact L1. unfold go_copy.
    rewrite firstn_all2 with (n := length (skipn 4 buf1)) by (rewrite skipn_length; lia). rewrite firstn_app_exact by exact L2. reflexivity. }
  rewrite W. unfold body_result. destruct A as [a|]; intros E; injection E as <- <-; auto.
Qed.

Lemma decrypt_valid A h buf h' r : valid h buf -> decryptAEAD A h buf = (h', r) ->
  length (arr h' (s_arr buf)) = length (arr h (s_arr buf)) /\ length h' = length h /\
  forall s, r = Ok s -> valid h' s /\ s_arr s = s_arr buf.
Proof.
  intros V E. pose proof V as (A1 & B1 & C1). unfold decryptAEAD in E. cbv zeta in E.
  destruct (Nat.ltb_spec (s_len buf) (nonce_size A)) as [H|H].
  { injection E as <- <-. split; [reflexivity|]. split; [reflexivity|]. discriminate. }
  rewrite !reslice_ok in E by (cbn [s_cap]; lia). cbn [s_arr s_off s_len s_cap] in E.
  rewrite !Nat.add_0_r, !Nat.sub_0_r in E. unfold aead_Open in E. cbv zeta in E. cbn [s_arr s_off s_len s_cap] in E.
  destruct (negb _). { injection E as <- <-. split; [reflexivity|]. split; [reflexivity|]. discriminate. }
  destruct (Nat.ltb_spec (s_len buf - nonce_size A) (overhead A)) as [H2|H2].
  { injection E as <- <-. split; [reflexivity|]. split; [reflexivity|]. discriminate. }
  unfold slice_for_append in E. cbv zeta in E. cbn [s_arr s_off s_len s_cap plus] in E.
  match type of E with context [if ?b then _ else _] => destruct b eqn:H3 end; [|apply Nat.leb_gt in H3; lia].
  apply Nat.leb_le in H3.
  match type of E with context [if ?b then _ else _] => destruct b end.
  { injection E as <- <-. split; [reflexivity|]. split; [reflexivity|]. discriminate. }
  match type of E with context [open ?a ?b ?c] => destruct (open a b c) as [p|] end; injection E as <- <-;
    (split; [unfold store; cbn [s_arr s_off]; rewrite arr_set_same by exact A1; apply splice_length; rewrite ?firstn_length, ?zeros_length; cbn [s_len]; lia|]);
    (split; [apply store_length|]); intros s Es; [|discriminate].
  injection Es as <-. cbn [s_arr]. split; [|reflexivity]. apply store_valid.
  - unfold valid. cbn [s_arr s_off s_len s_cap]. lia.
  - cbn [s_cap s_len]. rewrite firstn_length. lia.
  - unfold valid. cbn [s_arr s_off s_len s_cap]. lia.
Qed.

Definition sealed_ok (A : option aead) : Prop := match A with None => True | Some a => aead_contract a end.

Lemma store_mine h s pos d : valid h s -> pos + length d <= s_len s -> skipn pos (contents (store h s pos d) s) = d ++ skipn (pos + length d) (contents h s).
Proof.
  intros V H. pose proof V as (A & B & C). rewrite store_contents by (auto; lia).
  unfold contents. replace (s_off s + pos - s_off s) with pos by lia. pointwise.
Qed.

Lemma read_heap_ok max A h rb st st' r : sealed_ok A -> valid h rb -> s_off rb = 0 -> s_len rb = s_cap rb -> s_cap rb = length (rs_buf st) ->
  client_read max A st = (st', r) ->
  exists h' r', read_heap max A h rb (rs_rd st) = (h', rs_rd st', r') /\ length h' = length h /\
    (forall i, i <> s_arr rb -> arr h' i = arr h i) /\ valid h' rb /\ length (rs_buf st') = length (rs_buf st) /\
    match r with
    | Ok d => exists sl, r' = Ok sl /\ valid h' sl /\ s_arr sl = s_arr rb /\ contents h' sl = d
    | Err e => r' = Err e
    | Panic => r' = Panic
    end.
Proof.
  intros HA V Ho Hl Hc E. destruct (client_read_val _ _ _ _ _ E) as [Q LB]. clear E.
  pose proof V as (V1 & V2 & V3). set (rd := rs_rd st) in *. rewrite <- Hc in Q, LB |- *. unfold read_val in Q. unfold read_heap.
  destruct (Nat.leb_spec 4 (s_cap rb)) as [H4|H4]; cbn [negb] in Q.
  2:{ injection Q as Q1 Q2. subst r. 
      assert (reslice rb 0 4 = Panic) as -> by (unfold reslice; replace (4 <=? s_cap rb) with false by (symmetry; apply Nat.leb_gt; lia); reflexivity).
      exists h, Panic. rewrite Q1. auto 9. }
  rewrite reslice_ok by lia. rewrite Ho. cbn [plus Nat.sub]. set (front := mkSl (s_arr rb) 0 4 (s_cap rb - 0)).
  assert (Vf : valid h front) by (unfold valid, front; cbn [s_arr s_off s_len s_cap]; lia).
  destruct (read_full 4 rd) as [[hd e] rd1] eqn:R1. pose proof (read_full_len _ _ _ _ _ R1) as L1. cbv zeta in *.
  assert (Fr : forall (x : gslice) d h0, s_arr x = s_arr rb -> valid h0 x -> valid h0 rb -> length d <= s_cap x -> length h0 = length h ->
    (forall i, i <> s_arr rb -> arr h0 i = arr h i) ->
    length (store h0 x 0 d) = length h /\ (forall i, i <> s_arr rb -> arr (store h0 x 0 d) i = arr h i) /\ valid (store h0 x 0 d) rb /\
    valid (store h0 x 0 d) x).
  { intros x d h0 Ex Vx Vr Ld Lh Hi. split; [rewrite store_length; exact Lh|]. split.
    - intros i Ni. unfold store. rewrite arr_set_other by congruence. apply Hi, Ni.
    - split; apply store_valid; auto. }
  assert (Lhd : length hd <= 4) by (destruct e; lia).
  destruct (Fr front hd h eq_refl Vf V) as (F1 & F2 & F3 & F4); [cbn; lia | reflexivity | auto |].
  set (h1 := store h front 0 hd) in *.
  destruct e as [er|].
  { injection Q as Q1 Q2. subst r. exists h1, (Err er). rewrite Q1. auto 9. }
  assert (Cf : contents h1 front = hd).
  { pose proof (store_mine h front 0 hd Vf) as X. cbn [skipn plus] in X. fold h1 in X. rewrite X by (cbn; lia).
    rewrite skipn_all2; [apply app_nil_r|]. rewrite contents_length by exact Vf. cbn. lia. }
  rewrite Cf. set (size := be_decode hd) in *.
  destruct ((0 <? max) && (max <? size))%N.
  { injection Q as Q1 Q2. subst r. exists h1, (Err ErrMessageTooLarge). rewrite Q1. auto 9. }
  set (hi := N.to_nat (u32 (size + 4))) in *.
  unfold reslice. destruct ((4 <=? hi) && (hi <=? s_cap rb)) eqn:EH.
  2:{ injection Q as Q1 Q2. subst r. exists h1, Panic. rewrite Q1. auto 9. }
  apply andb_true_iff in EH as [Ha Hb]. apply Nat.leb_le in Ha, Hb. rewrite Ho. cbn [plus s_len].
  set (w := mkSl (s_arr rb) 4 (hi - 4) (s_cap rb - 4)).
  destruct F3 as (F3a & F3b & F3c).
  assert (Vw : valid h1 w) by (unfold valid, w; cbn [s_arr s_off s_len s_cap]; lia).
  destruct (read_full (hi - 4) rd1) as [[d e2] rd2] eqn:R2. pose proof (read_full_len _ _ _ _ _ R2) as L2.
  assert (Ld : length d <= hi - 4) by (destruct e2; lia).
  destruct (Fr w d h1 eq_refl Vw (conj F3a (conj F3b F3c))) as (G1 & G2 & G3 & G4); [cbn; lia | exact F1 | exact F2 |].
  set (h2 := store h1 w 0 d) in *.
  destruct e2 as [er|].
  { injection Q as Q1 Q2. subst r. exists h2, (Err er). rewrite Q1. auto 9. }
  assert (Cw : contents h2 w = d).
  { pose proof (store_mine h1 w 0 d Vw) as X. cbn [skipn plus] in X. fold h2 in X. rewrite X by (cbn; lia).
    rewrite skipn_all2; [apply app_nil_r|]. rewrite contents_length by exact Vw. cbn. lia. }
  injection Q as Q1 Q2. rewrite <- Q1. destruct A as [a|]; cbn [body_result] in Q2.
  - assert (OO : open_ok a) by (destruct HA as (_ & X2 & X3 & X4); repeat split; auto).
    destruct (decryptAEAD_spec a h2 w OO G4) as (h3 & r3 & E3 & M & L3 & I3). rewrite E3, Cw in *. rewrite Q2 in M.
    exists h3, r3. split; [reflexivity|]. split; [congruence|].
    assert (I4 : forall i, i <> s_arr rb -> arr h3 i = arr h i) by (intros i Ni; rewrite I3 by exact Ni; apply G2, Ni).
    split; [exact I4|].
    assert (Vr : valid h3 rb).
    { destruct G3 as (Ga & Gb & Gc). split; [rewrite L3; exact Ga|]. split; [|exact Gc].
      destruct (decrypt_valid a h2 w h3 r3 G4 E3) as [X _]. cbn [w s_arr] in X. lia. }
    split; [exact Vr|]. split; [exact LB|].
    destruct r as [p|er|]; [|exact M|destruct M]. destruct M as (sl & -> & Cs). exists sl.
    destruct (decrypt_valid a h2 w h3 _ G4 E3) as (_ & _ & X). destruct (X sl eq_refl). auto.
  - subst r. exists h2, (Ok w). split; [reflexivity|]. split; [exact G1|]. split; [exact G2|]. split; [exact G3|]. split; [exact LB|].
    exists w. auto.
Qed.

Section Runs.
Variable grow : nat -> nat -> nat.
Hypothesis grow_ok : forall c n, n <= grow c n.

Lemma same_contents h h' s : arr h' (s_arr s) = arr h (s_arr s) -> contents h' s = contents h s.
Proof. intros E. unfold contents. rewrite E. reflexivity. Qed.
Lemma same_valid h h' s : length h <= length h' -> arr h' (s_arr s) = arr h (s_arr s) -> valid h s -> valid h' s.
Proof. intros L E (A & B & C). split; [lia|]. split; [rewrite E; exact B | exact C]. Qed.

Lemma fresh_copy_ok h d h' c : valid h d -> fresh_copy grow h d = (h', c) ->
  valid h' c /\ contents h' c = contents h d /\ length h <= s_arr c /\ length h <= length h' /\ (forall i, i < length h -> arr h' i = arr h i).
Proof.
  intros V E. unfold fresh_copy, make in E. set (h1 := h ++ [zeros 0]) in E. set (e := mkSl (length h) 0 0 0) in E.
  assert (L1 : length h1 = S (length h)) by (unfold h1; rewrite app_length; cbn; lia).
  assert (Ve : valid h1 e). { unfold valid, e. cbn [s_arr s_off s_len s_cap]. lia. }
  destruct (append_spec grow grow_ok h1 e _ _ _ Ve E) as (A1 & A2 & A3 & (A4 & A5) & A6).
  assert (C0 : contents h1 e = []) by reflexivity.
  assert (K : forall i, i < length h -> arr h1 i = arr h i) by (intros i Hi; apply arr_app_old, Hi).
  split; [exact A1|]. split; [rewrite A2, C0; cbn [app]; apply same_contents, K, V|].
  split; [destruct A6 as [-> | ->]; cbn [e s_arr]; lia|]. split; [lia|].
  intros i Hi. rewrite A5 by (cbn [e s_arr]; lia). apply K, Hi.
Qed.

Lemma unmarshal_slice_ok h s : valid h s ->
  match unmarshalMessage (contents h s) with
  | Ok m => exists d, unmarshal_slice h s = Ok (m_nonce m, d) /\ valid h d /\ contents h d = m_data m /\ s_arr d = s_arr s
  | Err e => unmarshal_slice h s = Err e
  | Panic => False
  end.
Proof.
  intros V. pose proof V as (A & B & C). unfold unmarshalMessage, unmarshal_slice, slice_from, slice_to, slice. rewrite contents_length by exact V.
  destruct (Nat.ltb_spec (s_len s) 8) as [H|H]; [reflexivity|].
  destruct (Nat.leb_spec 8 (s_len s)) as [_|X]; [|lia]. cbn [andb Nat.leb bind]. rewrite Nat.leb_refl. cbn [bind m_nonce m_data].
  destruct (Nat.leb_spec 8 (s_len s)) as [_|X]; [|lia]. cbn [andb bind m_nonce m_data].
  rewrite !reslice_ok by lia. cbn [bind]. eexists. split; [|split; [|split]].
  - f_equal. f_equal. f_equal. unfold contents. cbn [s_arr s_off s_len]. rewrite Nat.add_0_r. cbn [skipn Nat.sub].
    rewrite firstn_firstn. f_equal. lia.
  - unfold valid. cbn [s_arr s_off s_len s_cap]. lia.
  - unfold contents. cbn [s_arr s_off s_len]. pointwise.
  - reflexivity.
Qed.

(** The messages of [k] passes of the receive loop, as in M_Frame's recv_all. *)
Inductive reads (max : N) (A : option aead) : rstate -> list message -> rstate -> Prop :=
| reads_nil st : reads max A st [] st
| reads_snoc st ms st1 st2 d m : reads max A st ms st1 -> client_read max A st1 = (st2, Ok d) -> unmarshalMessage d = Ok m -> reads max A st (ms ++ [m]) st2.

Lemma reads_prefix max A st ms st1 : reads max A st ms st1 -> forall fuel all r, recv_all fuel max A st = Some (all, r) ->
  exists fuel' rest, all = ms ++ rest /\ recv_all fuel' max A st1 = Some (rest, r).
Proof.
  induction 1 as [st|st ms st1 st2 d m Hr IH E U]; intros fuel all r Q. { exists fuel, all. auto. }
  destruct (IH fuel all r Q) as (f & rest & -> & Q'). destruct f as [|f]; [discriminate|]. cbn [recv_all] in Q'. rewrite E, U in Q'.
  destruct (recv_all f max A st2) as [[rest' r']|] eqn:Q2; [|discriminate]. injection Q' as <- <-.
  exists f, rest'. rewrite <- app_assoc. auto.
Qed.

Definition wrote (i : nat) (l : list ract) : Prop := exists pos d, In (RWrite i pos d) l.

Record rinv (max : N) (A : option aead) (st0 : rstate) (l : list ract) (s : rcv) (ms : list message) (st : rstate) : Prop := {
  ri_reads : reads max A st0 ms st;
  ri_len : length (w_got s) = length ms;
  ri_buf : valid (w_heap s) (w_buf s) /\ s_off (w_buf s) = 0 /\ s_len (w_buf s) = s_cap (w_buf s) /\ s_cap (w_buf s) = length (rs_buf st);
  ri_got : forall i n sl, nth_error (w_got s) i = Some (n, sl) -> valid (w_heap s) sl /\ s_arr sl <> s_arr (w_buf s) /\
    (forall j n' sl', nth_error (w_got s) j = Some (n', sl') -> i <> j -> s_arr sl' <> s_arr sl) /\
    exists m, nth_error ms i = Some m /\ n = m_nonce m /\ (~ wrote i l -> contents (w_heap s) sl = m_data m);
  ri_end : match w_end s with
           | None => w_rd s = rs_rd st
           | Some e => recv_all 1 max A st = Some ([], e)
           end }.

Lemma rcv_run_snoc max A s l a s' : rcv_run grow max A s (l ++ [a]) = Some s' ->
  exists s1, rcv_run grow max A s l = Some s1 /\ rcv_step grow max A s1 a = Some s'.
Proof.
  revert s. induction l as [|b l IH]; cbn [rcv_run app]; intros s E.
  - exists s. destruct (rcv_step grow max A s a); [|discriminate]. auto.
  - destruct (rcv_step grow max A s b) as [s2|]; [|discriminate]. apply IH, E.
Qed.

Lemma wrote_app i l a : ~ wrote i (l ++ [a]) -> ~ wrote i l.
Proof. intros H (p & d & I). apply H. exists p, d. apply in_or_app. auto. Qed.

Lemma rinv_step max A st0 l s ms st a s' : sealed_ok A -> rinv max A st0 l s ms st -> rcv_step grow max A s a = Some s' ->
  exists ms' st', rinv max A st0 (l ++ [a]) s' ms' st'.
Proof.
  intros HA [R1 R2 (R3 & R4 & R5 & R6) R7 R8] E. destruct s as [h rb rd got en]. cbn [w_heap w_buf w_rd w_got w_end] in *.
  destruct a as [|i pos d]; cbn [rcv_step w_heap w_buf w_rd w_got w_end] in E.
  - destruct en as [e|]; [discriminate|]. subst rd.
    destruct (client_read max A st) as [st' r] eqn:C.
    destruct (read_heap_ok max A h rb st st' r HA R3 R4 R5 R6 C) as (h1 & r' & RH & L1 & K1 & V1 & LB & M).
    rewrite RH in E.
    assert (Keep : forall i n sl, nth_error got i = Some (n, sl) -> arr h1 (s_arr sl) = arr h (s_arr sl)) by
      (intros i n sl Hn; apply K1, (R7 i n sl Hn)).
    assert (Fail : forall e, match r with Ok d => match unmarshalMessage d with Ok _ => False | Err x => e = Err x | Panic => e = Panic end | Err x => e = Err x | Panic => e = Panic end ->
      rinv max A st0 (l ++ [RPass]) (mkRcv h1 rb (rs_rd st') got (Some e)) ms st).
    { intros e He. constructor; cbn [w_heap w_buf w_rd w_got w_end]; auto.
      - intros i n sl Hn. pose proof (Keep _ _ _ Hn) as Kn. destruct (R7 i n sl Hn) as (X1 & X2 & X3 & m & X4 & X5 & X6).
        split; [apply same_valid with h; auto; lia|]. split; [exact X2|]. split; [exact X3|]. exists m. split; [exact X4|]. split; [exact X5|].
        intros W. rewrite (same_contents h h1 sl Kn). apply X6, (wrote_app _ _ _ W).
      - cbn [recv_all]. rewrite C. destruct r as [d|x|]; [|rewrite He; reflexivity..].
        destruct (unmarshalMessage d) as [m|x|]; [destruct He|rewrite He; reflexivity..]. }
    destruct r as [d|x|]; cbv [bind] in E.
    2:{ rewrite M in E. injection E as <-. exists ms, st. apply Fail. reflexivity. }
    2:{ rewrite M in E. injection E as <-. exists ms, st. apply Fail. reflexivity. }
    destruct M as (sl & -> & Vs & As & Cs). pose proof (unmarshal_slice_ok h1 sl Vs) as U. rewrite Cs in U.
    destruct (unmarshalMessage d) as [m|x|] eqn:UM.
    2:{ rewrite U in E. injection E as <-. exists ms, st. apply Fail. reflexivity. }
    2:{ destruct U. }
    destruct U as (dl & U & Vd & Cd & Ad). rewrite U in E. destruct (fresh_copy grow h1 dl) as [h2 c] eqn:FC. injection E as <-.
    destruct (fresh_copy_ok h1 dl h2 c Vd FC) as (F1 & F2 & F3 & F4 & F5).
    exists (ms ++ [m]), st'. constructor; cbn [w_heap w_buf w_rd w_got w_end]; auto.
    + apply reads_snoc with st d; auto.
    + rewrite !app_length. cbn [length]. lia.
    + split; [apply same_valid with h1; auto; apply F5, V1|]. split; [exact R4|]. split; [exact R5|]. congruence.
    + assert (Hnew : forall i n s, nth_error (got ++ [(m_nonce m, c)]) i = Some (n, s) -> (i < length got /\ nth_error got i = Some (n, s)) \/ (i = length got /\ n = m_nonce m /\ s = c)).
      { intros i n s Hn. destruct (Nat.lt_ge_cases i (length got)) as [Hi|Hi].
        - rewrite nth_error_app1 in Hn by exact Hi. auto.
        - rewrite nth_error_app2 in Hn by exact Hi. destruct (i - length got) as [|k] eqn:Ek; [|destruct k; discriminate].
          injection Hn as <- <-. right. split; [lia|]. auto. }
      assert (Old : forall i n s, nth_error got i = Some (n, s) -> s_arr s < length h1) by (intros i n s Hn; rewrite L1; apply (R7 i n s Hn)).
      intros i n s Hn. destruct (Hnew i n s Hn) as [[Hi Hn']|(-> & -> & ->)].
      * pose proof (Keep _ _ _ Hn') as Kn. pose proof (Old _ _ _ Hn') as On. destruct (R7 i n s Hn') as (X1 & X2 & X3 & m' & X4 & X5 & X6).
        assert (Ah : arr h2 (s_arr s) = arr h (s_arr s)) by (rewrite F5 by exact On; exact Kn).
        split; [apply same_valid with h; auto; lia|]. split; [exact X2|]. split.
        -- intros j n' s' Hj Hij. destruct (Hnew j n' s' Hj) as [[_ Hj']|(_ & _ & ->)]; [apply (X3 j n' s' Hj' Hij) | lia].
        -- exists m'. split; [rewrite nth_error_app1 by lia; exact X4|]. split; [exact X5|].
           intros W. rewrite (same_contents h h2 s Ah). apply X6, (wrote_app _ _ _ W).
      * split; [exact F1|]. split; [destruct V1; lia|]. split.
        -- intros j n' s' Hj Hij. destruct (Hnew j n' s' Hj) as [[_ Hj']|(-> & _)]; [|destruct Hij; reflexivity]. specialize (Old j n' s' Hj'). lia.
        -- exists m. rewrite R2, nth_error_app2, Nat.sub_diag by lia. split; [reflexivity|]. split; [reflexivity|]. intros _. rewrite F2. exact Cd.
  - destruct (nth_error got i) as [[n sl]|] eqn:Hn; [|discriminate]. destruct (Nat.leb_spec (pos + length d) (s_cap sl)) as [Hl|Hl]; [|discriminate].
    injection E as <-. destruct (R7 i n sl Hn) as (X1 & X2 & X3 & _). exists ms, st. constructor; cbn [w_heap w_buf w_rd w_got w_end]; auto.
    + split; [apply store_valid; auto|]. auto.
    + intros j n' sl' Hj. destruct (R7 j n' sl' Hj) as (Y1 & Y2 & Y3 & m & Y4 & Y5 & Y6).
      split; [apply store_valid; auto|]. split; [exact Y2|]. split; [exact Y3|]. exists m. split; [exact Y4|]. split; [exact Y5|].
      intros W. destruct (Nat.eq_dec i j) as [<-|Nij]. { destruct W. exists pos, d. apply in_or_app. right. left. reflexivity. }
      rewrite (same_contents h _ sl'); [apply Y6, (wrote_app _ _ _ W)|]. unfold store. apply arr_set_other.
      pose proof (X3 j n' sl' Hj Nij). congruence.
Qed.

Lemma rinv_run max A c l s : sealed_ok A -> rcv_run grow max A (rcv_start max c) l = Some s ->
  exists ms st, rinv max A (new_rstate max c) l s ms st.
Proof.
  intros HA. revert s. induction l as [|a l IH] using rev_ind; intros s E.
  - injection E as <-. exists [], (new_rstate max c). unfold rcv_start, make. constructor; cbn [w_heap w_buf w_rd w_got w_end].
    + constructor.
    + reflexivity.
    + unfold new_rstate, valid. cbn [rs_buf s_arr s_off s_len s_cap app length arr nth]. unfold arr. cbn [nth]. rewrite zeros_length. lia.
    + intros i n sl Hn. destruct i; discriminate.
    + reflexivity.
  - apply rcv_run_snoc in E as (s1 & E1 & E2). destruct (IH s1 E1) as (ms & st & I). exact (rinv_step max A _ l s1 ms st a s HA I E2).
Qed.

(** C85: whatever the holders of other messages write into their data, and whatever arrives later, the data of a message is what
    arrived until its own holder writes into it; and what arrives, up to the end of the connection, does not depend on what holders
    write. *)
Theorem C85_private : forall max A c l s fuel ms r i n sl,
  sealed_ok A -> rcv_run grow max A (rcv_start max c) l = Some s ->
  recv_all fuel max A (new_rstate max c) = Some (ms, r) ->
  nth_error (w_got s) i = Some (n, sl) -> ~ wrote i l ->
  nth_error ms i = Some (mkMsg n (contents (w_heap s) sl)).
Proof.
  intros max A c l s fuel ms r i n sl HA E Q Hn W. destruct (rinv_run max A c l s HA E) as (ms1 & st & I).
  destruct (ri_got _ _ _ _ _ _ _ I i n sl Hn) as (_ & _ & _ & m & M1 & M2 & M3). destruct (reads_prefix _ _ _ _ _ (ri_reads _ _ _ _ _ _ _ I) fuel ms r Q) as (f & rest & -> & _).
  rewrite nth_error_app1 by (apply nth_error_Some; congruence). rewrite M1, M3, M2 by exact W. destruct m; reflexivity.
Qed.

Theorem C85_stream : forall max A c l s fuel ms r,
  sealed_ok A -> rcv_run grow max A (rcv_start max c) l = Some s ->
  recv_all fuel max A (new_rstate max c) = Some (ms, r) ->
  (exists rest, map m_nonce ms = map fst (w_got s) ++ rest) /\
  (forall e, w_end s = Some e -> e = r /\ length (w_got s) = length ms).
Proof.
  intros max A c l s fuel ms r HA E Q. destruct (rinv_run max A c l s HA E) as (ms1 & st & I).
  destruct (reads_prefix _ _ _ _ _ (ri_reads _ _ _ _ _ _ _ I) fuel ms r Q) as (f & rest & -> & Q').
  assert (Nn : map fst (w_got s) = map m_nonce ms1).
  { apply nth_error_ext. intros i. rewrite !nth_error_map. destruct (nth_error (w_got s) i) as [[n sl]|] eqn:Hn.
    - destruct (ri_got _ _ _ _ _ _ _ I i n sl Hn) as (_ & _ & _ & m & M1 & M2 & _). rewrite M1. cbn. congruence.
    - apply nth_error_None in Hn. rewrite (ri_len _ _ _ _ _ _ _ I) in Hn. apply nth_error_None in Hn. rewrite Hn. reflexivity. }
  split. { exists (map m_nonce rest). rewrite Nn, map_app. reflexivity. }
  intros e He. pose proof (ri_end _ _ _ _ _ _ _ I) as X. rewrite He in X. cbn [recv_all] in X.
  destruct f as [|f]; [discriminate|]. cbn [recv_all] in Q'. destruct (client_read max A st) as [st2 [d|x|]].
  - destruct (unmarshalMessage d) as [m|x|]; [discriminate|..]; injection X as <-; injection Q' as <- <-; rewrite app_nil_r, (ri_len _ _ _ _ _ _ _ I); auto.
  - injection X as <-; injection Q' as <- <-; rewrite app_nil_r, (ri_len _ _ _ _ _ _ _ I); auto.
  - injection X as <-; injection Q' as <- <-; rewrite app_nil_r, (ri_len _ _ _ _ _ _ _ I); auto.
Qed.

(** The holder of one message cannot change the data of another, at any time. *)
Theorem C85_apart : forall max A c l s i j pos d s' n sl,
  sealed_ok A -> rcv_run grow max A (rcv_start max c) l = Some s -> rcv_step grow max A s (RWrite j pos d) = Some s' ->
  i <> j -> nth_error (w_got s) i = Some (n, sl) -> nth_error (w_got s') i = Some (n, sl) /\ contents (w_heap s') sl = contents (w_heap s) sl.
Proof.
  intros max A c l s i j pos d s' n sl HA E S' N Hn. destruct (rinv_run max A c l s HA E) as (ms1 & st & I). cbn [rcv_step] in S'.
  destruct (nth_error (w_got s) j) as [[nj sj]|] eqn:Hj; [|discriminate]. destruct (_ <=? _); [|discriminate]. injection S' as <-. cbn [w_got w_heap].
  split; [exact Hn|]. apply same_contents. unfold store. apply arr_set_other.
  destruct (ri_got _ _ _ _ _ _ _ I j nj sj Hj) as (_ & _ & X & _). specialize (X i n sl Hn (not_eq_sym N)). congruence.
Qed.

(** ** C84 *)

(** No write hits the array of a slice that is still queued. *)
Fixpoint careful (s : snd_state) (l : list sact) : Prop :=
  match l with
  | [] => True
  | a :: l' =>
      match a with
      | SWrite i _ _ => forall sl n q, nth_error (n_user s) i = Some sl -> In (n, q) (n_queue s) -> s_arr q <> s_arr sl
      | _ => True
      end /\ match snd_step grow s a with Some s' => careful s' l' | None => True end
  end.

Definition snd_inv (s : snd_state) : Prop :=
  (forall sl, In sl (n_user s) -> valid (n_heap s) sl) /\
  (forall n q, In (n, q) (n_queue s) -> valid (n_heap s) q) /\
  n_written s ++ map (fun e => (fst e, contents (n_heap s) (snd e))) (n_queue s) = n_passed s.

Lemma queue_same h h' (q : list (N * gslice)) : (forall n s, In (n, s) q -> arr h' (s_arr s) = arr h (s_arr s)) ->
  map (fun e => (fst e, contents h' (snd e))) q = map (fun e => (fst e, contents h (snd e))) q.
Proof. intros H. apply map_ext_in. intros [n s] Hi. cbn. f_equal. apply same_contents, (H n s Hi). Qed.

Lemma send_value_ok h sl op h1 b h3 b' : valid h sl -> make h 2 = (h1, b) -> append grow (store h1 b 0 (be_encode 2 op)) b (contents (store h1 b 0 (be_encode 2 op)) sl) = (h3, b') ->
  valid h3 b' /\ contents h3 b' = be_encode 2 op ++ contents h sl /\ length h <= s_arr b' /\ length h <= length h3 /\ (forall i, i < length h -> arr h3 i = arr h i).
Proof.
  intros V M E. unfold make in M. injection M as <- <-. set (h1 := h ++ [zeros 2]) in *. set (b := mkSl (length h) 0 2 2) in *. set (h2 := store h1 b 0 (be_encode 2 op)) in *.
  assert (Lh1 : length h1 = S (length h)) by (unfold h1; rewrite app_length; cbn; lia).
  assert (Lh2 : length h2 = S (length h)) by (unfold h2; rewrite store_length; exact Lh1).
  assert (Vb1 : valid h1 b).
  { unfold valid, b. cbn [s_arr s_off s_len s_cap]. unfold h1. rewrite arr_app_new. cbn. rewrite app_length. cbn. lia. }
  assert (Le : length (be_encode 2 op) = 2) by apply be_encode_length.
  assert (Vb : valid h2 b) by (apply store_valid; auto; cbn [b s_cap]; lia).
  assert (K : forall i, i < length h -> arr h2 i = arr h i).
  { intros i Hi. unfold h2, store. rewrite arr_set_other by (cbn [b s_arr]; lia). apply arr_app_old, Hi. }
  assert (Cb : contents h2 b = be_encode 2 op).
  { pose proof (store_mine h1 b 0 (be_encode 2 op) Vb1) as X. cbn [skipn plus] in X. fold h2 in X. rewrite X by (cbn [b s_len]; lia).
    rewrite skipn_all2; [apply app_nil_r|]. rewrite contents_length by exact Vb1. cbn [b s_len]. lia. }
  destruct (append_spec grow grow_ok h2 b _ _ _ Vb E) as (A1 & A2 & A3 & (A4 & A5) & A6).
  split; [exact A1|]. split; [rewrite A2, Cb; f_equal; apply same_contents, K, V|]. split; [destruct A6 as [-> | ->]; cbn [b s_arr]; lia|].
  split; [lia|]. intros i Hi. rewrite A5 by (cbn [b s_arr]; lia). apply K, Hi.
Qed.

Lemma snd_inv_step s a s' : snd_inv s ->
  match a with SWrite i _ _ => forall sl n q, nth_error (n_user s) i = Some sl -> In (n, q) (n_queue s) -> s_arr q <> s_arr sl | _ => True end ->
  snd_step grow s a = Some s' -> snd_inv s'.
Proof.
  destruct s as [h u q w p]. intros (I1 & I2 & I3) C E. unfold snd_inv. cbn [n_heap n_user n_queue n_written n_passed] in *.
  assert (Ext : forall h', length h <= length h' -> (forall i, i < length h -> arr h' i = arr h i) ->
    (forall sl, In sl u -> valid h' sl) /\ (forall n s, In (n, s) q -> valid h' s) /\
    w ++ map (fun e => (fst e, contents h' (snd e))) q = p).
  { intros h' L K. split; [|split].
    - intros sl Hi. specialize (I1 sl Hi). apply same_valid with h; auto. apply K, I1.
    - intros n s Hi. specialize (I2 n s Hi). apply same_valid with h; auto. apply K, I2.
    - rewrite (queue_same h); [exact I3|]. intros n s Hi. apply K, (I2 n s Hi). }
  destruct a as [d|i a b|i pos d|n i|n op i|]; cbn [snd_step] in E.
  - unfold make in E. injection E as <-. cbn [n_heap n_user n_queue n_written n_passed].
    set (h1 := h ++ [zeros (length d)]) in *. set (sl := mkSl (length h) 0 (length d) (length d)).
    assert (Vs : valid h1 sl).
    { unfold valid, sl. cbn [s_arr s_off s_len s_cap]. unfold h1. rewrite arr_app_new, zeros_length, app_length. cbn. lia. }
    destruct (Ext (store h1 sl 0 d)) as (X1 & X2 & X3).
    + rewrite store_length. unfold h1. rewrite app_length. lia.
    + intros i Hi. unfold store. rewrite arr_set_other by (cbn [sl s_arr]; lia). apply arr_app_old, Hi.
    + split; [|split; [exact X2|exact X3]]. intros x Hx. apply in_app_or in Hx as [Hx|[<-|[]]]; [apply X1, Hx|]. apply store_valid; auto.
  - destruct (nth_error u i) as [sl|] eqn:Hn; [|discriminate]. unfold reslice in E. destruct ((a <=? b) && (b <=? s_cap sl)) eqn:Hb; [|discriminate].
    apply andb_true_iff in Hb as [Ha Hb]. apply Nat.leb_le in Ha, Hb. injection E as <-. cbn [n_heap n_user n_queue n_written n_passed].
    split; [|auto]. intros x Hx. apply in_app_or in Hx as [Hx|[<-|[]]]; [apply I1, Hx|]. destruct (I1 sl (nth_error_In _ _ Hn)) as (V1 & V2 & V3).
    unfold valid. cbn [s_arr s_off s_len s_cap]. lia.
  - destruct (nth_error u i) as [sl|] eqn:Hn; [|discriminate]. destruct (Nat.leb_spec (pos + length d) (s_len sl)) as [Hl|Hl]; [|discriminate].
    injection E as <-. cbn [n_heap n_user n_queue n_written n_passed].
    pose proof (I1 sl (nth_error_In _ _ Hn)) as Vs. pose proof Vs as (V1 & V2 & V3).
    split; [intros x Hx; apply store_valid; auto; lia|]. split; [intros n x Hx; apply store_valid; eauto; lia|].
    rewrite (queue_same h); [exact I3|]. intros n x Hx. unfold store. apply arr_set_other. specialize (C sl n x eq_refl Hx). congruence.
  - destruct (nth_error u i) as [sl|] eqn:Hn; [|discriminate]. injection E as <-. cbn [n_heap n_user n_queue n_written n_passed].
    split; [exact I1|]. split.
    + intros n' x Hx. apply in_app_or in Hx as [Hx|[Hx|[]]]; [apply (I2 n' x Hx)|]. injection Hx as <- <-. apply I1, (nth_error_In _ _ Hn).
    + rewrite map_app, app_assoc, I3. reflexivity.
  - destruct (nth_error u i) as [sl|] eqn:Hn; [|discriminate]. destruct (make h 2) as [h1 b] eqn:M. 
    destruct (append grow (store h1 b 0 (be_encode 2 op)) b (contents (store h1 b 0 (be_encode 2 op)) sl)) as [h3 b'] eqn:A. injection E as <-.
    cbn [n_heap n_user n_queue n_written n_passed].
    destruct (send_value_ok h sl op h1 b h3 b' (I1 sl (nth_error_In _ _ Hn)) M A) as (S1 & S2 & S3 & S4 & S5). destruct (Ext h3 S4 S5) as (X1 & X2 & X3).
    split; [exact X1|]. split.
    + intros n' x Hx. apply in_app_or in Hx as [Hx|[Hx|[]]]; [apply (X2 n' x Hx)|]. injection Hx as <- <-. exact S1.
    + rewrite map_app, app_assoc, X3. cbn [map fst snd]. rewrite S2. reflexivity.
  - destruct q as [|[n sl] q]; [discriminate|]. injection E as <-. cbn [n_heap n_user n_queue n_written n_passed].
    split; [exact I1|]. split; [intros n' x Hx; apply (I2 n' x); right; exact Hx|]. rewrite <- I3, <- app_assoc. reflexivity.
Qed.

Lemma snd_start_inv : snd_inv snd_start.
Proof. split; [intros sl []|]. split; [intros n q []|]. reflexivity. Qed.

Lemma snd_inv_run l : forall s s', snd_inv s -> careful s l -> snd_run grow s l = Some s' -> snd_inv s'.
Proof.
  induction l as [|a l IH]; intros s s' I C E; cbn [snd_run careful] in *; [injection E as <-; exact I|].
  destruct (snd_step grow s a) as [s1|] eqn:E1; [|discriminate]. destruct C as [C1 C2]. apply (IH s1 s'); auto. exact (snd_inv_step s a s1 I C1 E1).
Qed.

(** C84, as far as it holds: if the application leaves the arrays of its queued messages alone, then what has been written and
    what waits to be written is what was passed, in order. *)
Theorem C84_partial : forall l s, snd_run grow snd_start l = Some s -> careful snd_start l ->
  n_written s ++ map (fun e => (fst e, contents (n_heap s) (snd e))) (n_queue s) = n_passed s.
Proof. intros l s E C. apply (snd_inv_run l snd_start s snd_start_inv C E). Qed.

Definition typed_only (l : list sact) : Prop := forall n i, ~ In (SSend n i) l.

Definition apart (s : snd_state) : Prop := forall n q sl, In (n, q) (n_queue s) -> In sl (n_user s) -> s_arr q <> s_arr sl.

Lemma apart_step s a s' : snd_inv s -> apart s -> (forall n i, a <> SSend n i) -> snd_step grow s a = Some s' -> apart s'.
Proof.
  destruct s as [h u q w p]. intros (I1 & I2 & _) P N E. unfold apart in *. cbn [n_heap n_user n_queue n_written n_passed] in *.
  destruct a as [d|i a b|i pos d|n i|n op i|]; cbn [snd_step] in E.
  - unfold make in E. injection E as <-. cbn [n_user n_queue]. intros n x sl Hx Hs. apply in_app_or in Hs as [Hs|[<-|[]]]; [eauto|].
    cbn [s_arr]. destruct (I2 n x Hx). lia.
  - destruct (nth_error u i) as [sl|] eqn:Hn; [|discriminate]. unfold reslice in E. destruct ((a <=? b) && (b <=? s_cap sl)); [|discriminate].
    injection E as <-. cbn [n_user n_queue]. intros n x s Hx Hs. apply in_app_or in Hs as [Hs|[<-|[]]]; [eauto|]. cbn [s_arr].
    apply (P n x sl Hx), (nth_error_In _ _ Hn).
  - destruct (nth_error u i) as [sl|]; [|discriminate]. destruct (_ <=? _); [|discriminate]. injection E as <-. exact P.
  - destruct (N n i eq_refl).
  - destruct (nth_error u i) as [sl|] eqn:Hn; [|discriminate]. destruct (make h 2) as [h1 b] eqn:M. 
    destruct (append grow (store h1 b 0 (be_encode 2 op)) b (contents (store h1 b 0 (be_encode 2 op)) sl)) as [h3 b'] eqn:A. injection E as <-.
    cbn [n_user n_queue]. destruct (send_value_ok h sl op h1 b h3 b' (I1 sl (nth_error_In _ _ Hn)) M A) as (_ & _ & S3 & _).
    intros n' x s Hx Hs. apply in_app_or in Hx as [Hx|[Hx|[]]]; [eauto|]. injection Hx as <- <-. destruct (I1 s Hs). lia.
  - destruct q as [|[n sl] q]; [discriminate|]. injection E as <-. cbn [n_user n_queue]. intros n' x s Hx Hs. apply (P n' x s); [right|]; auto.
Qed.

(** C84 for typed messages (SendMessage and RequestMessage): what Marshal returned may be reused at once. *)
Theorem C84_typed : forall l s, typed_only l -> snd_run grow snd_start l = Some s ->
  n_written s ++ map (fun e => (fst e, contents (n_heap s) (snd e))) (n_queue s) = n_passed s.
Proof.
  intros l s T E. apply (C84_partial l s E). revert s T E.
  enough (X : forall l s0, snd_inv s0 -> apart s0 -> typed_only l -> careful s0 l).
  { intros s T _. apply X; auto using snd_start_inv. intros n q sl []. }
  clear l. induction l as [|a l IH]; intros s0 I P T; cbn [careful]; [exact Logic.I|].
  assert (C : match a with SWrite i _ _ => forall sl n q, nth_error (n_user s0) i = Some sl -> In (n, q) (n_queue s0) -> s_arr q <> s_arr sl | _ => True end).
  { destruct a; try exact Logic.I. intros sl n q Hn Hq. exact (P n q sl Hq (nth_error_In _ _ Hn)). }
  split; [exact C|]. destruct (snd_step grow s0 a) as [s1|] eqn:E1; [|exact Logic.I].
  apply IH; [exact (snd_inv_step s0 a s1 I C E1)| |intros n i Hi; apply (T n i); right; exact Hi].
  apply (apart_step s0 a s1 I P); auto. intros n i ->. apply (T n i). left. reflexivity.
Qed.
End Runs.

(** C84 in full: what is written is what was passed when Send was called. *)
Definition C84_statement : Prop := forall grow : nat -> nat -> nat, (forall c n, n <= grow c n) ->
  forall l s, snd_run grow snd_start l = Some s -> exists rest, n_passed s = n_written s ++ rest.

Theorem C84_refuted : ~ C84_statement.
Proof.
  intros H. set (l := [SMake [n2b 1]; SSend 0 0; SWrite 0 0 [n2b 2]; STake]).
  destruct (snd_run (fun _ n => n) snd_start l) as [s|] eqn:E; [|discriminate].
  destruct (H (fun _ n => n) (fun _ n => le_n n) l s E) as (rest & X). vm_compute in E. injection E as <-. discriminate X.
Qed.

(** Not vacuous: a buffer is reused after its first message has been written and both messages go out as passed; and typed
    messages go out as passed although the buffer is overwritten at once. *)
Example C84_nonvacuous :
  let l := [SMake [n2b 1; n2b 2]; SSend 0 0; STake; SWrite 0 0 [n2b 3]; SReslice 0 0 1; SSend 7 1; STake] in
  careful (fun _ n => n) snd_start l /\ exists s, snd_run (fun _ n => n) snd_start l = Some s /\ n_written s = [(0%N, [n2b 1; n2b 2]); (7%N, [n2b 3])].
Proof.
  intros l. split.
  - cbn. repeat split. intros sl n q E []. 
  - eexists. split; [vm_compute; reflexivity | reflexivity].
Qed.
Example C84_typed_nonvacuous :
  let l := [SMake [n2b 1; n2b 2]; SSendValue 0 5 0; SWrite 0 0 [n2b 3]; SSendValue 0 6 0; SWrite 0 0 [n2b 4]; STake; STake] in
  typed_only l /\ exists s, snd_run (fun _ n => n) snd_start l = Some s /\
    n_written s = [(0%N, [n2b 0; n2b 5; n2b 1; n2b 2]); (0%N, [n2b 0; n2b 6; n2b 3; n2b 2])].
Proof.
  intros l. split.
  - intros n i Hi. cbn in Hi. repeat (destruct Hi as [Hi|Hi]; [discriminate|]). exact Hi.
  - eexists. split; [vm_compute; reflexivity | reflexivity].
Qed.

(** Two messages arrive; the holder of the first overwrites it, before and after the second arrives; the second is intact, and
    the reader ends where the connection does. *)
Example C85_nonvacuous :
  let frame b := be_encode 4 9 ++ be_encode 8 0 ++ [n2b b] in
  let c := mkConn [frame 1%N ++ frame 2%N] ErrEOF in
  let l := [RPass; RWrite 0 0 [n2b 9]; RPass; RWrite 0 0 [n2b 8]; RPass] in
  exists s sl0 sl1, rcv_run (fun _ n => n) 9 None (rcv_start 9 c) l = Some s /\ w_got s = [(0%N, sl0); (0%N, sl1)] /\
    contents (w_heap s) sl0 = [n2b 8] /\ contents (w_heap s) sl1 = [n2b 2] /\ w_end s = Some (Err ErrEOF) /\
    recv_all 3 9 None (new_rstate 9 c) = Some ([mkMsg 0 [n2b 1]; mkMsg 0 [n2b 2]], Err ErrEOF) /\ ~ wrote 1 l.
Proof.
  intros frame c l. destruct (rcv_run (fun _ n => n) 9 None (rcv_start 9 c) l) as [s|] eqn:E; vm_compute in E; [|discriminate]. injection E as <-.
  eexists _, _, _. split; [reflexivity|]. split; [reflexivity|]. split; [reflexivity|]. split; [reflexivity|]. split; [reflexivity|].
  split; [vm_compute; reflexivity|]. intros (p & d & H). cbn in H. repeat (destruct H as [H|H]; [discriminate|]). exact H.
Qed.
Example C85_suite_nonvacuous : sealed_ok (Some toy).
Proof. exact toy_ok. Qed.

Print Assumptions C84_refuted.
Print Assumptions C84_partial.
Print Assumptions C84_typed.
Print Assumptions C85_private.
Print Assumptions C85_stream.
Print Assumptions C85_apart.
