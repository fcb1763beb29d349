(** * C103: accessors that "may be called concurrently". *)
From Verif Require Import Base Spec M_ID M_Table M_Torn P_Table Props_Kad.
From Coq Require Import Strings.String.
Local Open Scope nat_scope.
Local Open Scope list_scope.

(** ** Spec *)

(** The values that a schedule has begun to write. *)
Definition writes {A} (l : list (fact A)) : list (list A) := flat_map (fun a => match a with TWStart v => [v] | _ => [] end) l.
(** At most one write, of [v], and not after the signal. *)
Definition one_write {A} (v : list A) (l : list (fact A)) : Prop :=
  (writes l = [] \/ writes l = [v]) /\ forall pre post, l = pre ++ TSignal :: post -> writes post = [].
Definition wf_id (e : ID) : Prop := List.length (id_key e) = 32.

(** ID, called at any time, gives the ID from before the write or the one written. *)
Definition C103_statement : Prop := forall old new l s w ws, wf_id old -> wf_id new -> one_write (id_words new) l ->
  frun false (new_field (id_words old)) l = Some s -> In (REnd w ws) (f_readers s) -> id_of ws = Ok old \/ id_of ws = Ok new.

(** With a lock: what the last write that has ended wrote; the value being written. *)
Fixpoint written {A} (cur : list A) (pending : option (list A)) (l : list (fact A)) : list A :=
  match l with
  | [] => cur
  | TWStart v :: r => written cur (Some v) r
  | TWEnd :: r => written (match pending with Some v => v | None => cur end) None r
  | _ :: r => written cur pending r
  end.
Fixpoint starts {A} (l : list (fact A)) : nat := match l with [] => 0 | TRStart _ :: r => S (starts r) | _ :: r => starts r end.

(** ** Words *)

Lemma deref_pointer l : deref (match l with [] => None | _ => Some l end) (N.of_nat (List.length l)) = Ok l.
Proof.
  unfold deref. destruct l as [|b l]; [reflexivity|]. destruct (N.eqb_spec (N.of_nat (List.length (b :: l))) 0) as [E|E]; [cbn [List.length] in E; lia|].
  rewrite N.leb_refl, Nnat.Nat2N.id, firstn_all. reflexivity.
Qed.
Theorem C103_value : forall e, wf_id e -> id_of (id_words e) = Ok e /\ string_of (string_words (id_addr e)) = Ok (id_addr e).
Proof.
  intros [k h p a] W. unfold wf_id in W. cbn in W. split; [|exact (deref_pointer a)].
  unfold id_words, string_words, id_of, pointer, string_of. cbn [app id_key id_host id_port id_addr]. rewrite !deref_pointer. cbn [bind].
  assert (J : forall a (l : bytes), firstn 8 (skipn a l) ++ skipn (8 + a) l = skipn a l) by (intros a0 l; rewrite <- skipn_skipn; apply firstn_skipn).
  rewrite (J 16 k : _ ++ skipn 24 k = _), (J 8 k : _ ++ skipn 16 k = _), (J 0 k : firstn 8 k ++ skipn 8 k = _). reflexivity.
Qed.
Print Assumptions C103_value.

(** ** Lists *)

Lemma nth_ext {A} (a b : list A) : (forall j, nth_error a j = nth_error b j) -> a = b.
Proof. revert b. induction a as [|x a IH]; intros [|y b] H; auto; try (specialize (H 0); discriminate). pose proof (H 0) as [= ->]. f_equal. apply IH. intros j. exact (H (S j)). Qed.
Lemma nth_set {A} (l : list A) : forall i j x, nth_error (set_nth i x l) j = if (j =? i) && (i <? List.length l) then Some x else nth_error l j.
Proof.
  induction l as [|z l IH]; intros [|i] [|j] x; cbn; auto.
  - rewrite andb_false_r. reflexivity.
  - rewrite IH. reflexivity.
Qed.
Lemma in_set {A} (l : list A) : forall i x y, In y (set_nth i x l) -> y = x \/ In y l.
Proof. induction l as [|z l IH]; intros [|i] x y I; cbn in *; auto; destruct I as [I|I]; auto. destruct (IH _ _ _ I); auto. Qed.
Lemma all_some_nth {A} (l : list (option A)) : forall ws, all_some l = Some ws -> forall j x, nth_error ws j = Some x -> nth_error l j = Some (Some x).
Proof.
  induction l as [|[y|] l IH]; intros ws H j x E; cbn in H; try discriminate; [injection H as <-; destruct j; discriminate|].
  destruct (all_some l) as [xs|]; [|discriminate]. injection H as <-. destruct j; cbn in *; [congruence | eauto].
Qed.
Lemma all_some_length {A} (l : list (option A)) : forall ws, all_some l = Some ws -> List.length ws = List.length l.
Proof. induction l as [|[y|] l IH]; intros ws H; cbn in H; try discriminate; [injection H as <-; reflexivity|]. destruct (all_some l); [|discriminate]. injection H as <-. cbn. f_equal. auto. Qed.

Lemma frun_app {A} k (l1 l2 : list (fact A)) : forall s, frun k s (l1 ++ l2) = match frun k s l1 with Some s1 => frun k s1 l2 | None => None end.
Proof. induction l1 as [|a l1 IH]; intros s; cbn [frun app]; [reflexivity|]. destruct (fstep k s a); auto. Qed.
Lemma writes_app {A} (l1 l2 : list (fact A)) : writes (l1 ++ l2) = writes l1 ++ writes l2.
Proof. apply flat_map_app. Qed.
Lemma one_write_front {A} (v : list A) l a : one_write v (l ++ [a]) -> one_write v l.
Proof.
  intros [W E]. rewrite writes_app in W. split.
  - destruct W as [W|W]; [left; apply app_eq_nil in W; tauto|]. destruct (writes l) as [|x [|y r]]; auto; cbn in W; [injection W; intros; subst; auto | discriminate].
  - intros pre post ->. specialize (E pre (post ++ [a])). rewrite <- app_assoc in E. specialize (E eq_refl). rewrite writes_app in E. apply app_eq_nil in E. tauto.
Qed.

(** ** No lock *)

Section Race.
Context {A : Type} (init v : list A).
Definition cur (l : list (fact A)) : list A := match writes l with [] => init | x :: _ => x end.
Definition word_ok (l : list (fact A)) (s : field A) (w : bool) (j : nat) (x : A) : Prop :=
  (nth_error init j = Some x \/ nth_error v j = Some x) /\ (w = true -> nth_error (cur l) j = Some x).
Definition rinv (l : list (fact A)) (s : field A) (r : reader A) : Prop :=
  match r with
  | RGoing w got => (w = true -> f_signal s = true) /\ List.length got = List.length init /\ forall j x, nth_error got j = Some (Some x) -> word_ok l s w j x
  | REnd w ws => (w = true -> f_signal s = true) /\ List.length ws = List.length init /\ forall j x, nth_error ws j = Some x -> word_ok l s w j x
  end.
Definition race_inv (l : list (fact A)) (s : field A) : Prop :=
  List.length (f_words s) = List.length init /\
  (f_signal s = true -> f_writer s = None /\ exists pre post, l = pre ++ TSignal :: post) /\
  (forall j x, nth_error (f_words s) j = Some x -> nth_error init j = Some x \/ nth_error v j = Some x) /\
  match f_writer s with
  | None => f_words s = cur l
  | Some (u, todo) => u = v /\ writes l = [v] /\ List.length v = List.length init /\ forall j, In j todo \/ nth_error (f_words s) j = nth_error v j
  end /\
  forall r, In r (f_readers s) -> rinv l s r.

Lemma cur_same l a : writes [a] = [] -> cur (l ++ [a]) = cur l.
Proof. intros E. unfold cur. rewrite writes_app, E, app_nil_r. reflexivity. Qed.

Lemma race_step l s a s1 : one_write v (l ++ [a]) -> race_inv l s -> fstep false s a = Some s1 -> race_inv (l ++ [a]) s1.
Proof.
  intros O (L & Sg & Wd & Wr & Rd) H.
  assert (Sg' : f_signal s = true -> exists pre post, l ++ [a] = pre ++ TSignal :: post).
  { intros E. destruct (Sg E) as [_ (pre & post & ->)]. exists pre, (post ++ [a]). rewrite <- app_assoc. reflexivity. }
  assert (Same : forall r, writes [a] = [] -> forall s2, (f_signal s = true -> f_signal s2 = true) -> rinv l s r -> rinv (l ++ [a]) s2 r).
  { intros r E s2 Es X. destruct r as [w got|w ws]; destruct X as (X1 & X2 & X3); (split; [auto|]; split; [exact X2|]);
      intros j x Ex; destruct (X3 j x Ex) as [Y1 Y2]; (split; [exact Y1|]); rewrite (cur_same _ _ E); exact Y2. }
  destruct a as [u|j| | |wt|r j|r]; cbn [fstep] in H.
  - destruct (f_writer s) eqn:Ew; [discriminate|]. destruct (_ && _) eqn:B; [|discriminate]. injection H as <-. apply andb_true_iff in B as [B _]. apply Nat.eqb_eq in B.
    assert (Ns : f_signal s = false).
    { destruct (f_signal s) eqn:Es; [|reflexivity]. destruct (Sg eq_refl) as [_ (pre & post & ->)]. destruct O as [_ O]. specialize (O pre (post ++ [TWStart u])).
      rewrite <- app_assoc in O. specialize (O eq_refl). rewrite writes_app in O. apply app_eq_nil in O as [_ O]. discriminate. }
    assert (W : writes (l ++ [TWStart u]) = [v] /\ u = v /\ writes l = []).
    { destruct O as [[O|O] _]; rewrite writes_app in O |- *; cbn in O |- *; [apply app_eq_nil in O as [_ O]; discriminate|].
      destruct (writes l) as [|x [|y r]]; cbn in O; try discriminate. injection O as ->. auto. }
    destruct W as (W1 & -> & W2). unfold race_inv. cbn [f_words f_writer f_signal f_readers]. rewrite Ns.
    split; [exact L|]. split; [discriminate|]. split; [exact Wd|]. split.
    + split; [reflexivity|]. split; [exact W1|]. split; [lia|]. intros j. destruct (lt_dec j (List.length v)) as [Lt|Ge]; [left; apply in_seq; lia|].
      right. rewrite (proj2 (nth_error_None _ _)), (proj2 (nth_error_None v j)); auto; lia.
    + intros r I. specialize (Rd r I). destruct r as [w got|w ws]; destruct Rd as (R1 & R2 & R3); rewrite Ns in R1; (destruct w; [discriminate R1; reflexivity|]);
        (split; [discriminate|]; split; [exact R2|]; intros j x Ex; split; [exact (proj1 (R3 j x Ex)) | discriminate]).
  - destruct (f_writer s) as [[u todo]|] eqn:Ew; [|discriminate]. destruct (existsb (Nat.eqb j) todo) eqn:B; [|discriminate]. destruct (nth_error u j) as [x|] eqn:Ex; [|discriminate].
    injection H as <-. destruct Wr as (-> & W1 & W2 & W3). unfold race_inv. cbn [f_words f_writer f_signal f_readers].
    assert (Jl : j < List.length (f_words s)) by (rewrite L, <- W2; apply nth_error_Some; congruence).
    split; [rewrite set_nth_length; exact L|]. split; [intros E; destruct (Sg E) as [C _]; discriminate|]. split.
    + intros i y Ey. rewrite nth_set in Ey. destruct (Nat.eqb_spec i j) as [-> |Nj]; [|apply Wd; exact Ey]. rewrite (proj2 (Nat.ltb_lt _ _) Jl) in Ey. cbn in Ey. right. congruence.
    + split.
      * split; [reflexivity|]. split; [rewrite writes_app, W1; reflexivity|]. split; [exact W2|]. intros i. rewrite nth_set. destruct (Nat.eqb_spec i j) as [-> |Nj].
        -- right. rewrite (proj2 (Nat.ltb_lt _ _) Jl). cbn. congruence.
        -- cbn [andb]. destruct (W3 i) as [I|E]; [|auto]. left. apply filter_In. split; [exact I|]. apply negb_true_iff, Nat.eqb_neq. exact Nj.
      * intros r I. apply (Same r); [reflexivity | auto | exact (Rd r I)].
  - destruct (f_writer s) as [[u [|? ?]]|] eqn:Ew; try discriminate. injection H as <-. destruct Wr as (-> & W1 & W2 & W3). unfold race_inv. cbn [f_words f_writer f_signal f_readers].
    split; [exact L|]. split; [intros E; split; [reflexivity | exact (Sg' E)]|]. split; [exact Wd|]. split.
    + unfold cur. rewrite writes_app, W1. cbn. apply nth_ext. intros j. destruct (W3 j) as [[]|E]. exact E.
    + intros r I. apply (Same r); [reflexivity | auto | exact (Rd r I)].
  - destruct (f_writer s) eqn:Ew; [discriminate|]. destruct (f_signal s) eqn:Es; [discriminate|]. injection H as <-. unfold race_inv. cbn [f_words f_writer f_signal f_readers].
    split; [exact L|]. split; [intros _; split; [reflexivity | exists l, []; reflexivity]|]. split; [exact Wd|]. split; [rewrite cur_same by reflexivity; exact Wr|].
    intros r I. apply (Same r); [reflexivity | auto | exact (Rd r I)].
  - destruct (_ && _) eqn:B in H; [|discriminate]. injection H as <-. apply andb_true_iff in B as [B _]. unfold race_inv. cbn [f_words f_writer f_signal f_readers].
    split; [exact L|]. split; [intros E; split; [exact (proj1 (Sg E)) | exact (Sg' E)]|]. split; [exact Wd|]. split.
    + destruct (f_writer s) as [[u todo]|]; [|rewrite cur_same by reflexivity; exact Wr]. destruct Wr as (X1 & X2 & X3 & X4). split; [exact X1|]. split; [rewrite writes_app, X2; reflexivity | auto].
    + intros r I. apply in_app_iff in I as [I|[<- |[]]]; [apply (Same r); [reflexivity | auto | exact (Rd r I)]|]. split; [intros ->; exact B|]. split; [rewrite repeat_length; exact L|].
      intros j x Ex. apply nth_error_In, repeat_spec in Ex. discriminate.
  - destruct (nth_error (f_readers s) r) as [[w got|? ?]|] eqn:Er; try discriminate. destruct (nth_error got j) as [[?|]|] eqn:Eg; try discriminate.
    destruct (nth_error (f_words s) j) as [x|] eqn:Ex; [|discriminate]. injection H as <-. unfold race_inv. cbn [f_words f_writer f_signal f_readers].
    split; [exact L|]. split; [intros E; split; [exact (proj1 (Sg E)) | exact (Sg' E)]|]. split; [exact Wd|]. split.
    + destruct (f_writer s) as [[u todo]|]; [|rewrite cur_same by reflexivity; exact Wr]. destruct Wr as (X1 & X2 & X3 & X4). split; [exact X1|]. split; [rewrite writes_app, X2; reflexivity | auto].
    + intros q I. apply in_set in I as [-> |I]; [|apply (Same q); [reflexivity | auto | exact (Rd q I)]].
      pose proof (Rd _ (nth_error_In _ _ Er)) as (R1 & R2 & R3). split; [exact R1|]. split; [rewrite set_nth_length; exact R2|]. intros i y Ey. rewrite nth_set in Ey.
      destruct (Nat.eqb_spec i j) as [-> |Nj].
      * destruct (j <? List.length got) eqn:Jl; [|cbn in Ey; congruence]. cbn in Ey. injection Ey as <-. split; [apply Wd; exact Ex|]. intros ->.
        destruct (Sg (R1 eq_refl)) as [Ew _]. rewrite Ew in Wr. rewrite cur_same by reflexivity. rewrite <- Wr. exact Ex.
      * cbn [andb] in Ey. destruct (R3 i y Ey) as [Y1 Y2]. split; [exact Y1|]. rewrite cur_same by reflexivity. exact Y2.
  - destruct (nth_error (f_readers s) r) as [[w got|? ?]|] eqn:Er; try discriminate. destruct (all_some got) as [ws|] eqn:Ea; [|discriminate].
    injection H as <-. unfold race_inv. cbn [f_words f_writer f_signal f_readers].
    split; [exact L|]. split; [intros E; split; [exact (proj1 (Sg E)) | exact (Sg' E)]|]. split; [exact Wd|]. split.
    + destruct (f_writer s) as [[u todo]|]; [|rewrite cur_same by reflexivity; exact Wr]. destruct Wr as (X1 & X2 & X3 & X4). split; [exact X1|]. split; [rewrite writes_app, X2; reflexivity | auto].
    + intros q I. apply in_set in I as [-> |I]; [|apply (Same q); [reflexivity | auto | exact (Rd q I)]].
      pose proof (Rd _ (nth_error_In _ _ Er)) as (R1 & R2 & R3). split; [exact R1|]. split; [rewrite (all_some_length _ _ Ea); exact R2|]. intros i y Ey.
      destruct (R3 i y (all_some_nth _ _ Ea _ _ Ey)) as [Y1 Y2]. split; [exact Y1|]. rewrite cur_same by reflexivity. exact Y2.
Qed.
Lemma race_run l : forall s, one_write v l -> frun false (new_field init) l = Some s -> race_inv l s.
Proof.
  induction l as [|a l IH] using rev_ind; intros s O H.
  - injection H as <-. split; [reflexivity|]. split; [discriminate|]. split; [auto|]. split; [reflexivity | intros r []].
  - rewrite frun_app in H. destruct (frun false (new_field init) l) as [s0|] eqn:E; [|discriminate]. cbn [frun] in H. destruct (fstep false s0 a) as [s1|] eqn:E1; [|discriminate].
    injection H as <-. apply (race_step l s0 a s1 O); [|exact E1]. exact (IH s0 (one_write_front _ _ _ O) eq_refl).
Qed.
End Race.

(** Every word read is a word of the one or of the other value; a reader that waits for the signal gets the value written. *)
Theorem C103_words : forall A (init v : list A) l s w ws, one_write v l -> frun false (new_field init) l = Some s -> In (REnd w ws) (f_readers s) ->
  List.length ws = List.length init /\ (forall j x, nth_error ws j = Some x -> nth_error init j = Some x \/ nth_error v j = Some x) /\
  (w = true -> ws = match writes l with [] => init | _ => v end).
Proof.
  intros A init v l s w ws O H I. destruct (race_run init v l s O H) as (L & Sg & Wd & Wr & Rd). destruct (Rd _ I) as (R1 & R2 & R3).
  split; [exact R2|]. split; [intros j x E; exact (proj1 (R3 j x E))|]. intros ->. specialize (R1 eq_refl). destruct (Sg R1) as [Ew _]. rewrite Ew in Wr.
  assert (E : cur init l = match writes l with [] => init | _ => v end) by (unfold cur; destruct O as [[-> | ->] _]; reflexivity).
  rewrite <- E. apply nth_ext. intros j. destruct (nth_error ws j) as [x|] eqn:Ex; [symmetry; exact (proj2 (R3 j x Ex) eq_refl)|].
  symmetry. apply nth_error_None. apply nth_error_None in Ex. rewrite <- Wr. lia.
Qed.
Print Assumptions C103_words.

(** After WaitUntilReady, a handler's or callback's ID is the peer's (or empty, if the handshake failed); after Listen, the node's. *)
Theorem C103_partial : forall old new l s ws, wf_id old -> wf_id new -> one_write (id_words new) l ->
  frun false (new_field (id_words old)) l = Some s -> In (REnd true ws) (f_readers s) ->
  id_of ws = Ok (match writes l with [] => old | _ => new end).
Proof.
  intros old new l s ws Wo Wn O H I. destruct (C103_words _ _ _ _ _ _ _ O H I) as (_ & _ & E). rewrite (E eq_refl).
  destruct (writes l); apply C103_value; assumption.
Qed.
Print Assumptions C103_partial.
Theorem C103_addr : forall old new l s ws, one_write (string_words new) l ->
  frun false (new_field (string_words old)) l = Some s -> In (REnd true ws) (f_readers s) ->
  string_of ws = Ok (match writes l with [] => old | _ => new end).
Proof.
  intros old new l s ws O H I. destruct (C103_words _ _ _ _ _ _ _ O H I) as (_ & _ & E). rewrite (E eq_refl).
  destruct (writes l); apply deref_pointer.
Qed.
Print Assumptions C103_addr.

(** ** Every mix is possible *)

Fixpoint mix {A} (mask : list bool) (a b : list A) : list A :=
  match mask, a, b with t :: m, x :: a, y :: b => (if t then y else x) :: mix m a b | _, _, _ => [] end.
Lemma mix_nth {A} mask : forall (a b : list A) j, List.length a = List.length mask -> List.length b = List.length mask ->
  nth_error (mix mask a b) j = if nth j mask false then nth_error b j else nth_error a j.
Proof.
  induction mask as [|t m IH]; intros [|x a] [|y b] j La Lb; cbn in *; try discriminate; [destruct j; reflexivity|].
  destruct j; cbn; [destruct t; reflexivity|]. apply IH; lia.
Qed.

Lemma read_all {A} (W : list A) wr sg js : forall got, NoDup js -> (forall j, In j js -> nth_error got j = Some None /\ nth_error W j <> None) -> List.length got = List.length W ->
  exists got', frun false (mkF W wr [RGoing false got] sg) (map (TRWord 0) js) = Some (mkF W wr [RGoing false got'] sg) /\ List.length got' = List.length W /\
    forall j, nth_error got' j = if existsb (Nat.eqb j) js then option_map Some (nth_error W j) else nth_error got j.
Proof.
  induction js as [|j js IH]; intros got Nd Ok L; cbn [map frun]; [exists got; auto|]. inversion Nd as [|? ? Nj Nd']; subst.
  destruct (Ok j (or_introl eq_refl)) as [G1 G2]. destruct (nth_error W j) as [x|] eqn:Ex; [|congruence]. cbn [fstep f_readers f_words nth_error f_writer f_signal]. rewrite G1, Ex. cbn [set_nth].
  assert (Jl : j <? List.length got = true) by (apply Nat.ltb_lt; rewrite L; apply nth_error_Some; congruence).
  destruct (IH (set_nth j (Some x) got) Nd') as (got' & H & L' & N).
  - intros i I. destruct (Ok i (or_intror I)) as [Y1 Y2]. split; [|exact Y2]. rewrite nth_set. destruct (Nat.eqb_spec i j) as [-> |]; [contradiction | exact Y1].
  - rewrite set_nth_length. exact L.
  - exists got'. split; [exact H|]. split; [exact L'|]. intros i. rewrite N. cbn [existsb]. rewrite nth_set, Jl, andb_true_r.
    destruct (Nat.eqb_spec i j) as [-> |Nij]; cbn [orb]; [|reflexivity]. rewrite Ex. destruct (existsb _ js); reflexivity.
Qed.
Lemma write_all {A} (v : list A) rs sg js : forall W, NoDup js -> (forall j, In j js -> nth_error v j <> None) -> List.length W = List.length v ->
  exists W', frun false (mkF W (Some (v, js)) rs sg) (map TWWord js) = Some (mkF W' (Some (v, [])) rs sg) /\ List.length W' = List.length v /\
    forall j, nth_error W' j = if existsb (Nat.eqb j) js then nth_error v j else nth_error W j.
Proof.
  induction js as [|j js IH]; intros W Nd Ok L; cbn [map frun]; [exists W; auto|]. inversion Nd as [|? ? Nj Nd']; subst.
  cbn [fstep f_writer f_readers f_words f_signal existsb]. rewrite Nat.eqb_refl. cbn [orb]. destruct (nth_error v j) as [x|] eqn:Ex; [|destruct (Ok j (or_introl eq_refl) Ex)].
  assert (F : filter (fun i => negb (i =? j)) (j :: js) = js).
  { cbn [filter]. rewrite Nat.eqb_refl. cbn [negb]. clear - Nj. induction js as [|i js IH]; cbn; [reflexivity|]. destruct (Nat.eqb_spec i j) as [-> |]; [destruct Nj; left; reflexivity|].
    cbn. f_equal. apply IH. intros I. apply Nj. right. exact I. }
  rewrite F. assert (Jl : j <? List.length W = true) by (apply Nat.ltb_lt; rewrite L; apply nth_error_Some; congruence).
  destruct (IH (set_nth j x W) Nd') as (W' & H & L' & N); [intros i I; apply Ok; right; exact I | rewrite set_nth_length; exact L|].
  exists W'. split; [exact H|]. split; [exact L'|]. intros i. rewrite N. rewrite nth_set, Jl, andb_true_r.
  destruct (Nat.eqb_spec i j) as [-> |Nij]; cbn [orb]; [|reflexivity]. rewrite Ex. destruct (existsb _ js); reflexivity.
Qed.
Lemma all_some_map {A} (l : list A) : all_some (map Some l) = Some l.
Proof. induction l as [|x l IH]; cbn; [reflexivity|]. rewrite IH. reflexivity. Qed.
Lemma existsb_seq n j : existsb (Nat.eqb j) (seq 0 n) = (j <? n).
Proof.
  destruct (Nat.ltb_spec j n) as [H|H].
  - apply existsb_exists. exists j. split; [apply in_seq; lia | apply Nat.eqb_refl].
  - apply not_true_is_false. intros E. apply existsb_exists in E as (i & I & E). apply in_seq in I. apply Nat.eqb_eq in E. lia.
Qed.
Lemma existsb_filter f n j : existsb (Nat.eqb j) (filter f (seq 0 n)) = (j <? n) && f j.
Proof.
  destruct ((j <? n) && f j) eqn:B.
  - apply andb_true_iff in B as [B1 B2]. apply Nat.ltb_lt in B1. apply existsb_exists. exists j. split; [apply filter_In; split; [apply in_seq; lia | exact B2] | apply Nat.eqb_refl].
  - apply not_true_is_false. intros E. apply existsb_exists in E as (i & I & E). apply Nat.eqb_eq in E. subst i. apply filter_In in I as [I F]. apply in_seq in I.
    rewrite F, andb_true_r in B. apply Nat.ltb_ge in B. lia.
Qed.
Lemma writes_reads {A} js : writes (map (TRWord 0) js : list (fact A)) = [].
Proof. unfold writes. induction js; cbn; auto. Qed.
Lemma writes_words {A} js : writes (map TWWord js : list (fact A)) = [].
Proof. unfold writes. induction js; cbn; auto. Qed.
Lemma no_signal_reads {A} js (pre post rest : list (fact A)) : map (TRWord 0) js ++ rest = pre ++ TSignal :: post -> exists pre2, rest = pre2 ++ TSignal :: post.
Proof. revert pre. induction js as [|j js IH]; intros pre E; cbn in E; [exists pre; exact E|]. destruct pre as [|x pre]; [discriminate|]. injection E as _ E. eauto. Qed.
Lemma no_signal_words {A} js (pre post rest : list (fact A)) : map TWWord js ++ rest = pre ++ TSignal :: post -> exists pre2, rest = pre2 ++ TSignal :: post.
Proof. revert pre. induction js as [|j js IH]; intros pre E; cbn in E; [exists pre; exact E|]. destruct pre as [|x pre]; [discriminate|]. injection E as _ E. eauto. Qed.

Theorem C103_any_mix : forall A (init v : list A) mask, List.length v = List.length init -> List.length mask = List.length init ->
  exists l s, one_write v l /\ frun false (new_field init) l = Some s /\ f_readers s = [REnd false (mix mask init v)].
Proof.
  intros A init v mask Lv Lm. set (n := List.length init). set (at_ := fun b j => Bool.eqb (nth j mask false) b).
  set (js := fun b => filter (at_ b) (seq 0 n)).
  assert (Nd : forall b, NoDup (js b)) by (intros b; apply NoDup_filter, seq_NoDup).
  assert (Lt : forall b j, In j (js b) -> j < n) by (intros b j I; apply filter_In in I as [I _]; apply in_seq in I; lia).
  set (tail := TWEnd :: TSignal :: map (TRWord 0) (js true) ++ [TREnd 0] : list (fact A)).
  exists (TRStart false :: map (TRWord 0) (js false) ++ TWStart v :: map TWWord (seq 0 n) ++ tail).
  destruct (read_all init None false (js false) (repeat None n) (Nd false)) as (g1 & R1 & L1 & N1).
  { intros j I. pose proof (Lt _ _ I). split; [rewrite (nth_error_nth' _ None) by (rewrite repeat_length; lia); rewrite nth_repeat; reflexivity|]. apply nth_error_Some. exact H. }
  { apply repeat_length. }
  destruct (write_all v [RGoing false g1] false (seq 0 n) init (seq_NoDup n 0)) as (W & R2 & L2 & N2).
  { intros j I. apply in_seq in I. apply nth_error_Some. unfold n in I. lia. }
  { auto. }
  assert (W = v) as ->. { apply nth_ext. intros j. rewrite N2, existsb_seq. destruct (Nat.ltb_spec j n); [reflexivity|]. rewrite !(proj2 (nth_error_None _ _)); unfold n in *; try lia; reflexivity. }
  destruct (read_all v None true (js true) g1 (Nd true)) as (g2 & R3 & L3 & N3).
  { intros j I. pose proof (Lt _ _ I) as X. split; [|apply nth_error_Some; unfold n in X; lia]. rewrite N1. unfold js. rewrite existsb_filter.
    apply filter_In in I as [_ I]. unfold at_ in *. apply Bool.eqb_prop in I. rewrite I. cbn. rewrite andb_false_r.
    rewrite (nth_error_nth' _ None) by (rewrite repeat_length; lia). rewrite nth_repeat. reflexivity. }
  { lia. }
  assert (g2 = map Some (mix mask init v)) as ->.
  { apply nth_ext. intros j. rewrite nth_error_map, N3, N1. unfold js. rewrite !existsb_filter. rewrite mix_nth by lia. unfold at_.
    destruct (Nat.ltb_spec j n) as [X|X]; cbn [andb].
    - destruct (nth j mask false); cbn [Bool.eqb]; reflexivity.
    - assert (N0 : nth_error init j = None) by (apply nth_error_None; exact X). assert (N0' : nth_error v j = None) by (apply nth_error_None; unfold n in X; lia).
      rewrite N0, N0'. rewrite (proj2 (nth_error_None (repeat None n) j)) by (rewrite repeat_length; exact X). destruct (nth j mask false); reflexivity. }
  eexists. split; [|split].
  - assert (E : writes (TRStart false :: map (TRWord 0) (js false) ++ TWStart v :: map TWWord (seq 0 n) ++ tail) = [v]).
    { unfold tail. change (writes ([TRStart false] ++ map (TRWord 0) (js false) ++ [TWStart v] ++ map TWWord (seq 0 n) ++ [TWEnd; TSignal] ++ map (TRWord 0) (js true) ++ [TREnd 0]) = [v]).
      rewrite !writes_app, !writes_reads, writes_words. reflexivity. }
    split; [right; exact E|]. intros [|x pre] post H; [discriminate|]. injection H as _ H. apply no_signal_reads in H as [pre2 H]. destruct pre2 as [|y pre2]; [discriminate|].
    injection H as _ H. apply no_signal_words in H as [pre3 H]. unfold tail in H. destruct pre3 as [|z pre3]; [discriminate|]. injection H as _ H.
    destruct pre3 as [|z2 pre3]; [injection H as <-; rewrite writes_app, writes_reads; reflexivity|]. injection H as _ H. apply no_signal_reads in H as [pre4 H].
    destruct pre4 as [|z4 [|? ?]]; discriminate.
  - cbn [frun fstep new_field f_signal f_writer f_words f_readers negb orb andb app]. fold n. rewrite frun_app, R1. cbn [frun fstep f_signal f_writer f_words f_readers negb andb].
    rewrite Lv. fold n. rewrite Nat.eqb_refl. cbn [andb]. rewrite frun_app, R2. unfold tail. cbn [frun fstep f_signal f_writer f_words f_readers]. rewrite frun_app, R3.
    cbn [frun fstep f_readers nth_error f_words f_writer f_signal]. rewrite all_some_map. cbn [set_nth]. reflexivity.
  - reflexivity.
Qed.
Print Assumptions C103_any_mix.

(** An ID with the peer's key and no address; an ID whose address cannot be used without a crash. *)
Theorem C103_torn : forall id, wf_id id ->
  (exists l s ws, one_write (id_words id) l /\ frun false (new_field (id_words ZeroID)) l = Some s /\ In (REnd false ws) (f_readers s) /\
     id_of ws = Ok (mkID (id_key id) [] 0 [])) /\
  (id_addr id <> [] -> exists l s ws, one_write (id_words id) l /\ frun false (new_field (id_words ZeroID)) l = Some s /\ In (REnd false ws) (f_readers s) /\
     id_of ws = Panic).
Proof.
  intros id W. split.
  - destruct (C103_any_mix _ (id_words ZeroID) (id_words id) [true; true; true; true; false; false; false; false; false; false] eq_refl eq_refl) as (l & s & O & R & E).
    exists l, s. eexists. split; [exact O|]. split; [exact R|]. rewrite E. split; [left; reflexivity|].
    pose proof (proj1 (C103_value (mkID (id_key id) [] 0 []) W)) as V. exact V.
  - intros Na. destruct (C103_any_mix _ (id_words ZeroID) (id_words id) [false; false; false; false; false; false; false; false; false; true] eq_refl eq_refl) as (l & s & O & R & E).
    exists l, s. eexists. split; [exact O|]. split; [exact R|]. rewrite E. split; [left; reflexivity|].
    cbn. unfold deref. destruct (N.eqb_spec (N.of_nat (List.length (id_addr id))) 0) as [C|C]; [destruct (id_addr id); [congruence | cbn in C; lia]|]. reflexivity.
Qed.
Print Assumptions C103_torn.
Theorem C103_addr_torn : forall addr, addr <> [] ->
  exists l s ws, one_write (string_words addr) l /\ frun false (new_field (string_words [])) l = Some s /\ In (REnd false ws) (f_readers s) /\ string_of ws = Panic.
Proof.
  intros a Na. destruct (C103_any_mix _ (string_words []) (string_words a) [false; true] eq_refl eq_refl) as (l & s & O & R & E).
  exists l, s. eexists. split; [exact O|]. split; [exact R|]. rewrite E. split; [left; reflexivity|].
  cbn. unfold deref. destruct (N.eqb_spec (N.of_nat (List.length a)) 0) as [C|C]; [destruct a; [congruence | cbn in C; lia]|]. reflexivity.
Qed.
Print Assumptions C103_addr_torn.
Theorem C103_refuted : ~ C103_statement.
Proof.
  intros H. destruct (C103_torn (ex_id 1 1) eq_refl) as [_ T]. destruct T as (l & s & ws & O & R & I & E); [discriminate|].
  destruct (H ZeroID (ex_id 1 1) l s false ws eq_refl eq_refl O R I); congruence.
Qed.
Print Assumptions C103_refuted.

(** ** With a lock *)

Definition wnext {A} (cp : list A * option (list A)) (a : fact A) : list A * option (list A) :=
  match a with TWStart v => (fst cp, Some v) | TWEnd => (match snd cp with Some v => v | None => fst cp end, None) | _ => cp end.
Lemma written_fold {A} (l : list (fact A)) : forall c p, written c p l = fst (fold_left wnext l (c, p)).
Proof. induction l as [|a l IH]; intros c p; cbn; [reflexivity|]. destruct a; cbn; apply IH. Qed.
Lemma starts_app {A} (l1 l2 : list (fact A)) : starts (l1 ++ l2) = starts l1 + starts l2.
Proof. induction l1 as [|a l1 IH]; cbn; [reflexivity|]. destruct a; cbn; rewrite IH; reflexivity. Qed.

Section Locked.
Context {A : Type} (init : list A).
Definition at_start (l : list (fact A)) (r : nat) (x : list A) : Prop := exists pre w post, l = pre ++ TRStart w :: post /\ starts pre = r /\ x = written init None pre.
Definition lock_inv (l : list (fact A)) (s : field A) : Prop :=
  List.length (f_readers s) = starts l /\
  (forall r q, nth_error (f_readers s) r = Some q ->
     match q with
     | RGoing _ got => f_writer s = None /\ at_start l r (f_words s) /\ List.length got = List.length (f_words s) /\ forall j x, nth_error got j = Some (Some x) -> nth_error (f_words s) j = Some x
     | REnd _ ws => at_start l r ws
     end) /\
  let cp := fold_left wnext l (init, None) in
  match f_writer s with
  | None => f_words s = fst cp /\ snd cp = None
  | Some (v, todo) => snd cp = Some v /\ List.length v = List.length (f_words s) /\ forall j, In j todo \/ nth_error (f_words s) j = nth_error v j
  end.
Lemma at_start_snoc l a r x : at_start l r x -> at_start (l ++ [a]) r x.
Proof. intros (pre & w & post & -> & E1 & E2). exists pre, w, (post ++ [a]). rewrite <- app_assoc. auto. Qed.

Lemma lock_step l s a s1 : lock_inv l s -> fstep true s a = Some s1 -> lock_inv (l ++ [a]) s1.
Proof.
  intros (Ln & Rd & Wr) H. cbv zeta in Wr. unfold lock_inv. rewrite fold_left_app, starts_app. cbn [fold_left]. set (cp := fold_left wnext l (init, None)) in *.
  assert (Old : forall r q s2, nth_error (f_readers s) r = Some q -> (going q = true -> f_writer s2 = None /\ f_words s2 = f_words s) ->
    match q with
    | RGoing _ got => f_writer s2 = None /\ at_start (l ++ [a]) r (f_words s2) /\ List.length got = List.length (f_words s2) /\ forall j x, nth_error got j = Some (Some x) -> nth_error (f_words s2) j = Some x
    | REnd _ ws => at_start (l ++ [a]) r ws
    end).
  { intros r q s2 E G. specialize (Rd r q E). destruct q as [w got|w ws]; [|apply at_start_snoc; exact Rd]. destruct (G eq_refl) as [G1 G2]. rewrite G2.
    destruct Rd as (R1 & R2 & R3 & R4). split; [exact G1|]. split; [apply at_start_snoc; exact R2 | auto]. }
  assert (NoR : f_writer s <> None -> forall r q, nth_error (f_readers s) r = Some q -> going q = false).
  { intros N r q E. specialize (Rd r q E). destruct q; [destruct Rd as [R _]; contradiction | reflexivity]. }
  destruct a as [u|j| | |wt|r j|r]; cbn [fstep] in H; cbn [wnext starts]; rewrite ?Nat.add_0_r.
  - destruct (f_writer s) eqn:Ew; [discriminate|]. destruct (_ && _) eqn:B; [|discriminate]. injection H as <-. apply andb_true_iff in B as [B1 B2]. apply Nat.eqb_eq in B1.
    apply negb_true_iff in B2. cbn [andb] in B2. cbn [f_words f_writer f_readers fst snd]. split; [exact Ln|]. split.
    + intros r q E. apply (Old r q (mkF (f_words s) (Some (u, seq 0 (List.length u))) (f_readers s) (f_signal s)) E). intros G. exfalso.
      assert (existsb going (f_readers s) = true) by (apply existsb_exists; exists q; split; [exact (nth_error_In _ _ E) | exact G]). congruence.
    + split; [reflexivity|]. split; [exact B1|]. intros j. destruct (lt_dec j (List.length u)) as [Lt|Ge]; [left; apply in_seq; lia|].
      right. rewrite !(proj2 (nth_error_None _ _)) by lia. reflexivity.
  - destruct (f_writer s) as [[u todo]|] eqn:Ew; [|discriminate]. destruct (existsb (Nat.eqb j) todo) eqn:B; [|discriminate]. destruct (nth_error u j) as [x|] eqn:Ex; [|discriminate].
    injection H as <-. destruct Wr as (W1 & W2 & W3). cbn [f_words f_writer f_readers]. split; [exact Ln|]. split.
    + intros r q E. apply (Old r q (mkF (set_nth j x (f_words s)) (Some (u, filter (fun i => negb (i =? j)) todo)) (f_readers s) (f_signal s)) E). intros G. rewrite (NoR ltac:(discriminate) r q E) in G. discriminate.
    + split; [exact W1|]. split; [rewrite set_nth_length; exact W2|]. assert (Jl : j < List.length (f_words s)) by (rewrite <- W2; apply nth_error_Some; congruence).
      intros i. rewrite nth_set. destruct (Nat.eqb_spec i j) as [-> |Nj].
      * right. rewrite (proj2 (Nat.ltb_lt _ _) Jl). cbn. congruence.
      * cbn [andb]. destruct (W3 i) as [I|E]; [|auto]. left. apply filter_In. split; [exact I|]. apply negb_true_iff, Nat.eqb_neq. exact Nj.
  - destruct (f_writer s) as [[u [|? ?]]|] eqn:Ew; try discriminate. injection H as <-. destruct Wr as (W1 & W2 & W3). cbn [f_words f_writer f_readers fst snd]. split; [exact Ln|]. split.
    + intros r q E. apply (Old r q (mkF (f_words s) None (f_readers s) (f_signal s)) E). auto.
    + rewrite W1. split; [|reflexivity]. apply nth_ext. intros j. destruct (W3 j) as [[]|E]. exact E.
  - destruct (f_writer s) eqn:Ew; [discriminate|]. destruct (f_signal s) eqn:Es; [discriminate|]. injection H as <-. cbn [f_words f_writer f_readers]. split; [exact Ln|]. split; [|exact Wr].
    intros r q E. apply (Old r q (mkF (f_words s) None (f_readers s) true) E). auto.
  - destruct (_ && _) eqn:B in H; [|discriminate]. injection H as <-. apply andb_true_iff in B as [_ B]. cbn [f_words f_writer f_readers]. destruct (f_writer s) eqn:Ew; [discriminate|].
    split; [rewrite app_length, Ln; reflexivity|]. split; [|exact Wr].
    intros r q E. destruct (lt_dec r (List.length (f_readers s))) as [Lt|Ge].
    + rewrite nth_error_app1 in E by exact Lt. apply (Old r q (mkF (f_words s) None [] (f_signal s)) E). auto.
    + assert (r = List.length (f_readers s)) as ->.
      { apply Nat.le_antisymm; [|lia]. assert (r < List.length (f_readers s ++ [RGoing wt (repeat None (List.length (f_words s)))])) by (apply nth_error_Some; congruence). rewrite app_length in H. cbn in H. lia. }
      rewrite nth_error_app2, Nat.sub_diag in E by lia. cbn in E. injection E as <-. split; [reflexivity|]. split.
      * exists l, wt, []. split; [reflexivity|]. split; [auto|]. rewrite written_fold. exact (proj1 Wr).
      * split; [apply repeat_length|]. intros j x Ex. apply nth_error_In, repeat_spec in Ex. discriminate.
  - destruct (nth_error (f_readers s) r) as [[w got|? ?]|] eqn:Er; try discriminate. destruct (nth_error got j) as [[?|]|] eqn:Eg; try discriminate.
    destruct (nth_error (f_words s) j) as [x|] eqn:Ex; [|discriminate]. injection H as <-. cbn [f_words f_writer f_readers]. split; [rewrite set_nth_length; exact Ln|]. split; [|exact Wr].
    intros i q E. rewrite nth_set in E. destruct (Nat.eqb_spec i r) as [-> |Ni].
    + assert (r <? List.length (f_readers s) = true) as Lr by (apply Nat.ltb_lt, nth_error_Some; congruence). rewrite Lr in E. cbn in E. injection E as <-.
      destruct (Rd r _ Er) as (R1 & R2 & R3 & R4). split; [exact R1|]. split; [apply at_start_snoc; exact R2|]. split; [rewrite set_nth_length; exact R3|].
      intros i y Ey. rewrite nth_set in Ey. destruct (Nat.eqb_spec i j) as [-> |Nj]; [|exact (R4 i y Ey)].
      destruct (j <? List.length got); cbn in Ey; congruence.
    + cbn [andb] in E. apply (Old i q s E). intros G. split; [|reflexivity]. specialize (Rd i q E). destruct q; [tauto | discriminate].
  - destruct (nth_error (f_readers s) r) as [[w got|? ?]|] eqn:Er; try discriminate. destruct (all_some got) as [ws|] eqn:Ea; [|discriminate].
    injection H as <-. cbn [f_words f_writer f_readers]. split; [rewrite set_nth_length; exact Ln|]. split; [|exact Wr].
    intros i q E. rewrite nth_set in E. destruct (Nat.eqb_spec i r) as [-> |Ni].
    + assert (r <? List.length (f_readers s) = true) as Lr by (apply Nat.ltb_lt, nth_error_Some; congruence). rewrite Lr in E. cbn in E. injection E as <-.
      destruct (Rd r _ Er) as (R1 & R2 & R3 & R4). apply at_start_snoc. assert (ws = f_words s) as ->; [|exact R2]. apply nth_ext. intros j.
      pose proof (all_some_length _ _ Ea) as La. destruct (nth_error ws j) as [x|] eqn:Ex; [symmetry; exact (R4 j x (all_some_nth _ _ Ea _ _ Ex))|].
      symmetry. apply nth_error_None. apply nth_error_None in Ex. lia.
    + cbn [andb] in E. apply (Old i q s E). intros G. split; [|reflexivity]. specialize (Rd i q E). destruct q; [tauto | discriminate].
Qed.
Lemma lock_run l : forall s, frun true (new_field init) l = Some s -> lock_inv l s.
Proof.
  induction l as [|a l IH] using rev_ind; intros s H.
  - injection H as <-. split; [reflexivity|]. split; [intros [|r] q E; discriminate | split; reflexivity].
  - rewrite frun_app in H. destruct (frun true (new_field init) l) as [s0|] eqn:E; [|discriminate]. cbn [frun] in H. destruct (fstep true s0 a) as [s1|] eqn:E1; [|discriminate].
    injection H as <-. exact (lock_step l s0 a s1 (IH s0 eq_refl) E1).
Qed.
End Locked.

(** Logger and SetLogger of a Client, in any number, at any time: a call gives what was set by the last SetLogger that had ended when it
    took the lock. *)
Theorem C103_locked : forall A (init : list A) l s r w ws, frun true (new_field init) l = Some s -> nth_error (f_readers s) r = Some (REnd w ws) ->
  exists pre w' post, l = pre ++ TRStart w' :: post /\ starts pre = r /\ ws = written init None pre.
Proof. intros A init l s r w ws H E. destruct (lock_run init l s H) as (_ & Rd & _). exact (Rd r _ E). Qed.
Print Assumptions C103_locked.

(** A handshake sets the ID; one goroutine reads it after the signal, another one while it is being written. *)
Definition torn_run : list (fact word) :=
  TRStart false :: map (TRWord 0) (seq 0 3) ++ TWStart (id_words (ex_id 1 1)) :: map TWWord (seq 0 10) ++ [TWEnd; TSignal; TRStart true] ++ map (TRWord 1) (seq 0 10) ++ [TREnd 1]
  ++ map (TRWord 0) (seq 3 7) ++ [TREnd 0].
Lemma torn_one_write : one_write (id_words (ex_id 1 1)) torn_run.
Proof.
  split; [right; reflexivity|]. assert (G : forall l : list (fact word), (fix ok (l : list (fact word)) := match l with [] => true | TSignal :: r => match writes r with [] => ok r | _ => false end | _ :: r => ok r end) l = true ->
    forall pre post, l = pre ++ TSignal :: post -> writes post = []).
  { induction l as [|a l IH]; intros Ok pre post E; [destruct pre; discriminate|]. destruct pre as [|b pre]; cbn in E; injection E as -> ->.
    - cbn in Ok. destruct (writes post); [reflexivity | discriminate].
    - apply (IH ltac:(destruct b; try exact Ok; destruct (writes (pre ++ TSignal :: post)); [exact Ok | discriminate]) pre post eq_refl). }
  apply G. reflexivity.
Qed.
Example C103_nonvacuous : one_write (id_words (ex_id 1 1)) torn_run /\
  match frun false (new_field (id_words ZeroID)) torn_run with
  | Some s => match f_readers s with
              | [REnd false a; REnd true b] => id_of b = Ok (ex_id 1 1) /\ id_of a <> Ok (ex_id 1 1) /\ id_of a <> Ok ZeroID
              | _ => False
              end
  | None => False
  end.
Proof. split; [exact torn_one_write|]. vm_compute. split; [reflexivity | split; discriminate]. Qed.
(** Two writes under the lock and a read between them. *)
Example C103_locked_nonvacuous :
  match frun true (new_field [1; 2]) [TWStart [3; 4]; TWWord 1; TWWord 0; TWEnd; TRStart false; TRWord 0 1; TRWord 0 0; TREnd 0; TWStart [5; 6]] with
  | Some s => f_readers s = [REnd false [3; 4]]
  | None => False
  end.
Proof. reflexivity. Qed.
