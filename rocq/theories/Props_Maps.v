(** * Request nonces and connection pools as data structures: C30, C36, C37. *)
From Verif Require Import Base Spec M_Maps.
From Coq Require Import Strings.Byte.
Local Open Scope nat_scope.

(** ** C30 *)

(** Read off the calls alone: the request given channel [ch] and nonce [n] has neither been answered nor failed. *)
Definition outstanding (tr : list rq_event) (n : N) (ch : nat) : Prop :=
  exists a b, tr = a ++ EvNext (Some (ch, n)) :: b /\ forall e, In e b -> match e with EvFind m _ | EvFail m => m <> n | _ => True end.
Definition next_calls (tr : list rq_event) : nat := length (filter (fun e => match e with EvNext _ => true | _ => false end) tr).

Lemma rm_get_del n m l : rm_get n (rm_del m l) = if N.eqb n m then None else rm_get n l.
Proof.
  unfold rm_del. induction l as [|[k c] l IH]; cbn.
  - destruct (N.eqb n m); reflexivity.
  - destruct (N.eqb_spec m k) as [-> |E]; cbn.
    + rewrite IH. destruct (N.eqb_spec n k); reflexivity.
    + rewrite IH. destruct (N.eqb_spec n k) as [-> |]; [|reflexivity]. destruct (N.eqb_spec k m); [congruence | reflexivity].
Qed.

Lemma outstanding_snoc tr e n ch : outstanding (tr ++ [e]) n ch <->
  e = EvNext (Some (ch, n)) \/ (outstanding tr n ch /\ match e with EvFind m _ | EvFail m => m <> n | _ => True end).
Proof.
  split.
  - intros (a & b & E & H). destruct b as [|x b _] using rev_ind.
    + left. apply app_inj_tail in E as [_ E]. exact E.
    + right. rewrite app_comm_cons, app_assoc in E. apply app_inj_tail in E as [E ->]. split.
      * exists a, b. split; [exact E|]. intros y Hy. apply (H y). apply in_or_app. left. exact Hy.
      * apply (H x). apply in_or_app. right. left. reflexivity.
  - intros [-> |[(a & b & -> & H) G]].
    + exists tr, []. split; [reflexivity | intros ? []].
    + exists a, (b ++ [e]). split; [rewrite <- app_assoc; reflexivity|]. intros y Hy. apply in_app_or in Hy as [Hy|[<- |[]]]; [exact (H y Hy) | exact G].
Qed.

(** What the map records after the calls [tr]. *)
Record rq_inv (r : reqmap) (tr : list rq_event) : Prop := {
  ri_entries : forall n ch, rm_get n (rm_entries r) = Some ch <-> outstanding tr n ch;
  ri_nonce : rm_nonce r = match next_calls tr with O => 0%N | S k => (N.of_nat k mod MaxUint64 + 1)%N end;
  ri_made : forall n ch, outstanding tr n ch -> ch < rm_made r
}.

Lemma next_value k : (((if N.eqb (match k with O => 0 | S j => N.of_nat j mod MaxUint64 + 1 end) MaxUint64 then 0
    else match k with O => 0 | S j => N.of_nat j mod MaxUint64 + 1 end) + 1) mod 2 ^ 64 = N.of_nat k mod MaxUint64 + 1)%N.
Proof.
  assert (M : (MaxUint64 <> 0)%N) by discriminate.
  destruct k as [|j].
  - reflexivity.
  - pose proof (N.mod_lt (N.of_nat j) MaxUint64 M) as B.
    assert (E : (N.of_nat (S j) mod MaxUint64 = (N.of_nat j mod MaxUint64 + 1) mod MaxUint64)%N).
    { rewrite Nat2N.inj_succ, <- N.add_1_r. rewrite <- (N.add_mod_idemp_l (N.of_nat j)) by exact M. reflexivity. }
    rewrite E. destruct (N.eqb_spec (N.of_nat j mod MaxUint64 + 1) MaxUint64) as [Q|Q].
    + rewrite Q. rewrite N.mod_same by exact M. reflexivity.
    + change (2 ^ 64)%N with (MaxUint64 + 1)%N. set (x := (N.of_nat j mod MaxUint64)%N) in *. clearbody x. rewrite (N.mod_small (x + 1 + 1)) by lia. rewrite (N.mod_small (x + 1)) by lia. reflexivity.
Qed.

Lemma next_calls_snoc tr e : next_calls (tr ++ [e]) = next_calls tr + match e with EvNext _ => 1 | _ => 0 end.
Proof. unfold next_calls. rewrite filter_app, app_length. destruct e; reflexivity. Qed.

Lemma rq_step_inv r tr o r' e : rq_inv r tr -> rq_step r o = Ok (r', e) -> rq_inv r' (tr ++ [e]) /\
  match e with
  | EvNext o => let n := (N.of_nat (next_calls tr) mod MaxUint64 + 1)%N in
      match o with
      | Some (ch, m) => m = n /\ (forall c, ~ outstanding tr n c) /\ (forall k c, outstanding tr k c -> c <> ch)
      | None => exists c, outstanding tr n c
      end
  | EvFind n (Some ch) => outstanding tr n ch
  | EvFind n None => forall c, ~ outstanding tr n c
  | EvFail n => exists c, outstanding tr n c
  end.
Proof.
  intros [I1 I2 I3] H. destruct o as [|n|n]; cbn [rq_step] in H.
  - unfold nextNonce in H. rewrite I2, next_value in H. set (n := (N.of_nat (next_calls tr) mod MaxUint64 + 1)%N) in *.
    destruct (rm_get n (rm_entries r)) as [c|] eqn:G.
    + injection H as <- <-. split.
      * constructor; cbn [rm_entries rm_nonce rm_made].
        -- intros m ch. rewrite I1, outstanding_snoc. split; [auto|]. intros [D|[D _]]; [discriminate | exact D].
        -- rewrite next_calls_snoc, Nat.add_1_r. reflexivity.
        -- intros m ch D. apply outstanding_snoc in D as [D|[D _]]; [discriminate | eapply I3, D].
      * exists c. apply I1. exact G.
    + injection H as <- <-. assert (NO : forall c, ~ outstanding tr n c) by (intros c C; apply I1 in C; congruence). split.
      * constructor; cbn [rm_entries rm_nonce rm_made].
        -- intros m ch. cbn [rm_get]. rewrite outstanding_snoc. destruct (N.eqb_spec m n) as [-> |Ne].
           ++ split; [intros [= ->]; auto|]. intros [[= ->]|[D _]]; [reflexivity | exfalso; exact (NO _ D)].
           ++ rewrite I1. split; [auto|]. intros [[= _ D]|[D _]]; [congruence | exact D].
        -- rewrite next_calls_snoc, Nat.add_1_r. reflexivity.
        -- intros m ch D. apply outstanding_snoc in D as [[= -> _]|[D _]]; [lia|]. apply I3 in D. lia.
      * cbv zeta. split; [reflexivity|]. split; [exact NO|]. intros k c D ->. apply I3 in D. lia.
  - unfold findRequest in H. destruct (rm_get n (rm_entries r)) as [c|] eqn:G; injection H as <- <-.
    + split; [|apply I1; exact G]. constructor; cbn [rm_entries rm_nonce rm_made].
      * intros m ch. rewrite rm_get_del, outstanding_snoc. destruct (N.eqb_spec m n) as [-> |Ne].
        -- split; [discriminate|]. intros [D|[_ D]]; [discriminate | congruence].
        -- rewrite I1. split; [auto|]. intros [D|[D _]]; [discriminate | exact D].
      * rewrite next_calls_snoc, Nat.add_0_r. exact I2.
      * intros m ch D. apply outstanding_snoc in D as [D|[D _]]; [discriminate | eapply I3, D].
    + split; [|intros c C; apply I1 in C; congruence]. constructor.
      * intros m ch. rewrite I1, outstanding_snoc. split.
        -- intros D. right. split; [exact D|]. intros ->. apply I1 in D. congruence.
        -- intros [D|[D _]]; [discriminate | exact D].
      * rewrite next_calls_snoc, Nat.add_0_r. exact I2.
      * intros m ch D. apply outstanding_snoc in D as [D|[D _]]; [discriminate | eapply I3, D].
  - unfold markRequestFailed in H. destruct (rm_get n (rm_entries r)) as [c|] eqn:G; cbn [bind] in H; [|discriminate]. injection H as <- <-.
    split; [|exists c; apply I1; exact G]. constructor; cbn [rm_entries rm_nonce rm_made].
    * intros m ch. rewrite rm_get_del, outstanding_snoc. destruct (N.eqb_spec m n) as [-> |Ne].
      -- split; [discriminate|]. intros [D|[_ D]]; [discriminate | congruence].
      -- rewrite I1. split; [auto|]. intros [D|[D _]]; [discriminate | exact D].
    * rewrite next_calls_snoc, Nat.add_0_r. exact I2.
    * intros m ch D. apply outstanding_snoc in D as [D|[D _]]; [discriminate | eapply I3, D].
Qed.

Lemma rq_run_inv os : forall r tr r' es, rq_inv r tr -> rq_run r os = Ok (r', es) ->
  forall a e b, es = a ++ e :: b -> match e with
  | EvNext o => let n := (N.of_nat (next_calls (tr ++ a)) mod MaxUint64 + 1)%N in
      match o with
      | Some (ch, m) => m = n /\ (forall c, ~ outstanding (tr ++ a) n c) /\ (forall k c, outstanding (tr ++ a) k c -> c <> ch)
      | None => exists c, outstanding (tr ++ a) n c
      end
  | EvFind n (Some ch) => outstanding (tr ++ a) n ch
  | EvFind n None => forall c, ~ outstanding (tr ++ a) n c
  | EvFail n => exists c, outstanding (tr ++ a) n c
  end.
Proof.
  induction os as [|o os IH]; intros r tr r' es I H a e b E; cbn [rq_run] in H.
  - assert (es = []) as -> by congruence. destruct a; discriminate.
  - destruct (rq_step r o) as [[r1 e1]| |] eqn:S1; cbn [bind] in H; try discriminate.
    destruct (rq_run r1 os) as [[r2 es2]| |] eqn:S2; cbn [bind] in H; try discriminate.
    assert (es = e1 :: es2) as -> by congruence. destruct (rq_step_inv _ _ _ _ _ I S1) as [I1 P].
    destruct a as [|x a]; cbn in E.
    + assert (e1 = e) as -> by congruence. rewrite app_nil_r. exact P.
    + assert (x = e1) as -> by congruence. specialize (IH r1 (tr ++ [e1]) r2 es2 I1 S2 a e b ltac:(congruence)).
      rewrite <- app_assoc in IH. exact IH.
Qed.

Lemma rq_inv_0 : rq_inv newRequestMap [].
Proof.
  constructor; cbn.
  - intros n ch. split; [discriminate|]. intros (a & b & E & _). destruct a; discriminate.
  - reflexivity.
  - intros n ch (a & b & E & _). destruct a; discriminate.
Qed.

(** The k-th request (counting from 0, failed ones included) gets nonce (k mod (2^64-1)) + 1, which is never 0, unless a
    request with that very nonce is still outstanding, in which case it is refused and nothing is disturbed: what is
    outstanding afterwards is what was outstanding before, plus the new request. *)
Theorem C30_next : forall os r es a o b, rq_run newRequestMap os = Ok (r, es) -> es = a ++ EvNext o :: b ->
  let n := (N.of_nat (next_calls a) mod (2 ^ 64 - 1) + 1)%N in
  (0 < n < 2 ^ 64)%N /\
  match o with
  | Some (ch, m) => m = n /\ (forall c, ~ outstanding a n c) /\ (forall k c, outstanding a k c -> c <> ch)
  | None => exists c, outstanding a n c
  end /\
  forall k c, outstanding (a ++ [EvNext o]) k c <-> outstanding a k c \/ o = Some (c, k).
Proof.
  intros os r es a o b R E n. pose proof (rq_run_inv os _ [] r es rq_inv_0 R a (EvNext o) b E) as P. cbn [app] in P. cbv zeta in P.
  split; [|split; [exact P|]].
  - unfold n. pose proof (N.mod_lt (N.of_nat (next_calls a)) (2 ^ 64 - 1) ltac:(discriminate)). lia.
  - intros k c. rewrite outstanding_snoc. split.
    + intros [H|[H _]]; [right; congruence | auto].
    + intros [H| ->]; auto.
Qed.
Print Assumptions C30_next.

(** No two outstanding requests share a nonce: a nonce is handed out again only after its request was answered or
    failed. *)
Theorem C30_no_reuse : forall os r es a ch n b ch' c, rq_run newRequestMap os = Ok (r, es) ->
  es = a ++ EvNext (Some (ch, n)) :: b ++ EvNext (Some (ch', n)) :: c ->
  exists e, In e b /\ (e = EvFail n \/ exists o, e = EvFind n o).
Proof.
  intros os r es a ch n b ch' c R E.
  assert (E' : es = (a ++ EvNext (Some (ch, n)) :: b) ++ EvNext (Some (ch', n)) :: c) by (rewrite E, <- app_assoc; reflexivity).
  destruct (C30_next os r es _ (Some (ch', n)) c R E') as (_ & (En & NO & _) & _).
  rewrite <- En in NO. specialize (NO ch).
  assert (D : forall l, (exists e, In e l /\ (e = EvFail n \/ exists o, e = EvFind n o)) \/
                  (forall e, In e l -> match e with EvFind m _ | EvFail m => m <> n | _ => True end)).
  { induction l as [|e l IH]; [right; intros ? []|]. destruct IH as [(x & Hx & X)|IH]; [left; exists x; split; [right|]; assumption|].
    destruct e as [o|m o|m].
    - right. intros x [<- |Hx]; [exact I | apply IH, Hx].
    - destruct (N.eq_dec m n) as [-> |Ne]; [left; exists (EvFind n o); split; [left; reflexivity | eauto] | right; intros x [<- |Hx]; [exact Ne | apply IH, Hx]].
    - destruct (N.eq_dec m n) as [-> |Ne]; [left; exists (EvFail n); split; [left; reflexivity | auto] | right; intros x [<- |Hx]; [exact Ne | apply IH, Hx]]. }
  destruct (D b) as [H|H]; [exact H|]. exfalso. apply NO. exists a, b. auto.
Qed.
Print Assumptions C30_no_reuse.

(** A response's nonce leads to the channel of exactly the outstanding request that was given that nonce, if any. *)
Theorem C30_find : forall os r es a n o b, rq_run newRequestMap os = Ok (r, es) -> es = a ++ EvFind n o :: b ->
  forall ch, o = Some ch <-> outstanding a n ch.
Proof.
  intros os r es a n o b R E ch. pose proof (rq_run_inv os _ [] r es rq_inv_0 R a (EvFind n o) b E) as P. cbn [app] in P.
  assert (U : forall l c c', (exists x r, x ++ EvFind n o :: b = es /\ r = x /\ x = l) -> outstanding l n c -> outstanding l n c' -> c = c').
  { intros l c c' (x & r' & Ex & -> & ->) (a1 & b1 & E1 & H1) (a2 & b2 & E2 & H2). rewrite E1 in E2.
    clear - E1 E2 H1 H2 R Ex. subst l.
    (* the later of the two would have been refused *)
    assert (forall a1 b1 a2 b2 c c', a1 ++ EvNext (Some (c, n)) :: b1 = a2 ++ EvNext (Some (c', n)) :: b2 ->
        (forall e, In e b1 -> match e with EvFind m _ | EvFail m => m <> n | _ => True end) -> 
        (exists t, es = (a1 ++ EvNext (Some (c, n)) :: b1) ++ t) -> length a1 < length a2 -> False) as K.
    { clear - R. intros a1 b1 a2 b2 c c' E H [t Et] L.
      assert (exists m, a2 = a1 ++ EvNext (Some (c, n)) :: m /\ b1 = m ++ EvNext (Some (c', n)) :: b2) as (m & Em & Eb).
      { clear Et. revert a2 E L. induction a1 as [|x a1 IH]; intros [|y a2] E L; cbn in *; try lia.
        - injection E as <- E. exists a2. auto.
        - injection E as <- E. destruct (IH a2 E ltac:(lia)) as (m & -> & Eb). exists m. auto. }
      rewrite Eb in Et. rewrite <- app_assoc in Et. cbn [app] in Et. rewrite <- app_assoc in Et. cbn [app] in Et.
      destruct (C30_no_reuse _ _ _ _ _ _ _ _ _ R Et) as (e & He & Q). specialize (H e). rewrite Eb in H.
      specialize (H ltac:(apply in_or_app; auto)). destruct Q as [-> |[o ->]]; congruence. }
    destruct (Nat.lt_trichotomy (length a1) (length a2)) as [L|[L|L]].
    - exfalso. apply (K a1 b1 a2 b2 c c' E2 H1); [|exact L]. exists (EvFind n o :: b). auto.
    - revert a2 E2 L. clear. induction a1 as [|x a1 IH]; intros [|y a2] E L; cbn in *; try lia; injection E as E; [congruence|]. eapply IH; eauto.
    - exfalso. apply (K a2 b2 a1 b1 c' c (eq_sym E2) H2); [|exact L]. exists (EvFind n o :: b). rewrite <- E2. auto. }
  destruct o as [c|].
  - split; [intros [= ->]; exact P|]. intros O. f_equal. apply (U a c ch); [|exact P|exact O]. exists a, a. auto.
  - split; [discriminate|]. intros O. exfalso. exact (P _ O).
Qed.
Print Assumptions C30_find.

Example C30_nonvacuous : exists r, rq_run newRequestMap [RNext; RNext; RFind 1; RNext; RFind 1; RFail 3; RFind 2]
  = Ok (r, [EvNext (Some (0, 1%N)); EvNext (Some (1, 2%N)); EvFind 1 (Some 0); EvNext (Some (2, 3%N)); EvFind 1 None; EvFail 3; EvFind 2 (Some 1)]) /\
  (* wrap-around *)
  nextNonce (mkRM MaxUint64 [] 5) = (mkRM 1 [(1%N, 5)] 6, Some (5, 1%N)) /\ nextNonce (mkRM MaxUint64 [(1%N, 0)] 5) = (mkRM 1 [(1%N, 0)] 5, None).
Proof. eexists. split; [reflexivity|]. split; reflexivity. Qed.

(** ** C36, C37 *)

(** Specification: the pool as a list of (address, client), most recently used first. *)
Definition lru := list (bytes * nat).
Fixpoint lru_find (a : bytes) (l : lru) : option nat :=
  match l with [] => None | (b, c) :: l' => if bytes_eqb a b then Some c else lru_find a l' end.
Definition lru_drop (a : bytes) (l : lru) : lru := filter (fun e => negb (bytes_eqb a (fst e))) l.
Definition lru_step (max : nat) (l : lru) (fresh : nat) (o : cm_op) : lru :=
  match o with
  | CGet a => match lru_find a l with
              | Some c => (a, c) :: lru_drop a l
              | None => (a, fresh) :: (if length l =? max then removelast l else l)
              end
  | CRemove a => lru_drop a l
  | CRelease => []
  end.

(** The clients created are numbered; a [get] of an unknown address creates one. *)
Definition lru_made (l : lru) (k : nat) (o : cm_op) : nat :=
  match o with CGet a => match lru_find a l with Some _ => k | None => S k end | _ => k end.
Fixpoint lru_run (max : nat) (l : lru) (k : nat) (os : list cm_op) : lru * nat :=
  match os with [] => (l, k) | o :: os' => lru_run max (lru_step max l k o) (lru_made l k o) os' end.

Record cm_repr (m : climap) (l : lru) : Prop := {
  cr_order : cm_order m = map fst l;
  cr_nodup : NoDup (map fst l);
  cr_find : forall a, cm_get a (cm_entries m) = lru_find a l;
  cr_len : length (cm_entries m) = length l;
  cr_ents : NoDup (map fst (cm_entries m))
}.

Lemma lru_find_in a l : lru_find a l <> None <-> In a (map fst l).
Proof.
  induction l as [|[b c] l IH]; cbn; [tauto|]. destruct (bytes_eqb_spec a b) as [-> |N].
  - split; [auto | intros _; discriminate].
  - rewrite IH. split; [auto|]. intros [E|H]; [congruence | exact H].
Qed.
Lemma cm_get_find a l : cm_get a l = lru_find a l.
Proof. induction l as [|[b c] l IH]; cbn; [reflexivity|]. destruct (bytes_eqb a b); auto. Qed.
Lemma cm_del_drop a l : cm_del a l = lru_drop a l.
Proof. reflexivity. Qed.
Lemma lru_find_drop a b l : lru_find a (lru_drop b l) = if bytes_eqb a b then None else lru_find a l.
Proof.
  unfold lru_drop. induction l as [|[k c] l IH]; cbn; [destruct (bytes_eqb a b); reflexivity|].
  destruct (bytes_eqb_spec b k) as [-> |N]; cbn.
  - rewrite IH. destruct (bytes_eqb_spec a k); reflexivity.
  - rewrite IH. destruct (bytes_eqb_spec a k) as [-> |N2]; [|reflexivity]. destruct (bytes_eqb_spec k b); [congruence | reflexivity].
Qed.
Lemma map_drop a l : map fst (lru_drop a l) = del_addr a (map fst l).
Proof. unfold lru_drop, del_addr. induction l as [|[k c] l IH]; cbn; [reflexivity|]. destruct (bytes_eqb a k); cbn; rewrite IH; reflexivity. Qed.
Lemma nodup_del a l : NoDup l -> NoDup (del_addr a l).
Proof. intros H. apply NoDup_filter. exact H. Qed.
Lemma not_in_del a l : ~ In a (del_addr a l).
Proof. unfold del_addr. rewrite filter_In. intros [_ H]. rewrite bytes_eqb_refl in H. discriminate. Qed.
Lemma del_absent a l : ~ In a l -> del_addr a l = l.
Proof.
  unfold del_addr. induction l as [|b l IH]; intros H; cbn; [reflexivity|]. cbn in H. destruct (bytes_eqb_spec a b) as [-> |N]; [tauto|]. cbn. f_equal. tauto.
Qed.
Lemma lru_drop_absent a l : ~ In a (map fst l) -> lru_drop a l = l.
Proof.
  unfold lru_drop. induction l as [|[b c] l IH]; intros H; cbn; [reflexivity|]. cbn in H. destruct (bytes_eqb_spec a b) as [-> |N]; [tauto|]. cbn. f_equal. tauto.
Qed.
Lemma drop_length a l : NoDup (map fst l) -> In a (map fst l) -> S (length (lru_drop a l)) = length l.
Proof.
  induction l as [|[b c] l IH]; intros N H; [destruct H|]. cbn [map fst] in *. inversion N as [|? ? N1 N2]; subst. cbn [lru_drop filter fst].
  destruct (bytes_eqb_spec a b) as [-> |Ne]; cbn [negb length].
  - fold (lru_drop b l). rewrite lru_drop_absent by exact N1. reflexivity.
  - destruct H as [E|H]; [congruence|]. f_equal. apply IH; assumption.
Qed.
Lemma lru_find_last l a c : NoDup (map fst (l ++ [(a, c)])) -> lru_find a (l ++ [(a, c)]) = Some c.
Proof.
  induction l as [|[b d] l IH]; cbn; intros N.
  - rewrite bytes_eqb_refl. reflexivity.
  - inversion N as [|? ? N1 N2]; subst. destruct (bytes_eqb_spec a b) as [-> |Ne]; [|auto]. exfalso. apply N1. rewrite map_app. apply in_or_app. right. left. reflexivity.
Qed.
Lemma lru_drop_last l a c : NoDup (map fst (l ++ [(a, c)])) -> lru_drop a (l ++ [(a, c)]) = l.
Proof.
  intros N. unfold lru_drop. rewrite filter_app. cbn. rewrite bytes_eqb_refl. cbn. rewrite app_nil_r. apply lru_drop_absent.
  rewrite map_app in N. cbn in N. apply NoDup_remove_2 in N. rewrite app_nil_r in N. exact N.
Qed.

Lemma cm_fetch_repr max m l a k : cm_repr m l -> (l = [] -> max <> 0) ->
  exists m' c ex ev, cm_fetch max m a k = Ok (m', c, ex, ev) /\ cm_repr m' (lru_step max l k (CGet a)) /\
    lru_find a (lru_step max l k (CGet a)) = Some c /\
    (if ex then lru_find a l = Some c /\ ev = None
     else lru_find a l = None /\ c = k /\
          (if length l =? max then exists v, l = removelast l ++ [v] /\ ev = Some (snd v) else ev = None)).
Proof.
  intros [R1 R2 R3 R4 R5] HM. unfold cm_fetch. rewrite R3. cbn [lru_step]. destruct (lru_find a l) as [c|] eqn:F.
  - eexists _, _, _, _. split; [reflexivity|]. split; [|split; [cbn; rewrite bytes_eqb_refl; reflexivity | auto]].
    assert (Hin : In a (map fst l)) by (apply lru_find_in; congruence).
    constructor; cbn [cm_order cm_entries map fst length].
    + f_equal. rewrite R1, map_drop. reflexivity.
    + rewrite map_drop. constructor; [apply not_in_del | apply nodup_del, R2].
    + intros b. cbn [lru_find]. rewrite lru_find_drop, R3. destruct (bytes_eqb_spec b a) as [-> |]; [exact F | reflexivity].
    + rewrite drop_length by assumption. exact R4.
    + exact R5.
  - assert (Nin : ~ In a (map fst l)) by (intros C; apply lru_find_in in C; congruence).
    rewrite R4. destruct (Nat.eqb_spec (length l) max) as [E|E].
    + destruct l as [|[v c] l _] using rev_ind; [cbn in E; exfalso; exact (HM eq_refl (eq_sym E))|].
      rewrite R1, map_app, rev_app_distr. cbn [map rev app fst]. rewrite R3, lru_find_last by exact R2.
      eexists _, _, _, _. split; [reflexivity|]. rewrite !removelast_last.
      split; [|split; [cbn; rewrite bytes_eqb_refl; reflexivity | repeat split; exists (v, c); split; reflexivity]].
      assert (Nv : NoDup (map fst l) /\ ~ In v (map fst l)).
      { rewrite map_app in R2. cbn in R2. split; [apply NoDup_remove_1 in R2 | apply NoDup_remove_2 in R2]; rewrite app_nil_r in R2; exact R2. }
      constructor; cbn [cm_order cm_entries map fst length].
      * reflexivity.
      * constructor; [|apply Nv]. intros C. apply Nin. rewrite map_app. apply in_or_app. auto.
      * intros b. cbn [cm_get lru_find]. destruct (bytes_eqb b a); [reflexivity|]. rewrite cm_get_find, cm_del_drop, lru_find_drop, <- cm_get_find, R3.
        rewrite <- (lru_drop_last l v c R2) at 2. rewrite lru_find_drop. reflexivity.
      * rewrite cm_del_drop. rewrite drop_length; [rewrite R4, app_length; cbn; lia | exact R5|].
        apply lru_find_in. rewrite <- cm_get_find, R3, lru_find_last by exact R2. discriminate.
      * constructor; [|rewrite cm_del_drop, map_drop; apply nodup_del, R5]. rewrite cm_del_drop, map_drop. unfold del_addr. rewrite filter_In.
        intros [C _]. apply lru_find_in in C. rewrite <- cm_get_find, R3 in C. congruence.
    + eexists _, _, _, _. split; [reflexivity|].
      split; [|split; [cbn; rewrite bytes_eqb_refl; reflexivity | auto]].
      constructor; cbn [cm_order cm_entries map fst length].
      * rewrite R1. reflexivity.
      * constructor; assumption.
      * intros b. cbn [cm_get lru_find]. destruct (bytes_eqb b a); [reflexivity | apply R3].
      * f_equal. exact R4.
      * constructor; [|exact R5]. intros C. apply lru_find_in in C. rewrite <- cm_get_find, R3 in C. congruence.
Qed.

Lemma cm_remove_repr m l a : cm_repr m l -> cm_repr (cm_remove m a) (lru_drop a l).
Proof.
  intros [R1 R2 R3 R4 R5]. unfold cm_remove. rewrite R3. destruct (lru_find a l) as [c|] eqn:F.
  - assert (Hin : In a (map fst l)) by (apply lru_find_in; congruence). constructor; cbn [cm_order cm_entries].
    + rewrite R1, map_drop. reflexivity.
    + rewrite map_drop. apply nodup_del, R2.
    + intros b. rewrite cm_get_find, cm_del_drop, !lru_find_drop, <- cm_get_find, R3. reflexivity.
    + rewrite cm_del_drop. pose proof (drop_length a l R2 Hin) as D.
      assert (In a (map fst (cm_entries m))) as Hi by (apply lru_find_in; rewrite <- cm_get_find, R3, F; discriminate).
      pose proof (drop_length a (cm_entries m) R5 Hi) as D2. lia.
    + rewrite cm_del_drop, map_drop. apply nodup_del, R5.
  - rewrite lru_drop_absent; [constructor; assumption|]. intros C. apply lru_find_in in C. congruence.
Qed.

Lemma filter_length_le {A} (f : A -> bool) l : length (filter f l) <= length l.
Proof. induction l as [|x l IH]; cbn; [lia|]. destruct (f x); cbn; lia. Qed.

Lemma lru_len max l k o : length l <= max -> 0 < max -> length (lru_step max l k o) <= max.
Proof.
  intros H M. destruct o as [a|a|]; cbn [lru_step].
  - destruct (lru_find a l) eqn:F; cbn [length].
    + assert (In a (map fst l)) by (apply lru_find_in; congruence).
      assert (length (lru_drop a l) < length l); [|lia]. clear - H0. induction l as [|[b c] l IH]; [destruct H0|]. cbn [lru_drop filter fst].
      destruct (bytes_eqb_spec a b) as [-> |N]; cbn [negb length].
      * pose proof (filter_length_le (fun e => negb (bytes_eqb b (fst e))) l). lia.
      * destruct H0 as [E|H0]; [cbn in E; congruence|]. fold (lru_drop a l). specialize (IH H0). lia.
    + destruct (Nat.eqb_spec (length l) max) as [E|E]; [|lia].
      destruct l as [|x l _] using rev_ind; [cbn in *; lia|]. rewrite removelast_last. rewrite app_length in E. cbn in E. lia.
  - unfold lru_drop. pose proof (filter_length_le (fun e => negb (bytes_eqb a (fst e))) l). lia.
  - cbn. lia.
Qed.

Lemma cm_run_repr max os : 0 < max -> forall m l k, cm_repr m l -> length l <= max ->
  exists m', cm_run max (m, k) os = Ok (m', snd (lru_run max l k os)) /\ cm_repr m' (fst (lru_run max l k os)) /\ length (fst (lru_run max l k os)) <= max.
Proof.
  intros HM. induction os as [|o os IH]; intros m l k R L; [exists m; auto|]. cbn [cm_run lru_run].
  assert (S1 : exists m1, cm_step max (m, k) o = Ok (m1, lru_made l k o) /\ cm_repr m1 (lru_step max l k o)).
  { destruct o as [a|a|]; cbn [cm_step].
    - destruct (cm_fetch_repr max m l a k R ltac:(lia)) as (m' & c & ex & ev & E & R' & F & X). rewrite E. cbn [bind]. exists m'. split; [|exact R'].
      cbn [lru_made]. destruct ex; destruct X as [X _]; rewrite X; reflexivity.
    - eexists. split; [reflexivity | apply cm_remove_repr, R].
    - eexists. split; [reflexivity|]. constructor; cbn; auto; constructor. }
  destruct S1 as (m1 & -> & R1). cbn [bind]. apply IH; [exact R1 | apply lru_len; assumption].
Qed.

Lemma cm_repr_0 : cm_repr newClientMap [].
Proof. constructor; cbn; auto; constructor. Qed.

Lemma slice_repr m l : cm_repr m l -> cm_slice m = map (fun e => Some (snd e)) l.
Proof.
  intros [R1 R2 R3 R4 R5]. unfold cm_slice. rewrite R1, map_map. 
  assert (G : forall l', (forall e, In e l' -> lru_find (fst e) l = Some (snd e)) -> map (fun x => cm_get (fst x) (cm_entries m)) l' = map (fun e => Some (snd e)) l').
  { induction l' as [|e l' IH]; intros H; cbn; [reflexivity|]. rewrite R3, (H e) by (left; reflexivity). f_equal. apply IH. intros x Hx. apply H. right. exact Hx. }
  apply G. clear - R2. induction l as [|[b c] l IH]; intros e He; [destruct He|]. cbn [map fst] in R2. inversion R2 as [|? ? N1 N2]; subst.
  cbn [lru_find]. destruct He as [<- |He]; [cbn; rewrite bytes_eqb_refl; reflexivity|].
  destruct (bytes_eqb_spec (fst e) b) as [E|E]; [|apply IH; assumption]. exfalso. apply N1. rewrite <- E. apply in_map. exact He.
Qed.

(** For every limit of at least 1 and every history of accepts, removals and releases: the pool is the
    most-recently-used-first list of the specification, with at most [max] connections and one per address, and its
    listing shows exactly those clients in that order. *)
Theorem C36_pool : forall max os, 0 < max ->
  exists m, cm_run max (newClientMap, 0) os = Ok (m, snd (lru_run max [] 0 os)) /\
    cm_slice m = map (fun e => Some (snd e)) (fst (lru_run max [] 0 os)) /\
    cm_order m = map fst (fst (lru_run max [] 0 os)) /\
    NoDup (cm_order m) /\ length (cm_slice m) <= max.
Proof.
  intros max os HM. destruct (cm_run_repr max os HM newClientMap [] 0 cm_repr_0 ltac:(cbn; lia)) as (m & E & R & L).
  exists m. split; [exact E|]. rewrite (slice_repr m _ R), map_length. split; [reflexivity|].
  destruct R as [R1 R2 R3 R4 R5]. split; [exact R1|]. split; [rewrite R1; exact R2 | exact L].
Qed.
Print Assumptions C36_pool.

(** What a lookup does: a pooled address yields its client, unchanged; otherwise a new client is pooled, and exactly
    when the pool is full the client least recently looked up is evicted. *)
Theorem C36_get : forall max os m k a, 0 < max -> cm_run max (newClientMap, 0) os = Ok (m, k) ->
  let l := fst (lru_run max [] 0 os) in
  exists m' c ex ev, cm_fetch max m a k = Ok (m', c, ex, ev) /\
    if ex then lru_find a l = Some c /\ ev = None
    else lru_find a l = None /\ c = k /\
         if length (cm_slice m) =? max then exists v, l = removelast l ++ [v] /\ ev = Some (snd v) else ev = None.
Proof.
  intros max os m k a HM E l. destruct (cm_run_repr max os HM newClientMap [] 0 cm_repr_0 ltac:(cbn; lia)) as (m0 & E0 & R & L).
  rewrite E in E0. assert (m0 = m) as -> by congruence.
  destruct (cm_fetch_repr max m l a k R ltac:(lia)) as (m' & c & ex & ev & F & _ & _ & X). exists m', c, ex, ev. split; [exact F|].
  rewrite (slice_repr m _ R), map_length. exact X.
Qed.
Print Assumptions C36_get.

Definition addr_of (n : N) : bytes := [n2b n].
Example C36_nonvacuous : exists m, cm_run 2 (newClientMap, 0) (map CGet [addr_of 1; addr_of 2; addr_of 1; addr_of 3]) = Ok (m, 3) /\
  cm_slice m = [Some 2; Some 0] /\ cm_order m = [addr_of 3; addr_of 1].
Proof. eexists. split; [reflexivity|]. split; reflexivity. Qed.

(** A limit of 0 (which WithNodeMaxInboundConnections accepts) makes the first connection panic. *)
Theorem C36_limit_zero : forall a, cm_run 0 (newClientMap, 0) [CGet a] = Panic.
Proof. reflexivity. Qed.

(** ** C37 *)

Definition C37_statement : Prop := forall l os p, 0 < maxInboundConnections l -> 0 < maxOutboundConnections l ->
  pool_run l newPools os = Ok p -> length (Outbound p) <= maxOutboundConnections l.

(** Refuted: the outbound pool is limited by the inbound limit. *)
Theorem C37_refuted : ~ C37_statement.
Proof.
  intros H. specialize (H (mkLimits 2 1) [Dial (addr_of 1); Dial (addr_of 2)] (mkPools newClientMap (mkCM [addr_of 2; addr_of 1] [(addr_of 2, 1); (addr_of 1, 0)]) 2)
    ltac:(cbn; lia) ltac:(cbn; lia) eq_refl). cbn in H. lia.
Qed.
Print Assumptions C37_refuted.

(** Both pools obey the inbound limit, in every history; so the bound holds when it is not above the outbound one. *)
Theorem C37_partial : forall l os, 0 < maxInboundConnections l ->
  exists p, pool_run l newPools os = Ok p /\ length (Inbound p) <= maxInboundConnections l /\
    length (Outbound p) <= maxInboundConnections l.
Proof.
  intros l os HM.
  assert (G : forall os p li lo, cm_repr (p_in p) li -> cm_repr (p_out p) lo -> length li <= maxInboundConnections l -> length lo <= maxInboundConnections l ->
     exists p', pool_run l p os = Ok p' /\ length (Inbound p') <= maxInboundConnections l /\ length (Outbound p') <= maxInboundConnections l).
  { clear os. induction os as [|o os IH]; intros p li lo Ri Ro Li Lo.
    - exists p. unfold Inbound, Outbound. rewrite (slice_repr _ _ Ri), (slice_repr _ _ Ro), !map_length. auto.
    - cbn [pool_run]. destruct o as [a|a|a|a]; cbn [pool_step cm_step].
      + destruct (cm_fetch_repr (maxInboundConnections l) _ _ a (p_made p) Ri ltac:(lia)) as (m' & c & ex & ev & E & R' & _). rewrite E. cbn [bind].
        eapply IH; [exact R' | exact Ro | apply lru_len; assumption | exact Lo].
      + destruct (cm_fetch_repr (maxInboundConnections l) _ _ a (p_made p) Ro ltac:(lia)) as (m' & c & ex & ev & E & R' & _). rewrite E. cbn [bind].
        eapply IH; [exact Ri | exact R' | exact Li | apply lru_len; assumption].
      + eapply IH; [apply (cm_remove_repr _ _ a Ri) | exact Ro | apply (lru_len _ _ 0 (CRemove a)); assumption | exact Lo].
      + eapply IH; [exact Ri | apply (cm_remove_repr _ _ a Ro) | exact Li | apply (lru_len _ _ 0 (CRemove a)); assumption]. }
  apply (G os newPools [] []); cbn; try apply cm_repr_0; lia.
Qed.
Print Assumptions C37_partial.

Example C37_nonvacuous : exists p, pool_run (mkLimits 1 5) newPools [Dial (addr_of 1); Accept (addr_of 1); Dial (addr_of 2)] = Ok p /\
  Outbound p = [Some 2] /\ Inbound p = [Some 1].
Proof. eexists. split; [reflexivity|]. split; reflexivity. Qed.
