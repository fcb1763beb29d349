(** * C114: what the benchmark programs print. *)
From Verif Require Import Base M_Table M_Bench.
Local Open Scope nat_scope.

(** [s] is a state that the program can be in. *)
Definition reached (rpc : bool) (n w : nat) (s : bench) : Prop := exists sched, brun rpc n w (be_start n) sched = Some s.
(** The sums of the two columns printed so far. *)
Definition sent_col (out : list (N * N)) : N := fold_right N.add 0%N (map fst out).
Definition recv_col (out : list (N * N)) : N := fold_right N.add 0%N (map snd out).

(** Over all lines printed, no more responses are reported than requests. *)
Definition C114_statement : Prop := forall n w s, 0 < n -> 0 < w -> reached true n w s -> (recv_col (be_out s) <= sent_col (be_out s))%N.

(** ** Counting *)
Fixpoint cnt {A} (p : A -> bool) (l : list A) : nat := match l with [] => 0 | x :: r => Nat.b2n (p x) + cnt p r end.
Lemma cnt_app {A} (p : A -> bool) : forall a b, cnt p (a ++ b) = cnt p a + cnt p b.
Proof. induction a as [|x a IH]; intros b; cbn; [reflexivity|]. rewrite IH. lia. Qed.
Lemma cnt_set {A} (p : A -> bool) : forall l i x y, nth_error l i = Some x -> cnt p (set_nth i y l) + Nat.b2n (p x) = cnt p l + Nat.b2n (p y).
Proof. induction l as [|a l IH]; intros [|i] x y H; cbn in *; try discriminate; [injection H as ->; lia | pose proof (IH i x y H); lia]. Qed.
Lemma cnt_pick {A} (p : A -> bool) : forall l j x r, pick j l = Some (x, r) -> cnt p l = cnt p r + Nat.b2n (p x).
Proof.
  induction l as [|a l IH]; intros [|j] x r H; cbn in *; try discriminate.
  - injection H as -> ->. lia.
  - destruct (pick j l) as [[y r']|] eqn:E; [|discriminate]. injection H as -> <-. cbn. rewrite (IH j x r' E). lia.
Qed.
Lemma len_pick {A} : forall (l : list A) j x r, pick j l = Some (x, r) -> length l = S (length r).
Proof.
  induction l as [|a l IH]; intros [|j] x r H; cbn in *; try discriminate.
  - injection H as -> ->. reflexivity.
  - destruct (pick j l) as [[y r']|] eqn:E; [|discriminate]. injection H as -> <-. cbn. rewrite (IH j x r' E). reflexivity.
Qed.
Lemma len_set {A} (y : A) : forall l i, length (set_nth i y l) = length l.
Proof. induction l as [|a l IH]; intros [|i]; cbn; auto. Qed.
Lemma cnt_repeat {A} (p : A -> bool) x : forall k, cnt p (repeat x k) = if p x then k else 0.
Proof. induction k as [|k IH]; cbn; [destruct (p x); reflexivity|]. rewrite IH. destruct (p x); reflexivity. Qed.
Lemma cnt_in {A} (p : A -> bool) : forall l, 0 < cnt p l -> exists i x, nth_error l i = Some x /\ p x = true.
Proof.
  induction l as [|a l IH]; cbn; intros H; [lia|]. destruct (p a) eqn:P.
  - exists 0, a. auto.
  - cbn in H. destruct (IH H) as (i & x & Q). exists (S i), x. exact Q.
Qed.
Lemma nth_set {A} (y : A) : forall l i k, nth_error (set_nth i y l) k = if (k =? i) && (i <? length l) then Some y else nth_error l k.
Proof.
  induction l as [|a l IH]; intros i k.
  - destruct i, k; cbn; rewrite ?andb_false_r; reflexivity.
  - destruct i as [|i], k as [|k]; cbn; try reflexivity. rewrite IH. reflexivity.
Qed.

Definition is_start g := match g with GStart => true | _ => false end.
Definition is_wait g := match g with GWait => true | _ => false end.
Definition is_add g := match g with GAdd => true | _ => false end.
Definition is_done g := match g with GDone => true | _ => false end.
Definition is_send h := match h with HSend _ => true | HAdd => false end.
Definition for_go k h := match h with HSend i => Nat.eqb k i | HAdd => false end.
Lemma cnt_kinds : forall l, cnt is_start l + cnt is_wait l + cnt is_add l + cnt is_done l = length l.
Proof. induction l as [|[] l IH]; cbn; lia. Qed.
Lemma done_all : forall l, all_done l = true -> cnt is_done l = length l.
Proof. induction l as [|[] l IH]; cbn; intros H; try discriminate; [reflexivity|]. rewrite (IH H). reflexivity. Qed.
Lemma all_done_done : forall l, cnt is_done l = length l -> all_done l = true.
Proof. induction l as [|a l IH]; cbn; intros H; [reflexivity|]. pose proof (cnt_kinds l). destruct a; cbn in *; try lia. apply IH. lia. Qed.

(** ** The invariant *)
Definition waits (l : list bgo) (k : nat) : nat := match nth_error l k with Some GWait => 1 | _ => 0 end.
Definition col (x : option N) : N := match x with Some v => v | None => 0%N end.
Record binv (rpc : bool) (n w : nat) (s : bench) : Prop := mkBI {
  bi_len : length (be_round s) = n;
  bi_adds : be_adds s = n * be_rounds s + cnt is_done (be_round s);
  bi_made : n * be_rounds s + cnt is_wait (be_round s) + cnt is_add (be_round s) + cnt is_done (be_round s)
            = length (be_net s) + length (be_handlers s) + be_radds s;
  bi_hd : length (be_handlers s) <= w;
  bi_wait : rpc = true -> cnt is_wait (be_round s) = length (be_net s) + cnt is_send (be_handlers s) + length (be_back s);
  bi_send : rpc = false -> cnt is_wait (be_round s) = 0 /\ cnt is_send (be_handlers s) = 0 /\ be_back s = [];
  bi_own : rpc = true -> forall k, cnt (Nat.eqb k) (be_net s) + cnt (for_go k) (be_handlers s) + cnt (Nat.eqb k) (be_back s) = waits (be_round s) k;
  bi_sent : wrap (sent_col (be_out s) + col (be_tick s) + be_sent s) = wrap (N.of_nat (be_adds s));
  bi_recv : wrap (recv_col (be_out s) + be_recv s) = wrap (N.of_nat (be_radds s))
}.

Lemma wrap_add : forall a b, wrap (a + wrap b) = wrap (a + b).
Proof. intros. unfold wrap. rewrite N.add_mod_idemp_r; [reflexivity|discriminate]. Qed.
Lemma wrap_l : forall a b, wrap (wrap a + b) = wrap (a + b).
Proof. intros. unfold wrap. rewrite N.add_mod_idemp_l; [reflexivity|discriminate]. Qed.
Lemma wrap_next : forall a b k, wrap (a + b) = wrap (N.of_nat k) -> wrap (a + wrap (b + 1)) = wrap (N.of_nat (S k)).
Proof.
  intros a b k H. rewrite wrap_add, N.add_assoc, <- wrap_l, H, wrap_l. f_equal. lia.
Qed.
Lemma cols_snoc : forall out a b, sent_col (out ++ [(a, b)]) = (sent_col out + a)%N /\ recv_col (out ++ [(a, b)]) = (recv_col out + b)%N.
Proof.
  unfold sent_col, recv_col. induction out as [|[c d] out IH]; intros a b; cbn; [split; lia|]. destruct (IH a b) as [P Q].
  rewrite P, Q. split; lia.
Qed.
Lemma waits_set : forall l i g x k, nth_error l i = Some x -> waits (set_nth i g l) k = if k =? i then Nat.b2n (is_wait g) else waits l k.
Proof.
  intros l i g x k H. unfold waits. rewrite nth_set. assert (i <? length l = true) as -> by (apply Nat.ltb_lt, nth_error_Some; congruence).
  destruct (k =? i); cbn; [destruct g; reflexivity|reflexivity].
Qed.
Lemma waits_at : forall l i g, nth_error l i = Some g -> waits l i = Nat.b2n (is_wait g).
Proof. intros l i g H. unfold waits. rewrite H. destruct g; reflexivity. Qed.
Lemma waits_none : forall l, cnt is_wait l = 0 -> forall k, waits l k = 0.
Proof.
  unfold waits. induction l as [|a l IH]; intros H [|k]; cbn in *; try reflexivity.
  - destruct a; cbn in H; try reflexivity. discriminate.
  - apply IH. lia.
Qed.

Lemma start_binv : forall rpc n w, binv rpc n w (be_start n).
Proof.
  intros rpc n w. constructor; cbn; rewrite ?cnt_repeat; cbn; try reflexivity; try lia.
  - apply repeat_length.
  - auto.
  - intros _ k. symmetry. apply waits_none. rewrite cnt_repeat. reflexivity.
Qed.

Lemma step_binv : forall rpc n w s a s', binv rpc n w s -> bstep rpc n w s a = Some s' -> binv rpc n w s'.
Proof.
  intros rpc n w s a s' I H. destruct I as [IL IA IM IH IW IS IO IX IR]. destruct a as [i|j|j|j|j|i| | |]; cbn -[Nat.ltb] in H.
  - destruct (nth_error (be_round s) i) as [[]|] eqn:E; try discriminate. injection H as <-.
    pose proof (cnt_set is_wait _ _ _ (if rpc then GWait else GAdd) E). pose proof (cnt_set is_add _ _ _ (if rpc then GWait else GAdd) E).
    pose proof (cnt_set is_done _ _ _ (if rpc then GWait else GAdd) E).
    constructor; cbn; rewrite ?len_set, ?app_length; cbn; auto.
    + destruct rpc; cbn in *; lia.
    + destruct rpc; cbn in *; lia.
    + intros ->. specialize (IW eq_refl). cbn in *. lia.
    + intros ->. specialize (IS eq_refl). cbn in *. repeat split; try apply IS. lia.
    + intros -> k. specialize (IO eq_refl k). rewrite cnt_app. rewrite (waits_set _ _ _ _ _ E). cbn. pose proof (waits_at _ _ _ E) as Q.
      destruct (Nat.eqb_spec k i) as [->|N]; cbn in *; lia.
  - destruct (pick j (be_net s)) as [[i net]|] eqn:E; [|discriminate]. destruct (length (be_handlers s) <? w) eqn:L; [|discriminate]. apply Nat.ltb_lt in L. injection H as <-.
    pose proof (len_pick _ _ _ _ E).
    constructor; cbn; rewrite ?app_length; cbn; auto; try (lazymatch goal with |- _ -> _ => idtac | |- _ => lia end).
    + intros ->. specialize (IW eq_refl). rewrite cnt_app. cbn. lia.
    + intros ->. specialize (IS eq_refl). rewrite cnt_app. cbn. repeat split; try apply IS. lia.
    + intros -> k. specialize (IO eq_refl k). rewrite cnt_app. cbn. rewrite (cnt_pick (Nat.eqb k) _ _ _ _ E) in IO. lia.
  - destruct (nth_error (be_handlers s) j) as [[i|]|] eqn:E; try discriminate. injection H as <-.
    pose proof (cnt_set is_send _ _ _ HAdd E) as C. cbn in C.
    constructor; cbn; rewrite ?len_set, ?app_length; cbn; auto; try (lazymatch goal with |- _ -> _ => idtac | |- _ => lia end).
    + intros ->. specialize (IW eq_refl). lia.
    + intros ->. destruct (IS eq_refl) as (_ & Q & _). exfalso. lia.
    + intros -> k. specialize (IO eq_refl k). rewrite cnt_app. cbn. pose proof (cnt_set (for_go k) _ _ _ HAdd E) as D. cbn in D. lia.
  - destruct (pick j (be_handlers s)) as [[[i|] hs]|] eqn:E; try discriminate. injection H as <-.
    pose proof (len_pick _ _ _ _ E). pose proof (cnt_pick is_send _ _ _ _ E) as C. cbn in C.
    constructor; cbn; auto; try (lazymatch goal with |- _ -> _ => idtac | |- _ => lia end).
    + intros ->. specialize (IW eq_refl). lia.
    + intros ->. specialize (IS eq_refl). repeat split; try apply IS. lia.
    + intros -> k. specialize (IO eq_refl k). pose proof (cnt_pick (for_go k) _ _ _ _ E) as D. cbn in D. lia.
    + apply wrap_next. exact IR.
  - destruct (pick j (be_back s)) as [[i back]|] eqn:E; [|discriminate]. destruct (nth_error (be_round s) i) as [[]|] eqn:F; try discriminate. injection H as <-.
    pose proof (len_pick _ _ _ _ E). pose proof (cnt_set is_wait _ _ _ GAdd F) as A1. pose proof (cnt_set is_add _ _ _ GAdd F) as A2.
    pose proof (cnt_set is_done _ _ _ GAdd F) as A3. cbn in A1, A2, A3.
    constructor; cbn; rewrite ?len_set; auto; try (lazymatch goal with |- _ -> _ => idtac | |- _ => lia end).
    + intros ->. specialize (IW eq_refl). lia.
    + intros ->. specialize (IS eq_refl). destruct IS as (_ & _ & Q). rewrite Q in E. destruct j; discriminate.
    + intros -> k. specialize (IO eq_refl k). pose proof (cnt_pick (Nat.eqb k) _ _ _ _ E) as D. rewrite (waits_set _ _ _ _ _ F). cbn.
      pose proof (waits_at _ _ _ F) as Q. destruct (Nat.eqb_spec k i) as [->|N]; cbn in *; lia.
  - destruct (nth_error (be_round s) i) as [[]|] eqn:E; try discriminate. injection H as <-.
    pose proof (cnt_set is_wait _ _ _ GDone E) as A1. pose proof (cnt_set is_add _ _ _ GDone E) as A2. pose proof (cnt_set is_done _ _ _ GDone E) as A3. cbn in A1, A2, A3.
    constructor; cbn; rewrite ?len_set; auto; try (lazymatch goal with |- _ -> _ => idtac | |- _ => lia end).
    + intros ->. specialize (IW eq_refl). lia.
    + intros ->. specialize (IS eq_refl). repeat split; try apply IS. lia.
    + intros -> k. specialize (IO eq_refl k). rewrite (waits_set _ _ _ _ _ E). pose proof (waits_at _ _ _ E) as Q. destruct (Nat.eqb_spec k i) as [->|N]; cbn in *; lia.
    + apply wrap_next. exact IX.
  - destruct (all_done (be_round s)) eqn:E; [|discriminate]. injection H as <-. pose proof (done_all _ E) as D. pose proof (cnt_kinds (be_round s)) as K.
    constructor; cbn; rewrite ?cnt_repeat; cbn; auto; try (lazymatch goal with |- _ -> _ => idtac | |- _ => lia end).
    + apply repeat_length.
    + intros ->. specialize (IW eq_refl). lia.
    + intros ->. specialize (IS eq_refl). repeat split; try apply IS.
    + intros -> k. specialize (IO eq_refl k). rewrite (waits_none (repeat GStart n)); [|rewrite cnt_repeat; reflexivity].
      rewrite (waits_none (be_round s)) in IO; [exact IO|lia].
  - destruct (be_tick s) eqn:E; [discriminate|]. injection H as <-. constructor; cbn [be_out be_sent be_recv be_tick be_round be_net be_handlers be_back be_adds be_radds be_rounds col]; auto.
    etransitivity; [|exact IX]. apply (f_equal wrap). cbn [col]. lia.
  - destruct (be_tick s) as [x|] eqn:E; [|discriminate]. injection H as <-. destruct (cols_snoc (be_out s) x (be_recv s)) as [P Q].
    constructor; cbn [be_out be_sent be_recv be_tick be_round be_net be_handlers be_back be_adds be_radds be_rounds col]; auto.
    + rewrite P. etransitivity; [|exact IX]. apply (f_equal wrap). cbn [col]. lia.
    + rewrite Q. etransitivity; [|exact IR]. apply (f_equal wrap). lia.
Qed.
Lemma run_binv : forall rpc n w sched s s', binv rpc n w s -> brun rpc n w s sched = Some s' -> binv rpc n w s'.
Proof.
  induction sched as [|a l IH]; intros s s' I H; cbn in H; [injection H as <-; exact I|].
  destruct (bstep rpc n w s a) eqn:E; [|discriminate]. exact (IH _ _ (step_binv _ _ _ _ _ _ I E) H).
Qed.
Lemma reached_binv : forall rpc n w s, reached rpc n w s -> binv rpc n w s.
Proof. intros rpc n w s (l & H). exact (run_binv _ _ _ _ _ _ (start_binv _ _ _) H). Qed.

(** ** Theorems *)
(** What is printed adds up: the sum of a column and what its counter holds (and, for requests, what the printer has taken and not yet printed)
    is the number of additions, modulo 2^32.  At any moment at most a round more handler calls have been counted than requests, and - for requests, which
    wait for the answer - at most as many more requests as there are workers.  [C114_statement] would need the first difference never to be printed. *)
Theorem C114_partial : forall rpc n w s, reached rpc n w s ->
  ((sent_col (be_out s) + col (be_tick s) + be_sent s) mod 2 ^ 32 = N.of_nat (be_adds s) mod 2 ^ 32)%N
  /\ ((recv_col (be_out s) + be_recv s) mod 2 ^ 32 = N.of_nat (be_radds s) mod 2 ^ 32)%N
  /\ be_radds s <= be_adds s + n
  /\ (rpc = true -> be_adds s <= be_radds s + w)
  /\ n * be_rounds s <= be_adds s <= n * be_rounds s + n.
Proof.
  intros rpc n w s R. destruct (reached_binv _ _ _ _ R) as [IL IA IM IH IW IS IO IX IR]. pose proof (cnt_kinds (be_round s)) as K.
  repeat split; auto; try lia.
Qed.

(** Whenever nothing is under way between two rounds, both have been counted exactly once for every goroutine of every round. *)
Theorem C114_settled : forall rpc n w s, reached rpc n w s -> all_done (be_round s) = true -> be_net s = [] -> be_handlers s = [] ->
  be_adds s = n * S (be_rounds s) /\ be_radds s = be_adds s.
Proof.
  intros rpc n w s R D E F. destruct (reached_binv _ _ _ _ R) as [IL IA IM IH IW IS IO IX IR]. pose proof (cnt_kinds (be_round s)) as K.
  pose proof (done_all _ D). rewrite E, F in IM. cbn in IM. lia.
Qed.

(** The rounds never get stuck: with a worker, a goroutine of the round, a handler, an answer or the main loop can always take a step. *)
Theorem C114_moves : forall rpc n w s, 0 < w -> reached rpc n w s -> exists a s', a <> BTick /\ a <> BPrint /\ bstep rpc n w s a = Some s'.
Proof.
  intros rpc n w s W R. destruct (reached_binv _ _ _ _ R) as [IL IA IM IH IW IS IO IX IR]. pose proof (cnt_kinds (be_round s)) as K.
  destruct (Nat.eq_dec (cnt is_start (be_round s)) 0) as [Z1|P].
  2:{ destruct (cnt_in is_start (be_round s)) as (i & g & E & G); [lia|]. destruct g; try discriminate. exists (BGo i). cbn. rewrite E. eexists. repeat split; discriminate. }
  destruct (Nat.eq_dec (cnt is_add (be_round s)) 0) as [Z2|P].
  2:{ destruct (cnt_in is_add (be_round s)) as (i & g & E & G); [lia|]. destruct g; try discriminate. exists (BAdd i). cbn. rewrite E. eexists. repeat split; discriminate. }
  destruct (Nat.eq_dec (cnt is_wait (be_round s)) 0) as [Z3|P].
  1:{ exists BRound. cbn. rewrite all_done_done by lia. eexists. repeat split; discriminate. }
  destruct rpc; [|destruct (IS eq_refl); lia]. specialize (IW eq_refl). specialize (IO eq_refl).
  destruct (be_back s) as [|i back] eqn:B.
  2:{ exists (BBack 0). cbn. rewrite B. cbn. specialize (IO i). cbn in IO. rewrite Nat.eqb_refl in IO. unfold waits in IO.
      destruct (nth_error (be_round s) i) as [[]|]; cbn in IO; try lia. eexists. repeat split; discriminate. }
  destruct (be_handlers s) as [|h hs] eqn:HH.
  2:{ destruct h as [i|].
      - exists (BReply 0). cbn. rewrite HH. cbn. eexists. repeat split; discriminate.
      - exists (BCount 0). cbn. rewrite HH. cbn. eexists. repeat split; discriminate. }
  cbn in IW. destruct (be_net s) as [|i net] eqn:E; [cbn in IW; lia|].
  exists (BHandle 0). cbn. rewrite E, HH. cbn. destruct w as [|w0]; [lia|]. cbn. eexists. repeat split; discriminate.
Qed.

(** Messages that are not answered can run ahead of their handling without bound. *)
Theorem C114_backlog : forall n w k, exists s, reached false n w s /\ be_adds s = k * n /\ be_radds s = 0.
Proof.
  intros n w.
  assert (G : forall m pre (s : bench) k, be_round s = repeat GDone pre ++ repeat GStart m -> k = pre + m ->
     exists l s', brun false n w s l = Some s' /\ be_round s' = repeat GDone k /\ be_adds s' = be_adds s + m /\ be_radds s' = be_radds s).
  { induction m as [|m IH]; intros pre s k E K.
    - exists [], s. rewrite app_nil_r in E. repeat split; auto; try lia. rewrite E. f_equal. lia.
    - assert (P : forall g l, nth_error (repeat GDone pre ++ g :: l) pre = Some g).
      { intros g l. rewrite nth_error_app2; rewrite repeat_length; [|lia]. rewrite Nat.sub_diag. reflexivity. }
      assert (Q : forall x y l, set_nth pre y (repeat GDone pre ++ x :: l) = repeat GDone pre ++ y :: l).
      { intros x y l. clear. induction pre as [|pre IH]; cbn; [reflexivity|]. f_equal. exact IH. }
      assert (exists s2, brun false n w s [BGo pre; BAdd pre] = Some s2 /\ be_round s2 = repeat GDone (S pre) ++ repeat GStart m
              /\ be_adds s2 = S (be_adds s) /\ be_radds s2 = be_radds s) as (s2 & R2 & E2 & A2 & D2).
      { cbn [brun bstep]. rewrite E. cbn [repeat]. rewrite P. cbn [be_round]. rewrite Q, P. rewrite Q. eexists. split; [reflexivity|]. cbn [be_round be_adds be_radds].
        repeat split. cbn [repeat]. change (repeat GDone pre ++ [GDone] ++ repeat GStart m = GDone :: repeat GDone pre ++ repeat GStart m). rewrite app_assoc, <- repeat_cons. reflexivity. }
      destruct (IH (S pre) s2 k E2 ltac:(lia)) as (l & s' & R & E' & A' & D').
      exists (BGo pre :: BAdd pre :: l), s'. split.
      + change (BGo pre :: BAdd pre :: l) with ([BGo pre; BAdd pre] ++ l).
        assert (AP : forall l1 l2 x y, brun false n w x l1 = Some y -> brun false n w x (l1 ++ l2) = brun false n w y l2).
        { clear. induction l1 as [|a l1 IH]; intros l2 x y H; cbn in *; [injection H as ->; reflexivity|]. destruct (bstep false n w x a); [|discriminate]. apply IH, H. }
        rewrite (AP _ _ _ _ R2). exact R.
      + repeat split; auto; lia. }
  assert (AP : forall l1 l2 x y, brun false n w x l1 = Some y -> brun false n w x (l1 ++ l2) = brun false n w y l2).
  { clear. induction l1 as [|a l1 IH]; intros l2 x y H; cbn in *; [injection H as ->; reflexivity|]. destruct (bstep false n w x a); [|discriminate]. apply IH, H. }
  assert (D : forall m, all_done (repeat GDone m) = true) by (induction m; cbn; auto).
  assert (H : forall k, exists s, reached false n w s /\ be_round s = repeat GStart n /\ be_adds s = k * n /\ be_radds s = 0).
  { induction k as [|k (s & (l & R) & E & A & Z)].
    - exists (be_start n). repeat split; try reflexivity. exists []. reflexivity.
    - destruct (G n 0 s n E ltac:(lia)) as (l' & s' & R' & E' & A' & Z').
      assert (exists s'', bstep false n w s' BRound = Some s'' /\ be_round s'' = repeat GStart n /\ be_adds s'' = be_adds s' /\ be_radds s'' = be_radds s')
        as (s'' & B & E'' & A'' & Z'').
      { cbn. rewrite E', D. eexists. split; [reflexivity|]. auto. }
      exists s''. repeat split; auto; try (cbn; lia). exists (l ++ l' ++ [BRound]). rewrite (AP _ _ _ _ R), (AP _ _ _ _ R'). cbn [brun]. rewrite B. reflexivity. }
  intros k. destruct (H k) as (s & R & _ & A & Z). exists s. auto.
Qed.

(** A handler's call is counted before the request that caused it: the printer can come in between. *)
Definition early : list bact := [BGo 0; BHandle 0; BReply 0; BCount 0; BTick; BPrint].
Theorem C114_refuted : ~ C114_statement.
Proof.
  intros H.
  assert (exists s, brun true 1 1 (be_start 1) early = Some s /\ be_out s = [(0, 1)%N]) as (s & R & O) by (eexists; split; vm_compute; reflexivity).
  specialize (H 1 1 s ltac:(lia) ltac:(lia) (ex_intro _ _ R)). rewrite O in H. vm_compute in H. apply H. reflexivity.
Qed.

(** Two goroutines, one worker: a whole round, and a line printed. *)
Example C114_nonvacuous : exists s,
  brun true 2 1 (be_start 2) [BGo 0; BGo 1; BHandle 1; BReply 0; BBack 0; BAdd 1; BTick; BCount 0; BHandle 0; BPrint; BReply 0; BCount 0; BBack 0; BAdd 0] = Some s
  /\ all_done (be_round s) = true /\ be_net s = [] /\ be_handlers s = [] /\ be_out s = [(1, 1)%N] /\ be_adds s = 2 /\ be_radds s = 2.
Proof. eexists. split; [vm_compute; reflexivity|]. repeat split; reflexivity. Qed.

Print Assumptions C114_partial.
Print Assumptions C114_settled.
Print Assumptions C114_moves.
Print Assumptions C114_backlog.
Print Assumptions C114_refuted.
