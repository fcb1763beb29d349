(** * Lines: what M_Chat's input makes of what is typed. *)
From Verif Require Import Base M_Chat.
From Coq Require Import Strings.Byte.
Local Open Scope nat_scope.

(** ** Specification *)

(** A line ends with a line feed, or with the input; one CR before the line feed is not part of it.  Empty lines do not count. *)
Definition drop_cr (l : bytes) : bytes := match rev l with Byte.x0d :: r => rev r | _ => l end.
Fixpoint lines_from (cur s : bytes) : list bytes :=
  match s with
  | [] => [cur]
  | c :: s' => if byte_eqb c Byte.x0a then drop_cr cur :: lines_from [] s' else lines_from (cur ++ [c]) s'
  end.
Definition typed (s : bytes) : list bytes := filter (fun l => negb (length l =? 0)) (lines_from [] s).

(** ** Facts *)

Lemma drop_cr_eq l : drop_cr l = if ends_cr l then removelast l else l.
Proof.
  unfold drop_cr, ends_cr. destruct (rev l) as [|c r] eqn:E; [reflexivity|]. assert (L : l = rev r ++ [c]) by (rewrite <- (rev_involutive l), E; reflexivity).
  assert (R : removelast l = rev r) by (rewrite L; apply removelast_last). rewrite R. clear. destruct c; reflexivity.
Qed.

Lemma ends_cr_snoc l c : ends_cr (l ++ [c]) = byte_eqb c CR.
Proof. unfold ends_cr. rewrite rev_app_distr. reflexivity. Qed.
Lemma ends_cr_app l m : m <> [] -> ends_cr (l ++ m) = ends_cr m.
Proof.
  intros H. destruct (exists_last H) as (m' & c & ->). rewrite app_assoc, !ends_cr_snoc. reflexivity.
Qed.
Lemma drop_cr_app l m : m <> [] -> drop_cr (l ++ m) = l ++ drop_cr m.
Proof. intros H. rewrite !drop_cr_eq. rewrite ends_cr_app by exact H. destruct (ends_cr m); [apply removelast_app; exact H | reflexivity]. Qed.

Lemma not_lf c : c <> LF -> byte_eqb c LF = false.
Proof. intros H. destruct (byte_eqb c LF) eqn:E; [|reflexivity]. apply byte_eqb_eq in E. congruence. Qed.

Lemma lines_run l : ~ In LF l -> forall cur s, lines_from cur (l ++ s) = lines_from (cur ++ l) s.
Proof.
  induction l as [|c l IH]; intros N cur s; [rewrite app_nil_r; reflexivity|]. cbn [app lines_from]. change Byte.x0a with LF.
  rewrite not_lf by (intros ->; apply N; left; reflexivity). rewrite IH by (intros X; apply N; right; exact X). rewrite <- app_assoc. reflexivity.
Qed.
Lemma lines_lf l s : ~ In LF l -> lines_from [] (l ++ LF :: s) = drop_cr l :: lines_from [] s.
Proof. intros N. rewrite lines_run by exact N. cbn [lines_from app]. change Byte.x0a with LF. rewrite byte_eqb_refl. reflexivity. Qed.
Lemma lines_end l : ~ In LF l -> lines_from [] l = [l].
Proof. intros N. rewrite <- (app_nil_r l) at 1. rewrite lines_run by exact N. reflexivity. Qed.

Lemma split_lf s : ~ In LF s \/ exists l r, s = l ++ LF :: r /\ ~ In LF l.
Proof.
  induction s as [|c s IH]; [left; intros []|]. destruct (byte_eqb c LF) eqn:E.
  - apply byte_eqb_eq in E as ->. right. exists [], s. split; [reflexivity | intros []].
  - assert (c <> LF) by (intros ->; rewrite byte_eqb_refl in E; discriminate).
    destruct IH as [IH|(l & r & -> & N)]; [left | right; exists (c :: l), r; split; [reflexivity|]]; intros [X|X]; auto.
Qed.

Lemma find_lf_some n : forall s i, find_lf n s = Some i -> i < n /\ s = firstn i s ++ LF :: skipn (S i) s /\ ~ In LF (firstn i s).
Proof.
  induction n as [|n IH]; intros s i H; [discriminate|]. destruct s as [|c s]; [discriminate|]. cbn [find_lf] in H.
  destruct (byte_eqb c LF) eqn:E.
  - assert (i = 0) as -> by congruence. apply byte_eqb_eq in E as ->. cbn. split; [lia|]. split; [reflexivity | intros []].
  - destruct (find_lf n s) as [j|] eqn:F; [|discriminate]. assert (i = S j) as -> by congruence. destruct (IH s j F) as (L & Q & N).
    split; [lia|]. split.
    + cbn [firstn app]. f_equal. exact Q.
    + cbn [firstn]. intros [X|X]; [subst c; rewrite byte_eqb_refl in E; discriminate | exact (N X)].
Qed.
Lemma find_lf_none n : forall s, find_lf n s = None -> ~ In LF (firstn n s).
Proof.
  induction n as [|n IH]; intros s H; [intros []|]. destruct s as [|c s]; [intros []|]. cbn [find_lf] in H. cbn [firstn].
  destruct (byte_eqb c LF) eqn:E; [discriminate|]. destruct (find_lf n s) eqn:F; [discriminate|].
  intros [X|X]; [subst c; rewrite byte_eqb_refl in E; discriminate | exact (IH s F X)].
Qed.

(** What one call of ReadLine does, in these terms. *)
Lemma ReadLine_cases s :
  (s = [] /\ ReadLine s = None) \/
  (exists l r, s = l ++ LF :: r /\ ~ In LF l /\ length l < bufio_size /\ ReadLine s = Some (drop_cr l, r)) \/
  (~ In LF s /\ s <> [] /\ length s < bufio_size /\ ReadLine s = Some (s, [])) \/
  (exists l r, s = l ++ r /\ ~ In LF l /\ bufio_size - 1 <= length l <= bufio_size /\
     (length l = bufio_size /\ ends_cr l = false \/ length l = bufio_size - 1 /\ exists r', r = CR :: r') /\
     bufio_size <= length s /\ ReadLine s = Some (l, r)).
Proof.
  unfold ReadLine. destruct (find_lf bufio_size s) as [i|] eqn:F.
  - apply find_lf_some in F as (L & Q & N). right. left. exists (firstn i s), (skipn (S i) s).
    split; [exact Q|]. split; [exact N|]. split; [rewrite firstn_length; lia | rewrite drop_cr_eq; reflexivity].
  - apply find_lf_none in F. destruct (Nat.leb_spec bufio_size (length s)) as [L|L].
    + right. right. right. assert (LL : length (firstn bufio_size s) = bufio_size) by (rewrite firstn_length; lia).
      destruct (ends_cr (firstn bufio_size s)) eqn:E.
      * exists (firstn (bufio_size - 1) s), (skipn (bufio_size - 1) s). split; [symmetry; apply firstn_skipn|].
        assert (NE : firstn bufio_size s <> []) by (intros X; rewrite X in LL; discriminate).
        assert (SP : firstn bufio_size s = firstn (bufio_size - 1) s ++ firstn 1 (skipn (bufio_size - 1) s)).
        { change bufio_size with (bufio_size - 1 + 1) at 1. generalize (bufio_size - 1). intros k. clear. revert s.
          induction k as [|k IH]; intros s; [reflexivity|]. destruct s as [|c s]; [reflexivity|]. cbn [plus firstn skipn app]. f_equal. apply IH. }
        split; [intros X; apply F; rewrite SP; apply in_or_app; left; exact X|].
        split; [rewrite firstn_length; lia|]. split; [|split; [exact L | reflexivity]]. right. split; [rewrite firstn_length; lia|].
        assert (LS : 1 <= length (skipn (bufio_size - 1) s)) by (rewrite skipn_length; unfold bufio_size in *; lia).
        rewrite SP in E. destruct (skipn (bufio_size - 1) s) as [|c r] eqn:SK; [cbn in LS; lia|]. cbn [firstn] in E. rewrite ends_cr_snoc in E.
        apply byte_eqb_eq in E as ->. eauto.
      * exists (firstn bufio_size s), (skipn bufio_size s). split; [symmetry; apply firstn_skipn|]. split; [exact F|]. split; [lia|]. auto.
    + rewrite firstn_all2 in F by lia. destruct s as [|c s]; [left; auto|]. right. right. left. split; [exact F|]. split; [discriminate|]. auto.
Qed.

Lemma bufio_pos : 1 < bufio_size.
Proof. unfold bufio_size. lia. Qed.

(** Enough fuel. *)
Lemma input_step s : input s = match ReadLine s with
  | None => []
  | Some (l, r) => match l with [] => input r | _ => l :: input r end
  end.
Proof.
  assert (G : forall f s, length s < f -> input_loop f s = input s).
  { induction f as [f IH] using lt_wf_ind. intros s0 H. unfold input. destruct f as [|f]; [lia|]. cbn [input_loop].
    assert (P : forall l r, ReadLine s0 = Some (l, r) -> length r < length s0).
    { intros l r E. destruct (ReadLine_cases s0) as [[-> Q]|[(l' & r' & -> & _ & _ & Q)|[(_ & NE & _ & Q)|(l' & r' & -> & _ & LL & _ & _ & Q)]]]; rewrite Q in E.
      - discriminate.
      - assert (r' = r) as -> by congruence. rewrite app_length. cbn. lia.
      - assert (r = []) as -> by congruence. destruct s0; [congruence | cbn; lia].
      - assert (r' = r) as -> by congruence. pose proof bufio_pos. rewrite app_length. lia. }
    destruct (ReadLine s0) as [[l r]|] eqn:E; [|reflexivity]. specialize (P l r eq_refl).
    assert (Q : input_loop f r = input_loop (length s0) r).
    { rewrite (IH f) by lia. destruct (Nat.eq_dec (length s0) f) as [<-|X]; [symmetry; apply IH; lia|]. symmetry. apply IH; lia. }
    rewrite Q. reflexivity. }
  unfold input at 1. cbn [input_loop].
  destruct (ReadLine_cases s) as [[-> Q]|[(l' & r' & -> & _ & _ & Q)|[(_ & NE & _ & Q)|(l' & r' & -> & _ & LL & _ & _ & Q)]]]; rewrite Q.
  - reflexivity.
  - rewrite G by (rewrite app_length; cbn; lia). reflexivity.
  - rewrite G by (destruct s; [congruence | cbn; lia]). reflexivity.
  - pose proof bufio_pos. rewrite G by (rewrite app_length; lia). reflexivity.
Qed.

Lemma typed_cons l s : (typed (l ++ LF :: s) = match drop_cr l with [] => typed s | _ => drop_cr l :: typed s end) \/ In LF l.
Proof.
  destruct (in_dec byte_eq_dec LF l) as [I|N]; [right; exact I | left]. unfold typed. rewrite lines_lf by exact N. cbn [filter].
  destruct (drop_cr l); reflexivity.
Qed.

(** Short lines are read one by one. *)
Lemma input_typed s : (forall a l b, s = a ++ l ++ b -> ~ In LF l -> length l < bufio_size) -> input s = typed s.
Proof.
  remember (length s) as n eqn:Hn. revert s Hn. induction n as [n IH] using lt_wf_ind. intros s Hn H. rewrite input_step.
  destruct (ReadLine_cases s) as [[-> Q]|[(l' & r' & -> & N & _ & Q)|[(N & NE & _ & Q)|(l' & r' & E & N & LL & CC & LB & Q)]]]; rewrite Q.
  - reflexivity.
  - rewrite (IH (length r')) with (s := r'); [|rewrite Hn, app_length; cbn; lia | reflexivity |].
    + destruct (typed_cons l' r') as [T|I]; [rewrite T; destruct (drop_cr l'); reflexivity | contradiction].
    + intros a l b E. apply (H (l' ++ LF :: a) l b). rewrite E, <- app_assoc. reflexivity.
  - unfold typed. rewrite lines_end by exact N. destruct s; [congruence | reflexivity].
  - exfalso. destruct CC as [[X CC]|(X & r'' & ->)].
    + specialize (H [] l' r' E N). lia.
    + specialize (H [] (l' ++ [CR]) r''). rewrite app_length in H. cbn [length] in H. assert (length l' + 1 < bufio_size); [|lia]. apply H.
      * cbn [app]. rewrite <- app_assoc. exact E.
      * intros I. apply in_app_or in I as [I|[I|[]]]; [exact (N I) | discriminate].
Qed.

(** Nothing that is typed is lost or moved: the pieces make up the lines. *)
Lemma lines_join l r : ~ In LF l -> (ends_cr l = false \/ exists r', r = CR :: r') -> concat (lines_from [] (l ++ r)) = l ++ concat (lines_from [] r).
Proof.
  intros N C. destruct (split_lf r) as [NR|(m & r' & E & NM)].
  - rewrite !lines_end; [cbn; rewrite !app_nil_r; reflexivity | exact NR | intros I; apply in_app_or in I as [I|I]; auto].
  - rewrite E. rewrite app_assoc, !lines_lf by (try exact NM; intros I; apply in_app_or in I as [I|I]; auto).
    cbn [concat]. rewrite app_assoc. f_equal. destruct m as [|c m].
    + rewrite app_nil_r. destruct C as [C|(r'' & C)]; [|rewrite E in C; discriminate]. rewrite drop_cr_eq, C. cbn. rewrite app_nil_r. reflexivity.
    + apply drop_cr_app. discriminate.
Qed.

Lemma concat_nonempty (ls : list bytes) : concat (filter (fun l => negb (length l =? 0)) ls) = concat ls.
Proof. induction ls as [|l ls IH]; [reflexivity|]. cbn [filter concat]. destruct l; cbn [length Nat.eqb negb concat]; rewrite IH; reflexivity. Qed.

Lemma input_concat s : concat (input s) = concat (typed s).
Proof.
  unfold typed. rewrite concat_nonempty. remember (length s) as n eqn:Hn. revert s Hn. induction n as [n IH] using lt_wf_ind. intros s Hn. rewrite input_step.
  assert (G : forall l r, concat (match l with [] => input r | _ => l :: input r end) = l ++ concat (input r)) by (intros [|c l] r; reflexivity).
  destruct (ReadLine_cases s) as [[-> Q]|[(l' & r' & -> & N & _ & Q)|[(N & NE & _ & Q)|(l' & r' & E & N & LL & CC & LB & Q)]]]; rewrite Q, ?G.
  - reflexivity.
  - rewrite lines_lf by exact N. cbn [concat]. f_equal. apply (IH (length r')); [rewrite Hn, app_length; cbn; lia | reflexivity].
  - rewrite lines_end by exact N. reflexivity.
  - rewrite E, lines_join by (try exact N; destruct CC as [[_ CC]|[_ CC]]; auto). f_equal. apply (IH (length r')); [|reflexivity]. pose proof bufio_pos. rewrite Hn, E, app_length. lia.
Qed.

Lemma input_pieces s : Forall (fun l => l <> [] /\ length l <= bufio_size) (input s).
Proof.
  remember (length s) as n eqn:Hn. revert s Hn. induction n as [n IH] using lt_wf_ind. intros s Hn. rewrite input_step.
  assert (DL : forall l, length (drop_cr l) <= length l).
  { intros l. rewrite drop_cr_eq. destruct (ends_cr l) eqn:E; [|lia]. destruct l as [|c l]; [discriminate|].
    rewrite (app_removelast_last c (l := c :: l)) at 2 by discriminate. rewrite app_length. lia. }
  destruct (ReadLine_cases s) as [[-> Q]|[(l' & r' & -> & N & L & Q)|[(N & NE & L & Q)|(l' & r' & E & N & LL & CC & LB & Q)]]]; rewrite Q.
  - constructor.
  - assert (IR : Forall (fun l => l <> [] /\ length l <= bufio_size) (input r')) by (apply (IH (length r')); [rewrite Hn, app_length; cbn; lia | reflexivity]).
    specialize (DL l'). destruct (drop_cr l') as [|c l]; [exact IR|]. constructor; [split; [discriminate | lia] | exact IR].
  - destruct s as [|c s]; [congruence|]. constructor; [split; [discriminate | lia] | constructor].
  - pose proof bufio_pos. assert (IR : Forall (fun l => l <> [] /\ length l <= bufio_size) (input r')).
    { apply (IH (length r')); [|reflexivity]. rewrite Hn, E, app_length. lia. }
    destruct l' as [|c l']; [exact IR|]. constructor; [split; [discriminate | lia] | exact IR].
Qed.
