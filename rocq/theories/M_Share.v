(** * One Iterator used for several Finds: what they share.

    kademlia/iterator.go:12-28: the fields visited, results and buckets belong to the Iterator; queue, results (of a lookup), pending and the
    wait groups are local to the goroutines of one Find.  The goroutines' steps are those of M_Iter. *)
From Verif Require Import Base M_ID M_Table M_Iter.
Local Open Scope nat_scope.

(** One call of Find: its goroutines (their [l_bucket] is not used, it.buckets is), the channel its loop ranges over once that is
    evaluated (iterator.go:61), whether iterate has closed a channel (105), whether the loop has ended.  [sc_table] and [sc_target] are what
    it was called with; [sc_asked] and [sc_answered] record its requests and answers as in M_Iter. *)
Record scall := mkCall {
  sc_table : table; sc_target : pubkey;
  sc_chan : option nat;
  sc_lookups : list lookup;
  sc_found : list ID;
  sc_over : bool;
  sc_done : bool;
  sc_asked : list (ID * pubkey);
  sc_answered : list (ID * list ID)
}.
(** it.visited, it.buckets, it.results (the number of a channel), the channels made so far with their buffers and whether they are closed,
    the calls so far.  kademlia/iterator.go:13-29. *)
Record share := mkS {
  sh_visited : list pubkey;
  sh_buckets : list (list ID);
  sh_cur : nat;
  sh_chans : list (list ID * bool);
  sh_calls : list scall
}.
(** iterator.go:33-51: a new Iterator; it.results is nil. *)
Definition new_share : share := mkS [] [] 0 [] [].

Inductive sact :=
| SFind (t : table) (target : pubkey)   (* Find is called: init (74-88), go iterate (59) *)
| SRange (c : nat)                      (* iterator.go:61: it.results is evaluated *)
| SMove (c : nat) (a : iaction).        (* a goroutine of call [c] *)

(** What a step leads to: blocked, a panic (a channel closed twice, kademlia/iterator.go:105, or used after that, 177), the next state. *)
Inductive sres := Blocked | Crashed | Next (s : share).

(** The lookups with it.buckets (kademlia/iterator.go:22) put in. *)
Fixpoint with_buckets (ls : list lookup) (bs : list (list ID)) : list lookup :=
  match ls, bs with
  | l :: ls', b :: bs' => mkL (l_pc l) b (l_queue l) (l_outq l) (l_pending l) (l_workers l) :: with_buckets ls' bs'
  | _, _ => ls
  end.

(** What the goroutines of a call work on, with [ch] as the channel: M_Iter's state.  kademlia/iterator.go:13-29, 55-72. *)
Definition view (s : share) (q : scall) (ch : list ID * bool) : istate :=
  mkI (sh_visited s) (with_buckets (sc_lookups q) (sh_buckets s)) (fst ch) (snd ch) (sc_found q) (sc_done q) (sc_asked q) (sc_answered q).
(** And back.  kademlia/iterator.go:13-29, 55-72. *)
Definition store (s : share) (c : nat) (q : scall) (i : nat) (over : bool) (v : istate) : share :=
  mkS (i_visited v) (map l_bucket (i_lookups v)) (sh_cur s) (set_nth i (i_results v, i_closed v) (sh_chans s))
      (set_nth c (mkCall (sc_table q) (sc_target q) (sc_chan q) (i_lookups v) (i_found v) over (i_done v) (i_asked v) (i_answered v)) (sh_calls s)).

(** [n] lookups of [k] requests each; the node's own key is that of its table.  Sending on a closed channel and closing one twice panic. *)
Definition sstep (n k : Z) (s : share) (a : sact) : sres :=
  match a with
  | SFind t target =>
      match (let! peers := Peers t in iter_init (id_key (t_self t)) target peers n k) with
      | Ok v => Next (mkS (i_visited v) (map l_bucket (i_lookups v)) (length (sh_chans s)) (sh_chans s ++ [([], false)])
                          (sh_calls s ++ [mkCall t target None (i_lookups v) [] false false [] []]))
      | _ => Crashed
      end
  | SRange c =>
      match nth_error (sh_calls s) c with
      | Some (mkCall t target None ls f o d asked answered) =>
          Next (mkS (sh_visited s) (sh_buckets s) (sh_cur s) (sh_chans s) (set_nth c (mkCall t target (Some (sh_cur s)) ls f o d asked answered) (sh_calls s)))
      | _ => Blocked
      end
  | SMove c a =>
      match nth_error (sh_calls s) c with
      | None => Blocked
      | Some q =>
          (* 61 uses the channel evaluated there; 105 and 177 use the field it.results *)
          match (match a with ACollect | AFindEnd => sc_chan q | _ => Some (sh_cur s) end) with
          | None => Blocked
          | Some i =>
              match nth_error (sh_chans s) i with
              | None => Blocked
              | Some ch =>
                  match a with
                  | APub _ _ =>
                      if snd ch then match istep (Z.to_nat k) (view s q ([], snd ch)) a with Some _ => Crashed | None => Blocked end
                      else match istep (Z.to_nat k) (view s q ch) a with Some v => Next (store s c q i (sc_over q) v) | None => Blocked end
                  | ACloseResults =>
                      match istep (Z.to_nat k) (view s q (fst ch, sc_over q)) a with
                      | Some v => if snd ch then Crashed else Next (store s c q i true v)
                      | None => Blocked
                      end
                  | _ => match istep (Z.to_nat k) (view s q ch) a with Some v => Next (store s c q i (sc_over q) v) | None => Blocked end
                  end
              end
          end
      end
  end.
(** Several steps, in order (kademlia/iterator.go:55-180). *)
Fixpoint srun (n k : Z) (s : share) (l : list sact) : sres :=
  match l with [] => Next s | a :: r => match sstep n k s a with Next s1 => srun n k s1 r | x => x end end.
