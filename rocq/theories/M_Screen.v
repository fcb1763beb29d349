(** * What the chat program prints of its own accord (cmd/chat/main.go:69-76, 160-210): its ID, peers that come and go, lists of peers, addresses that cannot be reached. *)
From Verif Require Import Base M_Addr M_ID M_Msg M_Codec M_Table M_Kad M_Chat.
From Coq Require Import Strings.Byte.
From Coq Require Strings.String.
Import (notations) Coq.Strings.String.
Local Open Scope nat_scope.

(** cmd/chat/main.go:70-72 OnPeerAdmitted. *)
Definition learned (id : ID) : bytes := str "Learned about a new peer "%string ++ printed_id id ++ str "."%string ++ [LF].
(** cmd/chat/main.go:73-75 OnPeerEvicted. *)
Definition forgotten (id : ID) : bytes := str "Forgotten a peer "%string ++ printed_id id ++ str "."%string ++ [LF].
(** cmd/chat/main.go:161-167 help. *)
Definition help_line (id : ID) : bytes :=
  str "Your ID is "%string ++ printed_id id ++ str ". Type '/discover' to attempt to discover new peers, or '/peers' to list out all peers you are connected to."%string ++ [LF].
(** strings.Join(_, ", "), cmd/chat/main.go:194, 209. *)
Fixpoint join_comma (l : list bytes) : bytes :=
  match l with [] => [] | [x] => x | x :: r => x ++ str ", "%string ++ join_comma r end.
(** What follows "Discovered " and "You know ", cmd/chat/main.go:194, 209. *)
Definition counted (ids : list ID) : bytes :=
  itoa (N.of_nat (length ids)) ++ str " peer(s): ["%string ++ join_comma (map printed_id ids) ++ str "]"%string ++ [LF].
(** cmd/chat/main.go:184-198 discover, given what Discover returned. *)
Definition discover_line (ids : list ID) : bytes :=
  match ids with [] => str "Did not discover any peers."%string ++ [LF] | _ => str "Discovered "%string ++ counted ids end.
(** cmd/chat/main.go:201-210 peers, given what Peers returned. *)
Definition peers_line (ids : list ID) : bytes := str "You know "%string ++ counted ids.

(** cmd/chat/main.go:170-181 bootstrap: the addresses pinged, in order, and what is printed.  [ping n a]: the text of the error, if any, of the [n]th ping, to [a]. *)
Fixpoint bootstrap_from (n : nat) (ping : nat -> bytes -> option bytes) (addrs : list bytes) : list bytes * bytes :=
  match addrs with
  | [] => ([], [])
  | a :: r =>
      let (pinged, out) := bootstrap_from (S n) ping r in
      match ping n a with
      | None => (a :: pinged, out)
      | Some e => (a :: pinged, str "Failed to ping bootstrap node ("%string ++ a ++ str "). Skipping... [error: "%string ++ e ++ str "]"%string ++ [LF] ++ out)
      end
  end.
(** cmd/chat/main.go:90, 170-181. *)
Definition bootstrap := bootstrap_from 0.
