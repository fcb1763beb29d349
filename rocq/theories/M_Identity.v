(** * What a node shows of its identity: the entry that Listen writes to the log, and the identity a node uses in handshakes. *)
From Verif Require Import Base M_Addr M_ID M_Handshake M_Node M_Log.
From Coq Require Import Strings.Byte Strings.String.
Import List.ListNotations.
Local Open Scope list_scope.
Local Open Scope nat_scope.

(** node.go:212-217: the entry that the listener goroutine writes when Listen has succeeded; [bind] is the listener's address as text.
    The node's ID and keys do not change any more. *)
Definition listen_entry (n : node) (bind : bytes) : entry :=
  mkEntry Info (str "Listening for incoming peers."%string)
    [(str "bind_addr"%string, bind); (str "id_addr"%string, id_addr (n_id n)); (str "public_key"%string, key_string (n_publicKey n));
     (str "private_key"%string, key_string (n_privateKey n))].
(** What Listen has led to in the log, node.go:212-217. *)
Definition listen_log (env : listen_env) (n : node) (bind : bytes) : list entry :=
  let r := Listen env n in if lr_started r then [listen_entry (lr_node r) bind] else [].

(** client.go:453-455, node.go:472-474: handshake announces the node's ID as it is and signs with the node's private key, whether or
    not the node listens.  The other parts of the environment are those of the run. *)
Definition node_env (n : node) (eph : res (pubkey * privkey)) (rnd : bytes) : hs_env := M_Handshake.mkEnv (n_id n) (n_privateKey n) eph rnd None None.
