(** * Model of node_options.go and of node.go's NewNode, Bind, Handle, ID/Addr and the sequential part of Listen. *)
From Verif Require Import Base M_Addr M_ID M_ParseIP.
From Coq Require Import Strings.Byte.
Local Open Scope N_scope.

(** node.go:24-58: the configuration part of Node.  A nil and an empty net.IP are not distinguished; durations are
    nanoseconds; loggers, protocols and handlers are identified by numbers (logger 0 is zap.NewNop()). *)
Record node := mkNode {
  n_logger : option nat;
  n_host : ip; n_port : N; n_addr : bytes;
  n_publicKey : pubkey; n_privateKey : privkey; n_id : ID;
  n_maxDialAttempts : N; n_maxInbound : N; n_maxOutbound : N; n_maxRecv : N; n_numWorkers : N;
  n_idleTimeout : Z;
  n_listening : bool;
  n_protocols : list nat; n_handlers : list nat
}.

(** node_options.go:11: one constructor per With... function. *)
Inductive node_option :=
| WithMaxDialAttempts (k : N) | WithMaxInbound (k : N) | WithMaxOutbound (k : N)
| WithMaxRecv (k : N) | WithNumWorkers (k : N) | WithIdleTimeout (d : Z)
| WithLogger (l : option nat) | WithID (id : ID) | WithPrivateKey (k : privkey)
| WithBindHost (h : ip) | WithBindPort (p : N) | WithAddress (a : bytes).

(** Assigns n.maxDialAttempts, node_options.go:15-25. *)
Definition set_dial v n := mkNode (n_logger n) (n_host n) (n_port n) (n_addr n) (n_publicKey n) (n_privateKey n) (n_id n)
  v (n_maxInbound n) (n_maxOutbound n) (n_maxRecv n) (n_numWorkers n) (n_idleTimeout n) (n_listening n) (n_protocols n) (n_handlers n).
(** Assigns n.maxInboundConnections, node_options.go:28-38. *)
Definition set_in v n := mkNode (n_logger n) (n_host n) (n_port n) (n_addr n) (n_publicKey n) (n_privateKey n) (n_id n)
  (n_maxDialAttempts n) v (n_maxOutbound n) (n_maxRecv n) (n_numWorkers n) (n_idleTimeout n) (n_listening n) (n_protocols n) (n_handlers n).
(** Assigns n.maxOutboundConnections, node_options.go:41-51. *)
Definition set_out v n := mkNode (n_logger n) (n_host n) (n_port n) (n_addr n) (n_publicKey n) (n_privateKey n) (n_id n)
  (n_maxDialAttempts n) (n_maxInbound n) v (n_maxRecv n) (n_numWorkers n) (n_idleTimeout n) (n_listening n) (n_protocols n) (n_handlers n).
(** Assigns n.maxRecvMessageSize, node_options.go:54-58. *)
Definition set_recv v n := mkNode (n_logger n) (n_host n) (n_port n) (n_addr n) (n_publicKey n) (n_privateKey n) (n_id n)
  (n_maxDialAttempts n) (n_maxInbound n) (n_maxOutbound n) v (n_numWorkers n) (n_idleTimeout n) (n_listening n) (n_protocols n) (n_handlers n).
(** Assigns n.numWorkers, node_options.go:63-73. *)
Definition set_workers v n := mkNode (n_logger n) (n_host n) (n_port n) (n_addr n) (n_publicKey n) (n_privateKey n) (n_id n)
  (n_maxDialAttempts n) (n_maxInbound n) (n_maxOutbound n) (n_maxRecv n) v (n_idleTimeout n) (n_listening n) (n_protocols n) (n_handlers n).
(** Assigns n.idleTimeout, node_options.go:76-80. *)
Definition set_idle v n := mkNode (n_logger n) (n_host n) (n_port n) (n_addr n) (n_publicKey n) (n_privateKey n) (n_id n)
  (n_maxDialAttempts n) (n_maxInbound n) (n_maxOutbound n) (n_maxRecv n) (n_numWorkers n) v (n_listening n) (n_protocols n) (n_handlers n).
(** Assigns n.logger, node_options.go:84-93. *)
Definition set_logger v n := mkNode v (n_host n) (n_port n) (n_addr n) (n_publicKey n) (n_privateKey n) (n_id n)
  (n_maxDialAttempts n) (n_maxInbound n) (n_maxOutbound n) (n_maxRecv n) (n_numWorkers n) (n_idleTimeout n) (n_listening n) (n_protocols n) (n_handlers n).
(** Assigns n.id, node_options.go:96-101, node.go:93, 138, 164. *)
Definition set_id v n := mkNode (n_logger n) (n_host n) (n_port n) (n_addr n) (n_publicKey n) (n_privateKey n) v
  (n_maxDialAttempts n) (n_maxInbound n) (n_maxOutbound n) (n_maxRecv n) (n_numWorkers n) (n_idleTimeout n) (n_listening n) (n_protocols n) (n_handlers n).
(** Assigns n.addr, node_options.go:130-134, node.go:137. *)
Definition set_addr v n := mkNode (n_logger n) (n_host n) (n_port n) v (n_publicKey n) (n_privateKey n) (n_id n)
  (n_maxDialAttempts n) (n_maxInbound n) (n_maxOutbound n) (n_maxRecv n) (n_numWorkers n) (n_idleTimeout n) (n_listening n) (n_protocols n) (n_handlers n).
(** Assigns n.privateKey, node_options.go:105-109, node.go:81-88. *)
Definition set_priv v n := mkNode (n_logger n) (n_host n) (n_port n) (n_addr n) (n_publicKey n) v (n_id n)
  (n_maxDialAttempts n) (n_maxInbound n) (n_maxOutbound n) (n_maxRecv n) (n_numWorkers n) (n_idleTimeout n) (n_listening n) (n_protocols n) (n_handlers n).
(** Assigns n.publicKey, node.go:90. *)
Definition set_pub v n := mkNode (n_logger n) (n_host n) (n_port n) (n_addr n) v (n_privateKey n) (n_id n)
  (n_maxDialAttempts n) (n_maxInbound n) (n_maxOutbound n) (n_maxRecv n) (n_numWorkers n) (n_idleTimeout n) (n_listening n) (n_protocols n) (n_handlers n).
(** Assigns n.host, node_options.go:113-117, node.go:133. *)
Definition set_host v n := mkNode (n_logger n) v (n_port n) (n_addr n) (n_publicKey n) (n_privateKey n) (n_id n)
  (n_maxDialAttempts n) (n_maxInbound n) (n_maxOutbound n) (n_maxRecv n) (n_numWorkers n) (n_idleTimeout n) (n_listening n) (n_protocols n) (n_handlers n).
(** Assigns n.port, node_options.go:121-125, node.go:134. *)
Definition set_port v n := mkNode (n_logger n) (n_host n) v (n_addr n) (n_publicKey n) (n_privateKey n) (n_id n)
  (n_maxDialAttempts n) (n_maxInbound n) (n_maxOutbound n) (n_maxRecv n) (n_numWorkers n) (n_idleTimeout n) (n_listening n) (n_protocols n) (n_handlers n).
(** Stores n.listening, node.go:118, 200, 208. *)
Definition set_listening v n := mkNode (n_logger n) (n_host n) (n_port n) (n_addr n) (n_publicKey n) (n_privateKey n) (n_id n)
  (n_maxDialAttempts n) (n_maxInbound n) (n_maxOutbound n) (n_maxRecv n) (n_numWorkers n) (n_idleTimeout n) v (n_protocols n) (n_handlers n).
(** Assigns n.protocols, node.go:449-455. *)
Definition set_protocols v n := mkNode (n_logger n) (n_host n) (n_port n) (n_addr n) (n_publicKey n) (n_privateKey n) (n_id n)
  (n_maxDialAttempts n) (n_maxInbound n) (n_maxOutbound n) (n_maxRecv n) (n_numWorkers n) (n_idleTimeout n) (n_listening n) v (n_handlers n).
(** Assigns n.handlers, node.go:463-468. *)
Definition set_handlers v n := mkNode (n_logger n) (n_host n) (n_port n) (n_addr n) (n_publicKey n) (n_privateKey n) (n_id n)
  (n_maxDialAttempts n) (n_maxInbound n) (n_maxOutbound n) (n_maxRecv n) (n_numWorkers n) (n_idleTimeout n) (n_listening n) (n_protocols n) v.

(** node_options.go:13-134. *)
Definition apply_option (n : node) (o : node_option) : node :=
  match o with
  | WithMaxDialAttempts k => set_dial (if k =? 0 then 1 else k) n
  | WithMaxInbound k => set_in (if k =? 0 then 128 else k) n
  | WithMaxOutbound k => set_out (if k =? 0 then 128 else k) n
  | WithMaxRecv k => set_recv k n
  | WithNumWorkers k => set_workers (if k =? 0 then 1 else k) n
  | WithIdleTimeout d => set_idle d n
  | WithLogger l => set_logger (match l with None => Some 0%nat | Some l => Some l end) n
  | WithID id => set_addr (id_addr id) (set_id id n)
  | WithPrivateKey k => set_priv k n
  | WithBindHost h => set_host h n
  | WithBindPort p => set_port p n
  | WithAddress a => set_addr a n
  end.

(** node.go:63-71: the zero Node with the defaults; [ncpu] is runtime.NumCPU(). *)
Definition default_node (ncpu : N) : node :=
  mkNode None [] 0 [] ZeroPublicKey ZeroPrivateKey ZeroID 3 128 128 (N.shiftl 4 20) ncpu 0 false [] [].

(** node.go:62-102 NewNode.  [gen] is the outcome of ed25519.GenerateKey; the client maps and the codec are modelled in
    M_Dial and M_Codec. *)
Definition NewNode (ncpu : N) (gen : res privkey) (opts : list node_option) : res node :=
  let n := fold_left apply_option opts (default_node ncpu) in
  let n := match n_logger n with None => set_logger (Some 0%nat) n | Some _ => n end in
  let! n := if bytes_eqb (n_privateKey n) ZeroPrivateKey
            then let! k := gen in Ok (set_priv (go_copy ZeroPrivateKey k) n) else Ok n in
  let n := set_pub (Public (n_privateKey n)) n in
  let n := if bytes_eqb (id_key (n_id n)) ZeroPublicKey && negb (Nat.eqb (length (n_host n)) 0) && (0 <? n_port n)
           then set_id (NewID (n_publicKey n) (n_host n) (n_port n)) n else n in
  Ok n.

(** node.go:449-455 Bind and node.go:463-469 Handle, each as one atomic step. *)
Definition node_bind (ps : list nat) (n : node) : node :=
  if n_listening n then n else set_protocols (n_protocols n ++ ps) n.
(** node.go:463-468 Handle. *)
Definition node_handle (hs : list nat) (n : node) : node :=
  if n_listening n then n else set_handlers (n_handlers n ++ hs) n.

(** node.go:495-497, 511-513. *)
Definition node_Addr (n : node) : bytes := n_addr n.
(** node.go:511-513 ID. *)
Definition node_ID (n : node) : ID := n_id n.

(** ** Listen *)

(** Position of the first/last occurrence of a byte (strings.IndexByte, net.last).  For net.SplitHostPort, node.go:146. *)
Fixpoint index_byte (c : byte) (s : bytes) : option nat :=
  match s with
  | [] => None
  | x :: s' => if byte_eqb x c then Some O else match index_byte c s' with Some i => Some (S i) | None => None end
  end.
(** net.last, for net.SplitHostPort, node.go:146. *)
Fixpoint last_byte (c : byte) (s : bytes) : option nat :=
  match s with
  | [] => None
  | x :: s' => match last_byte c s' with
               | Some i => Some (S i)
               | None => if byte_eqb x c then Some O else None
               end
  end.
(** For net.SplitHostPort, node.go:146. *)
Definition contains (c : byte) (s : bytes) : bool := match index_byte c s with Some _ => true | None => false end.

(** net.SplitHostPort (net/ipsock.go), called at node.go:146. *)
Definition split_host_port (s : bytes) : res (bytes * bytes) :=
  match last_byte colon s with
  | None => Err ErrOther
  | Some i =>
      match s with
      | [] => Err ErrOther
      | c :: _ =>
          if byte_eqb c lbracket then
            match index_byte rbracket s with
            | None => Err ErrOther
            | Some e =>
                if Nat.eqb (S e) i then
                  if contains lbracket (skipn 1 s) || contains rbracket (skipn (S e) s) then Err ErrOther
                  else Ok (firstn (e - 1) (skipn 1 s), skipn (S i) s)
                else Err ErrOther
            end
          else
            let host := firstn i s in
            if contains colon host then Err ErrOther
            else if contains lbracket s || contains rbracket s then Err ErrOther
            else Ok (host, skipn (S i) s)
      end
  end.

(** strconv.ParseUint(_, 10, 16), called at node.go:158. *)
Fixpoint parse_digits (acc : N) (s : bytes) : option N :=
  match s with
  | [] => Some acc
  | c :: s' => let d := b2n c in
               if ((48 <=? d) && (d <=? 57))%N then parse_digits (acc * 10 + (d - 48)) s' else None
  end.
(** strconv.ParseUint(portStr, 10, 16), node.go:158. *)
Definition parse_uint16 (s : bytes) : option N :=
  match s with
  | [] => None
  | _ => match parse_digits 0 s with
         | Some v => if v <? 65536 then Some v else None
         | None => None
         end
  end.

(** What a protocol's Bind callback does: the public calls it makes on the node, and the error it returns.  mod.go:23-29, node.go:167-176. *)
Inductive api_call := CallBind (ps : list nat) | CallHandle (hs : list nat).
(** One of these calls, node.go:449-468. *)
Definition api_step (n : node) (c : api_call) : node :=
  match c with CallBind ps => node_bind ps n | CallHandle hs => node_handle hs n end.

(** The world Listen runs in: net.Listen with the listener's address ([None]: not a TCP address), net.ResolveTCPAddr,
    and the Bind callback of each protocol ([None]: nil).  node.go:109-176. *)
Record listen_env := mkEnv {
  e_listen : bytes -> res (option (ip * N));
  e_resolve : bytes -> res (ip * N);
  e_bind_cb : nat -> option (list api_call * option goerr)
}.

(** What node.go:109-236 Listen leaves behind: its error, the node, whether the listener is open and the goroutines started. *)
Record listen_result := mkLR { lr_err : option goerr; lr_node : node; lr_listener_open : bool; lr_started : bool }.

(** node.go:167-176: the range expression is evaluated once, so protocols bound by a callback are not visited. *)
Fixpoint bind_all (cb : nat -> option (list api_call * option goerr)) (ps : list nat) (n : node) : node * option goerr :=
  match ps with
  | [] => (n, None)
  | p :: ps' =>
      match cb p with
      | None => bind_all cb ps' n
      | Some (calls, e) =>
          let n' := fold_left api_step calls n in
          match e with Some e => (n', Some e) | None => bind_all cb ps' n' end
      end
  end.

(** node.go:136-165: the public address and the ID. *)
Definition listen_id (env : listen_env) (n : node) : res node :=
  match n_addr n with
  | [] => Ok (set_id (NewID (n_publicKey n) (n_host n) (n_port n))
                (set_addr (join_host_port (normalize_ip (n_host n)) (itoa (n_port n))) n))
  | _ =>
      let! resolved := resolve_address (e_resolve env) (n_addr n) in
      let! (hostStr, portStr) := split_host_port resolved in
      match parse_ip hostStr with
      | None => Err ErrOther
      | Some host =>
          match parse_uint16 portStr with
          | None => Err ErrOther
          | Some port => Ok (set_id (NewID (n_publicKey n) host port) n)
          end
      end
  end.

(** node.go:109-236 Listen up to the start of the goroutines.  The deferred listening.Store(false) at line 116-120 runs
    when [err] is set; Listen itself never sets the flag to true (the listener goroutine does, line 200). *)
Definition Listen (env : listen_env) (n : node) : listen_result :=
  if n_listening n then mkLR (Some ErrOther) n false false else
  match e_listen env (join_host_port (normalize_ip (n_host n)) (itoa (n_port n))) with
  | Ok None => mkLR (Some ErrOther) n false false
  | Ok (Some (host, port)) =>
      let n1 := set_port (port mod 65536) (set_host host n) in
      match listen_id env n1 with
      | Ok n2 =>
          match bind_all (e_bind_cb env) (n_protocols n2) n2 with
          | (n3, Some e) => mkLR (Some e) (set_listening false n3) false false
          | (n3, None) => mkLR None n3 true true
          end
      | Err e => mkLR (Some e) n1 false false
      | Panic => mkLR (Some ErrOther) n1 true false
      end
  | Err e => mkLR (Some e) (set_listening false n) false false
  | Panic => mkLR (Some ErrOther) n false false
  end.

(** Histories of a node's configuration: public calls, and the listener goroutine storing the listening flag
    (node.go:200 and node.go:208). *)
Inductive hist_event := HCall (c : api_call) | HFlag (b : bool).
(** One call made of a node, node.go:109-236, 449-468. *)
Definition hist_step (n : node) (e : hist_event) : node :=
  match e with HCall c => api_step n c | HFlag b => set_listening b n end.

(** Bind as the processor runs it (node.go:449-455): the flag is loaded, the slice header is read by append, the new
    header is stored; none of it under a lock.  [BDone] is a returned call.  (append may also write into a shared backing
    array; only the header is modelled.) *)
Inductive bind_pc := BStart | BLoaded | BAppended (l : list nat) | BDone.
(** Several calls of Bind and Handle at once, node.go:449-468. *)
Record bind_state := mkBS { bs_listening : bool; bs_protocols : list nat; bs_calls : list (list nat * bind_pc) }.

(** Replaces an element of a list; no code of its own (node.go:449-468). *)
Fixpoint set_nth {A} (i : nat) (v : A) (l : list A) : list A :=
  match l, i with
  | [], _ => []
  | _ :: l', O => v :: l'
  | x :: l', S i' => x :: set_nth i' v l'
  end.

(** One step of call number [i].  node.go:449-455. *)
Definition bind_step (s : bind_state) (i : nat) : bind_state :=
  match nth_error (bs_calls s) i with
  | Some (ps, BStart) => mkBS (bs_listening s) (bs_protocols s) (set_nth i (ps, if bs_listening s then BDone else BLoaded) (bs_calls s))
  | Some (ps, BLoaded) => mkBS (bs_listening s) (bs_protocols s) (set_nth i (ps, BAppended (bs_protocols s ++ ps)) (bs_calls s))
  | Some (ps, BAppended l) => mkBS (bs_listening s) l (set_nth i (ps, BDone) (bs_calls s))
  | _ => s
  end.
