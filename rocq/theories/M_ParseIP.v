(** * Model of net.ParseIP (Go's net/ip.go, net/parse.go), which node.go:152 calls on the host part of the resolved public address.

    The functions follow the standard library's text.  Versions before Go 1.17 also accept octets with leading zeros; none is produced by
    net.IP.String. *)
From Verif Require Import Base M_Addr M_ID.
Local Open Scope N_scope.

(** net.dtoi: the decimal digits at the head of [s]; [i] counts them.  Fails on none, and on 0xFFFFFF or more.  Returns the number, the count and the rest.  Called for node.go:152. *)
Fixpoint dtoi_loop (n : N) (i : nat) (s : bytes) : option (N * nat * bytes) :=
  match s with
  | c :: s' => if (48 <=? b2n c) && (b2n c <=? 57)
               then let n' := n * 10 + (b2n c - 48) in if 16777215 <=? n' then None else dtoi_loop n' (S i) s'
               else Some (n, i, s)
  | [] => Some (n, i, s)
  end.
(** net.dtoi, called for node.go:152. *)
Definition dtoi (s : bytes) : option (N * nat * bytes) :=
  match dtoi_loop 0 0 s with Some (n, S i, r) => Some (n, S i, r) | _ => None end.

(** net.xtoi: the same for hexadecimal digits.  Called for node.go:152. *)
Fixpoint xtoi_loop (n : N) (i : nat) (s : bytes) : option (N * nat * bytes) :=
  match s with
  | c :: s' => match from_hex_char c with
               | Some d => let n' := n * 16 + d in if 16777215 <=? n' then None else xtoi_loop n' (S i) s'
               | None => Some (n, i, s)
               end
  | [] => Some (n, i, s)
  end.
(** net.xtoi, called for node.go:152. *)
Definition xtoi (s : bytes) : option (N * nat * bytes) :=
  match xtoi_loop 0 0 s with Some (n, S i, r) => Some (n, S i, r) | _ => None end.

(** net.parseIPv4: [k] octets to go; [first] if none has been read.  Called for node.go:152. *)
Fixpoint octets (k : nat) (first : bool) (s : bytes) : option bytes :=
  match k with
  | O => match s with [] => Some [] | _ => None end
  | S k' =>
      match (if first then Some s else match s with c :: s' => if byte_eqb c dot then Some s' else None | [] => None end) with
      | None => None
      | Some s =>
          match dtoi s with
          | None => None
          | Some (n, c, r) =>
              if 255 <? n then None
              else if Nat.ltb 1 c && (match s with z :: _ => byte_eqb z (n2b 48) | [] => false end) then None
              else match octets k' false r with Some l => Some (n2b n :: l) | None => None end
          end
      end
  end.
(** net.parseIPv4, called for node.go:152. *)
Definition parse_ipv4 (s : bytes) : option ip :=
  match octets 4 true s with Some q => Some (v4_in_v6_prefix ++ q) | None => None end.

(** net.parseIPv6's loop: [out] holds the bytes read so far, [ell] the position of the "::"; at most [k] more groups.  Called for node.go:152. *)
Fixpoint v6_loop (k : nat) (out : bytes) (ell : option nat) (s : bytes) : option (bytes * option nat * bytes) :=
  match k with
  | O => Some (out, ell, s)
  | S k' =>
      match xtoi s with
      | None => None
      | Some (n, _, r) =>
          if 65535 <? n then None else
          match r with
          | c :: r1 =>
              if byte_eqb c dot then
                if (match ell with None => negb (Nat.eqb (List.length out) 12) | Some _ => false end) then None
                else if Nat.ltb 16 (List.length out + 4) then None
                else match parse_ipv4 s with Some q => Some (out ++ skipn 12 q, ell, []) | None => None end
              else if byte_eqb c colon then
                let out' := out ++ [n2b (n / 256); n2b (n mod 256)] in
                match r1 with
                | [] => None
                | d :: r2 =>
                    if byte_eqb d colon then
                      match ell with
                      | Some _ => None
                      | None => match r2 with [] => Some (out', Some (List.length out'), []) | _ => v6_loop k' out' (Some (List.length out')) r2 end
                      end
                    else v6_loop k' out' ell r1
                end
              else None
          | [] => Some (out ++ [n2b (n / 256); n2b (n mod 256)], ell, [])
          end
      end
  end.
(** The part of parseIPv6 after the loop.  Called for node.go:152. *)
Definition v6_finish (o : option (bytes * option nat * bytes)) : option ip :=
  match o with
  | Some (out, ell, []) =>
      if Nat.ltb (List.length out) 16
      then match ell with Some e => Some (firstn e out ++ zeros (16 - List.length out) ++ skipn e out) | None => None end
      else match ell with Some _ => None | None => Some out end
  | _ => None
  end.
(** net.parseIPv6, called for node.go:152. *)
Definition parse_ipv6 (s : bytes) : option ip :=
  match s with
  | a :: b :: s' => if byte_eqb a colon && byte_eqb b colon
                    then match s' with [] => Some (zeros 16) | _ => v6_finish (v6_loop 8 [] (Some 0%nat) s') end
                    else v6_finish (v6_loop 8 [] None s)
  | _ => v6_finish (v6_loop 8 [] None s)
  end.

(** net.ParseIP: the first dot or colon decides.  Called at node.go:152. *)
Fixpoint first_sep (s : bytes) : option byte :=
  match s with [] => None | c :: s' => if byte_eqb c dot || byte_eqb c colon then Some c else first_sep s' end.
(** net.ParseIP, node.go:152. *)
Definition parse_ip (s : bytes) : option ip :=
  match first_sep s with Some c => if byte_eqb c dot then parse_ipv4 s else parse_ipv6 s | None => None end.
