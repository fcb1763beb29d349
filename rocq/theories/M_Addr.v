(** * Model of addr.go (and of the parts of Go's [net], [strconv] and [encoding/hex] it calls). *)
From Verif Require Import Base.
From Coq Require Import Strings.Byte Strings.String Init.Decimal.
Local Open Scope N_scope.

(** Go strings are byte strings.  For the literals of addr.go:33-34 and id.go:31. *)
Definition str (s : string) : bytes := String.list_byte_of_string s.

(** Decimal digits; strconv.FormatUint(_, 10) as used at id.go:31, node.go:122,137. *)
Fixpoint uint_bytes (d : Decimal.uint) : bytes :=
  match d with
  | Nil => []
  | D0 d => n2b 48 :: uint_bytes d
  | D1 d => n2b 49 :: uint_bytes d
  | D2 d => n2b 50 :: uint_bytes d
  | D3 d => n2b 51 :: uint_bytes d
  | D4 d => n2b 52 :: uint_bytes d
  | D5 d => n2b 53 :: uint_bytes d
  | D6 d => n2b 54 :: uint_bytes d
  | D7 d => n2b 55 :: uint_bytes d
  | D8 d => n2b 56 :: uint_bytes d
  | D9 d => n2b 57 :: uint_bytes d
  end.
(** strconv.FormatUint(_, 10), id.go:31, node.go:122, 137. *)
Definition itoa (n : N) : bytes := uint_bytes (N.to_uint n).

(** Lower-case hexadecimal digit (encoding/hex hextable; also net.IP.String's appendHex).  For addr.go:32 and keys.go:87-89. *)
Definition hex_digit (n : N) : byte := if n <? 10 then n2b (48 + n) else n2b (87 + n).

(** encoding/hex.EncodeToString, called at id.go:44, keys.go:88,103,121. *)
Fixpoint hex_encode (l : bytes) : bytes :=
  match l with
  | [] => []
  | b :: l' => hex_digit (b2n b / 16) :: hex_digit (b2n b mod 16) :: hex_encode l'
  end.

(** A net.IP is a byte slice; the empty list is Go's nil IP.  As at addr.go:21-38 and id.go:20. *)
Definition ip := bytes.

(** net.IP.To4 (Go standard library net/ip.go), reached from addr.go:22 and addr.go:32. *)
Definition v4_in_v6_prefix : bytes := zeros 10 ++ [Byte.xff; Byte.xff].
(** net.IP.To4, used by IsLoopback, IsUnspecified and String, addr.go:22, 32. *)
Definition to4 (i : ip) : option ip :=
  if Nat.eqb (List.length i) 4 then Some i
  else if Nat.eqb (List.length i) 16 && bytes_eqb (firstn 12 i) v4_in_v6_prefix then Some (skipn 12 i)
  else None.

(** net.IP.Equal (net/ip.go), reached from IsLoopback/IsUnspecified at addr.go:22. *)
Definition ip_equal (a b : ip) : bool :=
  if Nat.eqb (List.length a) (List.length b) then bytes_eqb a b
  else if Nat.eqb (List.length a) 4 && Nat.eqb (List.length b) 16
  then bytes_eqb (firstn 12 b) v4_in_v6_prefix && bytes_eqb a (skipn 12 b)
  else if Nat.eqb (List.length a) 16 && Nat.eqb (List.length b) 4
  then bytes_eqb (firstn 12 a) v4_in_v6_prefix && bytes_eqb (skipn 12 a) b
  else false.

(** Compared with by IsLoopback, addr.go:22. *)
Definition ipv6_loopback : ip := zeros 15 ++ [Byte.x01].        (* net.IPv6loopback *)
(** Compared with by IsUnspecified, addr.go:22. *)
Definition ipv6_unspecified : ip := zeros 16.                    (* net.IPv6unspecified *)
Definition ipv4_zero : ip := v4_in_v6_prefix ++ zeros 4.         (* net.IPv4zero, stored in 16 bytes *)

(** net.IP.IsLoopback and IsUnspecified (net/ip.go), called at addr.go:22. *)
Definition is_loopback (i : ip) : bool :=
  match to4 i with
  | Some (b0 :: _) => byte_eqb b0 Byte.x7f
  | Some [] => false
  | None => ip_equal i ipv6_loopback
  end.
(** net.IP.IsUnspecified, addr.go:22. *)
Definition is_unspecified (i : ip) : bool := ip_equal i ipv4_zero || ip_equal i ipv6_unspecified.

(** addr.go:21-27 resolveIP. *)
Definition resolve_ip (i : ip) : ip := if is_loopback i || is_unspecified i then [] else i.

(** net.IP.String (net/ip.go), called at addr.go:32.  Dotted quad for IPv4 and IPv4-in-IPv6,
    RFC 5952 text for other 16-byte addresses, "<nil>" for length 0, "?" ++ hex otherwise. *)
Definition dot : byte := n2b 46.
(** ':', which separates groups (addr.go:32) and the port (addr.go:18). *)
Definition colon : byte := n2b 58.
(** The dotted form of net.IP.String, addr.go:32. *)
Definition quad_string (q : bytes) : bytes :=
  match map (fun b => itoa (b2n b)) q with
  | [a; b; c; d] => a ++ dot :: b ++ dot :: c ++ dot :: d
  | _ => []
  end.
(** The eight 16-bit groups of an IPv6 address. *)
Fixpoint groups (l : bytes) : list N :=
  match l with
  | a :: b :: l' => (b2n a * 256 + b2n b) :: groups l'
  | _ => []
  end.
(** appendHex: hexadecimal without leading zeros.  Part of net.IP.String, addr.go:32. *)
Definition hex16 (g : N) : bytes :=
  if 4096 <=? g then [hex_digit (g / 4096); hex_digit (g / 256 mod 16); hex_digit (g / 16 mod 16); hex_digit (g mod 16)]
  else if 256 <=? g then [hex_digit (g / 256); hex_digit (g / 16 mod 16); hex_digit (g mod 16)]
  else if 16 <=? g then [hex_digit (g / 16); hex_digit (g mod 16)]
  else [hex_digit g].
(** Groups separated by colons, part of net.IP.String, addr.go:32. *)
Fixpoint join_groups (l : list N) : bytes :=
  match l with
  | [] => []
  | [g] => hex16 g
  | g :: l' => hex16 g ++ colon :: join_groups l'
  end.
(** Length of the run of zero groups at the head of [l].  Part of net.IP.String, addr.go:32. *)
Fixpoint zrun (l : list N) : nat :=
  match l with
  | g :: l' => if g =? 0 then S (zrun l') else O
  | [] => O
  end.
(** First longest run of zero groups, as (start, length).  Go's loop also jumps over a run it just
    recorded; the positions jumped over only start strictly shorter runs, so the result is the same.  Part of net.IP.String, addr.go:32. *)
Fixpoint longest_run (i : nat) (l : list N) (best : nat * nat) : nat * nat :=
  match l with
  | [] => best
  | _ :: l' => if Nat.ltb (snd best) (zrun l) then longest_run (S i) l' (i, zrun l) else longest_run (S i) l' best
  end.
(** The IPv6 form of net.IP.String, addr.go:32. *)
Definition v6_string (i : bytes) : bytes :=
  let gs := groups i in
  let (e0, n) := longest_run 0 gs (O, O) in
  if Nat.leb 2 n
  then join_groups (firstn e0 gs) ++ colon :: colon :: join_groups (skipn (e0 + n) gs)
  else join_groups gs.
(** net.IP.String, addr.go:32. *)
Definition ip_string (i : ip) : bytes :=
  match i with
  | [] => str "<nil>"
  | _ => match to4 i with
         | Some q => quad_string q
         | None => if Nat.eqb (List.length i) 16 then v6_string i else n2b 63 :: hex_encode i
         end
  end.

(** addr.go:29-38 normalizeIP. *)
Definition normalize_ip (i : ip) : bytes :=
  let s := ip_string (resolve_ip i) in
  if bytes_eqb s (str "<nil>") then [] else s.

(** net.JoinHostPort (net/ipsock.go), called at id.go:31 and node.go:122,137. *)
Definition lbracket : byte := n2b 91.
(** ']' of net.JoinHostPort, id.go:31. *)
Definition rbracket : byte := n2b 93.
(** '%', for net.JoinHostPort, id.go:31. *)
Definition percent : byte := n2b 37.
(** net.JoinHostPort, id.go:31, node.go:122, 137; also the end of addr.go:18 (TCPAddr.String). *)
Definition join_host_port (host port : bytes) : bytes :=
  if existsb (fun b => byte_eqb b colon || byte_eqb b percent) host
  then lbracket :: host ++ rbracket :: colon :: port
  else host ++ colon :: port.

(** net.TCPAddr.String (net/tcpsock.go), called at addr.go:18: the IP's text (empty for a nil IP)
    joined with the port.  Zones are not modelled. *)
Definition tcpaddr_string (i : ip) (port : N) : bytes :=
  join_host_port (match i with [] => [] | _ => ip_string i end) (itoa port).

(** addr.go:10-19 ResolveAddress; [resolve] stands for net.ResolveTCPAddr (DNS and parsing). *)
Definition resolve_address (resolve : bytes -> res (ip * N)) (address : bytes) : res bytes :=
  let! (i, port) := resolve address in
  Ok (tcpaddr_string (resolve_ip i) port).
