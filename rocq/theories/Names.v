(** The text of an endpoint: what p2p/sync.go:153 (p.String()), p2p/sync.go:179, 195, 216
    (RemoteAddr().String()) and p2p/pool.go:96, 154 (net.ResolveTCPAddr) call in package net of Go's library.
    Like the rest of the library these are transcribed, not code of /repo; everywhere else in the model
    they are arbitrary functions. *)
From Verif Require Export Messages.

(** The decimal notation of a number below 10^5, for itoa (p2p/sync.go:153). *)
Fixpoint decimal (k : nat) (n : N) : bytes :=
  match k with
  | O => []
  | S k => (if n <? 10 then [] else decimal k (n / 10)) ++ [n2b (48 + n mod 10)]
  end.
Definition itoa (n : N) : bytes := decimal 5 n.

(** (net.IP).String for the four bytes of an IPv4 address (p2p/sync.go:153). *)
Definition dotted (i : bytes) : bytes :=
  match i with
  | [a; b; c; d] => itoa (b2n a) ++ [x2e] ++ itoa (b2n b) ++ [x2e] ++ itoa (b2n c) ++ [x2e] ++ itoa (b2n d)
  | _ => []
  end.
(** ( *net.TCPAddr).String (p2p/sync.go:153, 179, 195, 216). [other] is the text of addresses that are not
    IPv4, which is not modelled. *)
Definition tcp_text (other : addr -> bytes) (a : addr) : bytes :=
  match to4 (ip a) with
  | Some d => dotted d ++ [x3a] ++ itoa (Z.to_N (port a))
  | None => other a
  end.

(** The pieces of a text between separators. *)
Fixpoint split_on (sep : byte) (s : bytes) : list bytes :=
  match s with
  | [] => [[]]
  | b :: t =>
      if Byte.eqb b sep then [] :: split_on sep t
      else match split_on sep t with p :: ps => (b :: p) :: ps | [] => [[b]] end
  end.
(** A number of decimal digits up to [limit] (p2p/pool.go:96); from Go 1.17 on, those of an IP address must
    not start with a superfluous 0 ([strict]). *)
Definition is_digit (b : byte) : bool := (48 <=? b2n b) && (b2n b <=? 57).
Definition value (s : bytes) : N := fold_left (fun v b => 10 * v + (b2n b - 48)) s 0.
Definition number (strict : bool) (limit : N) (s : bytes) : option N :=
  if negb (lenN s =? 0) && forallb is_digit s && (value s <=? limit) &&
     negb (strict && (1 <? lenN s) && match s with b :: _ => Byte.eqb b x30 | [] => false end)
  then Some (value s) else None.
(** net.parseIPv4 (p2p/pool.go:96): the 16-byte form of the address. *)
Definition parse_ip4 (strict : bool) (s : bytes) : option bytes :=
  match map (number strict 255) (split_on x2e s) with
  | [Some a; Some b; Some c; Some d] => Some (brepeat x00 10 ++ [xff; xff] ++ [n2b a; n2b b; n2b c; n2b d])
  | _ => None
  end.
(** net.ResolveTCPAddr (p2p/pool.go:96, 154, p2p/peer.go:62) of an IPv4 address and a port in digits. [other]
    is what becomes of any other text: host names, names of ports, IPv6, texts that are refused. *)
Definition resolve_text (strict : bool) (other : bytes -> option addr) (s : bytes) : option addr :=
  match split_on x3a s with
  | [h; p] =>
      match parse_ip4 strict h, number false 65535 p with
      | Some i, Some n => Some (Addr i (Z.of_N n))
      | _, _ => other s
      end
  | _ => other s
  end.
