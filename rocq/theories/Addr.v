(** [str::parse::<Multiaddr>] of the crate multiaddr 0.18 (core/Cargo.toml:23), called at core/src/did/query.rs:17-19,
    after that crate's published source and the std address parsers it uses; neither is in /repo. The protocols
    listed here are modelled; every other name (p2p, onion, garlic, certhash, ...) is the parameter [rest], which
    says for a name whether it is one, and how its argument is read if it has one. Which error an unreadable
    address gives is not modelled. *)
From Verif Require Import Base Codec Deps.
Local Open Scope N_scope.

(** What a protocol carries: core::net::Ipv4Addr, core::net::Ipv6Addr (eight groups), a number, a text, or something of
    a protocol in [rest]. *)
Inductive value := V4 (a b c d : N) | V6 (groups : list N) | Num (n : N) | Txt (t : bytes) | Raw (r : bytes).
(** One [Protocol]: its name and what it carries. A [Multiaddr] is a list of them. *)
Definition protocol : Type := bytes * option value.
(** How a name is read: not a protocol, a protocol alone, or with one argument. *)
Inductive reader := Unknown | Alone | With (f : bytes -> option value).

(** ** Numbers *)
Definition dec_val (c : byte) : option N := if inr 48 57 c then Some (Byte.to_N c - 48) else None.
Definition step (base : N) (val : byte -> option N) (o : option N) (c : byte) : option N :=
  match o, val c with Some n, Some v => Some (n * base + v) | _, _ => None end.
(** At least one digit. *)
Definition read_digits (base : N) (val : byte -> option N) (t : bytes) : option N :=
  match t with [] => None | _ => fold_left (step base val) t (Some 0) end.
(** [str::parse::<u16>]: a plus sign may come first, zeros too; checked additions fail exactly above 65535. *)
Definition read_u16 (t : bytes) : option N :=
  let d := match t with c :: r => if beq c "+"%byte then r else t | [] => t end in
  match read_digits 10 dec_val d with Some n => if n <? 65536 then Some n else None | None => None end.

(** ** [Ipv4Addr::from_str]: four numbers below 256 of at most three digits, without zeros in front *)
Definition read_octet (t : bytes) : option N :=
  match read_digits 10 dec_val t with
  | Some n => if ((length t =? 1)%nat || negb (beq (hd "0"%byte t) "0"%byte)) && (length t <=? 3)%nat && (n <? 256) then Some n else None
  | None => None
  end.
Definition read_ip4 (t : bytes) : option value :=
  match map read_octet (split "."%byte t) with
  | [Some a; Some b; Some c; Some d] => Some (V4 a b c d)
  | _ => None
  end.

(** ** [Ipv6Addr::from_str] *)
(** One to four hexadecimal digits. *)
Definition read_group (t : bytes) : option N := if (length t <=? 4)%nat then read_digits 16 hex_val t else None.
(** Groups between colons; an IPv4 address may stand for the last two when [v4]. *)
Fixpoint read_groups (v4 : bool) (ts : list bytes) : option (list N) :=
  match ts with
  | [] => Some []
  | t :: r =>
    match read_group t with
    | Some g => match read_groups v4 r with Some gs => Some (g :: gs) | None => None end
    | None => if v4 && is_empty r then match read_ip4 t with Some (V4 a b c d) => Some [a * 256 + b; c * 256 + d] | _ => None end else None
    end
  end.
Definition fields (t : bytes) : list bytes := if is_empty t then [] else split ":"%byte t.
(** The text before and after the first double colon. *)
Fixpoint gap (t : bytes) : option (bytes * bytes) :=
  match t with
  | c :: r =>
    match r with
    | d :: r' =>
      if beq c ":"%byte && beq d ":"%byte then Some ([], r')
      else match gap r with Some (a, b) => Some (c :: a, b) | None => None end
    | [] => None
    end
  | [] => None
  end.
(** The std parser reads groups from the left, then the double colon, then groups; it takes the same texts. *)
Definition read_ip6 (t : bytes) : option value :=
  match gap t with
  | None => match read_groups true (fields t) with Some gs => if (length gs =? 8)%nat then Some (V6 gs) else None | None => None end
  | Some (h, r) =>
    match read_groups false (fields h), read_groups true (fields r) with
    | Some a, Some b =>
      if (length a + length b <=? 7)%nat then Some (V6 (a ++ repeat 0 (8 - (length a + length b)) ++ b)) else None
    | _, _ => None
    end
  end.

(** ** [Protocol::from_str_parts] *)
Definition port_names : list bytes := [B "tcp"; B "udp"; B "dccp"; B "sctp"].
Definition text_names : list bytes := [B "dns"; B "dns4"; B "dns6"; B "dnsaddr"; B "unix"].
Definition lone_names : list bytes :=
  [B "tls"; B "http"; B "https"; B "quic"; B "quic-v1"; B "udt"; B "utp"; B "ws"; B "wss"; B "webtransport"; B "p2p-circuit"].
Definition one_of (k : bytes) (ks : list bytes) : bool := existsb (bytes_eqb k) ks.
Definition reader_of (rest : bytes -> reader) (k : bytes) : reader :=
  if bytes_eqb k (B "ip4") then With read_ip4
  else if bytes_eqb k (B "ip6") then With read_ip6
  else if one_of k port_names then With (fun t => match read_u16 t with Some n => Some (Num n) | None => None end)
  else if one_of k text_names then With (fun t => Some (Txt t))
  else if one_of k lone_names then Alone
  else rest k.
Fixpoint read_parts (rest : bytes -> reader) (ts : list bytes) : option (list protocol) :=
  match ts with
  | [] => Some []
  | k :: r =>
    match reader_of rest k with
    | Unknown => None
    | Alone => match read_parts rest r with Some ps => Some ((k, None) :: ps) | None => None end
    | With f =>
      match r with
      | [] => None
      | t :: r' => match f t, read_parts rest r' with Some v, Some ps => Some ((k, Some v) :: ps) | _, _ => None end
      end
    end
  end.
(** [Multiaddr::from_str]: nothing before the first slash. *)
Definition read_addr (rest : bytes -> reader) (t : bytes) : option (list protocol) :=
  match split "/"%byte t with
  | [] :: ts => read_parts rest ts
  | _ => None
  end.

(** The dependency reads addresses like this; [view] gives the protocols of its [Multiaddr]. *)
Definition multiaddr18 (rest : bytes -> reader) (D : deps) (view : maddr D -> list protocol) : Prop :=
  forall t, match multiaddr D t with Ok a => read_addr rest t = Some (view a) | Err _ => read_addr rest t = None end.
