(** Specification vocabulary of C98: texts of network addresses. *)
From Verif Require Import Base Addr.
Local Open Scope N_scope.

(** ** Numerals: digits from the left, in a base *)
Definition decimal (v : N) (c : byte) : Prop := v < 10 /\ Byte.to_N c = 48 + v.
Definition hexadecimal (v : N) (c : byte) : Prop := decimal v c \/ 10 <= v < 16 /\ (Byte.to_N c = 55 + v \/ Byte.to_N c = 87 + v).
Inductive numeral (base : N) (digit : N -> byte -> Prop) : N -> bytes -> Prop :=
| one_digit v c : digit v c -> numeral base digit v [c]
| more_digits n t v c : numeral base digit n t -> digit v c -> numeral base digit (n * base + v) (t ++ [c]).

(** ** Ports and internet addresses *)
Definition port_text (n : N) (t : bytes) : Prop :=
  n < 65536 /\ exists d, numeral 10 decimal n d /\ (t = d \/ t = B "+" ++ d).
(** Below 256, without zeros in front. *)
Definition octet_text (n : N) (t : bytes) : Prop := n < 256 /\ numeral 10 decimal n t /\ (t = B "0" \/ hd "0"%byte t <> "0"%byte).
Definition ip4_text (a b c d : N) (t : bytes) : Prop :=
  exists ta tb tc td, octet_text a ta /\ octet_text b tb /\ octet_text c tc /\ octet_text d td /\
    t = ta ++ B "." ++ tb ++ B "." ++ tc ++ B "." ++ td.
(** RFC 4291, 2.2: groups of one to four hexadecimal digits between colons ... *)
Definition group_text (g : N) (t : bytes) : Prop := numeral 16 hexadecimal g t /\ (length t <= 4)%nat.
Definition groups_text (gs : list N) (t : bytes) : Prop := exists ts, Forall2 group_text gs ts /\ t = join (B ":") ts.
(** ... the last two perhaps as an IPv4 address ... *)
Definition mixed_text (gs : list N) (t : bytes) : Prop :=
  groups_text gs t \/
  exists hs a b c d u, gs = hs ++ [a * 256 + b; c * 256 + d] /\ ip4_text a b c d u /\
    (hs = [] /\ t = u \/ exists v, hs <> [] /\ groups_text hs v /\ t = v ++ B ":" ++ u).
(** ... and a double colon for one or more groups of zeros. *)
Definition ip6_text (gs : list N) (t : bytes) : Prop :=
  length gs = 8%nat /\
  (mixed_text gs t \/
   exists hs n ls u v, gs = hs ++ repeat 0 (S n) ++ ls /\ groups_text hs u /\ mixed_text ls v /\ t = u ++ B "::" ++ v).

(** ** Multiaddresses *)
Definition ports : list bytes := [B "tcp"; B "udp"; B "dccp"; B "sctp"].
Definition hosts : list bytes := [B "dns"; B "dns4"; B "dns6"; B "dnsaddr"; B "unix"].
Definition flags : list bytes :=
  [B "tls"; B "http"; B "https"; B "quic"; B "quic-v1"; B "udt"; B "utp"; B "ws"; B "wss"; B "webtransport"; B "p2p-circuit"].
Definition known : list bytes := [B "ip4"; B "ip6"] ++ ports ++ hosts ++ flags.
Inductive protocol_text (rest : bytes -> reader) : protocol -> bytes -> Prop :=
| P_ip4 a b c d t : ip4_text a b c d t -> protocol_text rest (B "ip4", Some (V4 a b c d)) (B "/ip4/" ++ t)
| P_ip6 gs t : ip6_text gs t -> protocol_text rest (B "ip6", Some (V6 gs)) (B "/ip6/" ++ t)
| P_port k n t : In k ports -> port_text n t -> protocol_text rest (k, Some (Num n)) (B "/" ++ k ++ B "/" ++ t)
| P_host k t : In k hosts -> ~ In "/"%byte t -> protocol_text rest (k, Some (Txt t)) (B "/" ++ k ++ B "/" ++ t)
| P_flag k : In k flags -> protocol_text rest (k, None) (B "/" ++ k)
| P_alone k : ~ In k known -> ~ In "/"%byte k -> rest k = Alone -> protocol_text rest (k, None) (B "/" ++ k)
| P_with k f t v : ~ In k known -> ~ In "/"%byte k -> rest k = With f -> ~ In "/"%byte t -> f t = Some v ->
    protocol_text rest (k, Some v) (B "/" ++ k ++ B "/" ++ t).
(** The protocols written one after the other. *)
Definition address_text (rest : bytes -> reader) (ps : list protocol) (t : bytes) : Prop :=
  exists ts, Forall2 (protocol_text rest) ps ts /\ t = concat ts.
