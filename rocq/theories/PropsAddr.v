(** C98: network addresses in the parameters of a DID URI. *)
From Verif Require Import Base Deps Types Did Keys Identity Spec Demo Addr AddrSpec AddrFacts AddrDemo.

(** C98. The address of parsed parameters is read exactly when it is protocols written one after the other: names, and
    behind some of them a port, an IPv4 address, an IPv6 address or a host name; and it is read as those protocols. *)
Theorem C98_read : forall rest D view, multiaddr18 rest D view -> forall t,
  (forall a, multiaddr D t = Ok a -> address_text rest (view a) t) /\
  (forall ps, address_text rest ps t -> exists a, multiaddr D t = Ok a /\ view a = ps).
Proof. exact multiaddr_read. Qed.
Print Assumptions C98_read.
(** Addresses of known protocols whose host names have no '?', '&' or '=' come back from a URI; in particular all that
    have no host names. *)
Theorem C98_through_uri : forall rest D view (d : did D) i ps t h uri, multiaddr18 rest D view -> did_identity d = Ok i ->
  address_text rest ps t -> (forall k v, In (k, v) ps -> In k known) -> (forall k x, In (k, Some (Txt x)) ps -> clean (Some x)) -> clean h ->
  build_uri d (Some {| address := Some t; hl := h |}) = Ok uri ->
  exists a, parse_uri uri = Ret (Ok (id_value i, {| address := Some t; hl := h |})) /\
    parse_multiaddr D {| address := Some t; hl := h |} = Ok (Some a) /\ view a = ps.
Proof. exact address_through_uri. Qed.
Print Assumptions C98_through_uri.
(** "An address that is read comes back from its URI" is false: multiaddr takes any host name without a slash. One with
    '&hl=' in it gives another host, and a hashlink nobody asked for. *)
Theorem C98_injection_refuted : forall rest D view (d : did D) i k x y, multiaddr18 rest D view -> did_identity d = Ok i -> In k hosts ->
  clean (Some x) -> clean (Some y) -> ~ In "/"%byte x -> ~ In "/"%byte y ->
  let t := B "/" ++ k ++ B "/" ++ x ++ B "&hl=" ++ y in
  let t' := B "/" ++ k ++ B "/" ++ x in
  exists a a' uri, multiaddr D t = Ok a /\ view a = [(k, Some (Txt (x ++ B "&hl=" ++ y)))] /\
    build_uri d (Some {| address := Some t; hl := None |}) = Ok uri /\
    parse_uri uri = Ret (Ok (id_value i, {| address := Some t'; hl := Some y |})) /\
    multiaddr D t' = Ok a' /\ view a' = [(k, Some (Txt x))].
Proof. exact address_injects. Qed.
Print Assumptions C98_injection_refuted.
(** One with '?', '&' or '=' gives the host before it. *)
Theorem C98_cut_refuted : forall rest D view (d : did D) i k c x y, multiaddr18 rest D view -> did_identity d = Ok i -> In k hosts -> In c (B "?&=") ->
  clean (Some x) -> clean (Some y) -> ~ In "/"%byte x -> ~ In "/"%byte y ->
  let t := B "/" ++ k ++ B "/" ++ x ++ [c] ++ y in
  let t' := B "/" ++ k ++ B "/" ++ x in
  exists a a' uri, multiaddr D t = Ok a /\ view a = [(k, Some (Txt (x ++ [c] ++ y)))] /\
    build_uri d (Some {| address := Some t; hl := None |}) = Ok uri /\
    parse_uri uri = Ret (Ok (id_value i, {| address := Some t'; hl := None |})) /\
    multiaddr D t' = Ok a' /\ view a' = [(k, Some (Txt x))].
Proof. exact address_cut. Qed.
Print Assumptions C98_cut_refuted.
(** "An address has one text" is false as soon as it has a port: a plus sign may stand before it. *)
Theorem C98_one_text_refuted : forall rest ps t k n, address_text rest ps t -> In (k, Some (Num n)) ps -> In k ports ->
  exists t', t' <> t /\ address_text rest ps t'.
Proof. exact address_respelt. Qed.
Print Assumptions C98_one_text_refuted.
(** An address with an IPv6 address, a port and a flag, read by the instance; texts that are not addresses; a URI whose
    address is cut. *)
Example C98_example :
  multiaddr18 nothing_else placed (fun ps => ps) /\
  read_addr nothing_else (B "/ip6/fe80::1:192.0.2.33/udp/4433/quic-v1") =
    Some [(B "ip6", Some (V6 [65152; 0; 0; 0; 0; 1; 49152; 545]%N)); (B "udp", Some (Num 4433)); (B "quic-v1", None)] /\
  read_addr nothing_else (B "/ip4/192.0.2.01") = None /\ read_addr nothing_else (B "/tcp/65536") = None /\
  read_addr nothing_else (B "ip4/192.0.2.1") = None /\ read_addr nothing_else (B "/ip6/1::2::3") = None /\
  In (B "dns4") hosts /\ clean (Some (B "a.example")) /\ ~ In "/"%byte (B "a.example") /\
  match build_uri (did_new placed (B "a secret key of some account....")) (Some {| address := Some (B "/dns4/a.example&hl=zQm"); hl := None |}) with
  | Ok uri => match parse_uri uri with Ret (Ok (_, p)) => address p = Some (B "/dns4/a.example") /\ hl p = Some (B "zQm") | _ => False end
  | Err _ => False
  end.
Proof. split; [apply with_multiaddr18|]. vm_compute. intuition discriminate. Qed.
