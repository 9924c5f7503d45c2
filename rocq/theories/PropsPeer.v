(** C103: peer identifiers in the addresses of a DID URI. *)
From Verif Require Import Base Codec Deps Types Did Keys Identity Spec Demo Addr AddrSpec AddrFacts AddrDemo Peer PeerSpec PeerFacts.

(** C103. The protocol p2p carries a peer identifier: an address part that begins with its name is read exactly when a text of
    a peer identifier follows, and it carries that identifier. (C98_read gives whole addresses.) *)
Theorem C103_read : forall lossy other v u, protocol_text (with_p2p lossy other) (B "p2p", Some v) u <->
  exists c d t, peer_text lossy c d t /\ v = Raw (multihash_bytes (c, d)) /\ u = B "/p2p/" ++ t.
Proof. exact peer_part. Qed.
Print Assumptions C103_read.
(** Parts with other names are read as without it. *)
Theorem C103_others : forall lossy other k v u, k <> B "p2p" -> protocol_text (with_p2p lossy other) (k, v) u <-> protocol_text other (k, v) u.
Proof. exact peer_others. Qed.
Print Assumptions C103_others.
(** Every peer identifier has a text. *)
Theorem C103_some_text : forall lossy c d, peer c d -> exists t, peer_text lossy c d t.
Proof. exact peer_some. Qed.
Print Assumptions C103_some_text.
(** Addresses of known protocols and peers, whose host names have no '?', '&' or '=', come back from a URI. *)
Theorem C103_through_uri : forall lossy other D view (d : did D) i ps t h uri, multiaddr18 (with_p2p lossy other) D view -> did_identity d = Ok i ->
  address_text (with_p2p lossy other) ps t -> (forall k v, In (k, v) ps -> In k (B "p2p" :: known)) ->
  (forall k x, In (k, Some (Txt x)) ps -> clean (Some x)) -> clean h ->
  build_uri d (Some {| address := Some t; hl := h |}) = Ok uri ->
  exists a, parse_uri uri = Ret (Ok (id_value i, {| address := Some t; hl := h |})) /\
    parse_multiaddr D {| address := Some t; hl := h |} = Ok (Some a) /\ view a = ps.
Proof. exact peer_through_uri. Qed.
Print Assumptions C103_through_uri.
(** A peer identifier has one text if numbers of more than 64 bits are refused ... *)
Theorem C103_one_text : forall c d t t', peer_text false c d t -> peer_text false c d t' -> t = t'.
Proof. exact peer_one_text. Qed.
Print Assumptions C103_one_text.
(** ... and none has only one if their upper bits are dropped: "a peer identifier has one text" is then false of all. *)
Theorem C103_one_text_refuted : forall c d t, peer_text true c d t -> exists t', t' <> t /\ peer_text true c d t'.
Proof. exact peer_more_texts. Qed.
Print Assumptions C103_one_text_refuted.
(** "A peer identifier that says SHA-256 has 32 bytes" is false: every text of up to 64 bytes, also the empty one, is taken for one. *)
Theorem C103_digest_refuted : forall lossy other d, (length d <= 64)%nat -> exists t, read_addr (with_p2p lossy other) (B "/p2p/" ++ t) =
  Some [(B "p2p", Some (Raw (multihash_bytes (18%N, d))))].
Proof. exact peer_any_digest. Qed.
Print Assumptions C103_digest_refuted.
(** A peer of the IPFS documentation behind an address and a port, through a URI of the instance; a key as it is; two texts of one
    identifier; another hash code. *)
Example C103_example :
  (forall lossy, multiaddr18 (with_p2p lossy nothing_else) (with_multiaddr demo (with_p2p lossy nothing_else)) (fun ps => ps)) /\
  peer 18 (B "ab") /\
  (let t := B "/ip4/192.0.2.1/tcp/4001/p2p/QmYyQSo1c1Ym7orWxLYvCrM2EmxFTANf8wXmmE7DWjhx5N" in
   match read_addr (with_p2p false nothing_else) t with
   | Some [(_, Some (V4 192 0 2 1)); (_, Some (Num 4001)); (k, Some (Raw r))] => k = B "p2p" /\ length r = 34%nat
   | _ => False
   end /\
   match build_uri (did_new (with_multiaddr demo (with_p2p false nothing_else)) (B "a secret key of some account....")) (Some {| address := Some t; hl := None |}) with
   | Ok uri => match parse_uri uri with Ret (Ok (_, p)) => address p = Some t /\ hl p = None | _ => False end
   | Err _ => False
   end) /\
  (match read_peer false (B "12D3KooWD3eckifWpRn9wQpMG9R9hX3sD158z7EqHWmweQAJU5SA") with Some (Raw r) => length r = 38%nat | _ => False end) /\
  read_peer true (B "ThaSu") = Some (Raw ([x12; x02] ++ B "ab")) /\ read_peer true (B "DCk3wQsZoGkPoLgLfK") = Some (Raw ([x12; x02] ++ B "ab")) /\
  read_peer false (B "ThaSu") = Some (Raw ([x12; x02] ++ B "ab")) /\ read_peer false (B "DCk3wQsZoGkPoLgLfK") = None /\
  read_peer true (base58_encode ([x13; x02] ++ B "ab")) = None.
Proof. split; [intros lossy; apply with_multiaddr18|]. split; [left; split; [reflexivity|cbn; lia]|]. vm_compute. intuition. Qed.
