(** Peer identifiers in network addresses: the protocol p2p of the crate multiaddr 0.18 (core/Cargo.toml:23, called at
    core/src/did/query.rs:17-19), after the published sources of multiaddr, libp2p-identity ([PeerId::from_bytes]), multihash
    0.19 ([Multihash::<64>::from_bytes]) and unsigned-varint; none of them is in /repo. *)
From Verif Require Import Base Codec Addr.
Local Open Scope N_scope.

(** [unsigned_varint::decode::u64]: seven bits a byte up to the first byte below 128, which is not 0 unless it is the only one. *)
Fixpoint read_sevens (fuel : nat) (first : bool) (bs : bytes) : option (N * bytes) :=
  match fuel, bs with
  | S f, b :: r =>
    if Byte.to_N b <? 128 then if negb first && (Byte.to_N b =? 0) then None else Some (Byte.to_N b, r)
    else match read_sevens f false r with Some (n, r') => Some (Byte.to_N b - 128 + 128 * n, r') | None => None end
  | _, _ => None
  end.
(** At most ten bytes are read, which have room for 70 bits. core/Cargo.toml does not fix the version of unsigned-varint (there is no
    Cargo.lock), and its versions may differ in what they do with bits above the 64th: [lossy] says that they are dropped,
    otherwise the number is refused. *)
Definition read_u64 (lossy : bool) (bs : bytes) : option (N * bytes) :=
  match read_sevens 10 true bs with
  | Some (n, r) => if n <? 2 ^ 64 then Some (n, r) else if lossy then Some (n mod 2 ^ 64, r) else None
  | None => None
  end.
(** [Multihash::<64>::from_bytes]: code, size of at most 64, and a digest of that size with nothing behind it. *)
Definition read_multihash (lossy : bool) (bs : bytes) : option (N * bytes) :=
  match read_u64 lossy bs with
  | Some (c, r) =>
    match read_u64 lossy r with
    | Some (s, d) => if (s <=? 64) && (N.of_nat (length d) =? s) then Some (c, d) else None
    | None => None
    end
  | None => None
  end.
(** [PeerId::from_multihash]: SHA-256 (0x12), or up to 42 bytes as they are (0x00). *)
Definition peer_code (m : N * bytes) : bool := (fst m =? 18) || (fst m =? 0) && (length (snd m) <=? 42)%nat.
(** The argument of p2p: base58btc without a multibase code. What it carries is given by [PeerId::to_bytes]. *)
Definition read_peer (lossy : bool) (t : bytes) : option value :=
  match base58_decode t with
  | Some bs => match read_multihash lossy bs with Some m => if peer_code m then Some (Raw (multihash_bytes m)) else None | None => None end
  | None => None
  end.
(** The protocols beside those of Addr.v: p2p, and [other]. *)
Definition with_p2p (lossy : bool) (other : bytes -> reader) (k : bytes) : reader :=
  if bytes_eqb k (B "p2p") then With (read_peer lossy) else other k.
