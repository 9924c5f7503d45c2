(** Specification vocabulary of C103: texts of peer identifiers. *)
From Verif Require Import Base Codec VarintSpec.
Local Open Scope N_scope.

(** The number [n] as an unsigned varint of at most ten bytes; a [lossy] reader takes any that is [n] modulo 2^64. *)
Definition u64_bytes (lossy : bool) (n : N) (bs : bytes) : Prop :=
  varint_form bs /\ (length bs <= 10)%nat /\ n < 2 ^ 64 /\
  (groups bs = n \/ lossy = true /\ groups bs mod 2 ^ 64 = n).
(** A hash by SHA-256, code 0x12, of whatever size; or a short key as it is, code 0. *)
Definition peer (code : N) (digest : bytes) : Prop :=
  code = 18 /\ (length digest <= 64)%nat \/ code = 0 /\ (length digest <= 42)%nat.
(** Code, size and digest in base58btc. *)
Definition peer_text (lossy : bool) (code : N) (digest t : bytes) : Prop :=
  peer code digest /\
  exists c s, u64_bytes lossy code c /\ u64_bytes lossy (N.of_nat (length digest)) s /\ t = base58_encode (c ++ s ++ digest).
