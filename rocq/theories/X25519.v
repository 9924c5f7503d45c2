(** X25519 as the pseudo-code of RFC 7748, section 5, computes it. The crate makes, seals, publishes and reads its keys through
    [prople_crypto::ecdh] (core/src/keys/agreement.rs:5-9 and :66-83, core/src/doc/mod.rs:91-107); computing the common secret
    is left to its callers. [red] is the way in which integers are reduced modulo the field's order. *)
From Coq Require Import ZArith.
From Verif Require Import Base Hash Primes Ed25519.
Local Open Scope Z_scope.

(** (486662 - 2) / 4 *)
Definition a24 : Z := 121665.
(** x_2, z_2, x_3, z_3 *)
Definition rungs : Type := (Z * Z * Z * Z)%type.
Definition cswap (swap : bool) (s : rungs) : rungs :=
  let '(x2, z2, x3, z3) := s in if swap then (x3, z3, x2, z2) else s.

Section Arithmetic.
  Variable red : Z -> Z.
  (** The body of the loop after the conditional swap. *)
  Definition rung (x1 : Z) (s : rungs) : rungs :=
    let '(x2, z2, x3, z3) := s in
    let A := x2 + z2 in let AA := red (A * A) in let B := x2 - z2 in let BB := red (B * B) in let E := AA - BB in
    let C := x3 + z3 in let D := x3 - z3 in let DA := red (D * A) in let CB := red (C * B) in
    (red (AA * BB), red (E * (AA + a24 * E)), red ((DA + CB) * (DA + CB)), red (x1 * red ((DA - CB) * (DA - CB)))).
  (** The loop for the bits [t - 1] down to 0, and the swap after it. *)
  Fixpoint ladder (x1 k : Z) (t : nat) (swap : bool) (s : rungs) : rungs :=
    match t with
    | O => cswap swap s
    | S t' => let k_t := Z.testbit k (Z.of_nat t') in ladder x1 k t' k_t (rung x1 (cswap (xorb swap k_t) s))
    end.
  Definition x25519_num (k u : Z) : Z :=
    let '(x2, z2, _, _) := ladder u k 255 false (1, 0, u, 1) in red (x2 * modp_inv red z2).
  (** decodeScalar25519: the lowest three bits and the highest are cleared, the second highest is set *)
  Definition decode_scalar (b : bytes) : Z := Z.lor (Z.land (Z.of_N (le_word b)) (2 ^ 254 - 8)) (2 ^ 254).
  (** decodeUCoordinate: the highest bit is ignored, and numbers from the field's order on are accepted *)
  Definition decode_u (b : bytes) : Z := Z.of_N (le_word b) mod 2 ^ 255.
  Definition x25519 (scalar u : bytes) : bytes := le_bytes 32 (Z.to_N (x25519_num (decode_scalar scalar) (decode_u u))).
End Arithmetic.
(** The base point's u-coordinate. *)
Definition nine : bytes := x09 :: repeat x00 31.
Definition x25519_public (secret : bytes) : bytes := x25519 modp secret nine.
