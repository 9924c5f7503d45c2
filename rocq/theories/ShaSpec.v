(** SHA-256, SHA-384 and SHA-512 as FIPS 180-4 describes them: words by their bits, constants as digits of roots of primes, sums
    modulo a power of two, and no order of computation. *)
From Coq Require Import ZArith Znumtheory.
From Verif Require Import Base.
Local Open Scope N_scope.

(** Section 4.2: the constants are the first digits of the fractional parts of roots of primes. *)
Definition kth_prime (k : nat) (p : N) : Prop := prime (Z.of_N p) /\
  exists below : list N, NoDup below /\ length below = k /\ forall q, In q below <-> prime (Z.of_N q) /\ q < p.
Definition root_digits (e w p x : N) : Prop := x < 2 ^ w /\
  exists whole, (whole * 2 ^ w + x) ^ e <= p * (2 ^ w) ^ e < (whole * 2 ^ w + x + 1) ^ e.
(** [cs] are such digits of the e-th roots of consecutive primes, the first of which has [k] primes below it. *)
Definition roots_of_primes (e w : N) (k : nat) (cs : list N) : Prop :=
  forall i c, nth_error cs i = Some c -> exists p, kth_prime (k + i) p /\ root_digits e w p c.

Record variant := {
  v_bits : N;                               (* bits of a word *)
  v_rounds : nat;
  v_S0 : N * N * N; v_S1 : N * N * N;       (* rotations *)
  v_s0 : N * N * N; v_s1 : N * N * N;       (* two rotations and a shift *)
  v_prime : nat                             (* the initial state comes from primes with this many primes below the first *)
}.

Section Variant.
  Variable v : variant.
  Notation w := (v_bits v).
  Notation modulus := (2 ^ v_bits v).
  Definition bit (x i : N) : bool := N.testbit x i.

  (** Section 4.1 *)
  Definition rotations (r : N * N * N) (x y : N) : Prop := let '(a, b, c) := r in
    y < modulus /\ forall i, i < w -> bit y i = xorb (bit x ((i + a) mod w)) (xorb (bit x ((i + b) mod w)) (bit x ((i + c) mod w))).
  Definition rotations_shift (r : N * N * N) (x y : N) : Prop := let '(a, b, c) := r in
    y < modulus /\ forall i, i < w -> bit y i = xorb (bit x ((i + a) mod w)) (xorb (bit x ((i + b) mod w)) (bit x (i + c))).
  Definition choice (x y z r : N) : Prop := r < modulus /\ forall i, i < w -> bit r i = if bit x i then bit y i else bit z i.
  Definition majority (x y z r : N) : Prop := r < modulus /\
    forall i, i < w -> bit r i = true <-> (bit x i = true /\ bit y i = true) \/ (bit x i = true /\ bit z i = true) \/ (bit y i = true /\ bit z i = true).

  (** Sections 5.1 and 5.2: a one bit, zeros, and the length in bits fill up the last block. *)
  Fixpoint number (b : bytes) : N := match b with [] => 0 | x :: r => Byte.to_N x * 256 ^ N.of_nat (length r) + number r end.
  Definition word_bytes : nat := N.to_nat (w / 8).
  Definition filled (m b : bytes) : Prop := exists k len,
    b = m ++ x80 :: repeat x00 k ++ len /\ (k < 16 * word_bytes)%nat /\ length len = (2 * word_bytes)%nat /\
    number len = (8 * N.of_nat (length m)) mod modulus ^ 2 /\ Nat.divide (16 * word_bytes) (length b).

  (** Section 6.2.2, step 1 *)
  Definition expanded (block : bytes) (W : list N) : Prop := length W = v_rounds v /\
    (forall t, (t < 16)%nat -> nth t W 0 = number (firstn word_bytes (skipn (t * word_bytes) block))) /\
    (forall t, (16 <= t < v_rounds v)%nat -> exists x y,
       rotations_shift (v_s1 v) (nth (t - 2) W 0) x /\ rotations_shift (v_s0 v) (nth (t - 15) W 0) y /\
       nth t W 0 = (x + nth (t - 7) W 0 + y + nth (t - 16) W 0) mod modulus).
  (** Step 3 *)
  Inductive rounds : list N -> list N -> list N -> list N -> Prop :=
  | rounds_done : forall st, rounds [] [] st st
  | rounds_next : forall K W Ks Ws a b c d e f g h s1 ch s0 maj T1 T2 st,
      rotations (v_S1 v) e s1 -> choice e f g ch -> T1 = h + s1 + ch + K + W ->
      rotations (v_S0 v) a s0 -> majority a b c maj -> T2 = s0 + maj ->
      rounds Ks Ws [(T1 + T2) mod modulus; a; b; c; (d + T1) mod modulus; e; f; g] st ->
      rounds (K :: Ks) (W :: Ws) [a; b; c; d; e; f; g; h] st.
  (** Step 4 *)
  Definition added (H st H' : list N) : Prop := length H' = 8%nat /\ forall i, (i < 8)%nat -> nth i H' 0 = (nth i H 0 + nth i st 0) mod modulus.
  Inductive chained (K : list N) : list bytes -> list N -> list N -> Prop :=
  | chained_done : forall H, chained K [] H H
  | chained_next : forall block blocks W H st H' H'', expanded block W -> rounds K W H st -> added H st H' -> chained K blocks H' H'' ->
      chained K (block :: blocks) H H''.
  Definition hashed (m : bytes) (H : list N) : Prop := exists K H0 b blocks,
    length K = v_rounds v /\ roots_of_primes 3 w 0 K /\ length H0 = 8%nat /\ roots_of_primes 2 w (v_prime v) H0 /\
    filled m b /\ concat blocks = b /\ Forall (fun x => length x = 16 * word_bytes)%nat blocks /\ chained K blocks H0 H.
  (** The state written out, eight words with the most significant byte first. *)
  Definition digest (m d : bytes) : Prop := exists H, hashed m H /\ length d = (8 * word_bytes)%nat /\
    forall i, (i < 8)%nat -> number (firstn word_bytes (skipn (i * word_bytes) d)) = nth i H 0.
End Variant.

Definition v256 : variant :=
  {| v_bits := 32; v_rounds := 64; v_S0 := (2, 13, 22); v_S1 := (6, 11, 25); v_s0 := (7, 18, 3); v_s1 := (17, 19, 10); v_prime := 0 |}.
Definition v512 : variant :=
  {| v_bits := 64; v_rounds := 80; v_S0 := (28, 34, 39); v_S1 := (14, 18, 41); v_s0 := (1, 8, 7); v_s1 := (19, 61, 6); v_prime := 0 |}.
Definition v384 : variant :=
  {| v_bits := 64; v_rounds := 80; v_S0 := (28, 34, 39); v_S1 := (14, 18, 41); v_s0 := (1, 8, 7); v_s1 := (19, 61, 6); v_prime := 8 |}.
Definition fips_sha256 : bytes -> bytes -> Prop := digest v256.
Definition fips_sha512 : bytes -> bytes -> Prop := digest v512.
(** SHA-384 keeps the first 48 of the 64 bytes. *)
Definition fips_sha384 (m d : bytes) : Prop := length d = 48%nat /\ exists rest, digest v384 m (d ++ rest).
