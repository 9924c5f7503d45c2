(** ChaCha20's block function (RFC 8439) and BLAKE3 (the BLAKE3 paper, unkeyed, 32 bytes of output), without an order of computation
    inside a round: both stir the columns and then the diagonals of a 4 x 4 matrix of 32-bit words. *)
From Verif Require Import Base ShaSpec.
Local Open Scope N_scope.

(** The text as a number, least significant byte first. *)
Fixpoint little (b : bytes) : N := match b with [] => 0 | x :: r => Byte.to_N x + 256 * little r end.
(** Word [i] of a text, missing bytes counting as zeros. *)
Definition word (i : nat) (b : bytes) : N := little (firstn 4 (skipn (4 * i) b)).

(** [z] is the exclusive or of [x] and [y], rotated to the right by [r] bits. *)
Definition turned (r x y z : N) : Prop := z < 2 ^ 32 /\
  forall i, i < 32 -> N.testbit z i = xorb (N.testbit x ((i + r) mod 32)) (N.testbit y ((i + r) mod 32)).
(** Four words are stirred with two words of a message and four rotations. *)
Definition stirred (rot : N * N * N * N) (mx my : N) (before after : N * N * N * N) : Prop :=
  let '(r1, r2, r3, r4) := rot in let '(a, b, c, d) := before in let '(a', b', c', d') := after in
  exists a1 b1 c1 d1,
    a1 = (a + b + mx) mod 2 ^ 32 /\ turned r1 d a1 d1 /\ c1 = (c + d1) mod 2 ^ 32 /\ turned r2 b c1 b1 /\
    a' = (a1 + b1 + my) mod 2 ^ 32 /\ turned r3 d1 a' d' /\ c' = (c1 + d') mod 2 ^ 32 /\ turned r4 b1 c' b'.
(** Column [j] of the matrix [v] ([s = 0]), or its diagonal from the top of column [j] to the right ([s = 1]). *)
Definition line (s j : nat) (v : list N) : N * N * N * N :=
  (nth j v 0, nth (4 + (j + s) mod 4) v 0, nth (8 + (j + 2 * s) mod 4) v 0, nth (12 + (j + 3 * s) mod 4) v 0).
(** All four columns or diagonals, each with two words of the message. *)
Definition half_round (rot : N * N * N * N) (s : nat) (m : list N) (v v' : list N) : Prop := length v' = 16%nat /\
  forall j, (j < 4)%nat -> stirred rot (nth (8 * s + 2 * j) m 0) (nth (8 * s + 2 * j + 1) m 0) (line s j v) (line s j v').
Definition full_round (rot : N * N * N * N) (m v v' : list N) : Prop :=
  exists v1, half_round rot 0 m v v1 /\ half_round rot 1 m v1 v'.

(** ** ChaCha20: twenty half rounds without a message; rotations to the left by 16, 12, 8 and 7. *)
Definition chacha_rot : N * N * N * N := (32 - 16, 32 - 12, 32 - 8, 32 - 7).
Inductive chacha_rounds : nat -> list N -> list N -> Prop :=
| chacha_none : forall v, chacha_rounds 0 v v
| chacha_more : forall n v v1 v', chacha_rounds n v v1 -> full_round chacha_rot [] v1 v' -> chacha_rounds (S n) v v'.
Definition matrix (text : bytes) (v : list N) : Prop := length text = 64%nat /\ length v = 16%nat /\ forall i, (i < 16)%nat -> nth i v 0 = word i text.
(** RFC 8439, section 2.3 *)
Definition stream_block (key : bytes) (counter : N) (nonce out : bytes) : Prop := exists ctr v v',
  length ctr = 4%nat /\ little ctr = counter mod 2 ^ 32 /\ matrix (B "expand 32-byte k" ++ key ++ ctr ++ nonce) v /\ chacha_rounds 10 v v' /\
  length out = 64%nat /\ forall i, (i < 16)%nat -> word i out = (nth i v' 0 + nth i v 0) mod 2 ^ 32.
(** draft-irtf-cfrg-xchacha-03, section 2.2: the first and the last row *)
Definition derived_key (key nonce out : bytes) : Prop := exists v v',
  matrix (B "expand 32-byte k" ++ key ++ nonce) v /\ chacha_rounds 10 v v' /\
  length out = 32%nat /\ forall i, (i < 4)%nat -> word i out = nth i v' 0 /\ word (4 + i) out = nth (12 + i) v' 0.

(** ** BLAKE3 *)
Definition blake_rot : N * N * N * N := (16, 12, 8, 7).
(** Table 2 of the paper *)
Definition blake_order : list nat := [2; 6; 3; 10; 7; 0; 4; 13; 1; 11; 12; 5; 9; 14; 15; 8]%nat.
Definition reordered (m m' : list N) : Prop := length m' = 16%nat /\ forall i, (i < 16)%nat -> nth i m' 0 = nth (nth i blake_order 0%nat) m 0.
Inductive blake_rounds : nat -> list N -> list N -> list N -> Prop :=
| blake_none : forall m v, blake_rounds 0 m v v
| blake_more : forall n m m' v v1 v', full_round blake_rot m v v1 -> reordered m m' -> blake_rounds n m' v1 v' -> blake_rounds (S n) m v v'.
Section Blake.
  Variable IV : list N.
  (** Section 2.2: eight words [cv] and sixteen words [m] become eight words [out]. *)
  Definition compressed (cv m : list N) (counter len flags : N) (out : list N) : Prop := exists v v',
    v = cv ++ firstn 4 IV ++ [counter mod 2 ^ 32; counter / 2 ^ 32; len; flags] /\ blake_rounds 7 m v v' /\
    length out = 8%nat /\ forall i, (i < 8)%nat -> nth i out 0 = N.lxor (nth i v' 0) (nth (8 + i) v' 0).
  Definition message (block : bytes) (m : list N) : Prop := length m = 16%nat /\ forall i, (i < 16)%nat -> nth i m 0 = word i block.
  (** Table 3 *)
  Definition chunk_start : N := 1.
  Definition chunk_end : N := 2.
  Definition parent : N := 4.
  Definition root_flag (root : bool) : N := if root then 8 else 0.
  (** Section 2.4: the blocks of a chunk one after the other, the last of which may be shorter (and empty, if it is the only one). *)
  Inductive absorbed (root : bool) (counter : N) : N -> list N -> bytes -> list N -> Prop :=
  | absorbed_last : forall start cv b m cv', (length b <= 64)%nat -> message b m ->
      compressed cv m counter (N.of_nat (length b)) (start + chunk_end + root_flag root) cv' -> absorbed root counter start cv b cv'
  | absorbed_next : forall start cv b rest m cv1 cv', length b = 64%nat -> rest <> [] -> message b m ->
      compressed cv m counter 64 start cv1 -> absorbed root counter 0 cv1 rest cv' -> absorbed root counter start cv (b ++ rest) cv'.
  (** Section 2.1: chunks of 1024 bytes are the leaves of a tree, in which every left subtree is complete and not smaller than the right one. *)
  Inductive node : bool -> N -> bytes -> list N -> Prop :=
  | node_chunk : forall root counter data cv, (length data <= 1024)%nat -> absorbed root counter chunk_start IV data cv -> node root counter data cv
  | node_parent : forall root counter k l r cl cr cv,
      N.of_nat (length l) = 1024 * 2 ^ k -> (0 < length r <= length l)%nat ->
      node false counter l cl -> node false (counter + 2 ^ k) r cr ->
      compressed IV (cl ++ cr) 0 64 (parent + root_flag root) cv -> node root counter (l ++ r) cv.
End Blake.
(** The initial words are those of SHA-256. *)
Definition blake3_digest (m d : bytes) : Prop := exists IV cv,
  length IV = 8%nat /\ roots_of_primes 2 32 0 IV /\ node IV true 0 m cv /\
  length d = 32%nat /\ forall i, (i < 8)%nat -> word i d = nth i cv 0.
