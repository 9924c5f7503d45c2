(** Specification vocabulary of C102: BLAKE2b (RFC 7693, without a key), and Argon2id (RFC 9106) in terms of it, with words by their bits and
    without an order of computation inside a round. *)
From Verif Require Import Base Hash ShaSpec ArxSpec Argon2 Argon2Spec.
Local Open Scope N_scope.

(** Word [i] of a text, missing bytes counting as zeros. *)
Definition word64 (i : nat) (b : bytes) : N := little (firstn 8 (skipn (8 * i) b)).
(** [z] is the exclusive or of [x] and [y], rotated to the right by [r] bits. *)
Definition turned64 (r x y z : N) : Prop := z < 2 ^ 64 /\
  forall i, i < 64 -> N.testbit z i = xorb (N.testbit x ((i + r) mod 64)) (N.testbit y ((i + r) mod 64)).
Section Stirring.
  (** How two words are added. *)
  Variable sum : N -> N -> N.
  Definition stirred64 (mx my : N) (before after : N * N * N * N) : Prop :=
    let '(a, b, c, d) := before in let '(a', b', c', d') := after in
    exists a1 b1 c1 d1,
      a1 = (sum a b + mx) mod 2 ^ 64 /\ turned64 32 d a1 d1 /\ c1 = sum c d1 mod 2 ^ 64 /\ turned64 24 b c1 b1 /\
      a' = (sum a1 b1 + my) mod 2 ^ 64 /\ turned64 16 d1 a' d' /\ c' = sum c1 d' mod 2 ^ 64 /\ turned64 63 b1 c' b'.
  (** The columns ([s = 0]) or diagonals ([s = 1]) of a matrix of 4 times 4 words, as for BLAKE3 (C95) *)
  Definition half64 (s : nat) (m v v' : list N) : Prop := length v' = 16%nat /\
    forall j, (j < 4)%nat -> stirred64 (nth (8 * s + 2 * j) m 0) (nth (8 * s + 2 * j + 1) m 0) (line s j v) (line s j v').
  Definition full64 (m v v' : list N) : Prop := exists v1, half64 0 m v v1 /\ half64 1 m v1 v'.
End Stirring.

(** ** BLAKE2b *)
(** Section 2.7: which word of the message comes at place [i] of round [r] *)
Definition orders : list N :=
  [0x0123456789abcdef; 0xea489fd61c02b753; 0xb8c052fdae367194; 0x7931dcbe265a40f8; 0x905724afe1bc683d;
   0x2c6a0b834d75fe19; 0xc51fed4a0763928b; 0xdb7ec13950f4862a; 0x6fe9b308c2d714a5; 0xa2847615fb9e3cd0].
Definition order (r i : nat) : nat := N.to_nat (nth (r mod 10) orders 0 / 16 ^ N.of_nat (15 - i) mod 16).
Definition ordered (r : nat) (m : list N) : list N := map (fun i => nth (order r i) m 0) (seq 0 16).
Definition twelve_rounds (m v v' : list N) : Prop := exists state : nat -> list N,
  state 0%nat = v /\ state 12%nat = v' /\ forall r, (r < 12)%nat -> full64 N.add (ordered r m) (state r) (state (S r)).
Section Blake2.
  Variable IV : list N.
  (** Section 3.2 *)
  Definition compressed2 (h m : list N) (t : N) (last : bool) (h' : list N) : Prop := exists v v',
    v = h ++ firstn 4 IV ++ [N.lxor (nth 4 IV 0) (t mod 2 ^ 64); N.lxor (nth 5 IV 0) (t / 2 ^ 64); (if last then 2 ^ 64 - 1 - nth 6 IV 0 else nth 6 IV 0); nth 7 IV 0] /\
    twelve_rounds m v v' /\ length h' = 8%nat /\ forall i, (i < 8)%nat -> nth i h' 0 = N.lxor (nth i h 0) (N.lxor (nth i v' 0) (nth (8 + i) v' 0)).
  Definition message64 (block : bytes) (m : list N) : Prop := length m = 16%nat /\ forall i, (i < 16)%nat -> nth i m 0 = word64 i block.
  (** Section 3.3: blocks of 128 bytes, the last of which may be shorter (and empty, if it is the only one) *)
  Inductive absorbed2 : N -> list N -> bytes -> list N -> Prop :=
  | absorbed2_last : forall t h b m h', (length b <= 128)%nat -> message64 b m -> compressed2 h m (t + N.of_nat (length b)) true h' -> absorbed2 t h b h'
  | absorbed2_next : forall t h b rest m h1 h', length b = 128%nat -> rest <> [] -> message64 b m -> compressed2 h m (t + 128) false h1 ->
      absorbed2 (t + 128) h1 rest h' -> absorbed2 t h (b ++ rest) h'.
End Blake2.
(** The initial words are those of SHA-512; the first is combined with the size of the digest. *)
Definition blake2b_digest (size : nat) (m d : bytes) : Prop := exists IV out (whole : bytes),
  length IV = 8%nat /\ roots_of_primes 2 64 0 IV /\
  absorbed2 IV 0 (N.lxor (nth 0 IV 0) (0x01010000 + N.of_nat size) :: tl IV) m out /\
  length whole = 64%nat /\ (forall i, (i < 8)%nat -> word64 i whole = nth i out 0) /\ d = firstn size whole.

(** ** RFC 9106, section 3.3: digests of any size *)
Definition long_digest (size : nat) (m d : bytes) : Prop := exists len : bytes, length len = 4%nat /\ little len = N.of_nat size /\
  if (size <=? 64)%nat then blake2b_digest size (len ++ m) d
  else exists V : nat -> bytes, let r := ((size + 31) / 32 - 2)%nat in
    blake2b_digest 64 (len ++ m) (V 1%nat) /\ (forall i, (1 <= i < r)%nat -> blake2b_digest 64 (V i) (V (S i))) /\
    blake2b_digest (size - 32 * r) (V r) (V (S r)) /\ d = flat_map (fun i => firstn 32 (V i)) (seq 1 r) ++ V (S r).

(** ** Sections 3.5 and 3.6: the compression function *)
Definition product_sum (a b : N) : N := a + b + 2 * (a mod 2 ^ 32) * (b mod 2 ^ 32).
(** Row [k] and column [k] of a matrix of 8 times 8 pairs of words *)
Definition row_of (k : nat) (b : list N) : list N := map (fun i => nth (16 * k + i) b 0) (seq 0 16).
Definition column_of (k : nat) (b : list N) : list N := map (fun i => nth (16 * (i / 2) + 2 * k + i mod 2) b 0) (seq 0 16).
Definition block_mixed (x y z : block) : Prop := exists r q p,
  length r = 128%nat /\ length q = 128%nat /\ length p = 128%nat /\ length z = 128%nat /\
  (forall i, (i < 128)%nat -> nth i r 0 = N.lxor (nth i x 0) (nth i y 0)) /\
  (forall k, (k < 8)%nat -> full64 product_sum [] (row_of k r) (row_of k q)) /\
  (forall k, (k < 8)%nat -> full64 product_sum [] (column_of k q) (column_of k p)) /\
  forall i, (i < 128)%nat -> nth i z 0 = N.lxor (nth i r 0) (nth i p 0).
Definition proper (b : block) : Prop := length b = 128%nat /\ Forall (fun w => w < 2 ^ 64) b.
Definition its_words (text : bytes) (b : block) : Prop := length b = 128%nat /\ forall k, (k < 128)%nat -> nth k b 0 = word64 k text.

(** ** Argon2id *)
Definition argon2id_standard (lanes memory passes : N) (size : nat) (password salt tag : bytes) : Prop :=
  exists g h0 first block_of text,
    let seg := N.to_nat (memory / (4 * lanes)) in let p := N.to_nat lanes in let t := N.to_nat passes in
    (forall x y, proper x -> proper y -> block_mixed x y (g x y)) /\
    blake2b_digest 64 (hashed_first lanes memory passes size password salt) h0 /\
    (forall lane i, (lane < p)%nat -> (i < 2)%nat -> exists out, long_digest 1024 (h0 ++ le_bytes 4 (N.of_nat i) ++ le_bytes 4 (N.of_nat lane)) out /\ its_words out (first lane i)) /\
    Argon2Spec.filled g p seg t first block_of /\
    length text = 1024%nat /\ its_words text (final_block p seg t block_of) /\ long_digest size text tag.
