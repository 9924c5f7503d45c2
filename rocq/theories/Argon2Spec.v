(** Specification vocabulary of C101: Argon2id as RFC 9106 describes it, without a memory that is written over. The blocks of a
    lane are numbered in the order of their making: block [j] of pass [r] has the number [r q + j]. *)
From Coq Require Import Arith.
From Verif Require Import Base Codec Hash Deps Argon2.
Local Open Scope N_scope.

Section Recurrence.
  Variables (g : block -> block -> block) (lanes seg passes : nat) (first : nat -> nat -> block).
  Let q := (4 * seg)%nat.
  (** Section 3.4.1.2: word [k] of the addresses of the first two segments of a lane. *)
  Definition fixed_word (lane segment k : nat) : N :=
    nth (k mod 128) (g no_block (g no_block
      (map N.of_nat [0%nat; lane; segment; (lanes * q)%nat; passes; 2%nat; S (k / 128)] ++ repeat 0 121))) 0.
  Section Blocks.
    (** Block number [n] of a lane. *)
    Variable block_of : nat -> nat -> block.
    (** The pseudo-random number for a block: in the first two segments it depends on nothing secret. *)
    Definition random (lane n : nat) : N :=
      if Nat.ltb n (2 * seg) then fixed_word lane (n / seg) (n mod seg) else nth 0 (block_of lane (n - 1)) 0.
    Definition its_lane (lane n : nat) : nat :=
      if Nat.ltb n seg then lane else N.to_nat (random lane n / 2 ^ 32 mod N.of_nat lanes).
    (** Section 3.4.2: the blocks of a lane it may refer to are those of the three segments before its own; in its own lane also those
        of its own segment, the one before it apart; of another lane, the first block of a segment may not refer to the last. *)
    Definition may_refer (lane n other u : nat) : bool :=
      let start := (n / seg * seg)%nat in
      Nat.leb start (u + 3 * seg) &&
      if Nat.eqb other lane then Nat.ltb (S u) n else Nat.ltb u start && negb (Nat.eqb n start && Nat.eqb (S u) start).
    Definition choices (lane n : nat) : list nat := filter (may_refer lane n (its_lane lane n)) (seq 0 n).
    Definition chosen (lane n : nat) : nat :=
      let size := N.of_nat (length (choices lane n)) in
      let x := (random lane n mod 2 ^ 32) ^ 2 / 2 ^ 32 in
      nth (N.to_nat (size - 1 - size * x / 2 ^ 32)) (choices lane n) 0%nat.
    (** Section 3.2, steps 3 to 6 *)
    Definition filled : Prop := forall lane n, (lane < lanes)%nat -> (n < passes * q)%nat ->
      block_of lane n =
        if Nat.ltb n 2 then first lane n
        else let new := g (block_of lane (n - 1)) (block_of (its_lane lane n) (chosen lane n)) in
          if Nat.ltb n q then new else zip_xor (block_of lane (n - q)) new.
  End Blocks.
  (** Steps 7 and 8: the exclusive or of the last block of every lane. *)
  Definition final_block (block_of : nat -> nat -> block) : block :=
    let last lane := block_of lane (passes * q - 1)%nat in
    fold_left zip_xor (map last (seq 1 (lanes - 1))) (last 0%nat).
End Recurrence.

(** What the first hash is taken of: all numbers have four bytes, least significant byte first. *)
Definition hashed_first (lanes memory passes : N) (size : nat) (password salt : bytes) : bytes :=
  flat_map (le_bytes 4) [lanes; N.of_nat size; memory; passes; 19; 2] ++
  le_bytes 4 (N.of_nat (length password)) ++ password ++ le_bytes 4 (N.of_nat (length salt)) ++ salt ++ repeat x00 8.
Definition argon2id (lanes memory passes : N) (size : nat) (password salt tag : bytes) : Prop :=
  exists block_of,
    let seg := N.to_nat (memory / (4 * lanes)) in
    let h0 := blake2b 64 (hashed_first lanes memory passes size password salt) in
    let first lane i := to_block (blake2b_long 1024 (h0 ++ le_bytes 4 (N.of_nat i) ++ le_bytes 4 (N.of_nat lane))) in
    filled compress (N.to_nat lanes) seg (N.to_nat passes) first block_of /\
    tag = blake2b_long size (block_bytes (final_block (N.to_nat lanes) seg (N.to_nat passes) block_of)).

(** Parameters and inputs the argon2 crate takes. *)
Definition costs_ok (p : kdf_params) (password salt : bytes) : Prop :=
  1 <= p_cost p < 2 ^ 24 /\ 8 * p_cost p <= m_cost p < 2 ^ 32 /\ 1 <= t_cost p < 2 ^ 32 /\
  match output_len p with Some n => 4 <= n < 2 ^ 32 | None => True end /\
  8 <= N.of_nat (length salt) < 2 ^ 32 /\ N.of_nat (length password) < 2 ^ 32.
(** The crate's password hashes are tags of 32 bytes. *)
Definition argon2 (D : deps) : Prop := forall p password salt,
  match kdf D p password salt with
  | Ok key => costs_ok p password salt /\ argon2id (p_cost p) (m_cost p) (t_cost p) 32 password salt key
  | Err _ => ~ costs_ok p password salt
  end.
(** Another declared length of the output. *)
Definition with_output_len (ks : keysecure) (n : option N) : keysecure :=
  {| ks_cipher_text := ks_cipher_text ks;
     ks_kdf_params := {| m_cost := m_cost (ks_kdf_params ks); p_cost := p_cost (ks_kdf_params ks); t_cost := t_cost (ks_kdf_params ks); output_len := n |};
     ks_salt := ks_salt ks; ks_nonce := ks_nonce ks; ks_rest := ks_rest ks |}.
