(** Argon2id, version 0x13, as the argon2 crate computes it (after its published source and RFC 9106; neither is in the sandbox), with
    BLAKE2b (RFC 7693). Passwords are hashed by [prople_crypto::passphrase] (core/src/account/mod.rs:75-88); there is neither a
    secret nor associated data. Numbers of blocks are [nat]s. *)
From Coq Require Import Arith.
From Verif Require Import Base Hash Ed25519.
Local Open Scope N_scope.

(** ** BLAKE2b, without a key *)
Definition sigma : list (list nat) :=
  [ [0; 1; 2; 3; 4; 5; 6; 7; 8; 9; 10; 11; 12; 13; 14; 15]; [14; 10; 4; 8; 9; 15; 13; 6; 1; 12; 0; 2; 11; 7; 5; 3];
    [11; 8; 12; 0; 5; 2; 15; 13; 10; 14; 3; 6; 7; 1; 9; 4]; [7; 9; 3; 1; 13; 12; 11; 14; 2; 6; 5; 10; 4; 0; 15; 8];
    [9; 0; 5; 7; 2; 4; 10; 15; 14; 1; 11; 12; 6; 8; 3; 13]; [2; 12; 6; 10; 0; 11; 8; 3; 4; 13; 7; 5; 15; 14; 1; 9];
    [12; 5; 1; 15; 14; 13; 4; 10; 0; 7; 6; 3; 9; 2; 8; 11]; [13; 11; 7; 14; 12; 1; 3; 9; 5; 0; 15; 4; 8; 6; 2; 10];
    [6; 15; 14; 9; 11; 3; 0; 8; 12; 2; 13; 7; 1; 4; 10; 5]; [10; 2; 8; 4; 7; 6; 1; 5; 15; 11; 9; 14; 3; 12; 13; 0] ]%nat.
(** The mixing function, for some addition of words. *)
Definition mix (add : N -> N -> N) (v : list N) (a b c d : nat) (x y : N) : list N :=
  let a1 := wadd 64 (add (nth a v 0) (nth b v 0)) x in
  let d1 := rotr 64 32 (N.lxor (nth d v 0) a1) in
  let c1 := add (nth c v 0) d1 in
  let b1 := rotr 64 24 (N.lxor (nth b v 0) c1) in
  let a2 := wadd 64 (add a1 b1) y in
  let d2 := rotr 64 16 (N.lxor d1 a2) in
  let c2 := add c1 d2 in
  let b2 := rotr 64 63 (N.lxor b1 c2) in
  set_nth a a2 (set_nth b b2 (set_nth c c2 (set_nth d d2 v))).
Definition mix_round (add : N -> N -> N) (v m : list N) : list N :=
  let w i := nth i m 0 in
  let v := mix add v 0 4 8 12 (w 0%nat) (w 1%nat) in
  let v := mix add v 1 5 9 13 (w 2%nat) (w 3%nat) in
  let v := mix add v 2 6 10 14 (w 4%nat) (w 5%nat) in
  let v := mix add v 3 7 11 15 (w 6%nat) (w 7%nat) in
  let v := mix add v 0 5 10 15 (w 8%nat) (w 9%nat) in
  let v := mix add v 1 6 11 12 (w 10%nat) (w 11%nat) in
  let v := mix add v 2 7 8 13 (w 12%nat) (w 13%nat) in
  mix add v 3 4 9 14 (w 14%nat) (w 15%nat).
Fixpoint zip_xor (a b : list N) : list N :=
  match a, b with x :: a', y :: b' => N.lxor x y :: zip_xor a' b' | _, _ => [] end.
Definition b2_words (b : bytes) : list N := map le_word (chunks 8 (firstn 128 (b ++ repeat x00 128))).
Definition b2_compress (h : list N) (block : bytes) (t : N) (last : bool) : list N :=
  let m := b2_words block in
  let tail := zip_xor iv512 [0; 0; 0; 0; wmask 64 t; N.shiftr t 64; (if last then N.ones 64 else 0); 0] in
  let v := fold_left (fun v s => mix_round (wadd 64) v (map (fun i => nth i m 0) s)) (sigma ++ firstn 2 sigma) (h ++ tail) in
  zip_xor h (zip_xor (firstn 8 v) (skipn 8 v)).
(** [t] bytes were hashed before. *)
Fixpoint b2_blocks (h : list N) (t : N) (blocks : list bytes) : list N :=
  match blocks with
  | [] => b2_compress h [] t true
  | [b] => b2_compress h b (t + N.of_nat (length b)) true
  | b :: rest => b2_blocks (b2_compress h b (t + 128) false) (t + 128) rest
  end.
Definition blake2b (size : nat) (m : bytes) : bytes :=
  let h := zip_xor iv512 [N.lxor 0x01010000 (N.of_nat size); 0; 0; 0; 0; 0; 0; 0] in
  firstn size (flat_map (le_bytes 8) (b2_blocks h 0 (chunks 128 m))).

(** ** Hashes of any size (RFC 9106, section 3.3) *)
Fixpoint long_tail (r size : nat) (v : bytes) : bytes :=
  match r with
  | O => blake2b size v
  | S r' => let w := blake2b 64 v in firstn 32 w ++ long_tail r' size w
  end.
Definition blake2b_long (size : nat) (m : bytes) : bytes :=
  let text := le_bytes 4 (N.of_nat size) ++ m in
  if (size <=? 64)%nat then blake2b size text
  else let r := ((size + 31) / 32 - 2)%nat in long_tail r (size - 32 * r) text.

(** ** Blocks of 1024 bytes: 128 words *)
Definition block : Type := list N.
Definition no_block : block := repeat 0 128.
Definition to_block (b : bytes) : block := map le_word (chunks 8 b).
Definition block_bytes (b : block) : bytes := flat_map (le_bytes 8) b.
(** Section 3.6: additions with a product of the lower halves *)
Definition blamka (a b : N) : N := wmask 64 (a + b + 2 * (wmask 32 a * wmask 32 b)).
Definition permute (v : list N) : list N := mix_round blamka v [].
(** Section 3.5: first the rows of the matrix of 8 times 8 pairs of words, then its columns *)
Definition permute_rows (b : block) : block := flat_map permute (chunks 16 b).
Definition column (b : block) (i : nat) : list N :=
  flat_map (fun k => [nth (16 * k + 2 * i)%nat b 0; nth (16 * k + 2 * i + 1)%nat b 0]) (seq 0 8).
Definition permute_columns (b : block) : block :=
  let cs := map (fun i => permute (column b i)) (seq 0 8) in
  flat_map (fun k => flat_map (fun c => [nth (2 * k)%nat c 0; nth (2 * k + 1)%nat c 0]) cs) (seq 0 8).
Definition compress (x y : block) : block :=
  let r := zip_xor x y in zip_xor r (permute_columns (permute_rows r)).

(** ** Filling the memory *)
Section Fill.
  (** The compression function; the numbers of lanes, of blocks of a segment and of passes. *)
  Variables (g : block -> block -> block) (lanes seg passes : nat).
  Definition lane_length : nat := (4 * seg)%nat.
  (** The memory, the current block of addresses and its number. *)
  Record state := { memory : nat -> block; addresses : block; counter : nat }.
  Definition write (m : nat -> block) (i : nat) (b : block) : nat -> block := fun k => if Nat.eqb k i then b else m k.
  Definition address_input (pass lane slice counter : nat) : block :=
    map N.of_nat [pass; lane; slice; (lanes * lane_length)%nat; passes; 2%nat; counter] ++ repeat 0 121.
  Definition update_address_block (pass lane slice : nat) (st : state) : state :=
    let c := S (counter st) in
    {| memory := memory st; addresses := g no_block (g no_block (address_input pass lane slice c)); counter := c |}.
  (** [n] blocks of a segment, the first of which has number [blk] in it, is at [cur] and comes after [prev]. *)
  Fixpoint fill_blocks (n pass slice lane blk cur prev : nat) (st : state) : state :=
    match n with
    | O => st
    | S n' =>
      let independent := Nat.eqb pass 0 && Nat.ltb slice 2 in
      let st := if independent && Nat.eqb (blk mod 128) 0 then update_address_block pass lane slice st else st in
      let rand := if independent then nth (blk mod 128) (addresses st) 0 else nth 0 (memory st prev) 0 in
      let ref_lane := if Nat.eqb pass 0 && Nat.eqb slice 0 then lane else N.to_nat (N.shiftr rand 32 mod N.of_nat lanes) in
      let area :=
        if Nat.eqb pass 0 then
          if Nat.eqb slice 0 then (blk - 1)%nat
          else if Nat.eqb ref_lane lane then (slice * seg + blk - 1)%nat
          else (slice * seg - if Nat.eqb blk 0 then 1 else 0)%nat
        else if Nat.eqb ref_lane lane then (lane_length - seg + blk - 1)%nat
        else (lane_length - seg - if Nat.eqb blk 0 then 1 else 0)%nat in
      let low := N.land rand 0xFFFFFFFF in
      let map := N.shiftr (low * low) 32 in
      let relative := (area - 1 - N.to_nat (N.shiftr (N.of_nat area * map) 32))%nat in
      let start := if negb (Nat.eqb pass 0) && negb (Nat.eqb slice 3) then ((slice + 1) * seg)%nat else 0%nat in
      let lane_index := ((start + relative) mod lane_length)%nat in
      let result := g (memory st prev) (memory st (ref_lane * lane_length + lane_index)%nat) in
      let b := if Nat.eqb pass 0 then result else zip_xor (memory st cur) result in
      fill_blocks n' pass slice lane (S blk) (S cur) cur {| memory := write (memory st) cur b; addresses := addresses st; counter := counter st |}
    end.
  Definition fill_segment (pass slice : nat) (m : nat -> block) (lane : nat) : nat -> block :=
    let st := {| memory := m; addresses := no_block; counter := 0 |} in
    let beginning := Nat.eqb pass 0 && Nat.eqb slice 0 in
    let st := if beginning then update_address_block pass lane slice st else st in
    let first := if beginning then 2%nat else 0%nat in
    let cur := (lane * lane_length + slice * seg + first)%nat in
    let prev := if Nat.eqb slice 0 && Nat.eqb first 0 then (cur + lane_length - 1)%nat else (cur - 1)%nat in
    memory (fill_blocks (seg - first) pass slice lane first cur prev st).
  Definition fill_slice (pass : nat) (m : nat -> block) (slice : nat) : nat -> block := fold_left (fill_segment pass slice) (seq 0 lanes) m.
  Definition fill_pass (m : nat -> block) (pass : nat) : nat -> block := fold_left (fill_slice pass) (seq 0 4) m.
  Definition fill (m : nat -> block) : nat -> block := fold_left fill_pass (seq 0 passes) m.
  (** The exclusive or of the last blocks. *)
  Definition last_blocks (m : nat -> block) : block :=
    fold_left (fun b lane => zip_xor b (m (lane * lane_length + lane_length - 1)%nat)) (seq 1 (lanes - 1)) (m (lane_length - 1)%nat).
End Fill.

(** Section 3.2: the first hash, the first two blocks of each lane, the tag *)
Definition initial_hash (lanes memory passes : N) (size : nat) (password salt : bytes) : bytes :=
  let u32 n := le_bytes 4 n in
  blake2b 64 (u32 lanes ++ u32 (N.of_nat size) ++ u32 memory ++ u32 passes ++ u32 0x13 ++ u32 2 ++
    u32 (N.of_nat (length password)) ++ password ++ u32 (N.of_nat (length salt)) ++ salt ++ u32 0 ++ u32 0).
Definition first_block (h0 : bytes) (lane i : nat) : block :=
  to_block (blake2b_long 1024 (h0 ++ le_bytes 4 (N.of_nat i) ++ le_bytes 4 (N.of_nat lane))).
Definition initial_memory (h0 : bytes) (lanes q : nat) : nat -> block :=
  fold_left (fun m lane => write (write m (lane * q) (first_block h0 lane 0)) (lane * q + 1) (first_block h0 lane 1)) (seq 0 lanes) (fun _ => no_block).
Definition argon2id_tag (lanes memory passes : N) (size : nat) (password salt : bytes) : bytes :=
  let h0 := initial_hash lanes memory passes size password salt in
  let seg := N.to_nat (memory / (4 * lanes)) in
  let p := N.to_nat lanes in
  let m := fill compress p seg (N.to_nat passes) (initial_memory h0 p (4 * seg)) in
  blake2b_long size (block_bytes (last_blocks p seg m)).
