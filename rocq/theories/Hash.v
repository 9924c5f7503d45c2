(** SHA-256, SHA-384 (FIPS 180-4) and BLAKE3 (unkeyed, 32 bytes of output) as executable functions.
    They are dependencies of the crate ([sha2], [blake3], core/Cargo.toml), used here to instantiate
    [deps] concretely; the theorems hold for any hash functions of the right output sizes. *)
From Verif Require Import Base Codec.
Open Scope N_scope.
Set Implicit Arguments.

(** ** SHA-2 *)
Definition k256 : list N :=
  [0x428a2f98; 0x71374491; 0xb5c0fbcf; 0xe9b5dba5; 0x3956c25b; 0x59f111f1; 0x923f82a4; 0xab1c5ed5; 
   0xd807aa98; 0x12835b01; 0x243185be; 0x550c7dc3; 0x72be5d74; 0x80deb1fe; 0x9bdc06a7; 0xc19bf174; 
   0xe49b69c1; 0xefbe4786; 0x0fc19dc6; 0x240ca1cc; 0x2de92c6f; 0x4a7484aa; 0x5cb0a9dc; 0x76f988da; 
   0x983e5152; 0xa831c66d; 0xb00327c8; 0xbf597fc7; 0xc6e00bf3; 0xd5a79147; 0x06ca6351; 0x14292967; 
   0x27b70a85; 0x2e1b2138; 0x4d2c6dfc; 0x53380d13; 0x650a7354; 0x766a0abb; 0x81c2c92e; 0x92722c85; 
   0xa2bfe8a1; 0xa81a664b; 0xc24b8b70; 0xc76c51a3; 0xd192e819; 0xd6990624; 0xf40e3585; 0x106aa070; 
   0x19a4c116; 0x1e376c08; 0x2748774c; 0x34b0bcb5; 0x391c0cb3; 0x4ed8aa4a; 0x5b9cca4f; 0x682e6ff3; 
   0x748f82ee; 0x78a5636f; 0x84c87814; 0x8cc70208; 0x90befffa; 0xa4506ceb; 0xbef9a3f7; 0xc67178f2]%N.
Definition k512 : list N :=
  [0x428a2f98d728ae22; 0x7137449123ef65cd; 0xb5c0fbcfec4d3b2f; 0xe9b5dba58189dbbc; 0x3956c25bf348b538; 0x59f111f1b605d019; 0x923f82a4af194f9b; 0xab1c5ed5da6d8118; 
   0xd807aa98a3030242; 0x12835b0145706fbe; 0x243185be4ee4b28c; 0x550c7dc3d5ffb4e2; 0x72be5d74f27b896f; 0x80deb1fe3b1696b1; 0x9bdc06a725c71235; 0xc19bf174cf692694; 
   0xe49b69c19ef14ad2; 0xefbe4786384f25e3; 0x0fc19dc68b8cd5b5; 0x240ca1cc77ac9c65; 0x2de92c6f592b0275; 0x4a7484aa6ea6e483; 0x5cb0a9dcbd41fbd4; 0x76f988da831153b5; 
   0x983e5152ee66dfab; 0xa831c66d2db43210; 0xb00327c898fb213f; 0xbf597fc7beef0ee4; 0xc6e00bf33da88fc2; 0xd5a79147930aa725; 0x06ca6351e003826f; 0x142929670a0e6e70; 
   0x27b70a8546d22ffc; 0x2e1b21385c26c926; 0x4d2c6dfc5ac42aed; 0x53380d139d95b3df; 0x650a73548baf63de; 0x766a0abb3c77b2a8; 0x81c2c92e47edaee6; 0x92722c851482353b; 
   0xa2bfe8a14cf10364; 0xa81a664bbc423001; 0xc24b8b70d0f89791; 0xc76c51a30654be30; 0xd192e819d6ef5218; 0xd69906245565a910; 0xf40e35855771202a; 0x106aa07032bbd1b8; 
   0x19a4c116b8d2d0c8; 0x1e376c085141ab53; 0x2748774cdf8eeb99; 0x34b0bcb5e19b48a8; 0x391c0cb3c5c95a63; 0x4ed8aa4ae3418acb; 0x5b9cca4f7763e373; 0x682e6ff3d6b2b8a3; 
   0x748f82ee5defb2fc; 0x78a5636f43172f60; 0x84c87814a1f0ab72; 0x8cc702081a6439ec; 0x90befffa23631e28; 0xa4506cebde82bde9; 0xbef9a3f7b2c67915; 0xc67178f2e372532b; 
   0xca273eceea26619c; 0xd186b8c721c0c207; 0xeada7dd6cde0eb1e; 0xf57d4f7fee6ed178; 0x06f067aa72176fba; 0x0a637dc5a2c898a6; 0x113f9804bef90dae; 0x1b710b35131c471b; 
   0x28db77f523047d84; 0x32caab7b40c72493; 0x3c9ebe0a15c9bebc; 0x431d67c49c100d4c; 0x4cc5d4becb3e42b6; 0x597f299cfc657e2a; 0x5fcb6fab3ad6faec; 0x6c44198c4a475817]%N.
Definition iv256 : list N :=
  [0x6a09e667; 0xbb67ae85; 0x3c6ef372; 0xa54ff53a; 0x510e527f; 0x9b05688c; 0x1f83d9ab; 0x5be0cd19]%N.
Definition iv384 : list N :=
  [0xcbbb9d5dc1059ed8; 0x629a292a367cd507; 0x9159015a3070dd17; 0x152fecd8f70e5939; 0x67332667ffc00b31; 0x8eb44a8768581511; 0xdb0c2e0d64f98fa7; 0x47b5481dbefa4fa4]%N.

(** Words of [w] bits. *)
Definition wmask (w : N) (x : N) : N := N.land x (N.ones w).
Definition wadd (w a b : N) : N := wmask w (a + b).
Definition rotr (w r x : N) : N := N.lor (N.shiftr x r) (wmask w (N.shiftl x (w - r))).
Definition xor3 (a b c : N) : N := N.lxor a (N.lxor b c).

Record sha_params := {
  sw : N;                                  (* word bits *)
  s_rounds : nat;
  s_k : list N;
  S0 : N * N * N; S1 : N * N * N;          (* rotations *)
  s0 : N * N * N; s1 : N * N * N           (* rotation, rotation, shift *)
}.
Definition big (p : sha_params) (r : N * N * N) (x : N) : N :=
  let '(a, b, c) := r in xor3 (rotr (sw p) a x) (rotr (sw p) b x) (rotr (sw p) c x).
Definition small (p : sha_params) (r : N * N * N) (x : N) : N :=
  let '(a, b, c) := r in xor3 (rotr (sw p) a x) (rotr (sw p) b x) (N.shiftr x c).

(** Big-endian words and bytes. *)
Definition be_word (bs : bytes) : N := fold_left (fun n b => n * 256 + Byte.to_N b) bs 0.
Fixpoint be_bytes (k : nat) (x : N) : bytes :=
  match k with O => [] | S k' => be_bytes k' (x / 256) ++ [byte_of_N (x mod 256)] end.
Fixpoint chunks_fuel {A} (fuel k : nat) (l : list A) : list (list A) :=
  match fuel, l with
  | O, _ | _, [] => []
  | S f, _ => firstn k l :: chunks_fuel f k (skipn k l)
  end.
Definition chunks {A} (k : nat) (l : list A) : list (list A) := chunks_fuel (length l) k l.

Definition sha_pad (p : sha_params) (m : bytes) : bytes :=
  let wb := N.to_nat (sw p / 8) in
  let block := (16 * wb)%nat in
  let used := ((length m + 1 + 2 * wb) mod block)%nat in
  let zeros := ((block - used) mod block)%nat in
  m ++ [x80] ++ repeat x00 zeros ++ be_bytes (2 * wb) (8 * N.of_nat (length m)).

(** Message schedule: the last sixteen words, newest first. *)
Fixpoint schedule (p : sha_params) (n : nat) (recent : list N) : list N :=
  match n with
  | O => []
  | S n' =>
    let nw := wadd (sw p) (wadd (sw p) (small p (s1 p) (nth 1 recent 0)) (nth 6 recent 0))
                          (wadd (sw p) (small p (s0 p) (nth 14 recent 0)) (nth 15 recent 0)) in
    nw :: schedule p n' (nw :: firstn 15 recent)
  end.
Definition sha_round (p : sha_params) (st : list N) (kw : N * N) : list N :=
  match st with
  | [a; b; c; d; e; f; g; h] =>
    let ch := N.lxor (N.land e f) (N.land (wmask (sw p) (N.lxor e (N.ones (sw p)))) g) in
    let t1 := wadd (sw p) (wadd (sw p) (wadd (sw p) h (big p (S1 p) e)) ch) (wadd (sw p) (fst kw) (snd kw)) in
    let maj := xor3 (N.land a b) (N.land a c) (N.land b c) in
    let t2 := wadd (sw p) (big p (S0 p) a) maj in
    [wadd (sw p) t1 t2; a; b; c; wadd (sw p) d t1; e; f; g]
  | _ => st
  end.
Fixpoint zip_add (w : N) (a b : list N) : list N :=
  match a, b with x :: a', y :: b' => wadd w x y :: zip_add w a' b' | _, _ => [] end.
Definition sha_block (p : sha_params) (st : list N) (block : bytes) : list N :=
  let ws := map be_word (chunks (N.to_nat (sw p / 8)) block) in
  let sched := ws ++ schedule p (s_rounds p - 16) (rev ws) in
  zip_add (sw p) st (fold_left (sha_round p) (combine (s_k p) sched) st).
Definition sha_state (p : sha_params) (iv : list N) (m : bytes) : list N :=
  fold_left (sha_block p) (chunks (16 * N.to_nat (sw p / 8)) (sha_pad p m)) iv.

Definition sha256_params : sha_params :=
  {| sw := 32; s_rounds := 64; s_k := k256; S0 := (2, 13, 22); S1 := (6, 11, 25); s0 := (7, 18, 3); s1 := (17, 19, 10) |}.
Definition sha512_params : sha_params :=
  {| sw := 64; s_rounds := 80; s_k := k512; S0 := (28, 34, 39); S1 := (14, 18, 41); s0 := (1, 8, 7); s1 := (19, 61, 6) |}.

Definition real_sha256 (m : bytes) : bytes := flat_map (be_bytes 4) (sha_state sha256_params iv256 m).
Definition real_sha384 (m : bytes) : bytes := firstn 48 (flat_map (be_bytes 8) (sha_state sha512_params iv384 m)).

(** ** BLAKE3 *)
Fixpoint le_bytes (k : nat) (x : N) : bytes :=
  match k with O => [] | S k' => byte_of_N (x mod 256) :: le_bytes k' (x / 256) end.
Definition le_word (bs : bytes) : N := fold_right (fun b n => Byte.to_N b + 256 * n) 0 bs.

Definition b3_iv : list N := iv256.
Definition b3_perm : list nat := [2; 6; 3; 10; 7; 0; 4; 13; 1; 11; 12; 5; 9; 14; 15; 8]%nat.
Definition set_nth (i : nat) (x : N) (l : list N) : list N := firstn i l ++ x :: skipn (S i) l.
Definition b3_g (v : list N) (a b c d : nat) (mx my : N) : list N :=
  let add := wadd 32 in
  let get l i := nth i l 0 in
  let v := set_nth a (add (add (get v a) (get v b)) mx) v in
  let v := set_nth d (rotr 32 16 (N.lxor (get v d) (get v a))) v in
  let v := set_nth c (add (get v c) (get v d)) v in
  let v := set_nth b (rotr 32 12 (N.lxor (get v b) (get v c))) v in
  let v := set_nth a (add (add (get v a) (get v b)) my) v in
  let v := set_nth d (rotr 32 8 (N.lxor (get v d) (get v a))) v in
  let v := set_nth c (add (get v c) (get v d)) v in
  set_nth b (rotr 32 7 (N.lxor (get v b) (get v c))) v.
Definition b3_round (v m : list N) : list N :=
  let g i := nth i m 0 in
  let v := b3_g v 0 4 8 12 (g 0%nat) (g 1%nat) in
  let v := b3_g v 1 5 9 13 (g 2%nat) (g 3%nat) in
  let v := b3_g v 2 6 10 14 (g 4%nat) (g 5%nat) in
  let v := b3_g v 3 7 11 15 (g 6%nat) (g 7%nat) in
  let v := b3_g v 0 5 10 15 (g 8%nat) (g 9%nat) in
  let v := b3_g v 1 6 11 12 (g 10%nat) (g 11%nat) in
  let v := b3_g v 2 7 8 13 (g 12%nat) (g 13%nat) in
  b3_g v 3 4 9 14 (g 14%nat) (g 15%nat).
Fixpoint b3_rounds (n : nat) (v m : list N) : list N :=
  match n with
  | O => v
  | S n' => b3_rounds n' (b3_round v m) (map (fun i => nth i m 0) b3_perm)
  end.
(** The first eight words of the compression function's output (the chaining value; also the first 32
    bytes of root output). *)
Definition b3_compress (cv block : list N) (counter blen flags : N) : list N :=
  let v := cv ++ firstn 4 b3_iv ++ [wmask 32 counter; N.shiftr counter 32; blen; flags] in
  let r := b3_rounds 7 v block in
  map (fun i => N.lxor (nth i r 0) (nth (i + 8) r 0)) [0; 1; 2; 3; 4; 5; 6; 7]%nat.
Definition b3_words (bs : bytes) : list N :=
  map le_word (chunks 4 (bs ++ repeat x00 (64 - length bs))).
(** Compress the blocks of one chunk; [extra] are the flags added to the last block. *)
Fixpoint b3_blocks (cv : list N) (counter : N) (start : N) (extra : N) (blocks : list bytes) : list N :=
  match blocks with
  | [] => cv
  | [b] => b3_compress cv (b3_words b) counter (N.of_nat (length b)) (start + 2 + extra)
  | b :: bs => b3_blocks (b3_compress cv (b3_words b) counter (N.of_nat (length b)) start) counter 0 extra bs
  end.
Definition b3_chunk (counter extra : N) (chunk : bytes) : list N :=
  b3_blocks b3_iv counter 1 extra (match chunk with [] => [[]] | _ => chunks 64 chunk end).
Definition b3_parent (extra : N) (l r : list N) : list N :=
  b3_compress b3_iv (l ++ r) 0 64 (4 + extra).
(** Largest power of two below [n] (for [n >= 2]). *)
Definition left_len (n : N) : N := 2 ^ N.log2 (n - 1).
Fixpoint b3_tree (fuel : nat) (counter extra : N) (cs : list bytes) : list N :=
  match fuel, cs with
  | O, _ => b3_iv
  | _, [] => b3_chunk counter extra []
  | _, [c] => b3_chunk counter extra c
  | S f, _ =>
    let k := left_len (N.of_nat (length cs)) in
    let l := b3_tree f counter 0 (firstn (N.to_nat k) cs) in
    let r := b3_tree f (counter + k) 0 (skipn (N.to_nat k) cs) in
    b3_parent extra l r
  end.
Definition real_blake3 (m : bytes) : bytes :=
  let cs := chunks 1024 m in
  flat_map (le_bytes 4) (b3_tree (S (length cs)) 0 8 cs).
