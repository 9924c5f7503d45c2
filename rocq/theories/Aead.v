(** XChaCha20-Poly1305: RFC 8439 with the extended nonces of draft-irtf-cfrg-xchacha-03. The crate calls it through
    [prople_crypto::aead] with a 24-byte nonce and no associated data (core/src/account/mod.rs:92-104). Simplification: the
    limit of 2^32 blocks on the length of a message is left out. *)
From Verif Require Import Base Hash.
Local Open Scope N_scope.

(** RFC 8439, section 2.1 *)
Definition rotl32 (r x : N) : N := N.lor (wmask 32 (N.shiftl x r)) (N.shiftr x (32 - r)).
Definition quarter (a b c d : N) : N * N * N * N :=
  let a := wadd 32 a b in let d := rotl32 16 (N.lxor d a) in
  let c := wadd 32 c d in let b := rotl32 12 (N.lxor b c) in
  let a := wadd 32 a b in let d := rotl32 8 (N.lxor d a) in
  let c := wadd 32 c d in let b := rotl32 7 (N.lxor b c) in
  (a, b, c, d).
(** section 2.2 *)
Definition quarter_at (v : list N) (i j k l : nat) : list N :=
  let '(a, b, c, d) := quarter (nth i v 0) (nth j v 0) (nth k v 0) (nth l v 0) in
  set_nth i a (set_nth j b (set_nth k c (set_nth l d v))).
(** section 2.3 *)
Definition double_round (v : list N) : list N :=
  let v := quarter_at v 0 4 8 12 in let v := quarter_at v 1 5 9 13 in
  let v := quarter_at v 2 6 10 14 in let v := quarter_at v 3 7 11 15 in
  let v := quarter_at v 0 5 10 15 in let v := quarter_at v 1 6 11 12 in
  let v := quarter_at v 2 7 8 13 in quarter_at v 3 4 9 14.
Definition twenty_rounds (v : list N) : list N := Nat.iter 10 double_round v.
Definition words (s : bytes) : list N := map le_word (chunks 4 s).
Definition chacha_constants : list N := [0x61707865; 0x3320646e; 0x79622d32; 0x6b206574].
Definition chacha_block (key : bytes) (counter : N) (nonce : bytes) : bytes :=
  let st := chacha_constants ++ words key ++ [wmask 32 counter] ++ words nonce in
  flat_map (le_bytes 4) (map (fun '(x, y) => wadd 32 x y) (combine (twenty_rounds st) st)).
(** section 2.4 *)
Definition xor_bytes (a b : bytes) : bytes := map (fun '(x, y) => byte_of_N (N.lxor (Byte.to_N x) (Byte.to_N y))) (combine a b).
Fixpoint xor_blocks (key : bytes) (counter : N) (nonce : bytes) (blocks : list bytes) : bytes :=
  match blocks with
  | [] => []
  | b :: rest => xor_bytes b (chacha_block key counter nonce) ++ xor_blocks key (counter + 1) nonce rest
  end.
Definition chacha20 (key : bytes) (counter : N) (nonce m : bytes) : bytes := xor_blocks key counter nonce (chunks 64 m).

(** section 2.5 *)
Definition p1305 : N := 1361129467683753853853498429727072845819.
Definition clamp (r : N) : N := N.land r 0x0ffffffc0ffffffc0ffffffc0fffffff.
Definition poly1305_step (r acc : N) (block : bytes) : N := (acc + le_word (block ++ [x01])) * r mod p1305.
Definition poly1305 (r s : N) (m : bytes) : bytes :=
  le_bytes 16 ((fold_left (poly1305_step r) (chunks 16 m) 0 + s) mod 2 ^ 128).
(** section 2.6 *)
Definition onetime (key nonce : bytes) : N * N :=
  let k := chacha_block key 0 nonce in (clamp (le_word (firstn 16 k)), le_word (firstn 16 (skipn 16 k))).
(** section 2.8, without associated data *)
Definition pad16 (s : bytes) : bytes := s ++ repeat x00 ((16 - length s mod 16) mod 16)%nat.
Definition mac_text (c : bytes) : bytes := pad16 c ++ le_bytes 8 0 ++ le_bytes 8 (N.of_nat (length c)).
Definition mac (key nonce c : bytes) : bytes := let '(r, s) := onetime key nonce in poly1305 r s (mac_text c).

(** draft-irtf-cfrg-xchacha-03, sections 2.2 and 2.3 *)
Definition hchacha (key nonce : bytes) : bytes :=
  let v := twenty_rounds (chacha_constants ++ words key ++ words nonce) in
  flat_map (le_bytes 4) (firstn 4 v ++ skipn 12 v).
Definition subkey (key nonce : bytes) : bytes := hchacha key (firstn 16 nonce).
Definition subnonce (nonce : bytes) : bytes := repeat x00 4 ++ skipn 16 nonce.
Definition xchacha_seal (key nonce m : bytes) : bytes :=
  let c := chacha20 (subkey key nonce) 1 (subnonce nonce) m in c ++ mac (subkey key nonce) (subnonce nonce) c.
Definition xchacha_open (key nonce sealed : bytes) : option bytes :=
  if Nat.ltb (length sealed) 16 then None else
  let c := firstn (length sealed - 16) sealed in
  if bytes_eqb (skipn (length sealed - 16) sealed) (mac (subkey key nonce) (subnonce nonce) c)
  then Some (chacha20 (subkey key nonce) 1 (subnonce nonce) c) else None.
