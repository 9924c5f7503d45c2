(** What XChaCha20-Poly1305 asks of a sealed text, byte by byte and with one sum instead of a loop. ChaCha20's block function and
    the derivation of subkeys are those of Aead.v; [ArxSpec] says what they are (C93_block, C93_extended). *)
From Verif Require Import Base Codec Hash Deps Aead.
Local Open Scope N_scope.

(** Byte [i] of the key stream: blocks of 64 bytes, counted from 1. *)
Definition stream (key nonce : bytes) (i : nat) : byte :=
  nth (i mod 64) (chacha_block (subkey key nonce) (1 + N.of_nat (i / 64)) (subnonce nonce)) x00.
Definition ciphered (key nonce m c : bytes) : Prop := length c = length m /\
  forall i x y, nth_error m i = Some x -> nth_error c i = Some y -> Byte.to_N y = N.lxor (Byte.to_N x) (Byte.to_N (stream key nonce i)).

(** A text cut into pieces of 16 bytes, the last of which may be shorter. *)
Inductive pieces : bytes -> list bytes -> Prop :=
| pieces_nil : pieces [] []
| pieces_last : forall p, p <> [] -> (length p <= 16)%nat -> pieces p [p]
| pieces_full : forall p m ps, length p = 16%nat -> m <> [] -> pieces m ps -> pieces (p ++ m) (p :: ps).
(** Poly1305: the n pieces as numbers with a one on top, times r^n, ..., r^1. *)
Fixpoint total (r : N) (ps : list bytes) : N :=
  match ps with [] => 0 | p :: rest => (le_word p + 256 ^ N.of_nat (length p)) * r ^ N.of_nat (length ps) + total r rest end.
Definition tagged (r s : N) (m t : bytes) : Prop :=
  exists ps, pieces m ps /\ length t = 16%nat /\ le_word t = (total r ps mod (2 ^ 130 - 5) + s) mod 2 ^ 128.
(** The text under the tag: the ciphertext, zeros up to a multiple of 16 bytes, and the lengths (of no associated data and of it). *)
Definition covered (c d : bytes) : Prop := exists k len,
  (k < 16)%nat /\ (16 | N.of_nat (length c + k)) /\ length len = 8%nat /\ le_word len = N.of_nat (length c) mod 2 ^ 64 /\
  d = c ++ repeat x00 k ++ repeat x00 8 ++ len.
(** [c] followed by the tag [t] is correct under the one-time key [(r, s)]. *)
Definition authentic (rs : N * N) (c t : bytes) : Prop := exists d, covered c d /\ tagged (fst rs) (snd rs) d t.
(** One-time keys: of the 128 bits of r, the upper four of every fourth byte and the lower two of bytes 4, 8 and 12 are cleared. *)
Definition kept_bit (i : N) : bool := (i <? 128) && (i mod 32 <? 28) && ((i <? 32) || (2 <=? i mod 32)).
Definition onetime_key (rs : N * N) : Prop := (forall i, N.testbit (fst rs) i = true -> kept_bit i = true) /\ snd rs < 2 ^ 128.
(** The one-time key of a key and a nonce is taken from the stream's block 0. *)
Definition onetime_from (key nonce : bytes) (rs : N * N) : Prop := exists rb sb rest : bytes,
  chacha_block (subkey key nonce) 0 (subnonce nonce) = rb ++ sb ++ rest /\ length rb = 16%nat /\ length sb = 16%nat /\
  (forall i, N.testbit (fst rs) i = kept_bit i && N.testbit (le_word rb) i) /\ snd rs = le_word sb.
Definition sealed (key nonce m z : bytes) : Prop :=
  exists c t rs, z = c ++ t /\ ciphered key nonce m c /\ onetime_from key nonce rs /\ authentic rs c t.
(** The number of pieces under the tag of a ciphertext. *)
Definition text_blocks (c : bytes) : nat := S ((length c + 15) / 16).

(** The crate's AEAD is XChaCha20-Poly1305 and its password hashes have 32 bytes. *)
Definition xchacha (D : deps) : Prop :=
  (forall kp pw salt k, kdf D kp pw salt = Ok k -> length k = 32%nat) /\
  forall key nonce c, length key = 32%nat -> length nonce = 24%nat ->
    match xchacha_open key nonce c with
    | Some m => aead_decrypt D key nonce c = Ok m
    | None => exists e, aead_decrypt D key nonce c = Err e
    end.
(** Sealed keys hold the PEM text in that form. *)
Definition ed_sealed (D : deps) : Prop := forall rnd sk pw ks, ed_seal D rnd sk pw = Ok ks ->
  exists pem cipher key nonce, ed_to_pem D sk = Ok pem /\
    hex_decode (ks_cipher_text ks) = Some cipher /\ kdf D (ks_kdf_params ks) pw (ks_salt ks) = Ok key /\
    hex_decode (ks_nonce ks) = Some nonce /\ length nonce = 24%nat /\ sealed key nonce pem cipher.
(** Two sealed keys of one password that differ only in the ciphertext. *)
Definition same_lock (ks ks' : keysecure) : Prop :=
  ks_kdf_params ks' = ks_kdf_params ks /\ ks_salt ks' = ks_salt ks /\ ks_nonce ks' = ks_nonce ks.
