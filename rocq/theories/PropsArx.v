(** C95: BLAKE3 as its paper describes it; C93 continued: ChaCha20's blocks. *)
From Verif Require Import Base Codec Deps Types Keys Did Identity Hashlink Hash HashFacts DigestSpec Aead Demo ShaSpec ArxSpec ArxFacts ArxWorld.
Local Open Scope N_scope.

(** C95. The hash function of the model is BLAKE3 as its paper describes it: chunks of 1024 bytes in a tree with complete left
    subtrees, and rounds that stir columns and diagonals. Every text below 2^64 bytes has one digest. *)
Theorem C95_blake3 : forall m d, N.of_nat (length m) < 2 ^ 64 -> (blake3_digest m d <-> d = real_blake3 m).
Proof. exact blake3_iff. Qed.
Print Assumptions C95_blake3.
(** With this hash function, hashlinks are the base58 texts of the digest behind the bytes 1e 20, ... *)
Theorem C95_hashlink : forall D, real_hashes D -> forall s t, N.of_nat (length s) < 2 ^ 64 ->
  (generate_from_json D (Ok (JSONValue s)) = Ok t <-> exists h, blake3_digest s h /\ t = mb_encode58 (x1e :: x20 :: h)).
Proof. exact paper_hashlink. Qed.
Print Assumptions C95_hashlink.
Theorem C95_verified : forall D, real_hashes D -> forall s t, N.of_nat (length s) < 2 ^ 64 ->
  (verify_from_json D (Ok (JSONValue s)) t = Ok tt <-> exists h, blake3_digest s h /\ mb_decode (mb_other D) t = Some (Base58Btc, x1e :: x20 :: h)).
Proof. exact paper_verified. Qed.
Print Assumptions C95_verified.
(** ... and a DID's value is the base58 text of the hexadecimal BLAKE3 digest of the SHA-384 digest of its account's key. *)
Theorem C95_identity : forall D, real_hashes D -> forall d : did D, exists i h h', did_identity d = Ok i /\
  fips_sha384 (ed_pub_bytes D (account_pubkey (did_account d))) h /\ blake3_digest h h' /\
  id_value i = B "did:prople:" ++ mb_encode58 (hex_encode h').
Proof. exact paper_identity. Qed.
Print Assumptions C95_identity.
(** Published vectors: no bytes, one chunk, two chunks. *)
Example C95_example :
  hex_encode (real_blake3 []) = B "af1349b9f5f9a1a6a0404dea36dcc9499bcb25c9adc112b7cc9a93cae41f3262" /\
  hex_encode (real_blake3 (b3_input 1024)) = B "42214739f095a406f3fc83deb889744ac00df831c10daa55189b5d121c855af7" /\
  hex_encode (real_blake3 (b3_input 1025)) = B "d00278ae47eb27b34faecf67b4fe263f82d5412916c1ffd97c8cb7fb814b8444" /\
  real_hashes demo.
Proof. do 3 (split; [vm_compute; reflexivity|]). repeat split; reflexivity. Qed.

(** C93. The blocks of the key stream, of which the theorems on sealed keys speak, are those of RFC 8439, ... *)
Theorem C93_block : forall key counter nonce out, length key = 32%nat -> length nonce = 12%nat ->
  (stream_block key counter nonce out <-> out = chacha_block key counter nonce).
Proof. exact stream_block_iff. Qed.
Print Assumptions C93_block.
(** ... under the subkey and with the nonce that XChaCha20 derives. *)
Theorem C93_extended : forall key nonce counter out, length key = 32%nat -> length nonce = 24%nat ->
  ((exists k, derived_key key (firstn 16 nonce) k /\ stream_block k counter (repeat x00 4 ++ skipn 16 nonce) out) <->
   out = chacha_block (subkey key nonce) counter (subnonce nonce)).
Proof. exact xblock_iff. Qed.
Print Assumptions C93_extended.
(** RFC 8439, section 2.3.2, and draft-irtf-cfrg-xchacha-03, section 2.2.1 *)
Example C93_example_blocks :
  (let key := map (fun i => byte_of_N (N.of_nat i)) (seq 0 32) in
   hex_decode (B "000000090000004a00000000") = Some [x00; x00; x00; x09; x00; x00; x00; x4a; x00; x00; x00; x00] /\
   hex_encode (chacha_block key 1 [x00; x00; x00; x09; x00; x00; x00; x4a; x00; x00; x00; x00]) =
     B "10f1e7e4d13b5915500fdd1fa32071c4c7d1f4c733c068030422aa9ac3d46c4ed2826446079faa0914c2d705d98b02a2b5129cd1de164eb9cbd083e8a2503c4e" /\
   hex_encode (hchacha key [x00; x00; x00; x09; x00; x00; x00; x4a; x00; x00; x00; x00; x31; x41; x59; x27]) =
     B "82413b4227b27bfed30e42508a877d73a0f9e4d58a74a853c12ec41326d3ecdc").
Proof. vm_compute. repeat split; reflexivity. Qed.
