(** C94: SHA-2 as FIPS 180-4 describes it. *)
From Verif Require Import Base Codec Deps Types Keys Did Proof Suite Identity DidFacts Hash DigestSpec Ed25519 Demo ShaSpec ShaWorld.
Local Open Scope N_scope.

(** C94. The hash functions of the model are SHA-256, SHA-384 and SHA-512 as FIPS 180-4 describes them: every message has one digest,
    the chain of its padded blocks under constants that are digits of roots of primes. *)
Theorem C94_sha256 : forall m d, fips_sha256 m d <-> d = real_sha256 m.
Proof. exact sha256_iff. Qed.
Print Assumptions C94_sha256.
Theorem C94_sha384 : forall m d, fips_sha384 m d <-> d = real_sha384 m.
Proof. exact sha384_iff. Qed.
Print Assumptions C94_sha384.
Theorem C94_sha512 : forall m d, fips_sha512 m d <-> d = real_sha512 m.
Proof. exact sha512_iff. Qed.
Print Assumptions C94_sha512.

(** With these hash functions a proof signs SHA-256 of the canonical options followed by SHA-256 of the canonical document, ... *)
Theorem C94_message : forall D, real_hashes D -> forall t c m,
  generate_hash D t c = Ok m <-> exists ht hc, fips_sha256 t ht /\ fips_sha256 c hc /\ m = hc ++ ht.
Proof. exact fips_message. Qed.
Print Assumptions C94_message.
Theorem C94_created : forall D, real_hashes D -> forall T (P : proofable T) kp doc opts p,
  eddsa_create_proof D P kp doc opts = Ok p ->
  exists text config ht hc, pf_to_jcs P doc = Ok text /\ proof_to_jcs D opts = Ok config /\ fips_sha256 text ht /\ fips_sha256 config hc /\
    p_value p = mb_encode58 (ed_sign D kp (hc ++ ht)).
Proof. exact fips_created. Qed.
Print Assumptions C94_created.
(** ... and a DID's value comes from SHA-384 of its account's key. *)
Theorem C94_identity : forall D, real_hashes D -> forall d : did D, exists i h,
  did_identity d = Ok i /\ fips_sha384 (ed_pub_bytes D (account_pubkey (did_account d))) h /\
  id_value i = B "did:prople:" ++ mb_encode58 (hex_encode (blake3 D h)).
Proof. exact fips_identity. Qed.
Print Assumptions C94_identity.
(** FIPS 180-4's examples: one block and two blocks. *)
Example C94_example :
  hex_encode (real_sha256 (B "abc")) = B "ba7816bf8f01cfea414140de5dae2223b00361a396177a9cb410ff61f20015ad" /\
  hex_encode (real_sha256 (B "abcdbcdecdefdefgefghfghighijhijkijkljklmklmnlmnomnopnopq")) = B "248d6a61d20638b8e5c026930c3e6039a33ce45964ff2167f6ecedd419db06c1" /\
  hex_encode (real_sha384 (B "abc")) = B "cb00753f45a35e8bb5a03d699ac65007272c32ab0eded1631a8b605a43ff5bed8086072ba1e7cc2358baeca134c825a7" /\
  hex_encode (real_sha512 (B "abc")) = B "ddaf35a193617abacc417349ae20413112e6fa4e89a97ea20a9eeee64b55d39a2192992a274fc1a836ba3c23a3feebbd454d4423643ce80e2a9ac94fa54ca49f" /\
  real_hashes demo.
Proof. do 4 (split; [vm_compute; reflexivity|]). repeat split; reflexivity. Qed.
