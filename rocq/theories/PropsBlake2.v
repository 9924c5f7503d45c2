(** C102: BLAKE2b and the compression function inside the password hash. *)
From Verif Require Import Base BaseFacts Codec Hash Deps Argon2 Argon2Spec Blake2Spec Blake2Facts Blake2World PemWorld.
Local Open Scope N_scope.

(** C102. The hash function inside the password hash is BLAKE2b, for texts and digests of every size it is defined for. *)
Theorem C102_blake2b : forall size m d, (size <= 64)%nat -> N.of_nat (length m) < 2 ^ 128 -> (blake2b_digest size m d <-> d = blake2b size m).
Proof. exact blake2b_iff. Qed.
Print Assumptions C102_blake2b.
(** Longer digests are those of RFC 9106. *)
Theorem C102_long : forall size m d, N.of_nat size < 2 ^ 32 -> N.of_nat (length m) < 2 ^ 64 -> (long_digest size m d <-> d = blake2b_long size m).
Proof. exact long_iff. Qed.
Print Assumptions C102_long.
(** Two blocks are mixed, row by row and then column by column, into one. *)
Theorem C102_compress : forall x y z, proper x -> proper y -> (block_mixed x y z <-> z = compress x y).
Proof. exact compress_iff. Qed.
Print Assumptions C102_compress.
(** The password hash is Argon2id, down to its additions, rotations and exclusive ors. *)
Theorem C102_argon2id : forall lanes memory passes size password salt tag, 1 <= lanes -> 8 * lanes <= memory < 2 ^ 32 -> 1 <= passes < 2 ^ 32 -> N.of_nat size < 2 ^ 32 ->
  N.of_nat (length password) < 2 ^ 32 -> N.of_nat (length salt) < 2 ^ 32 ->
  argon2id_standard lanes memory passes size password salt tag <-> tag = argon2id_tag lanes memory passes size password salt.
Proof. exact standard_iff. Qed.
Print Assumptions C102_argon2id.
(** So a password, a salt and costs have a key exactly if the costs are allowed, and then it is their tag. *)
Theorem C102_key : forall D p password salt key, argon2 D ->
  (kdf D p password salt = Ok key <-> costs_ok p password salt /\ argon2id_standard (p_cost p) (m_cost p) (t_cost p) 32 password salt key).
Proof. exact standard_key. Qed.
Print Assumptions C102_key.

(** RFC 7693's digest of "abc", two blocks of which the first word of the mixed block is not zero, a tag, dependencies with the law and
    costs they take. *)
Example C102_example :
  (exists d, blake2b_digest 64 (B "abc") d /\
    hex_encode d = B "ba80a53f981c4d0d6a2797b69f12f6e94c212f14685ac4b74b12bb6fdbffa2d17d87c5392aab792dc252d5de4533cc9518d38aa8dbf1925ab92386edd4009923") /\
  (exists d, long_digest 72 (B "abc") d /\ length d = 72%nat) /\
  (exists z, proper no_block /\ proper (1 :: repeat 0 127) /\ block_mixed no_block (1 :: repeat 0 127) z /\ nth 0 z 0 <> 0) /\
  (exists tag, argon2id_standard 2 256 2 32 (B "password") (B "somesalt") tag) /\
  argon2 whole /\ costs_ok {| m_cost := 19456; p_cost := 1; t_cost := 2; output_len := Some 32 |} (B "password") (B "somesalt").
Proof.
  split; [exists (blake2b 64 (B "abc")); split; [apply blake2b_iff; [apply le_n|reflexivity|reflexivity]|vm_compute; reflexivity]|].
  split; [exists (blake2b_long 72 (B "abc")); split; [apply long_iff; reflexivity|apply Argon2Facts.blake2b_long_len]|].
  assert (P : proper (1 :: repeat 0 127)) by (split; [reflexivity|repeat constructor]).
  split; [exists (compress no_block (1 :: repeat 0 127)); split; [exact no_block_proper|]; split; [exact P|]; split; [apply compress_iff; [exact no_block_proper|exact P|reflexivity]|]|].
  - assert (E : N.eqb (nth 0 (compress no_block (1 :: repeat 0 127)) 0) 0 = false) by (vm_compute; reflexivity). apply N.eqb_neq. exact E.
  - split; [eexists; apply standard_iff; [| | | | | |reflexivity]; repeat split; discriminate|]. split; [exact whole_argon2|]. repeat split; discriminate.
Qed.
