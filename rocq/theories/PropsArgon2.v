(** C101: the password hash. *)
From Verif Require Import Base BaseFacts Codec Hash Deps Types Keys SealSpec SealFacts AeadSpec AeadWorld Demo Ed25519World Argon2 Argon2Spec Argon2Facts Argon2World PemSpec PemWorld.
Local Open Scope N_scope.

(** C101. Argon2id, as it is computed in a memory that is written over in every pass, gives exactly the tags of the recurrence that
    RFC 9106 describes, for all costs, passwords and salts, ... *)
Theorem C101_tag : forall lanes memory passes size password salt tag, 1 <= lanes -> 8 * lanes <= memory -> 1 <= passes ->
  argon2id lanes memory passes size password salt tag <-> tag = argon2id_tag lanes memory passes size password salt.
Proof. exact argon2id_iff. Qed.
Print Assumptions C101_tag.
(** ... because, for any compression function, no block is written over before its last use. *)
Theorem C101_memory : forall g lanes seg passes first, (1 <= lanes)%nat -> (2 <= seg)%nat -> (1 <= passes)%nat ->
  (exists blocks, filled g lanes seg passes first blocks) /\
  forall blocks m, filled g lanes seg passes first blocks -> (forall lane i, (lane < lanes)%nat -> (i < 2)%nat -> m (lane * (4 * seg) + i)%nat = first lane i) ->
    last_blocks lanes seg (fill g lanes seg passes m) = final_block lanes seg passes blocks.
Proof. exact memory_last. Qed.
Print Assumptions C101_memory.
(** Passwords, salts and costs that differ are told apart by the text that the first hash is taken of. *)
Theorem C101_apart : forall lanes memory passes size pw salt lanes' memory' passes' size' pw' salt',
  Forall (fun n => n < 2 ^ 32) [lanes; memory; passes; N.of_nat size; N.of_nat (length pw); N.of_nat (length salt)] ->
  Forall (fun n => n < 2 ^ 32) [lanes'; memory'; passes'; N.of_nat size'; N.of_nat (length pw'); N.of_nat (length salt')] ->
  hashed_first lanes memory passes size pw salt = hashed_first lanes' memory' passes' size' pw' salt' ->
  (lanes, memory, passes, size, pw, salt) = (lanes', memory', passes', size', pw', salt').
Proof. exact first_inj. Qed.
Print Assumptions C101_apart.
(** With the crate's Argon2id and XChaCha20-Poly1305, a KeySecure opens exactly if its costs are allowed and its ciphertext is the PEM
    text of a key sealed under the tag of the password. *)
Theorem C101_keysecure : forall D, xchacha D -> argon2 D -> forall pw ks (a : account D), account_from_keysecure D pw ks = Ok a <->
  exists cipher key nonce pem,
    hex_decode (ks_cipher_text ks) = Some cipher /\ costs_ok (ks_kdf_params ks) pw (ks_salt ks) /\
    argon2id (p_cost (ks_kdf_params ks)) (m_cost (ks_kdf_params ks)) (t_cost (ks_kdf_params ks)) 32 pw (ks_salt ks) key /\
    hex_decode (ks_nonce ks) = Some nonce /\ length nonce = 24%nat /\
    sealed key nonce pem cipher /\ utf8_valid pem = true /\ ed_from_pem D pem = Ok (acc_pair a).
Proof. exact opens_argon2. Qed.
Print Assumptions C101_keysecure.
(** Costs that are not allowed are refused, with the message of the password hash, before anything is decrypted. *)
Theorem C101_costs : forall D pw ks cipher, argon2 D -> hex_decode (ks_cipher_text ks) = Some cipher -> ~ costs_ok (ks_kdf_params ks) pw (ks_salt ks) ->
  exists m, kdf D (ks_kdf_params ks) pw (ks_salt ks) = Err m /\ account_from_keysecure D pw ks = Err (DecodeError m).
Proof. exact costs_refused. Qed.
Print Assumptions C101_costs.
(** Every key of the password hash has 32 bytes. *)
Theorem C101_length : forall D p pw salt key, argon2 D ->
  (kdf D p pw salt = Ok key <-> costs_ok p pw salt /\ argon2id (p_cost p) (m_cost p) (t_cost p) 32 pw salt key) /\ (kdf D p pw salt = Ok key -> length key = 32%nat).
Proof. exact argon2_key. Qed.
Print Assumptions C101_length.
(** It is false that the declared length of the output belongs to what is opened: any other allowed one, or none, opens the same key. *)
Theorem C101_output_len_refuted : forall D pw ks (a : account D) n, argon2 D -> match n with Some k => 4 <= k < 2 ^ 32 | None => True end ->
  account_from_keysecure D pw ks = Ok a -> account_from_keysecure D pw (with_output_len ks n) = Ok a.
Proof. exact output_len_ignored. Qed.
Print Assumptions C101_output_len_refuted.

(** BLAKE2b of RFC 7693, appendix A; dependencies with both laws, which seal every key for every password; what they sealed is opened,
    also with another declared length; costs that are refused. *)
Example C101_example :
  hex_encode (blake2b 64 (B "abc")) = B "ba80a53f981c4d0d6a2797b69f12f6e94c212f14685ac4b74b12bb6fdbffa2d17d87c5392aab792dc252d5de4533cc9518d38aa8dbf1925ab92386edd4009923" /\
  xchacha whole /\ argon2 whole /\
  (forall (a : account whole) pw, N.of_nat (length pw) < 2 ^ 32 -> exists ks, ed_seal whole (B "salt", B "nonce") (account_privkey a) pw = Ok ks /\
     account_from_keysecure whole pw ks = Ok a /\ costs_ok (ks_kdf_params ks) pw (ks_salt ks) /\ account_from_keysecure whole pw (with_output_len ks (Some 64)) = Ok a) /\
  ~ costs_ok {| m_cost := 32; p_cost := 8; t_cost := 2; output_len := Some 32 |} (B "pw") (B "saltsalt") /\
  ~ costs_ok {| m_cost := 64; p_cost := 8; t_cost := 2; output_len := Some 32 |} (B "pw") (B "salt").
Proof.
  split; [vm_compute; reflexivity|]. split; [exact whole_xchacha|]. split; [exact whole_argon2|]. split.
  - intros a pw L. destruct (whole_ed_seals (B "salt", B "nonce") (acc_pair a) pw) as [ks H]; [split; reflexivity || discriminate|exact L|].
    pose proof (account_seal whole_pem (sealed_form whole_xchacha whole_sealed) H) as O. exists ks. split; [exact H|]. split; [exact O|].
    split; [exact (costs_opened whole pw ks a whole_argon2 O)|]. apply output_len_ignored; [exact whole_argon2|split; reflexivity || discriminate|exact O].
  - split; intros (_ & H1 & _ & _ & H2 & _); cbn in H1, H2; [apply (proj1 H1)|apply (proj1 H2)]; reflexivity.
Qed.
