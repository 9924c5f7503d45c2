(** C93: keys sealed with XChaCha20-Poly1305. *)
From Verif Require Import Base Codec CodecFacts Deps Types Keys SealSpec SealFacts Demo DemoFacts Hash Aead AeadSpec AeadFacts AeadWorld.
Local Open Scope N_scope.

(** C93. XChaCha20-Poly1305 opens exactly what is sealed: stream, one-time key and tag as RFC 8439 describes them, ... *)
Theorem C93_open_iff : forall key nonce, length key = 32%nat -> length nonce = 24%nat ->
  forall z m, xchacha_open key nonce z = Some m <-> sealed key nonce m z.
Proof. exact open_iff. Qed.
Print Assumptions C93_open_iff.
(** ... every text can be sealed, in one way. *)
Theorem C93_one_sealing : forall key nonce, length key = 32%nat -> length nonce = 24%nat ->
  forall m z, sealed key nonce m z <-> z = xchacha_seal key nonce m.
Proof. exact sealed_iff. Qed.
Print Assumptions C93_one_sealing.
(** If the crate's AEAD is XChaCha20-Poly1305, a KeySecure opens exactly if its ciphertext is the sealed PEM text of a key. *)
Theorem C93_keysecure : forall D, xchacha D -> forall pw ks (a : account D),
  account_from_keysecure D pw ks = Ok a <->
  exists cipher key nonce pem,
    hex_decode (ks_cipher_text ks) = Some cipher /\ kdf D (ks_kdf_params ks) pw (ks_salt ks) = Ok key /\
    hex_decode (ks_nonce ks) = Some nonce /\ length nonce = 24%nat /\
    sealed key nonce pem cipher /\ utf8_valid pem = true /\ ed_from_pem D pem = Ok (acc_pair a).
Proof. exact opens_sealed. Qed.
Print Assumptions C93_keysecure.
(** The law of sealed keys assumed by C81 then holds. *)
Theorem C93_form : forall D, xchacha D -> ed_sealed D -> ed_seal_form D.
Proof. exact sealed_form. Qed.
Print Assumptions C93_form.
(** Two different ciphertexts with their tags are both correct under at most 8 n one-time keys, n being the number of 16-byte
    pieces under the tag; there are 2^106 times 2^128 one-time keys. *)
Theorem C93_few_keys : forall c t c' t', c <> c' -> N.of_nat (length c) < 2 ^ 64 -> N.of_nat (length c') < 2 ^ 64 ->
  exists keys, (length keys <= 8 * Nat.max (text_blocks c) (text_blocks c'))%nat /\
    forall k, onetime_key k -> authentic k c t -> authentic k c' t' -> In k keys.
Proof. exact authentic_few. Qed.
Print Assumptions C93_few_keys.
(** So, whatever the dependencies, password and salt: if a sealed key still opens after its ciphertext was replaced, the one-time
    key is among those few, ... *)
Theorem C93_tampered : forall c t c' t', c <> c' -> N.of_nat (length c) < 2 ^ 64 -> N.of_nat (length c') < 2 ^ 64 ->
  length t = 16%nat -> length t' = 16%nat ->
  exists keys, (length keys <= 8 * Nat.max (text_blocks c) (text_blocks c'))%nat /\
    forall D pw ks ks' (a a' : account D) key nonce rs, xchacha D -> same_lock ks ks' ->
      hex_decode (ks_cipher_text ks) = Some (c ++ t) -> hex_decode (ks_cipher_text ks') = Some (c' ++ t') ->
      kdf D (ks_kdf_params ks) pw (ks_salt ks) = Ok key -> hex_decode (ks_nonce ks) = Some nonce -> onetime_from key nonce rs ->
      account_from_keysecure D pw ks = Ok a -> account_from_keysecure D pw ks' = Ok a' -> In rs keys.
Proof. exact tampered. Qed.
Print Assumptions C93_tampered.
(** ... and it never opens if only the tag was replaced. *)
Theorem C93_retagged : forall D pw ks ks' (a : account D) c t t', xchacha D -> same_lock ks ks' -> t <> t' ->
  hex_decode (ks_cipher_text ks) = Some (c ++ t) -> length t = 16%nat -> hex_decode (ks_cipher_text ks') = Some (c ++ t') -> length t' = 16%nat ->
  account_from_keysecure D pw ks = Ok a -> exists e, account_from_keysecure D pw ks' = Err e.
Proof. exact retagged. Qed.
Print Assumptions C93_retagged.

(** Test vectors of RFC 8439 (sections 2.3.2 and 2.5.2) and of draft-irtf-cfrg-xchacha (section 2.2.1); two keys sealed with one
    password, salt and nonce, both of which open; a sealed text of which one bit is flipped. *)
Definition hx (s : bytes) : bytes := match hex_decode s with Some b => b | None => [] end.
Definition rfc_key : bytes := hx (B "000102030405060708090a0b0c0d0e0f101112131415161718191a1b1c1d1e1f").
Definition flip (z : bytes) : bytes := match z with x :: r => bxor x x01 :: r | [] => [] end.
Example C93_example :
  xchacha locked /\ ed_sealed locked /\ pem_law locked /\
  firstn 16 (chacha_block rfc_key 1 (hx (B "000000090000004a00000000"))) = hx (B "10f1e7e4d13b5915500fdd1fa32071c4") /\
  hchacha rfc_key (hx (B "000000090000004a0000000031415927")) = hx (B "82413b4227b27bfed30e42508a877d73a0f9e4d58a74a853c12ec41326d3ecdc") /\
  poly1305 (clamp (le_word (hx (B "85d6be7857556d337f4452fe42d506a8")))) (le_word (hx (B "0103808afb0db2fd4abff6af4149f51b")))
    (B "Cryptographic Forum Research Group") = hx (B "a8061dc1305136c6c22b8baf0c0127a9") /\
  (exists ks ks', ed_seal locked (B "salt salt", B "nonce") (B "k1") (B "pw") = Ok ks /\ ed_seal locked (B "salt salt", B "nonce") (B "k2") (B "pw") = Ok ks' /\
     same_lock ks ks' /\ ks <> ks' /\
     account_from_keysecure locked (B "pw") ks = Ok (account_new locked (B "k1")) /\ account_from_keysecure locked (B "pw") ks' = Ok (account_new locked (B "k2"))) /\
  (let z := xchacha_seal rfc_key (repeat x40 24) (B "PEM") in
   length z = 19%nat /\ xchacha_open rfc_key (repeat x40 24) z = Some (B "PEM") /\ xchacha_open rfc_key (repeat x40 24) (flip z) = None).
Proof.
  split; [exact locked_xchacha|]. split; [exact locked_sealed|]. split; [exact demo_pem_law|].
  split; [vm_compute; reflexivity|]. split; [vm_compute; reflexivity|]. split; [vm_compute; reflexivity|]. split; [|vm_compute; repeat split].
  assert (S : forall k, exists ks, ed_seal locked (B "salt salt", B "nonce") k (B "pw") = Ok ks /\ account_from_keysecure locked (B "pw") ks = Ok (account_new locked k) /\
    ks_kdf_params ks = {| m_cost := 19456; p_cost := 1; t_cost := 2; output_len := Some 32 |} /\ ks_salt ks = hex_encode (B "salt salt") /\ ks_nonce ks = hex_encode (nonce24 (B "nonce"))).
  { intros k. eexists. split; [reflexivity|]. split; [|repeat split; reflexivity].
    apply (@account_seal locked demo_pem_law (sealed_form locked_xchacha locked_sealed) (account_new locked k) (B "salt salt", B "nonce") (B "pw")). reflexivity. }
  destruct (S (B "k1")) as (ks & H & O & E1 & E2 & E3). destruct (S (B "k2")) as (ks' & H' & O' & E1' & E2' & E3'). exists ks, ks'.
  split; [exact H|]. split; [exact H'|]. split; [repeat split; congruence|]. split; [|split; [exact O|exact O']].
  intros <-. rewrite O in O'. apply (f_equal (fun r : result (account locked) account_error => match r with Ok a => (acc_pair a : bytes) | Err _ => [] end)) in O'. discriminate O'.
Qed.
Print Assumptions C93_example.
