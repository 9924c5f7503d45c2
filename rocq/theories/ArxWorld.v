(** What the crate hashes with BLAKE3, and XChaCha20's stream, in the words of [ArxSpec]. *)
From Coq Require Import Lia.
From Verif Require Import Base BaseFacts Codec CodecFacts Deps Types Keys Did Identity DidFacts Hashlink MiscFacts Hash HashFacts DigestSpec DigestFacts Aead ShaSpec ShaWorld ArxSpec ArxFacts.
Local Open Scope N_scope.

Section Crate.
  Variable D : deps.
  Hypothesis R : real_hashes D.
  Lemma small_blake3 s h : N.of_nat (length s) < 2 ^ 64 -> (blake3_digest s h <-> h = blake3 D s).
  Proof. intros L. destruct R as (_ & _ & R3). rewrite R3. now apply blake3_iff. Qed.
  Lemma paper_hashlink s t : N.of_nat (length s) < 2 ^ 64 ->
    (generate_from_json D (Ok (JSONValue s)) = Ok t <-> exists h, blake3_digest s h /\ t = mb_encode58 (x1e :: x20 :: h)).
  Proof.
    intros L. rewrite hl_layout by apply (real_sizes R). split.
    - intros E. exists (blake3 D s). split; [now apply small_blake3|]. apply ok_inj in E. now subst.
    - intros (h & H & ->). apply small_blake3 in H; [|exact L]. subst h. reflexivity.
  Qed.
  Lemma paper_verified s t : N.of_nat (length s) < 2 ^ 64 ->
    (verify_from_json D (Ok (JSONValue s)) t = Ok tt <-> exists h, blake3_digest s h /\ mb_decode (mb_other D) t = Some (Base58Btc, x1e :: x20 :: h)).
  Proof.
    intros L. rewrite hl_exact by apply (real_sizes R). rewrite paper_hashlink by exact L. split; intros (h & H & E); exists h; (split; [exact H|]).
    - subst t. apply mb_decode_encode58.
    - now apply mb_decode_58_inv in E.
  Qed.
  Lemma paper_identity (d : did D) : exists i h h', did_identity d = Ok i /\
    fips_sha384 (ed_pub_bytes D (account_pubkey (did_account d))) h /\ blake3_digest h h' /\ id_value i = B "did:prople:" ++ mb_encode58 (hex_encode h').
  Proof.
    destruct (fips_identity D R d) as (i & h & E & F & V). exists i, h, (blake3 D h). split; [exact E|]. split; [exact F|]. split; [|exact V].
    apply small_blake3; [|reflexivity]. destruct F as [F _]. rewrite F. reflexivity.
  Qed.
End Crate.

(** XChaCha20: the subkey from the first 16 bytes of the nonce, the rest after four zeros. *)
Lemma subkey_iff key nonce out : length key = 32%nat -> length nonce = 24%nat -> (derived_key key (firstn 16 nonce) out <-> out = subkey key nonce).
Proof. intros K L. apply derived_key_iff; [exact K|]. rewrite firstn_length. lia. Qed.
Lemma xblock_iff key nonce counter out : length key = 32%nat -> length nonce = 24%nat ->
  ((exists k, derived_key key (firstn 16 nonce) k /\ stream_block k counter (repeat x00 4 ++ skipn 16 nonce) out) <-> out = chacha_block (subkey key nonce) counter (subnonce nonce)).
Proof.
  intros K L. assert (LN : length (subnonce nonce) = 12%nat) by (unfold subnonce; rewrite app_length, repeat_length, skipn_length; lia).
  assert (LK : length (subkey key nonce) = 32%nat) by (destruct (proj2 (subkey_iff key nonce _ K L) eq_refl) as (? & ? & _ & _ & E & _); exact E). split.
  - intros (k & H1 & H2). apply subkey_iff in H1; [|assumption..]. subst k. now apply stream_block_iff in H2.
  - intros ->. exists (subkey key nonce). split; [now apply subkey_iff|]. now apply stream_block_iff.
Qed.
