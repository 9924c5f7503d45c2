(** Password hashes of the argon2 crate in the opening of key files. *)
From Coq Require Import Arith Lia.
From Verif Require Import Base Codec Hash Deps Keys IdentityFacts AeadSpec AeadWorld Argon2 Argon2Spec Argon2Facts.
Require Import ZifyBool ZifyNat ZifyN.
Local Open Scope N_scope.
Local Opaque argon2id_tag.

Lemma costs_range p pw salt : costs_ok p pw salt -> 1 <= p_cost p /\ 8 * p_cost p <= m_cost p /\ 1 <= t_cost p.
Proof. intros (A & B0 & C0 & _). lia. Qed.
Lemma tag_is p pw salt key : costs_ok p pw salt -> argon2id (p_cost p) (m_cost p) (t_cost p) 32 pw salt key <-> key = argon2id_tag (p_cost p) (m_cost p) (t_cost p) 32 pw salt.
Proof. intros C. destruct (costs_range _ _ _ C) as (A & B0 & C0). exact (argon2id_iff _ _ _ _ _ _ _ A B0 C0). Qed.
Theorem argon2_key D p pw salt key : argon2 D ->
  (kdf D p pw salt = Ok key <-> costs_ok p pw salt /\ argon2id (p_cost p) (m_cost p) (t_cost p) 32 pw salt key) /\ (kdf D p pw salt = Ok key -> length key = 32%nat).
Proof.
  intros L. specialize (L p pw salt). split.
  - destruct (kdf D p pw salt) as [k|e].
    + destruct L as [C T]. split; [intros [= <-]; split; assumption|]. intros [_ T']. apply (tag_is p) in T; [|exact C]. apply (tag_is p) in T'; [|exact C]. congruence.
    + split; [discriminate|]. intros [C _]. contradiction.
  - intros E. rewrite E in L. destruct L as [C T]. apply (tag_is p) in T; [|exact C]. rewrite T. apply tag_len.
Qed.
Theorem costs_refused D pw ks cipher : argon2 D -> hex_decode (ks_cipher_text ks) = Some cipher -> ~ costs_ok (ks_kdf_params ks) pw (ks_salt ks) ->
  exists m, kdf D (ks_kdf_params ks) pw (ks_salt ks) = Err m /\ account_from_keysecure D pw ks = Err (DecodeError m).
Proof.
  intros L H C. pose proof (L (ks_kdf_params ks) pw (ks_salt ks)) as K. unfold account_from_keysecure, hex_decode_res. rewrite H. cbn [map_err bind].
  replace {| m_cost := m_cost (ks_kdf_params ks); p_cost := p_cost (ks_kdf_params ks);
    t_cost := t_cost (ks_kdf_params ks); output_len := output_len (ks_kdf_params ks) |} with (ks_kdf_params ks) by (destruct (ks_kdf_params ks); reflexivity).
  destruct (kdf D _ pw _) as [k|m]; [tauto|]. exists m. split; reflexivity.
Qed.
Lemma costs_opened D pw ks a : argon2 D -> account_from_keysecure D pw ks = Ok a -> costs_ok (ks_kdf_params ks) pw (ks_salt ks).
Proof. intros L H. apply keysecure_open in H as (c & key & n & pem & _ & K & _). exact (proj1 (proj1 (proj1 (argon2_key D _ _ _ key L)) K)). Qed.
Theorem output_len_ignored D pw ks a n : argon2 D -> match n with Some k => 4 <= k < 2 ^ 32 | None => True end ->
  account_from_keysecure D pw ks = Ok a -> account_from_keysecure D pw (with_output_len ks n) = Ok a.
Proof.
  intros L N H. pose proof H as H0. apply keysecure_open in H as (c & key & nonce & pem & H1 & H2 & H3). apply keysecure_open. exists c, key, nonce, pem. split; [exact H1|]. split; [|exact H3].
  apply (argon2_key D _ _ _ key L) in H2 as [(C1 & C2 & C3 & _ & C4) T]. apply (argon2_key D _ _ _ key L). unfold costs_ok. unfold with_output_len. cbn [ks_kdf_params ks_salt m_cost p_cost t_cost output_len].
  split; [|exact T]. split; [exact C1|]. split; [exact C2|]. split; [exact C3|]. split; [exact N|exact C4].
Qed.

(** Dependencies with this password hash *)
Definition costs_okb (p : kdf_params) (pw salt : bytes) : bool :=
  (1 <=? p_cost p) && (p_cost p <? 2 ^ 24) && (8 * p_cost p <=? m_cost p) && (m_cost p <? 2 ^ 32) && (1 <=? t_cost p) && (t_cost p <? 2 ^ 32) &&
  match output_len p with Some n => (4 <=? n) && (n <? 2 ^ 32) | None => true end &&
  (8 <=? N.of_nat (length salt)) && (N.of_nat (length salt) <? 2 ^ 32) && (N.of_nat (length pw) <? 2 ^ 32).
Lemma costs_okb_iff p pw salt : costs_okb p pw salt = true <-> costs_ok p pw salt.
Proof. unfold costs_okb, costs_ok. destruct (output_len p) as [n|]; rewrite !andb_true_iff, ?N.leb_le, ?N.ltb_lt; tauto. Qed.
Definition argon2_kdf (p : kdf_params) (pw salt : bytes) : result bytes bytes :=
  if costs_okb p pw salt then Ok (argon2id_tag (p_cost p) (m_cost p) (t_cost p) 32 pw salt) else Err (B "argon2: costs").
Definition with_argon2 (D : deps) : deps := {|
  sha256 := sha256 D; sha384 := sha384 D; blake3 := blake3 D;
  ed_pair := ed_pair D; ed_pub := ed_pub D; ed_priv := ed_priv D; ed_pub_key := ed_pub_key D; ed_priv_key := ed_priv_key D;
  ed_sign := ed_sign D; ed_verify := ed_verify D; ed_pub_bytes := ed_pub_bytes D; ed_pub_to_hex := ed_pub_to_hex D;
  ed_pub_from_hex := ed_pub_from_hex D; ed_to_pem := ed_to_pem D; ed_from_pem := ed_from_pem D;
  dh_pair := dh_pair D; dh_pub := dh_pub D; dh_pub_key := dh_pub_key D; dh_pub_to_hex := dh_pub_to_hex D;
  dh_pub_from_hex := dh_pub_from_hex D; dh_to_hex := dh_to_hex D;
  kdf := argon2_kdf; aead_decrypt := aead_decrypt D; ks_rand := ks_rand D; ed_seal := ed_seal D; dh_seal := dh_seal D; ks_decrypt := ks_decrypt D;
  f64_text := f64_text D; f64_parse := f64_parse D; jcs_number := jcs_number D; jcs_leb := jcs_leb D; mb_other := mb_other D;
  datetime := datetime D; maddr := maddr D; multiaddr := multiaddr D; mb_error := mb_error D; mh_error := mh_error D;
  hex_error := hex_error D; utf8_error := utf8_error D; json_error := json_error D
|}.
Lemma argon2_kdf_law p pw salt :
  match argon2_kdf p pw salt with
  | Ok key => costs_ok p pw salt /\ argon2id (p_cost p) (m_cost p) (t_cost p) 32 pw salt key
  | Err _ => ~ costs_ok p pw salt
  end.
Proof.
  unfold argon2_kdf. destruct (costs_okb p pw salt) eqn:E.
  - apply costs_okb_iff in E. split; [exact E|]. apply (tag_is p); [exact E|reflexivity].
  - intros C. apply costs_okb_iff in C. congruence.
Qed.
Theorem with_argon2_law D : argon2 (with_argon2 D). Proof. exact argon2_kdf_law. Qed.
Lemma argon2_kdf_32 p pw salt k : argon2_kdf p pw salt = Ok k -> length k = 32%nat.
Proof. unfold argon2_kdf. destruct (costs_okb p pw salt); [|discriminate]. intros H. assert (E : k = argon2id_tag (p_cost p) (m_cost p) (t_cost p) 32 pw salt) by congruence. rewrite E. apply tag_len. Qed.
Theorem memory_last g lanes seg passes first : (1 <= lanes)%nat -> (2 <= seg)%nat -> (1 <= passes)%nat ->
  (exists blocks, filled g lanes seg passes first blocks) /\
  forall blocks m, filled g lanes seg passes first blocks -> (forall lane i, (lane < lanes)%nat -> (i < 2)%nat -> m (lane * (4 * seg) + i)%nat = first lane i) ->
    last_blocks lanes seg (fill g lanes seg passes m) = final_block lanes seg passes blocks.
Proof.
  intros L S P. split; [exact (ex_intro _ _ (solution_filled g lanes seg passes first L S))|]. intros blocks m F I.
  apply (fill_last g lanes seg passes first L S blocks F m P). intros l u Hl Hu _. cbv beta in Hu. rewrite Nat.mod_small by lia. rewrite (I l u Hl Hu).
  rewrite (F l u Hl) by nia. rewrite (proj2 (Nat.ltb_lt u 2) Hu). reflexivity.
Qed.
Theorem opens_argon2 D : xchacha D -> argon2 D -> forall pw ks (a : account D), account_from_keysecure D pw ks = Ok a <->
  exists cipher key nonce pem,
    hex_decode (ks_cipher_text ks) = Some cipher /\ costs_ok (ks_kdf_params ks) pw (ks_salt ks) /\
    argon2id (p_cost (ks_kdf_params ks)) (m_cost (ks_kdf_params ks)) (t_cost (ks_kdf_params ks)) 32 pw (ks_salt ks) key /\
    hex_decode (ks_nonce ks) = Some nonce /\ length nonce = 24%nat /\
    sealed key nonce pem cipher /\ utf8_valid pem = true /\ ed_from_pem D pem = Ok (acc_pair a).
Proof.
  intros X L pw ks a. rewrite (opens_sealed X). split; intros (c & key & nonce & pem & H1 & H2); exists c, key, nonce, pem; (split; [exact H1|]).
  - destruct H2 as [H2 H3]. apply (argon2_key D _ _ _ key L) in H2 as [C T]. split; [exact C|]. split; [exact T|exact H3].
  - destruct H2 as (C & T & H3). split; [|exact H3]. apply (argon2_key D _ _ _ key L). split; assumption.
Qed.
