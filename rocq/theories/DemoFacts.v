(** The laws hold of the concrete instance. *)
From Verif Require Import Base BaseFacts Codec CodecFacts Json JsonParse Deps Types Hash HashFacts JsonFacts JsonParseFacts Demo.
Open Scope N_scope.

Theorem demo_ed_correct : ed_correct demo.
Proof.
  intros kp m. cbn [ed_verify ed_sign ed_pub_key demo]. rewrite hex_decode_encode.
  rewrite app_length, !real_sha256_size. cbn [Nat.add Nat.eqb]. rewrite bytes_eqb_refl. reflexivity.
Qed.
Theorem demo_sha256_size : sha256_size demo. Proof. exact real_sha256_size. Qed.
Theorem demo_sha384_size : sha384_size demo. Proof. exact real_sha384_size. Qed.
Theorem demo_blake3_size : blake3_size demo. Proof. exact real_blake3_size. Qed.
Theorem demo_ed_hex : ed_hex_law demo.
Proof. intros k. split; [apply utf8_hex | apply hex_decode_encode]. Qed.
Theorem demo_dh_hex : dh_hex_law demo.
Proof. intros k. split; [apply utf8_hex | apply hex_decode_encode]. Qed.
Theorem demo_ed_bytes_inj : ed_bytes_inj demo.
Proof. intros k k' H. exact H. Qed.
Lemma strip_app p t : strip p (p ++ t) = Some t.
Proof. induction p; cbn; auto. rewrite beq_refl. auto. Qed.
Theorem demo_pem_law : pem_law demo.
Proof.
  intros kp pem [= <-]. split.
  - unfold demo_pem. apply utf8_app; [reflexivity | apply utf8_hex].
  - cbn [ed_from_pem demo]. unfold demo_read_pem, demo_pem. rewrite strip_app, hex_decode_encode. reflexivity.
Qed.
Lemma demo_open_seal rnd secret pw ks : demo_seal rnd secret pw = Ok ks -> demo_open ks pw = Ok secret.
Proof.
  unfold demo_seal, demo_open. destruct (demo_kdf _ pw (hex_encode (fst rnd))) as [key|] eqn:E; [|discriminate].
  intros [= <-]. cbn [ks_kdf_params ks_salt ks_nonce ks_cipher_text]. rewrite E, !hex_decode_encode.
  unfold demo_decrypt, demo_encrypt.
  assert (H : forall h, length h = 32%nat -> firstn 32 (h ++ secret) = h /\ skipn 32 (h ++ secret) = secret).
  { intros h L. rewrite <- L. split; [rewrite firstn_app, Nat.sub_diag, firstn_all; apply app_nil_r |
      rewrite skipn_app, Nat.sub_diag, skipn_all; reflexivity]. }
  destruct (H (real_sha256 (key ++ nonce24 (snd rnd) ++ secret)) (real_sha256_size _)) as [-> ->].
  rewrite bytes_eqb_refl. reflexivity.
Qed.
Theorem demo_ed_seal_law : ed_seal_law demo.
Proof. intros rnd sk pw ks H. exists (demo_pem sk). split; [reflexivity | exact (demo_open_seal _ _ _ _ H)]. Qed.
Theorem demo_dh_seal_law : dh_seal_law demo.
Proof. intros rnd sk pw ks H. exact (demo_open_seal _ _ _ _ H). Qed.
Theorem demo_jcs_order : jcs_order demo.
Proof.
  cbn [jcs_order jcs_leb demo]. repeat split; cbn [jcs_leb demo].
  - intros a b. rewrite (bytes_compare_antisym a b). destruct (bytes_compare a b); cbn; auto.
  - intros a b. rewrite (bytes_compare_antisym a b). destruct (bytes_compare a b) eqn:E; cbn; try discriminate.
    intros _ _. apply bytes_compare_eq, E.
  - intros a b c. destruct (bytes_compare a b) eqn:E1; try discriminate; destruct (bytes_compare b c) eqn:E2; try discriminate; intros _ _.
    + apply bytes_compare_eq in E1, E2. subst. rewrite bytes_compare_refl. auto.
    + apply bytes_compare_eq in E1. subst. rewrite E2. auto.
    + apply bytes_compare_eq in E2. subst. rewrite E1. auto.
    + rewrite (bytes_compare_trans _ _ _ E1 E2). auto.
Qed.
Lemma num_token_dec n : num_token (dec n) = true.
Proof.
  unfold num_token. destruct (dec_shape n) as (c & ds & E & _ & H). rewrite E. cbn [is_empty negb andb].
  rewrite <- E. pose proof (dec_digits n) as F. clear -F. induction (dec n) as [|x l IH]; auto.
  cbn [forallb] in *. apply andb_prop in F as [F1 F2]. rewrite IH by auto.
  unfold is_digit in F1. unfold is_num_char. rewrite F1. reflexivity.
Qed.
Lemma num_token_app a b : num_token a = true -> forallb is_num_char b = true -> num_token (a ++ b) = true.
Proof.
  unfold num_token. intros H1 H2. apply andb_prop in H1 as [H1 H3]. rewrite forallb_app, H3, H2.
  destruct a; [discriminate|]. reflexivity.
Qed.
Theorem demo_jcs_numbers : jcs_numbers demo.
Proof.
  intros [n|n|n]; cbn [jcs_number demo serde_number].
  - apply num_token_dec.
  - apply (num_token_app (B "-")); [reflexivity|]. pose proof (num_token_dec n) as H.
    unfold num_token in H. apply andb_prop in H. tauto.
  - apply num_token_app; [apply num_token_dec | reflexivity].
Qed.
