(** Proofs for C63-C68. *)
From Coq Require Import Lia ZifyBool ZifyNat ZifyN.
From Verif Require Import Base BaseFacts Codec CodecFacts Json JsonParse Deps Types Did Keys KeyStore Doc Identity Hashlink
  JsonSpec Spec IdentitySpec FlowSpec ExactSpec DidFacts IdentityFacts DocFacts MiscFacts SuiteFacts.
Set Implicit Arguments.
Unset Strict Implicit.

(** ** first_failure *)
Section First.
  Variable E : Type.
  Lemma ff_here (c : E -> Prop) l e : c e -> first_failure (c :: l) e. Proof. left. assumption. Qed.
  Lemma ff_next (c : E -> Prop) l e : (forall e', ~ c e') -> (first_failure (c :: l) e <-> first_failure l e).
  Proof. intros H. cbn [first_failure]. split; [intros [X|[_ X]]; [destruct (H _ X)|exact X]|auto]. Qed.
  Lemma ff_stop (c : E -> Prop) l e0 : c e0 -> (forall e, c e -> e = e0) -> forall e, first_failure (c :: l) e <-> e = e0.
  Proof. intros H U e. cbn [first_failure]. split; [intros [X|[X _]]; [auto|destruct (X _ H)]|intros ->; auto]. Qed.
  Lemma err_iff A (r : result A E) e0 : r = Err e0 -> forall e, r = Err e <-> e = e0.
  Proof. intros -> e. split; congruence. Qed.
End First.
Lemma und_stop (P : bytes -> Prop) m0 l : P m0 -> (forall m, P m -> m = m0) -> forall e, first_failure (undecodable P :: l) e <-> e = DecodeError m0.
Proof. intros H U. apply ff_stop; [exists m0; auto|]. intros e (m & Hm & ->). f_equal. auto. Qed.
Lemma und_next (P : bytes -> Prop) l e : (forall m, ~ P m) -> (first_failure (undecodable P :: l) e <-> first_failure l e).
Proof. intros H. apply ff_next. intros e' (m & Hm & _). exact (H _ Hm). Qed.

(** ** C63 *)
Section Opening.
  Variable D : deps.
  Theorem opening_errors pw ks e : account_from_keysecure D pw ks = Err e <-> first_failure (opening_checks D pw ks) e.
  Proof.
    unfold account_from_keysecure, opening_checks, hex_decode_res.
    assert (Ep : {| m_cost := m_cost (ks_kdf_params ks); p_cost := p_cost (ks_kdf_params ks); t_cost := t_cost (ks_kdf_params ks);
                    output_len := output_len (ks_kdf_params ks) |} = ks_kdf_params ks) by (destruct (ks_kdf_params ks); reflexivity).
    rewrite Ep. clear Ep.
    assert (Hc : forall c, is_cipher ks c <-> hex_decode (ks_cipher_text ks) = Some c) by reflexivity.
    assert (Hk : forall k, is_key D pw ks k <-> kdf D (ks_kdf_params ks) pw (ks_salt ks) = Ok k) by reflexivity.
    assert (Hn : forall n, is_nonce ks n <-> hex_decode (ks_nonce ks) = Some n) by reflexivity.
    destruct (hex_decode (ks_cipher_text ks)) as [c|]; cbn [map_err bind].
    2:{ rewrite (@und_stop _ (hex_error D (ks_cipher_text ks))); [split; congruence| |tauto]. split; [|reflexivity]. intros c H. apply Hc in H. discriminate. }
    rewrite und_next by (intros m [H _]; apply (H c), Hc; reflexivity).
    destruct (kdf D (ks_kdf_params ks) pw (ks_salt ks)) as [k|m0]; cbn [map_err bind].
    2:{ rewrite (@und_stop _ m0); [split; congruence|reflexivity|congruence]. }
    rewrite und_next by discriminate.
    destruct (hex_decode (ks_nonce ks)) as [n|]; cbn [map_err bind].
    2:{ rewrite (@und_stop _ (hex_error D (ks_nonce ks))); [split; congruence| |tauto]. split; [|reflexivity]. intros n H. apply Hn in H. discriminate. }
    rewrite und_next by (intros m [H _]; apply (H n), Hn; reflexivity).
    assert (Hn' : forall x, is_nonce ks x <-> x = n) by (intros x; rewrite Hn; split; congruence).
    unfold to_array24. destruct (Nat.eqb_spec (length n) 24) as [L|L]; cbn [ok_or bind].
    2:{ rewrite (@und_stop _ (B "unable to decode nonce")); [split; congruence| |intros m (x & _ & _ & E); exact E].
        exists n. rewrite Hn'. auto. }
    rewrite und_next by (intros m (x & Hx & L' & _); apply Hn' in Hx; subst; auto).
    assert (Ho : forall r, is_opened D pw ks r <-> aead_decrypt D k n c = r).
    { intros r. unfold is_opened. split; [|intros E; exists c, k, n; rewrite Hc, Hk, Hn'; auto].
      intros (c' & k' & n' & H1 & H2 & H3 & H4). apply Hc in H1. apply Hk in H2. apply Hn' in H3. congruence. }
    destruct (aead_decrypt D k n c) as [t|m0]; cbn [map_err bind].
    2:{ rewrite (@und_stop _ m0); [split; congruence|apply Ho; reflexivity|]. intros m H. apply Ho in H. congruence. }
    rewrite und_next by (intros m H; apply Ho in H; discriminate).
    assert (Ho' : forall x, is_opened D pw ks (Ok x) <-> x = t) by (intros x; rewrite Ho; split; congruence).
    unfold utf8. destruct (utf8_valid t) eqn:U; cbn [bind].
    2:{ rewrite (@und_stop _ (utf8_error D t)); [split; congruence| |].
        - exists t. rewrite Ho', U. split; [reflexivity|]. split; [discriminate|reflexivity].
        - intros m (x & Hx & _ & ->). apply Ho' in Hx. subst. reflexivity. }
    rewrite und_next by (intros m (x & Hx & U' & _); apply Ho' in Hx; subst; auto).
    unfold account_from_pem. destruct (ed_from_pem D t) as [a|m0] eqn:P; cbn [map_ok map_err bind].
    - split; [discriminate|]. intros [(x & m & Hx & F & _)|[_ []]]. apply Ho' in Hx. subst. congruence.
    - rewrite (@ff_stop _ _ _ (DecodePEMError m0)); [split; congruence|exists t, m0; rewrite Ho'; auto|].
      intros e' (x & m & Hx & F & ->). apply Ho' in Hx. subst. congruence.
  Qed.
  Theorem did_opening_errors pw ks e : did_from_keysecure D pw ks = Err e <->
    exists m, (first_failure (opening_checks D pw ks) (DecodeError m) /\ e = InvalidKeysecure (B "unable to decode: " ++ m)) \/
              (first_failure (opening_checks D pw ks) (DecodePEMError m) /\ e = InvalidKeysecure (B "decode pem failed: " ++ m)).
  Proof.
    setoid_rewrite <- opening_errors. unfold did_from_keysecure.
    destruct (account_from_keysecure D pw ks) as [a|x] eqn:E; cbn [map_ok map_err].
    - split; [discriminate|]. intros (m & [[H _]|[H _]]); discriminate.
    - split.
      + intros H. apply err_inj in H. subst e. apply keysecure_errors in E as [m [-> | ->]]; exists m; cbn [account_error_text]; auto.
      + intros (m & [[H ->]|[H ->]]); apply err_inj in H; subst x; reflexivity.
  Qed.
End Opening.

(** ** C64 *)
Section KeyTexts.
  Variable D : deps.
  Lemma key_text_dec {K} (f : bytes -> option K) t :
    (exists k, key_text D f t k) \/
    (forall k, ~ key_text D f t k).
  Proof.
    unfold key_text. destruct (mb_decode (mb_other D) t) as [[b h]|]; [|right; intros k (b & h & E & _); discriminate].
    destruct (utf8_valid h) eqn:U; [|right; intros k (b' & h' & E & U' & _); injection E as -> ->; congruence].
    destruct (f h) as [k|] eqn:F; [left; exists k, b, h; auto|right; intros k (b' & h' & E & _ & F'); injection E as -> ->; congruence].
  Qed.
  Theorem pair_key_text (p : vpairs D) :
    (forall k, vpairs_decode_pub_key p = Ok k <-> key_text D (ed_pub_from_hex D) (vp_pub_key p) k) /\
    (forall e, vpairs_decode_pub_key p = Err e <-> (forall k, ~ key_text D (ed_pub_from_hex D) (vp_pub_key p) k) /\ e = DecodePublicKeyError).
  Proof.
    unfold vpairs_decode_pub_key, key_text. destruct (mb_decode (mb_other D) (vp_pub_key p)) as [[b h]|]; cbn [ok_or bind].
    2:{ split; [intros k; split; [discriminate|intros (b & h & E & _); discriminate]|].
        intros e. split; [intros [= <-]; split; [intros k (b & h & E & _); discriminate|reflexivity]|intros [_ ->]; reflexivity]. }
    unfold utf8. destruct (utf8_valid h) eqn:U; cbn [bind].
    2:{ split; [intros k; split; [discriminate|intros (b' & h' & E & U' & _); injection E as -> ->; congruence]|].
        intros e. split; [intros [= <-]; split; [intros k (b' & h' & E & U' & _); injection E as -> ->; congruence|reflexivity]|intros [_ ->]; reflexivity]. }
    destruct (ed_pub_from_hex D h) as [k|] eqn:F; cbn [ok_or bind].
    - split; [intros k'; split; [intros [= <-]; exists b, h; auto|intros (b' & h' & E & _ & F'); injection E as -> ->; congruence]|].
      intros e. split; [discriminate|]. intros [H _]. destruct (H k). exists b, h. auto.
    - split; [intros k'; split; [discriminate|intros (b' & h' & E & _ & F'); injection E as -> ->; congruence]|].
      intros e. split; [intros [= <-]; split; [intros k (b' & h' & E & _ & F'); injection E as -> ->; congruence|reflexivity]|intros [_ ->]; reflexivity].
  Qed.
  Theorem pair_agreement_text (p : apairs D) :
    (forall k, apairs_decode_public_key p = Ok k <-> key_text D (dh_pub_from_hex D) (ap_pub_key p) k) /\
    (apairs_decode_public_key p = Err tt <-> forall k, ~ key_text D (dh_pub_from_hex D) (ap_pub_key p) k).
  Proof.
    assert (X : forall k, apairs_decode_public_key p = Ok k <-> key_text D (dh_pub_from_hex D) (ap_pub_key p) k).
    { unfold apairs_decode_public_key, key_text. intros k. destruct (mb_decode (mb_other D) (ap_pub_key p)) as [[b h]|]; cbn [ok_or bind].
      2:{ split; [discriminate|intros (b & h & E & _); discriminate]. }
      unfold utf8. destruct (utf8_valid h) eqn:U; cbn [bind].
      2:{ split; [discriminate|intros (b' & h' & E & U' & _); injection E as -> ->; congruence]. }
      destruct (dh_pub_from_hex D h) as [k'|] eqn:F; cbn [ok_or bind].
      - split; [intros [= <-]; exists b, h; auto|intros (b' & h' & E & _ & F'); injection E as -> ->; congruence].
      - split; [discriminate|intros (b' & h' & E & _ & F'); injection E as -> ->; congruence]. }
    split; [exact X|]. destruct (apairs_decode_public_key p) as [k|[]] eqn:E.
    - split; [discriminate|]. intros H. destruct (H k). apply X. reflexivity.
    - split; [|reflexivity]. intros _ k H. apply X in H. discriminate.
  Qed.
  Lemma key_text_errors {K} kind (f : bytes -> option K) t A (g : K -> A) r :
    r = (let? (_, h) := ok_or (DecodePubKeyError (B ("unable to decode encoded multibase to " ++ kind ++ " public key"))) (mb_decode (mb_other D) t) in
         let? s := (if utf8_valid h then Ok h else Err (DecodePubKeyError (B "unable convert public key to string"))) in
         let? k := ok_or (DecodePubKeyError (B "unable to restore public key")) (f s) in Ok (g k)) ->
    forall e, r = Err e <-> first_failure (key_text_checks D kind f t) e.
  Proof.
    intros Hr e. unfold key_text_checks.
    destruct (mb_decode (mb_other D) t) as [[b h]|] eqn:M; cbn [ok_or bind] in Hr.
    2:{ rewrite Hr, (@ff_stop _ _ _ (DecodePubKeyError (B ("unable to decode encoded multibase to " ++ kind ++ " public key"))));
          [split; congruence|auto|tauto]. }
    rewrite ff_next by (intros e' [H _]; discriminate).
    destruct (utf8_valid h) eqn:U; cbn [bind] in Hr.
    2:{ rewrite Hr, (@ff_stop _ _ _ (DecodePubKeyError (B "unable convert public key to string")));
          [split; congruence| |tauto]. split; [|reflexivity]. exists b, h. unfold utf8. rewrite U. split; [reflexivity|discriminate]. }
    rewrite ff_next by (intros e' [(b' & h' & H & H') _]; unfold utf8 in H'; congruence).
    assert (KT : forall k, key_text D f t k <-> f h = Some k).
    { intros k. unfold key_text. rewrite M. unfold utf8. split; [intros (b' & h' & H1 & _ & H2); congruence|intros H; exists b, h; auto]. }
    destruct (f h) as [k|] eqn:F; cbn [ok_or bind] in Hr.
    - rewrite Hr. split; [discriminate|]. intros [[H _]|[_ []]]. destruct (H k). apply KT. reflexivity.
    - rewrite Hr, (@ff_stop _ _ _ (DecodePubKeyError (B "unable to restore public key"))); [split; congruence| |tauto].
      split; [|reflexivity]. intros k H. apply KT in H. discriminate.
  Qed.
  Theorem entry_errors p e : decode_pub_key D p = Err e <->
    (pr_type p = B "Ed25519VerificationKey2020" /\ first_failure (key_text_checks D "EDDSA" (ed_pub_from_hex D) (pr_multibase p)) e) \/
    (pr_type p = B "X25519KeyAgreementKey2020" /\ first_failure (key_text_checks D "ECDH" (dh_pub_from_hex D) (pr_multibase p)) e) \/
    (pr_type p <> B "Ed25519VerificationKey2020" /\ pr_type p <> B "X25519KeyAgreementKey2020" /\
     e = DecodePubKeyError (B "unknown verification type")).
  Proof.
    unfold decode_pub_key.
    destruct (bytes_eqb (pr_type p) VERIFICATION_TYPE_ED25519) eqn:E1; [apply bytes_eqb_eq in E1|].
    - rewrite <- (@key_text_errors _ "EDDSA" (ed_pub_from_hex D) (pr_multibase p) _ (@EdDSA D)
        (let? public_key := decode_pub_key_verification D p in Ok (EdDSA D public_key))).
      + split; [intros H; left; auto|]. intros [[_ H]|[[H _]|[H _]]]; [exact H|rewrite H in E1; discriminate|destruct (H E1)].
      + unfold decode_pub_key_verification. destruct (mb_decode (mb_other D) (pr_multibase p)) as [[b h]|]; cbn [ok_or bind]; [|reflexivity].
        destruct (utf8_valid h); cbn [bind]; [|reflexivity]. destruct (ed_pub_from_hex D h); reflexivity.
    - destruct (bytes_eqb (pr_type p) VERIFICATION_TYPE_X25519) eqn:E2; [apply bytes_eqb_eq in E2|].
      + rewrite <- (@key_text_errors _ "ECDH" (dh_pub_from_hex D) (pr_multibase p) _ (@ECDH D)
          (let? public_key := decode_pub_key_agreement D p in Ok (ECDH D public_key))).
        * split; [intros H; right; left; auto|]. intros [[H _]|[[_ H]|[_ [H _]]]]; [rewrite H in E2; discriminate|exact H|destruct (H E2)].
        * unfold decode_pub_key_agreement. destruct (mb_decode (mb_other D) (pr_multibase p)) as [[b h]|]; cbn [ok_or bind]; [|reflexivity].
          destruct (utf8_valid h); cbn [bind]; [|reflexivity]. destruct (dh_pub_from_hex D h); reflexivity.
      + assert (N1 : pr_type p <> B "Ed25519VerificationKey2020") by (intros H; apply bytes_eqb_eq in H; unfold VERIFICATION_TYPE_ED25519 in E1; congruence).
        assert (N2 : pr_type p <> B "X25519KeyAgreementKey2020") by (intros H; apply bytes_eqb_eq in H; unfold VERIFICATION_TYPE_X25519 in E2; congruence).
        split; [intros H; apply err_inj in H; subst; auto|]. intros [[H _]|[[H _]|[_ [_ ->]]]]; tauto.
  Qed.
  (** A key pair's public key and the document entry made from it decode alike. *)
  Theorem pair_entry_agree (p : vpairs D) (q : apairs D) i c :
    (forall k, vpairs_decode_pub_key p = Ok k <->
       decode_pub_key D {| pr_id := i; pr_controller := c; pr_type := B "Ed25519VerificationKey2020"; pr_multibase := vp_pub_key p |} = Ok (EdDSA D k)) /\
    (forall k, apairs_decode_public_key q = Ok k <->
       decode_pub_key D {| pr_id := i; pr_controller := c; pr_type := B "X25519KeyAgreementKey2020"; pr_multibase := ap_pub_key q |} = Ok (ECDH D k)).
  Proof.
    split; intros k.
    - rewrite (proj1 (pair_key_text p)), decode_eddsa_iff. cbn [pr_type pr_multibase]. unfold key_text, utf8. tauto.
    - rewrite (proj1 (pair_agreement_text q)), decode_ecdh_iff. cbn [pr_type pr_multibase]. unfold key_text, utf8. tauto.
  Qed.
End KeyTexts.

(** ** C65 *)
Section Kinds.
  Variable D : deps.
  Theorem pem_errors (a : account D) e : build_pem a = Err e <-> exists m, ed_to_pem D (ed_priv_key D (acc_pair a)) = Err m /\ e = EncodePEMError m.
  Proof.
    unfold build_pem. destruct (ed_to_pem D _) as [t|m]; cbn [map_err]; split; try discriminate.
    - intros (m & H & _). discriminate.
    - intros H. apply err_inj in H. eauto.
    - intros (m' & H & ->). congruence.
  Qed.
  Theorem read_pem_errors t e : account_from_pem D t = Err e <-> exists m, ed_from_pem D t = Err m /\ e = DecodePEMError m.
  Proof.
    unfold account_from_pem. destruct (ed_from_pem D t) as [a|m]; cbn [map_ok map_err bind]; split; try discriminate.
    - intros (m & H & _). discriminate.
    - intros H. apply err_inj in H. eauto.
    - intros (m' & H & ->). congruence.
  Qed.
  Theorem decrypt_errors p pw e :
    (decrypt_verification D p pw = Err e <-> exists m, ks_decrypt D (pk_verification p) pw = Err m /\ e = DecryptError m) /\
    (decrypt_agreement D p pw = Err e <-> exists m, ks_decrypt D (pk_aggrement p) pw = Err m /\ e = DecryptError m).
  Proof.
    unfold decrypt_verification, decrypt_agreement.
    assert (X : forall ks, (let? x := map_err DecryptError (ks_decrypt D ks pw) in Ok x) = Err e <-> exists m, ks_decrypt D ks pw = Err m /\ e = DecryptError m).
    { intros ks. destruct (ks_decrypt D ks pw) as [t|m]; cbn [map_err bind]; split; try discriminate.
      - intros (m & H & _). discriminate.
      - intros H. apply err_inj in H. eauto.
      - intros (m' & H & ->). congruence. }
    split; apply X.
  Qed.
End Kinds.

(** ** C66 *)
Section Links.
  Variable D : deps.
  Theorem hashlink_errors : blake3_size D -> forall s t e,
    verify_from_json D (Ok (JSONValue s)) t = Err e <-> first_failure (hashlink_checks D s t) e.
  Proof.
    intros L s t e. unfold verify_from_json, hashlink_checks. cbn [bind jv_to_string].
    destruct (mb_decode (mb_other D) t) as [[b d]|] eqn:M; cbn [ok_or bind].
    2:{ rewrite (@ff_stop _ _ _ (HashLinkError (mb_error D t))); [split; congruence|auto|tauto]. }
    rewrite ff_next by (intros e' [H _]; discriminate).
    destruct (mbase_eqb b Base58Btc) eqn:Eb; cbn [negb].
    2:{ rewrite (@ff_stop _ _ _ (HashLinkError (B "unknown base encoded type"))); [split; congruence| |tauto].
        split; [|reflexivity]. intros d' H. injection H as -> _. discriminate. }
    assert (b = Base58Btc) by (destruct b; cbn in Eb; congruence || discriminate). subst b.
    rewrite ff_next by (intros e' [H _]; apply (H d); reflexivity).
    assert (W : wrap_multihash D HashLinkError (blake3 D s) = Ok (BLAKE3_HASH_CODE, blake3 D s) /\
                multihash_bytes (BLAKE3_HASH_CODE, blake3 D s) = x1e :: x20 :: blake3 D s).
    { split; [apply (wrap_ok L)|apply (mh_bytes L)]. }
    destruct W as [-> W]. cbn [bind]. rewrite W.
    destruct (bytes_eqb d (x1e :: x20 :: blake3 D s)) eqn:Ed; cbn [negb].
    - apply bytes_eqb_eq in Ed. subst d. split; [discriminate|]. intros [[H _]|[_ []]]. destruct (H eq_refl).
    - rewrite (@ff_stop _ _ _ (HashLinkError (B "invalid hashlink"))); [split; congruence| |tauto].
      split; [|reflexivity]. intros H. injection H as ->. rewrite bytes_eqb_refl in Ed. discriminate.
  Qed.
End Links.

(** ** C67 *)
Open Scope N_scope.
Lemma fold_value base (f : byte -> N) s n :
  fold_left (fun n c => base * n + f c) s n = value base (rev (map f s)) + base ^ N.of_nat (length s) * n.
Proof.
  revert n. induction s as [|c s IH] using rev_ind; intros n; [cbn [fold_left map rev value length]; change (N.of_nat 0) with 0; rewrite N.pow_0_r; lia|].
  rewrite fold_left_app, map_app, rev_app_distr, app_length, IH. cbn [fold_left map rev app value length].
  replace (N.of_nat (length s + 1)) with (N.succ (N.of_nat (length s))) by lia. rewrite N.pow_succ_r', N.mul_add_distr_l, N.mul_assoc. lia.
Qed.
Lemma number_value base f s : number_in base f s = value base (rev (map f s)).
Proof. unfold number_in. rewrite fold_value. lia. Qed.
Lemma position_char58 d : d < 58 -> position (char58 d) (B "123456789ABCDEFGHJKLMNPQRSTUVWXYZabcdefghijkmnopqrstuvwxyz") = d.
Proof.
  intros Hd. assert (H : forallb (fun d => position (char58 d) (B "123456789ABCDEFGHJKLMNPQRSTUVWXYZabcdefghijkmnopqrstuvwxyz") =? d) (below 58) = true) by (vm_compute; reflexivity).
  apply N.eqb_eq. exact (@forall_below 58 _ H d Hd).
Qed.
Lemma map_inv {A B} (f : A -> B) (g : B -> A) l : Forall (fun x => g (f x) = x) l -> map g (map f l) = l.
Proof. induction 1 as [|x l H _ IH]; [reflexivity|]. cbn. rewrite H, IH. reflexivity. Qed.
Lemma conv_value b1 b2 ds : 2 <= b2 -> value b2 (rev (conv b1 b2 ds)) = value b1 (rev ds).
Proof. intros H. unfold conv. rewrite rev_app_distr, rev_involutive, rev_repeat, value_app_zeros, value_digits by assumption. reflexivity. Qed.
Lemma conv_lead b1 b2 ds : 2 <= b2 -> lead (conv b1 b2 ds) = lead ds.
Proof. intros H. unfold conv. apply lead_app. rewrite rev_involutive. apply digits_canonical. assumption. Qed.
Lemma leading_lead c (f : byte -> N) s : Forall (fun x => f x = 0 <-> x = c) s -> leading c s = lead (map f s).
Proof.
  induction 1 as [|x s H _ IH]; [reflexivity|]. cbn [leading lead map]. destruct (beq x c) eqn:E.
  - apply beq_eq in E. apply H in E. rewrite E. cbn. f_equal. exact IH.
  - destruct (N.eqb_spec (f x) 0) as [Z|Z]; [|reflexivity]. apply H in Z. subst. rewrite beq_refl in E. discriminate.
Qed.
Definition digit58 (c : byte) : N := position c (B "123456789ABCDEFGHJKLMNPQRSTUVWXYZabcdefghijkmnopqrstuvwxyz").
Lemma digits_of_text s : map digit58 (base58_encode s) = conv 256 58 (map Byte.to_N s).
Proof.
  unfold base58_encode. apply map_inv. eapply Forall_impl; [|apply conv_lt; lia]. intros d Hd. apply position_char58. exact Hd.
Qed.
Lemma char58_one d : d < 58 -> char58 d = "1"%byte -> d = 0.
Proof. intros Hd E. rewrite <- (position_char58 Hd), E. reflexivity. Qed.
Lemma to_N_0 x : Byte.to_N x = 0 <-> x = x00.
Proof. split; [intros H; destruct x; (reflexivity || discriminate H)|intros ->; reflexivity]. Qed.
Theorem base58_number s : number58 (base58_encode s) = number256 s /\ leading "1"%byte (base58_encode s) = leading x00 s.
Proof.
  split.
  - unfold number58, number256. rewrite !number_value. fold digit58. change (map _ (base58_encode s)) with (map digit58 (base58_encode s)).
    rewrite digits_of_text, conv_value by lia. reflexivity.
  - rewrite (@leading_lead x00 Byte.to_N s) by (apply Forall_forall; intros x _; apply to_N_0).
    rewrite (@leading_lead "1"%byte digit58 (base58_encode s)).
    + rewrite digits_of_text, conv_lead by lia. reflexivity.
    + unfold base58_encode. apply Forall_map. eapply Forall_impl; [|apply conv_lt; lia]. intros d Hd. cbn beta.
      unfold digit58. rewrite (position_char58 Hd). split; [intros ->; reflexivity|apply char58_one; exact Hd].
Qed.
Lemma base58_by_number s s' : number256 s = number256 s' -> leading x00 s = leading x00 s' -> base58_encode s = base58_encode s'.
Proof.
  unfold number256. rewrite !number_value. intros V L.
  rewrite !(@leading_lead x00 Byte.to_N) in L by (apply Forall_forall; intros x _; apply to_N_0).
  unfold base58_encode, conv. rewrite V, L. reflexivity.
Qed.
Theorem base58_unique s t : base58_text t -> number58 t = number256 s -> leading "1"%byte t = leading x00 s -> t = base58_encode s.
Proof.
  intros T V L. destruct (proj2 (proj2 base58_bijection) t T) as (x & <-). destruct (base58_number x) as [V' L'].
  apply base58_by_number; congruence.
Qed.
Lemma hex_step x : 16 * position (hex_digit (Byte.to_N x / 16)) (B "0123456789abcdef") + position (hex_digit (Byte.to_N x mod 16)) (B "0123456789abcdef") = Byte.to_N x.
Proof. destruct x; reflexivity. Qed.
Lemma hex_number_from s n :
  fold_left (fun n c => 16 * n + position c (B "0123456789abcdef")) (hex_encode s) n = fold_left (fun n c => 256 * n + Byte.to_N c) s n.
Proof.
  revert n. induction s as [|x s IH]; intros n; [reflexivity|].
  change (hex_encode (x :: s)) with (hex_digit (Byte.to_N x / 16) :: hex_digit (Byte.to_N x mod 16) :: hex_encode s).
  cbn [fold_left]. rewrite IH. f_equal. pose proof (hex_step x). lia.
Qed.
Lemma hex_lower_in c : is_hex_lower c = true -> In c (B "0123456789abcdef").
Proof. intros H. destruct c; try discriminate H; cbn; tauto. Qed.
Theorem hex_number s : number16 (hex_encode s) = number256 s /\ length (hex_encode s) = (2 * length s)%nat /\ hex_text (hex_encode s).
Proof.
  split; [apply hex_number_from|]. split; [apply hex_encode_length|].
  eapply Forall_impl; [|apply hex_encode_chars]. apply hex_lower_in.
Qed.
Lemma hex_unique s t : hex_text t -> number16 t = number256 s -> length t = (2 * length s)%nat -> t = hex_encode s.
Proof.
  intros T V L. assert (X : exists s', length s' = length s /\ hex_encode s' = t).
  { clear V. revert t T L. induction s as [|x s IH]; intros t T L.
    - destruct t; [exists []; auto|discriminate].
    - destruct t as [|a [|b t]]; try (cbn in L; lia). inversion T as [|? ? Ta T1]; subst. inversion T1 as [|? ? Tb T2]; subst.
      destruct (IH t T2) as (s' & L' & <-); [cbn in L; lia|].
      exists (byte_of_N (16 * position a (B "0123456789abcdef") + position b (B "0123456789abcdef")) :: s').
      split; [cbn; lia|].
      assert (Y : forall a b, In a (B "0123456789abcdef") -> In b (B "0123456789abcdef") ->
        hex_encode [byte_of_N (16 * position a (B "0123456789abcdef") + position b (B "0123456789abcdef"))] = [a; b]).
      { clear. intros a b Ha Hb.
        assert (Z : forallb (fun a => forallb (fun b => bytes_eqb (hex_encode [byte_of_N (16 * position a (B "0123456789abcdef") + position b (B "0123456789abcdef"))]) [a; b])
          (B "0123456789abcdef")) (B "0123456789abcdef") = true) by (vm_compute; reflexivity).
        rewrite forallb_forall in Z. specialize (Z a Ha). rewrite forallb_forall in Z. specialize (Z b Hb). apply bytes_eqb_eq in Z. exact Z. }
      change (hex_encode (?x :: ?l)) with (hex_encode ([x] ++ l)). unfold hex_encode, hex_with in *. rewrite flat_map_app.
      rewrite (Y a b Ta Tb). reflexivity. }
  destruct X as (s' & L' & <-). rewrite (proj1 (hex_number s')) in V. f_equal.
  clear T L. revert s' L' V. induction s as [|x s IH] using rev_ind; intros s'; induction s' as [|x' s' _] using rev_ind; rewrite ?app_length; cbn [length]; intros L' V; try lia; [reflexivity|].
  unfold number256, number_in in V. rewrite !fold_left_app in V. cbn [fold_left] in V.
  pose proof (to_N_lt x). pose proof (to_N_lt x').
  assert (E1 : fold_left (fun n c => 256 * n + Byte.to_N c) s' 0 = fold_left (fun n c => 256 * n + Byte.to_N c) s 0) by lia.
  assert (E2 : Byte.to_N x' = Byte.to_N x) by lia.
  rewrite (IH s'); [|lia|exact E1]. f_equal. f_equal. rewrite <- (byte_of_N_to_N x'), E2. apply byte_of_N_to_N.
Qed.

(** ** C68 *)
Lemma value_bound b ds : Forall (fun d => d < b) ds -> value b ds < b ^ N.of_nat (length ds).
Proof.
  induction 1 as [|d ds H _ IH]; [cbn; lia|]. cbn [value length]. rewrite Nat2N.inj_succ, N.pow_succ_r'.
  assert (b * value b ds + b <= b * b ^ N.of_nat (length ds)) by (rewrite <- N.mul_succ_r; apply N.mul_le_mono_l; lia). lia.
Qed.
Lemma number_cons b f c s : number_in b f (c :: s) = f c * b ^ N.of_nat (length s) + number_in b f s.
Proof. rewrite !number_value. unfold number_in. rewrite <- number_value. unfold number_in. cbn [fold_left]. rewrite fold_value. rewrite N.mul_0_r, N.add_0_l. lia. Qed.
Lemma number256_bound s : number256 s < 256 ^ N.of_nat (length s).
Proof.
  unfold number256. rewrite number_value. rewrite <- (map_length Byte.to_N s), <- rev_length. apply value_bound, Forall_rev, map_to_N_lt.
Qed.
Lemma digit58_lt s : Forall (fun c => digit58 c < 58) (base58_encode s).
Proof.
  unfold base58_encode. apply Forall_map. eapply Forall_impl; [|apply conv_lt; lia]. intros d Hd. cbn beta. unfold digit58. rewrite (position_char58 Hd). exact Hd.
Qed.
Lemma number58_bound t : Forall (fun c => digit58 c < 58) t -> number58 t < 58 ^ N.of_nat (length t).
Proof.
  intros H. unfold number58. rewrite number_value. rewrite <- (map_length digit58 t), <- rev_length. apply value_bound, Forall_rev, Forall_map. exact H.
Qed.
(** The text of a byte string that starts with a nonzero byte: first digit and number of digits. *)
Lemma base58_first s : s <> [] -> leading x00 s = 0%nat ->
  exists c r, base58_encode s = c :: r /\ digit58 c < 58 /\ digit58 c <> 0 /\
    digit58 c * 58 ^ N.of_nat (length r) <= number256 s < (digit58 c + 1) * 58 ^ N.of_nat (length r).
Proof.
  intros N L. destruct (base58_number s) as [V L']. rewrite L in L'. pose proof (digit58_lt s) as T.
  destruct (base58_encode s) as [|c r] eqn:E.
  - exfalso. destruct s as [|x s]; [congruence|]. cbn [leading] in L. destruct (beq x x00) eqn:Ex; [discriminate|].
    unfold number256 in V. rewrite number_cons in V. change (number58 []) with 0 in V.
    assert (Z : Byte.to_N x <> 0) by (intros Z; apply to_N_0 in Z; subst; discriminate).
    assert (P : 256 ^ N.of_nat (length s) <> 0) by (apply N.pow_nonzero; lia).
    assert (Byte.to_N x * 256 ^ N.of_nat (length s) <> 0) by (apply N.neq_mul_0; auto). lia.
  - exists c, r. inversion T as [|? ? Tc Tr]; subst. split; [reflexivity|]. split; [exact Tc|]. split.
    + cbn [leading] in L'. destruct (beq c "1"%byte) eqn:Ec; [discriminate|]. intros Z. unfold digit58 in Z.
      destruct c; try discriminate Z; discriminate Ec.
    + rewrite <- V. pose proof (number58_bound Tr) as Bd. assert (E58 : number58 (c :: r) = digit58 c * 58 ^ N.of_nat (length r) + number58 r) by apply number_cons.
      rewrite E58, N.mul_add_distr_r, N.mul_1_l. clear - Bd. lia.
Qed.
Lemma pow58_lt a b : 58 ^ a < 58 ^ b -> a < b.
Proof. intros H. apply (N.pow_lt_mono_r_iff 58); [lia|exact H]. Qed.
Lemma base58_length s lo hi : s <> [] -> leading x00 s = 0%nat -> 58 ^ lo <= number256 s < 58 ^ hi ->
  lo < N.of_nat (length (base58_encode s)) <= hi.
Proof.
  intros N L [B1 B2]. destruct (base58_first N L) as (c & r & -> & H1 & H2 & H3 & H4). cbn [length]. rewrite Nat2N.inj_succ.
  assert (U : (digit58 c + 1) * 58 ^ N.of_nat (length r) <= 58 ^ N.succ (N.of_nat (length r))) by (rewrite N.pow_succ_r'; apply N.mul_le_mono_r; lia).
  assert (W : 58 ^ N.of_nat (length r) <= digit58 c * 58 ^ N.of_nat (length r)).
  { rewrite <- (N.mul_1_l (58 ^ _)) at 1. apply N.mul_le_mono_r. lia. }
  assert (A1 : lo < N.succ (N.of_nat (length r))) by (apply pow58_lt; eapply N.le_lt_trans; [exact B1|]; eapply N.lt_le_trans; [exact H4|exact U]).
  assert (A2 : N.of_nat (length r) < hi) by (apply pow58_lt; eapply N.le_lt_trans; [exact W|]; eapply N.le_lt_trans; [exact H3|exact B2]). clear - A1 A2. lia.
Qed.
Lemma number256_cons c s : number256 (c :: s) = Byte.to_N c * 256 ^ N.of_nat (length s) + number256 s.
Proof. apply number_cons. Qed.
Lemma below_trans a b c : a <= b -> b < c -> a < c. Proof. lia. Qed.
Lemma number256_first c s n lo hi : length s = N.to_nat n -> lo <= Byte.to_N c < hi ->
  lo * 256 ^ n <= number256 (c :: s) < hi * 256 ^ n.
Proof.
  intros L [H1 H2]. rewrite number256_cons. pose proof (number256_bound s) as Bd. rewrite L, N2Nat.id in *.
  assert (lo * 256 ^ n <= Byte.to_N c * 256 ^ n) by (apply N.mul_le_mono_r; lia).
  assert ((Byte.to_N c + 1) * 256 ^ n <= hi * 256 ^ n) by (apply N.mul_le_mono_r; lia). lia.
Qed.
Lemma hex_digit_range c : In c (B "0123456789abcdef") -> 48 <= Byte.to_N c < 103 /\ c <> x00.
Proof. intros H. cbn in H. repeat (destruct H as [<-|H]; [vm_compute; split; [split; congruence|discriminate]|]). destruct H. Qed.
Lemma hex64_length h : hex_text h -> length h = 64%nat -> (87 <= length (base58_encode h) <= 88)%nat.
Proof.
  intros T L. destruct h as [|c h]; [discriminate|]. inversion T as [|? ? Tc _]; subst. destruct (hex_digit_range Tc) as [R Z].
  assert (Lh : length h = N.to_nat 63) by (cbn in L; vm_compute (N.to_nat 63); lia).
  destruct (number256_first Lh R) as [B1 B2].
  assert (X : 86 < N.of_nat (length (base58_encode (c :: h))) <= 88).
  { apply base58_length; [discriminate|cbn [leading]; destruct (beq c x00) eqn:E; [apply beq_eq in E; congruence|reflexivity]|].
    split; [eapply N.le_trans; [|exact B1]|eapply N.lt_le_trans; [exact B2|]]; vm_compute; discriminate. }
  clear - X. lia.
Qed.
Lemma hex64_length_exact x s : length s = 31%nat ->
  length (base58_encode (hex_encode (x :: s))) = if Byte.to_N x <? 32 then 87%nat else 88%nat.
Proof.
  intros L. destruct (hex_number (x :: s)) as (_ & Lh & T). cbn [length] in Lh. rewrite L in Lh. change (2 * 32)%nat with 64%nat in Lh.
  pose proof (hex64_length T Lh) as X.
  change (hex_encode (x :: s)) with (hex_digit (Byte.to_N x / 16) :: hex_digit (Byte.to_N x mod 16) :: hex_encode s) in *.
  set (a := hex_digit (Byte.to_N x / 16)) in *. set (b := hex_digit (Byte.to_N x mod 16)) in *. set (h := hex_encode s) in *.
  inversion T as [|? ? Ta T1]; subst. inversion T1 as [|? ? Tb T2]; subst. destruct (hex_digit_range Ta) as [Ra Za]. destruct (hex_digit_range Tb) as [Rb Zb].
  assert (L1 : length (b :: h) = N.to_nat 63) by (cbn in Lh |- *; vm_compute (N.to_nat 63); lia).
  assert (L2 : length h = N.to_nat 62) by (cbn in Lh |- *; vm_compute (N.to_nat 62); lia).
  assert (NZ : leading x00 (a :: b :: h) = 0%nat) by (cbn [leading]; destruct (beq a x00) eqn:E; [apply beq_eq in E; congruence|reflexivity]).
  destruct (Byte.to_N x <? 32) eqn:C.
  - assert (A : 48 <= Byte.to_N a < 50). { clear - C. unfold a. clear - C. destruct x; try discriminate C; vm_compute; split; congruence. }
    destruct (number256_first L1 A) as [_ B2].
    assert (Y : 0 < N.of_nat (length (base58_encode (a :: b :: h))) <= 87).
    { apply base58_length; [discriminate|exact NZ|]. split; [|eapply N.lt_le_trans; [exact B2|vm_compute; discriminate]].
      eapply N.le_trans; [|exact (proj1 (number256_first L1 Ra))]. vm_compute; discriminate. }
    clear - X Y. lia.
  - assert (A : 50 <= Byte.to_N a). { clear - C. unfold a. clear - C. destruct x; try discriminate C; vm_compute; congruence. }
    destruct (number256_first L2 Rb) as [B1 _].
    assert (Y : 87 < N.of_nat (length (base58_encode (a :: b :: h))) <= 88).
    { apply base58_length; [discriminate|exact NZ|]. split; [|eapply N.lt_le_trans; [exact (proj2 (number256_first L1 Ra))|vm_compute; discriminate]].
      rewrite number256_cons, L1, N2Nat.id. eapply N.le_trans; [|apply N.add_le_mono; [apply N.mul_le_mono_r; exact A|exact B1]]. vm_compute; discriminate. }
    clear - X Y. lia.
Qed.
Theorem did_length D (d : did D) i : blake3_size D -> did_identity d = Ok i -> exists x s,
  blake3 D (sha384 D (ed_pub_bytes D (ed_pub_key D (acc_pair (did_account d))))) = x :: s /\
  length (id_value i) = if Byte.to_N x <? 32 then 99%nat else 100%nat.
Proof.
  intros S H. rewrite did_identity_eq in H. apply ok_inj in H. subst i. cbn [id_value identity_new]. unfold identity_text, mb_encode58.
  change (ed_pub_key D (acc_pair (did_account d))) with (account_pubkey (did_account d)).
  pose proof (S (sha384 D (ed_pub_bytes D (account_pubkey (did_account d))))) as L.
  destruct (blake3 D _) as [|x s]; [discriminate|]. exists x, s. split; [reflexivity|].
  assert (Ls : length s = 31%nat) by (cbn in L; lia). pose proof (@hex64_length_exact x s Ls) as E. rewrite !app_length.
  change (length (B "did:prople:")) with 11%nat. cbn [length]. rewrite E. destruct (Byte.to_N x <? 32); reflexivity.
Qed.
Theorem hashlink_length D data t : blake3_size D -> generate_from_json D data = Ok t ->
  length t = 47%nat /\ exists r, t = B "zg" ++ r.
Proof.
  intros S H. destruct data as [[s]|e]; [|discriminate]. rewrite (hl_layout S) in H. apply ok_inj in H. subst t.
  pose proof (S s) as L. set (b := x1e :: x20 :: blake3 D s).
  assert (Bd : 0x1e20 * 256 ^ 32 <= number256 b < 0x1e21 * 256 ^ 32).
  { unfold b. rewrite !number256_cons. cbn [length]. rewrite L. pose proof (number256_bound (blake3 D s)) as X. rewrite L in X.
    revert X. generalize (number256 (blake3 D s)). intros n. clear.
    change (256 ^ N.of_nat 32) with (256 ^ 32). change (256 ^ N.of_nat 33) with (256 * 256 ^ 32). change (Byte.to_N x1e) with 30. change (Byte.to_N x20) with 32.
    generalize (256 ^ 32). intros p H. lia. }
  assert (N : b <> []) by discriminate. assert (Z : leading x00 b = 0%nat) by reflexivity.
  assert (X : 45 < N.of_nat (length (base58_encode b)) <= 46).
  { apply base58_length; auto. split; [eapply N.le_trans; [|exact (proj1 Bd)]|eapply N.lt_le_trans; [exact (proj2 Bd)|]]; vm_compute; discriminate. }
  destruct (base58_first N Z) as (c & r & E & H1 & H2 & H3 & H4). rewrite E in *. cbn [length] in X.
  assert (R : N.of_nat (length r) = 45) by (clear - X; lia). rewrite R in *.
  assert (C : digit58 c = 39).
  { destruct (N.lt_trichotomy (digit58 c) 39) as [C|[C|C]]; [|exact C|]; exfalso.
    - assert (A : (digit58 c + 1) * 58 ^ 45 <= 39 * 58 ^ 45) by (apply N.mul_le_mono_r; lia).
      assert (A' : 39 * 58 ^ 45 <= 0x1e20 * 256 ^ 32) by (vm_compute; discriminate).
      apply (N.lt_irrefl (number256 b)). eapply N.lt_le_trans; [exact H4|]. eapply N.le_trans; [exact A|]. eapply N.le_trans; [exact A'|exact (proj1 Bd)].
    - assert (A : 40 * 58 ^ 45 <= digit58 c * 58 ^ 45) by (apply N.mul_le_mono_r; lia).
      assert (A' : 0x1e21 * 256 ^ 32 <= 40 * 58 ^ 45) by (vm_compute; discriminate).
      apply (N.lt_irrefl (number256 b)). eapply N.lt_le_trans; [exact (proj2 Bd)|]. eapply N.le_trans; [exact A'|]. eapply N.le_trans; [exact A|exact H3]. }
  assert (G : c = "g"%byte) by (destruct c; try reflexivity; vm_compute in C; discriminate C).
  subst c. split; [cbn [length B app]; cbn; lia|exists r; reflexivity].
Qed.
