(** Facts about accounts, keys and identities (C09-C16, C21). *)
From Verif Require Import Base BaseFacts Codec CodecFacts Json JsonParse Deps Types Did Keys Doc Identity Spec IdentitySpec DidFacts.
Set Implicit Arguments.
Unset Strict Implicit.

(** ** Accounts (C09-C11) *)
Section Account.
  Variable D : deps.

  Theorem pem_restores (a : account D) pem : pem_law D -> build_pem a = Ok pem ->
    account_from_pem D pem = Ok a /\ did_from_pem D pem = Ok {| did_account := a |}.
  Proof.
    intros L. unfold build_pem. destruct (ed_to_pem D (ed_priv_key D (acc_pair a))) as [t|] eqn:E; [|discriminate].
    intros [= <-]. destruct (L _ _ E) as [_ R]. unfold did_from_pem, account_from_pem. rewrite R.
    destruct a. split; reflexivity.
  Qed.
  Theorem pem_rejected t m : ed_from_pem D t = Err m ->
    account_from_pem D t = Err (DecodePEMError m) /\ did_from_pem D t = Err InvalidPEM.
  Proof. intros E. unfold did_from_pem, account_from_pem. rewrite E. split; reflexivity. Qed.

  Theorem keysecure_open pw ks (a : account D) :
    account_from_keysecure D pw ks = Ok a <->
    exists cipher key nonce pem,
      hex_decode (ks_cipher_text ks) = Some cipher /\
      kdf D (ks_kdf_params ks) pw (ks_salt ks) = Ok key /\
      hex_decode (ks_nonce ks) = Some nonce /\ length nonce = 24%nat /\
      aead_decrypt D key nonce cipher = Ok pem /\ utf8_valid pem = true /\
      ed_from_pem D pem = Ok (acc_pair a).
  Proof.
    unfold account_from_keysecure, hex_decode_res, to_array24.
    replace {| m_cost := m_cost (ks_kdf_params ks); p_cost := p_cost (ks_kdf_params ks);
      t_cost := t_cost (ks_kdf_params ks); output_len := output_len (ks_kdf_params ks) |}
      with (ks_kdf_params ks) by (destruct (ks_kdf_params ks); reflexivity).
    destruct (hex_decode (ks_cipher_text ks)) as [c|]; cbn [map_err bind];
      [|split; [discriminate | intros (? & ? & ? & ? & ? & _); discriminate]].
    destruct (kdf D _ pw _) as [key|]; cbn [map_err bind];
      [|split; [discriminate | intros (? & ? & ? & ? & _ & ? & _); discriminate]].
    destruct (hex_decode (ks_nonce ks)) as [n|]; cbn [map_err bind];
      [|split; [discriminate | intros (? & ? & ? & ? & _ & _ & ? & _); discriminate]].
    destruct (Nat.eqb (length n) 24) eqn:L; cbn [ok_or bind];
      [|split; [discriminate | intros (? & ? & ? & ? & _ & _ & [= <-] & H & _); apply Nat.eqb_neq in L; tauto]].
    apply Nat.eqb_eq in L.
    destruct (aead_decrypt D key n c) as [pem|] eqn:A; cbn [map_err bind];
      [|split; [discriminate | intros (? & ? & ? & ? & [= <-] & [= <-] & [= <-] & _ & H & _); congruence]].
    destruct (utf8_valid pem) eqn:U; cbn [map_err bind];
      [|split; [discriminate | intros (? & ? & ? & ? & [= <-] & [= <-] & [= <-] & _ & H & H' & _); congruence]].
    unfold account_from_pem. destruct (ed_from_pem D pem) as [kp|] eqn:P; cbn [map_ok map_err bind].
    - split.
      + intros [= <-]. exists c, key, n, pem. cbn. auto 10.
      + intros (c' & k' & n' & p' & [= <-] & [= <-] & [= <-] & _ & H & _ & Q). rewrite A in H. injection H as <-.
        rewrite P in Q. injection Q as ->. destruct a; reflexivity.
    - split; [discriminate|].
      intros (c' & k' & n' & p' & [= <-] & [= <-] & [= <-] & _ & H & _ & Q). rewrite A in H. injection H as <-. congruence.
  Qed.
  Theorem keysecure_errors pw ks e : account_from_keysecure D pw ks = Err e ->
    exists m, e = DecodeError m \/ e = DecodePEMError m.
  Proof.
    unfold account_from_keysecure, hex_decode_res, account_from_pem.
    destruct (hex_decode (ks_cipher_text ks)); cbn [map_err bind]; [|intros [= <-]; eauto].
    destruct (kdf D _ pw _); cbn [map_err bind]; [|intros [= <-]; eauto].
    destruct (hex_decode (ks_nonce ks)); cbn [map_err bind]; [|intros [= <-]; eauto].
    destruct (to_array24 _); cbn [ok_or bind]; [|intros [= <-]; eauto].
    destruct (aead_decrypt D _ _ _) as [pem|]; cbn [map_err bind]; [|intros [= <-]; eauto].
    destruct (utf8_valid pem); cbn [map_err bind]; [|intros [= <-]; eauto].
    destruct (ed_from_pem D pem); cbn [map_ok map_err bind]; [discriminate | intros [= <-]; eauto].
  Qed.
  Theorem did_keysecure pw ks :
    did_from_keysecure D pw ks =
    match account_from_keysecure D pw ks with
    | Ok a => Ok {| did_account := a |}
    | Err e => Err (InvalidKeysecure (account_error_text e))
    end.
  Proof. unfold did_from_keysecure. destruct (account_from_keysecure D pw ks); reflexivity. Qed.
  Theorem did_keysecure_open pw ks (d : did D) :
    did_from_keysecure D pw ks = Ok d <-> account_from_keysecure D pw ks = Ok (did_account d).
  Proof.
    rewrite did_keysecure. destruct (account_from_keysecure D pw ks) as [a|].
    - split; [intros [= <-]; auto | intros [= ->]; destruct d; auto].
    - split; discriminate.
  Qed.
  Theorem did_keysecure_errors pw ks e : did_from_keysecure D pw ks = Err e ->
    exists m, e = InvalidKeysecure m.
  Proof. rewrite did_keysecure. destruct (account_from_keysecure D pw ks); [discriminate | intros [= <-]; eauto]. Qed.

  Theorem keysecure_restores (enc : bytes -> bytes -> bytes -> bytes) (a : account D) pem pw params salt key nonce rest :
    pem_law D -> (forall k n m, aead_decrypt D k n (enc k n m) = Ok m) ->
    build_pem a = Ok pem -> kdf D params pw salt = Ok key -> length nonce = 24%nat ->
    let ks := {| ks_cipher_text := hex_encode (enc key nonce pem); ks_kdf_params := params;
                 ks_salt := salt; ks_nonce := hex_encode nonce; ks_rest := rest |} in
    account_from_keysecure D pw ks = Ok a /\ did_from_keysecure D pw ks = Ok {| did_account := a |}.
  Proof.
    intros L Ae Bp K N ks.
    assert (H : account_from_keysecure D pw ks = Ok a).
    { apply keysecure_open. cbn [ks ks_cipher_text ks_kdf_params ks_salt ks_nonce].
      unfold build_pem in Bp. destruct (ed_to_pem D _) eqn:E; [|discriminate]. injection Bp as <-.
      destruct (L _ _ E) as [U R].
      exists (enc key nonce a0), key, nonce, a0. rewrite !hex_decode_encode. auto 10. }
    split; auto. rewrite did_keysecure, H. reflexivity.
  Qed.
End Account.

(** ** Histories (C12-C16) *)
Section History.
  Variable D : deps.

  Definition method_of (k : ed_pair D * dh_pair D) : verification_method D :=
    build_verification_method D (fst k) (snd k).
  Definition orelse {A} (a b : option A) : option A := match a with Some _ => a | None => b end.

  Lemma irun_eq (cs : list (icall D)) i : irun i cs =
    {| id_value := id_value i;
       id_authentication := orelse (id_authentication i) (option_map method_of (first_auth cs));
       id_assertion := orelse (id_assertion i) (option_map method_of (first_assertion cs)) |}.
  Proof.
    revert i. induction cs as [|c cs IH]; intros i; cbn [irun fold_left].
    - destruct i as [v [a|] [s|]]; reflexivity.
    - fold (irun (istep i c) cs). rewrite IH.
      destruct i as [v [a|] [s|]], c as [ed dh|ed dh]; reflexivity.
  Qed.

  (** The four key values of a method are those of the generated pairs. *)

  Theorem keys_stable v (cs : list (icall D)) :
    let i := irun (identity_new D v) cs in
    id_value i = v /\ slot_keys (id_authentication i) (first_auth cs) /\
    slot_keys (id_assertion i) (first_assertion cs).
  Proof.
    cbv zeta. rewrite irun_eq. cbn [id_value id_authentication id_assertion identity_new orelse].
    split; [reflexivity|].
    destruct (first_auth cs) as [[e1 d1]|], (first_assertion cs) as [[e2 d2]|]; cbn; unfold has_keys; cbn; auto 10.
  Qed.
  Theorem keys_never_replaced (i : identity D) (cs : list (icall D)) m :
    id_authentication i = Some m -> id_authentication (irun i cs) = Some m.
  Proof. intros H. rewrite irun_eq. cbn. rewrite H. reflexivity. Qed.
  Theorem assertion_never_replaced (i : identity D) (cs : list (icall D)) m :
    id_assertion i = Some m -> id_assertion (irun i cs) = Some m.
  Proof. intros H. rewrite irun_eq. cbn. rewrite H. reflexivity. Qed.

  (** The published document. *)
  Theorem to_doc_shape v (cs : list (icall D)) :
    to_doc (irun (identity_new D v) cs) =
    {| doc_context := [B "https://www.w3.org/ns/did/v1"; B "https://w3id.org/security/suites/ed25519-2020/v1";
                       B "https://w3id.org/security/suites/x25519-2020/v1"];
       doc_id := v;
       doc_authentication := option_map (entries v (B "#key-auth-verification") (B "#key-auth-aggrement")) (first_auth cs);
       doc_cap_invoke := None; doc_cap_delegate := None;
       doc_assertion := option_map (entries v (B "#key-assertion-verification") (B "#key-assertion-aggrement")) (first_assertion cs) |}.
  Proof.
    rewrite irun_eq. cbn [identity_new id_value id_authentication id_assertion orelse].
    destruct (first_auth cs) as [[e1 d1]|], (first_assertion cs) as [[e2 d2]|]; reflexivity.
  Qed.

  Fixpoint nodup_b (l : list bytes) : bool :=
    match l with [] => true | x :: l' => negb (existsb (bytes_eqb x) l') && nodup_b l' end.
  Theorem entry_ids_distinct v (cs : list (icall D)) : NoDup (map pr_id (all_entries (to_doc (irun (identity_new D v) cs)))).
  Proof.
    rewrite to_doc_shape. unfold all_entries.
    cbn [doc_authentication doc_cap_invoke doc_cap_delegate doc_assertion].
    assert (X : forall l : list bytes, nodup_b l = true -> NoDup (map (app v) l)).
    { induction l as [|x l IH]; cbn [nodup_b map]; intros H; [constructor|].
      apply andb_prop in H as [H1 H2]. constructor; [|auto].
      intros I. apply in_map_iff in I as (y & E & I). apply app_inv_head in E. subst y.
      apply negb_true_iff in H1. rewrite <- not_true_iff_false in H1. apply H1, existsb_exists.
      exists x. split; auto using bytes_eqb_refl. }
    destruct (first_auth cs) as [k1|], (first_assertion cs) as [k2|]; cbn [option_map entries app map pr_id].
    - apply (X [B "#key-auth-verification"; B "#key-auth-aggrement"; B "#key-assertion-verification"; B "#key-assertion-aggrement"] eq_refl).
    - apply (X [B "#key-auth-verification"; B "#key-auth-aggrement"] eq_refl).
    - apply (X [B "#key-assertion-verification"; B "#key-assertion-aggrement"] eq_refl).
    - constructor.
  Qed.

  Lemma decode_verification id c pk : ed_hex_law D ->
    decode_pub_key D {| pr_id := id; pr_controller := c; pr_type := B "Ed25519VerificationKey2020";
                        pr_multibase := mb_encode58 (ed_pub_to_hex D pk) |} = Ok (EdDSA D pk).
  Proof.
    intros L. destruct (L pk) as [U R].
    unfold decode_pub_key, decode_pub_key_verification. cbn [pr_type pr_multibase].
    rewrite mb_decode_encode58. cbn [ok_or bind]. rewrite U. cbn [bind]. rewrite R. reflexivity.
  Qed.
  Lemma decode_agreement id c pk : dh_hex_law D ->
    decode_pub_key D {| pr_id := id; pr_controller := c; pr_type := B "X25519KeyAgreementKey2020";
                        pr_multibase := mb_encode58 (dh_pub_to_hex D pk) |} = Ok (ECDH D pk).
  Proof.
    intros L. destruct (L pk) as [U R].
    unfold decode_pub_key, decode_pub_key_agreement. cbn [pr_type pr_multibase].
    rewrite mb_decode_encode58. cbn [ok_or bind]. rewrite U. cbn [bind]. rewrite R. reflexivity.
  Qed.
  Theorem published_keys v (cs : list (icall D)) : ed_hex_law D -> dh_hex_law D ->
    let d := to_doc (irun (identity_new D v) cs) in
    decodes_to (doc_authentication d) (first_auth cs) /\ decodes_to (doc_assertion d) (first_assertion cs).
  Proof.
    intros L1 L2. cbv zeta. rewrite to_doc_shape. cbn [doc_authentication doc_assertion].
    destruct (first_auth cs) as [[e1 d1]|], (first_assertion cs) as [[e2 d2]|]; cbn [option_map entries decodes_to fst snd];
      repeat split; auto using decode_verification, decode_agreement.
  Qed.

  (** What of an identity is public. *)
  Theorem doc_public_only (i1 i2 : identity D) : public_part i1 = public_part i2 -> to_doc i1 = to_doc i2.
  Proof.
    unfold public_part, public_method. destruct i1 as [v1 a1 s1], i2 as [v2 a2 s2].
    cbn [id_value id_authentication id_assertion]. intros [= <- Ha Hs].
    unfold to_doc. cbn [id_value id_authentication id_assertion].
    destruct a1 as [a1|], a2 as [a2|]; try discriminate; destruct s1 as [s1|], s2 as [s2|]; try discriminate;
      cbn [option_map] in *;
      repeat match goal with H : Some _ = Some _ |- _ => injection H as ? ? end;
      repeat match goal with H : vp_pub_key _ = vp_pub_key _ |- _ => rewrite H; clear H
                           | H : ap_pub_key _ = ap_pub_key _ |- _ => rewrite H; clear H end; reflexivity.
  Qed.

  (** ** Sealing (C16) *)
  Theorem private_keys_spec (i : identity D) pw r1 r2 r3 r4 ks :
    build_private_keys i pw r1 r2 r3 r4 = Ok ks <->
    ipk_identity ks = id_value i /\ sealed (id_authentication i) r1 r2 pw (ipk_authentication ks) /\
    sealed (id_assertion i) r3 r4 pw (ipk_assertion ks).
  Proof.
    destruct ks as [kv ka ks]. cbn [ipk_identity ipk_authentication ipk_assertion].
    unfold build_private_keys, seal_method, vpairs_build_keysecure, apairs_build_keysecure, identity_private_keys_new.
    destruct i as [v a s]. cbn [id_value id_authentication id_assertion sealed ipk_identity ipk_authentication ipk_assertion].
    destruct a as [a|]; cbn [sealed bind].
    - destruct (ed_seal D r1 _ pw) as [x1|]; cbn [map_err bind];
        [|split; [discriminate | intros (_ & H & _); destruct ka; [destruct H; discriminate | tauto]]].
      destruct (dh_seal D r2 _ pw) as [x2|]; cbn [map_err bind];
        [|split; [discriminate | intros (_ & H & _); destruct ka; [destruct H; discriminate | tauto]]].
      destruct s as [s|]; cbn [sealed bind ipk_identity ipk_authentication ipk_assertion].
      + destruct (ed_seal D r3 _ pw) as [x3|]; cbn [map_err bind];
          [|split; [discriminate | intros (_ & _ & H); destruct ks; [destruct H; discriminate | tauto]]].
        destruct (dh_seal D r4 _ pw) as [x4|]; cbn [map_err bind];
          [|split; [discriminate | intros (_ & _ & H); destruct ks; [destruct H; discriminate | tauto]]].
        split; [intros [= <- <- <-]; cbn; auto|].
        intros (-> & H1 & H2). destruct ka as [[? ?]|], ks as [[? ?]|]; try tauto.
        destruct H1 as [[= ->] [= ->]], H2 as [[= ->] [= ->]]. reflexivity.
      + split; [intros [= <- <- <-]; cbn; auto|].
        intros (-> & H1 & H2). destruct ka as [[? ?]|], ks as [[? ?]|]; try tauto.
        destruct H1 as [[= ->] [= ->]]. reflexivity.
    - destruct s as [s|]; cbn [sealed bind ipk_identity ipk_authentication ipk_assertion].
      + destruct (ed_seal D r3 _ pw) as [x3|]; cbn [map_err bind];
          [|split; [discriminate | intros (_ & _ & H); destruct ks; [destruct H; discriminate | tauto]]].
        destruct (dh_seal D r4 _ pw) as [x4|]; cbn [map_err bind];
          [|split; [discriminate | intros (_ & _ & H); destruct ks; [destruct H; discriminate | tauto]]].
        split; [intros [= <- <- <-]; cbn; auto|].
        intros (-> & H1 & H2). destruct ka as [[? ?]|], ks as [[? ?]|]; try tauto.
        destruct H2 as [[= ->] [= ->]]. reflexivity.
      + split; [intros [= <- <- <-]; cbn; auto|].
        intros (-> & H1 & H2). destruct ka as [[? ?]|], ks as [[? ?]|]; tauto.
  Qed.
  Theorem private_keys_error (i : identity D) pw r1 r2 r3 r4 e :
    build_private_keys i pw r1 r2 r3 r4 = Err e -> e = BuildIdentityPrivateKeysError.
  Proof.
    unfold build_private_keys, seal_method, vpairs_build_keysecure, apairs_build_keysecure.
    destruct (id_authentication i) as [a|]; cbn [bind];
      [destruct (ed_seal D r1 _ pw); cbn [map_err bind]; [|congruence];
       destruct (dh_seal D r2 _ pw); cbn [map_err bind]; [|congruence]|];
      (destruct (id_assertion i) as [s|]; cbn [bind]; [|discriminate];
       destruct (ed_seal D r3 _ pw); cbn [map_err bind]; [|congruence];
       destruct (dh_seal D r4 _ pw); cbn [map_err bind]; [discriminate|congruence]).
  Qed.
  Theorem private_keys_open v (cs : list (icall D)) pw r1 r2 r3 r4 ks : ed_seal_law D -> dh_seal_law D ->
    build_private_keys (irun (identity_new D v) cs) pw r1 r2 r3 r4 = Ok ks ->
    ipk_identity ks = v /\ opens_to (ipk_authentication ks) pw (first_auth cs) /\
    opens_to (ipk_assertion ks) pw (first_assertion cs).
  Proof.
    intros L1 L2 H. apply private_keys_spec in H. rewrite irun_eq in H.
    cbn [id_value id_authentication id_assertion identity_new orelse] in H.
    destruct H as (Hv & Ha & Hs). split; [auto|].
    assert (X : forall k rv ra o, sealed (option_map method_of k) rv ra pw o -> opens_to o pw k).
    { intros [[ed dh]|] rv ra [p|]; cbn [option_map sealed opens_to method_of]; try tauto.
      cbn. intros [H1 H2]. unfold decrypt_verification, decrypt_agreement.
      destruct (L1 _ _ _ _ H1) as (pem & E & ->). rewrite (L2 _ _ _ _ H2). cbn. eauto. }
    split; eapply X; eauto.
  Qed.

  (** ** Key pair validity (C21) *)
  Theorem generated_valid (ed : ed_pair D) (dh : dh_pair D) pem :
    ed_to_pem D (ed_priv_key D ed) = Ok pem ->
    vpairs_is_valid (verification_generate D ed) = true /\ apairs_is_valid (agreement_generate D dh) = true.
  Proof.
    intros E. unfold vpairs_is_valid, verification_generate. cbn [vp_priv_key vp_pub_key]. rewrite E. split; reflexivity.
  Qed.
  Theorem garbage_valid (sk : ed_priv D) pem (pub : bytes) :
    ed_to_pem D sk = Ok pem -> pem <> [] -> vpairs_is_valid {| vp_pub_key := pub; vp_priv_key := sk |} = true.
  Proof.
    intros E N. unfold vpairs_is_valid. cbn [vp_priv_key vp_pub_key]. rewrite E. destruct pem; [tauto|].
    apply orb_true_r.
  Qed.
  Theorem generated_decode (ed : ed_pair D) (dh : dh_pair D) : ed_hex_law D -> dh_hex_law D ->
    vpairs_decode_pub_key (verification_generate D ed) = Ok (ed_pub_key D ed) /\
    apairs_decode_public_key (agreement_generate D dh) = Ok (dh_pub_key D dh).
  Proof.
    intros L1 L2. destruct (L1 (ed_pub_key D ed)) as [U1 R1], (L2 (dh_pub_key D dh)) as [U2 R2].
    unfold vpairs_decode_pub_key, apairs_decode_public_key, verification_generate, agreement_generate.
    cbn [vp_pub_key ap_pub_key]. rewrite !mb_decode_encode58. cbn [ok_or bind]. rewrite U1, U2. cbn [bind].
    rewrite R1, R2. split; reflexivity.
  Qed.
  Theorem vpairs_valid_iff (p : vpairs D) :
    vpairs_is_valid p = true <-> exists pem, ed_to_pem D (vp_priv_key p) = Ok pem /\ (vp_pub_key p <> [] \/ pem <> []).
  Proof.
    unfold vpairs_is_valid. destruct (ed_to_pem D (vp_priv_key p)) as [pem|].
    - split.
      + intros H. exists pem. split; auto. apply orb_true_iff in H as [H|H].
        * left. destruct (vp_pub_key p); [discriminate|congruence].
        * right. destruct pem; [discriminate|congruence].
      + intros (q & [= <-] & [H|H]); apply orb_true_iff; [left | right].
        * destruct (vp_pub_key p); [tauto|reflexivity].
        * destruct pem; [tauto|reflexivity].
    - split; [discriminate | intros (? & [=] & _)].
  Qed.
  Theorem apairs_valid_iff (p : apairs D) :
    apairs_is_valid p = true <-> (ap_pub_key p <> [] \/ dh_to_hex D (ap_priv_key p) <> []).
  Proof.
    unfold apairs_is_valid. rewrite orb_true_iff. destruct (ap_pub_key p), (dh_to_hex D (ap_priv_key p)); cbn; intuition congruence.
  Qed.
End History.
