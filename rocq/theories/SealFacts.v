(** Proofs of C81. *)
From Verif Require Import Base BaseFacts Codec CodecFacts Deps Types Keys Doc Identity Spec IdentitySpec DidFacts IdentityFacts HashFacts SealSpec Demo DemoFacts.
Set Implicit Arguments.
Unset Strict Implicit.

Section Seal.
  Variable D : deps.
  Hypothesis Hpem : pem_law D.
  Hypothesis Hform : ed_seal_form D.
  Lemma opens rnd kp pw ks : ed_seal D rnd (ed_priv_key D kp) pw = Ok ks -> account_from_keysecure D pw ks = Ok (account_new D kp).
  Proof.
    intros H. apply Hform in H as (pem & c & key & n & E & H1 & H2 & H3 & H4 & H5). destruct (Hpem E) as [U R].
    apply keysecure_open. exists c, key, n, pem. auto 10.
  Qed.
  Theorem account_seal (a : account D) rnd pw ks : ed_seal D rnd (account_privkey a) pw = Ok ks -> account_from_keysecure D pw ks = Ok a.
  Proof. intros H. apply opens in H. destruct a. exact H. Qed.
  Theorem account_reseal (a : account D) : forall l rnd pw ks pw' ks', ed_seal D rnd (account_privkey a) pw = Ok ks ->
    resealed D pw ks l pw' ks' -> account_from_keysecure D pw' ks' = Ok a.
  Proof.
    induction l as [|[r p] l IH]; cbn [resealed]; intros rnd pw ks pw' ks' S.
    - intros [-> ->]. exact (account_seal S).
    - intros (b & k & O & S' & R). rewrite (account_seal S) in O. injection O as <-. exact (IH _ _ _ _ _ S' R).
  Qed.
  Theorem slots_open v (cs : list (icall D)) pw r1 r2 r3 r4 ks :
    build_private_keys (irun (identity_new D v) cs) pw r1 r2 r3 r4 = Ok ks ->
    slot_opens D (ipk_authentication ks) pw (first_auth cs) /\ slot_opens D (ipk_assertion ks) pw (first_assertion cs).
  Proof.
    intros H. apply private_keys_spec in H. rewrite irun_eq in H.
    cbn [id_value id_authentication id_assertion identity_new orelse] in H. destruct H as (_ & Ha & Hs).
    assert (X : forall k rv ra o, sealed (option_map (@method_of D) k) rv ra pw o -> slot_opens D o pw k).
    { intros [[ed dh]|] rv ra [p|]; cbn [option_map sealed slot_opens method_of]; try tauto. intros [H1 _]. exact (opens H1). }
    split; eapply X; eauto.
  Qed.
  (** The two ways of opening agree. *)
  Theorem both_openers (a : account D) rnd pw ks : ed_seal_law D -> ed_seal D rnd (account_privkey a) pw = Ok ks ->
    exists pem, ks_decrypt D ks pw = Ok pem /\ account_from_pem D pem = Ok a /\ build_pem a = Ok pem.
  Proof.
    intros L S. destruct (L _ _ _ _ S) as (pem & E & O). exists pem. split; [exact O|].
    assert (Bp : build_pem a = Ok pem) by (unfold build_pem; unfold account_privkey in E; rewrite E; reflexivity).
    split; [apply (pem_restores Hpem Bp)|exact Bp].
  Qed.
End Seal.

Theorem demo_seal_form : ed_seal_form demo.
Proof.
  intros rnd sk pw ks. cbn [ed_seal demo]. unfold demo_seal. set (p := {| m_cost := 32 |}).
  destruct (demo_kdf p pw (hex_encode (fst rnd))) as [key|] eqn:K; [|discriminate]. intros H. injection H as <-.
  cbn [ks_cipher_text ks_kdf_params ks_salt ks_nonce].
  exists (demo_pem sk), (demo_encrypt key (nonce24 (snd rnd)) (demo_pem sk)), key, (nonce24 (snd rnd)).
  split; [reflexivity|]. split; [apply hex_decode_encode|]. split; [exact K|]. split; [apply hex_decode_encode|].
  split; [unfold nonce24; rewrite firstn_length, app_length, repeat_length; lia|].
  cbn [aead_decrypt demo]. unfold demo_decrypt, demo_encrypt.
  rewrite <- (real_sha256_size (key ++ nonce24 (snd rnd) ++ demo_pem sk)), firstn_app, skipn_app, Nat.sub_diag, firstn_all, skipn_all, app_nil_r.
  cbn [skipn firstn app]. rewrite bytes_eqb_refl. reflexivity.
Qed.
