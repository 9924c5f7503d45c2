(** Proofs of C80. *)
From Verif Require Import Base BaseFacts Codec CodecFacts Json Deps Types Proof Suite JsonSpec Spec VcSpec SuiteSpec FlowSpec GenericSpec
  ParseFacts SchemaFacts DidFacts VcFacts SuiteFacts FlowFacts GenericFacts DocFacts DirectSpec.
Set Implicit Arguments.
Unset Strict Implicit.

Section Direct.
  Variable D : deps.
  Context {T : Type}.
  Variable P : proofable T.
  Theorem direct_create kp v o p :
    eddsa_create_proof D P kp v o = Ok p <->
    options_ok D o /\ exists t, pf_to_jcs P v = Ok t /\ p = with_value o (mb_encode58 (ed_sign D kp (text_message D o t))).
  Proof.
    unfold eddsa_create_proof. split.
    - intros H. destruct (generate_proof_config D o) as [c|] eqn:E1; cbn in H; [|discriminate].
      apply config_ok in E1 as [O ->]. destruct (transform_document P v o) as [t|] eqn:E2; cbn in H; [|discriminate].
      apply transform_ok in E2 as (_ & _ & E2). apply ok_inj in H. subst p. split; [exact O|]. exists t. split; [exact E2|reflexivity].
    - intros (O & t & E & ->).
      assert (E1 : generate_proof_config D o = Ok (canonical D (proof_json o))) by (apply config_ok; auto).
      assert (E2 : transform_document P v o = Ok t) by (destruct O as (O1 & O2 & _); apply transform_ok; auto).
      rewrite E1. cbn [bind]. rewrite E2. reflexivity.
  Qed.
  Theorem direct_create_errors kp v o e :
    eddsa_create_proof D P kp v o = Err e <-> first_failure (create_checks D P v o) e.
  Proof.
    assert (Q : eddsa_create_proof D P kp v o =
      let? _ := validate_type o in let? _ := validate_cryptosuite o in let? _ := validate_created D o in
      let? t := map_err (fun x => ProofGenerationError (did_error_text x)) (pf_to_jcs P v) in
      Ok (set_signature_as_string o (proof_byte_encode (ed_sign D kp (sha256 D (canonical D (proof_json o)) ++ sha256 D t))))).
    { unfold eddsa_create_proof, generate_proof_config, transform_document.
      destruct (validate_type o) as [[]|]; [|reflexivity]. destruct (validate_cryptosuite o) as [[]|]; [|reflexivity].
      destruct (validate_created D o) as [[]|]; [|reflexivity]. rewrite proof_jcs_text. cbn [bind map_err].
      destruct (pf_to_jcs P v) as [t|]; reflexivity. }
    rewrite Q. clear Q. unfold create_checks.
    apply chain; [apply type_err|intros [] _]. apply chain; [apply suite_err|intros [] _]. apply chain; [apply created_err|intros [] _].
    apply chain; [|intros; apply chain_end]. intros e'. apply (@jcs_err T P (no_text P)). reflexivity.
  Qed.
  Theorem direct_verify pk v r :
    eddsa_verify_proof D P pk v = Ok r <->
    exists p b sig t x, pf_get_proof P v = Some p /\ options_ok D p /\
      pf_to_jcs P (pf_remove_proof P v) = Ok t /\ mb_decode (mb_other D) (p_value p) = Some (b, sig) /\
      ed_verify D pk (text_message D (with_value p []) t) (hex_encode sig) = Ok x /\
      r = {| verified := x; document := if x then Some (pf_remove_proof P v) else None |}.
  Proof.
    unfold eddsa_verify_proof. split.
    - destruct (pf_get_proof P v) as [p|]; cbn; [|discriminate].
      destruct (mb_decode (mb_other D) (p_value p)) as [[b sig]|] eqn:E5; cbn; [|discriminate].
      destruct (transform_document P (pf_remove_proof P v) (remove_proof_value p)) as [t|] eqn:E6; cbn; [|discriminate].
      destruct (generate_proof_config D (remove_proof_value p)) as [c|] eqn:E7; cbn; [|discriminate].
      unfold verify_signature, proof_byte_to_hex.
      destruct (ed_verify D pk (sha256 D c ++ sha256 D t) (hex_encode sig)) as [x|] eqn:E8; cbn; [|discriminate].
      intros H. apply ok_inj in H. apply transform_ok in E6 as (_ & _ & E6). apply config_ok in E7 as [O ->].
      exists p, b, sig, t, x. split; [reflexivity|]. split; [exact O|]. split; [exact E6|]. split; [reflexivity || exact E5|]. split; [exact E8|].
      subst r. unfold verification_of. destruct x; reflexivity.
    - intros (p & b & sig & t & x & E2 & O & E6 & E5 & E8 & ->). rewrite E2. cbn [ok_or bind]. rewrite E5. cbn [ok_or bind].
      assert (E7 : generate_proof_config D (remove_proof_value p) = Ok (canonical D (proof_json (with_value p [])))).
      { apply config_ok. split; [exact O | reflexivity]. }
      assert (E6' : transform_document P (pf_remove_proof P v) (remove_proof_value p) = Ok t).
      { destruct O as (O1 & O2 & _). apply transform_ok. auto. }
      rewrite E6', E7. cbn [bind]. unfold generate_hash, hash_text. cbn [map_err bind]. unfold verify_signature, proof_byte_to_hex.
      unfold text_message in E8. rewrite E8. cbn. destruct x; reflexivity.
  Qed.
  Theorem direct_verify_errors pk v e :
    eddsa_verify_proof D P pk v = Err e <-> first_failure (verify_checks D P pk v) e.
  Proof.
    unfold eddsa_verify_proof, verify_checks. destruct (pf_get_proof P v) as [o|] eqn:Go; cbn [ok_or bind].
    2: { unfold ver. cbn [first_failure]. split; [intros H; apply err_inj in H; left; eauto|]. intros [(m & -> & ->)|[_ []]]. reflexivity. }
    assert (Q : (let? (_, proof_bytes) := ok_or (ProofVerificationError (mb_error D (p_value o))) (mb_decode (mb_other D) (p_value o)) in
        let? transformed_data := transform_document P (pf_remove_proof P v) (remove_proof_value o) in
        let? proof_config := generate_proof_config D (remove_proof_value o) in
        let? hashed_data := generate_hash D transformed_data proof_config in
        let? is_verified := verify_signature D pk hashed_data proof_bytes in
        Ok (verification_of is_verified (pf_remove_proof P v))) =
      let? y := ok_or (ProofVerificationError (mb_error D (p_value o))) (mb_decode (mb_other D) (p_value o)) in
      let? _ := validate_type o in let? _ := validate_cryptosuite o in
      let? t := map_err (fun x => ProofGenerationError (did_error_text x)) (pf_to_jcs P (pf_remove_proof P v)) in
      let? _ := validate_created D o in
      let? z := map_err ProofVerificationError (ed_verify D pk (sha256 D (canonical D (proof_json (with_value o []))) ++ sha256 D t) (hex_encode (snd y))) in
      Ok (verification_of z (pf_remove_proof P v))).
    { destruct (mb_decode (mb_other D) (p_value o)) as [[b sig]|]; [|reflexivity]. cbn [ok_or bind snd].
      unfold transform_document, generate_proof_config, verify_signature.
      change (validate_type (remove_proof_value o)) with (validate_type o). change (validate_cryptosuite (remove_proof_value o)) with (validate_cryptosuite o).
      change (validate_created D (remove_proof_value o)) with (validate_created D o).
      destruct (validate_type o) as [[]|]; [|reflexivity]. destruct (validate_cryptosuite o) as [[]|]; [|reflexivity]. cbn [bind].
      destruct (pf_to_jcs P (pf_remove_proof P v)) as [t|]; [|reflexivity]. cbn [bind map_err]. destruct (validate_created D o) as [[]|]; [|reflexivity].
      rewrite proof_jcs_text. unfold generate_hash, hash_text, proof_byte_to_hex, canonical. cbn [bind map_err].
      change (remove_proof_value o) with (with_value o []).
      destruct (ed_verify D pk _ _); reflexivity. }
    cbv zeta. rewrite Q. clear Q.
    apply chain; [|intros [b sig] Emb].
    { intros e'. rewrite ok_or_iff. unfold ver. split; [intros [-> ->]; eauto|intros (m & [H ->] & ->); auto]. }
    apply chain; [apply type_err|intros [] _]. apply chain; [apply suite_err|intros [] _].
    apply chain; [|intros t Et]. { intros e'. apply (@jcs_err T P (no_text P)). reflexivity. }
    apply chain; [apply created_err|intros [] _].
    apply chain; [|intros; apply chain_end].
    intros e'. rewrite map_err_iff. unfold ver, rejected. cbn [snd].
    assert (Et' : pf_to_jcs P (pf_remove_proof P v) = Ok t). { destruct (pf_to_jcs P (pf_remove_proof P v)) eqn:X; cbn in Et; [|discriminate]. apply ok_inj in Et. congruence. }
    assert (Emb' : mb_decode (mb_other D) (p_value o) = Some (b, sig)). { destruct (mb_decode _ _); cbn in Emb; [|discriminate]. apply ok_inj in Emb. congruence. }
    split.
    - intros (m & H & ->). eexists. split; [exists b, sig, t; eauto|reflexivity].
    - intros (m & (b' & sig' & t' & H1 & H2 & H3) & ->). rewrite Emb' in H1. apply some_inj in H1. injection H1 as <- <-.
      rewrite Et' in H2. apply ok_inj in H2. subst t'. eauto.
  Qed.
  Theorem layer_adds pk s e r :
    verify_proof D P pk s e = Ok r <->
    exists v p, pf_parse_json_bytes P s = Ok v /\ pf_get_proof P v = Some p /\ p_purpose p = e /\ e <> Unknown /\ eddsa_verify_proof D P pk v = Ok r.
  Proof.
    rewrite any_verify. split.
    - intros (v & p & b & sig & t & x & H1 & H2 & H3 & H4 & H5 & H6). exists v, p. repeat (split; [assumption|]).
      apply direct_verify. exists p, b, sig, t, x. tauto.
    - intros (v & p & H1 & H2 & H3 & H4 & H). apply direct_verify in H as (q & b & sig & t & x & G & H). exists v, p, b, sig, t, x.
      rewrite H2 in G. apply some_inj in G. subst q. tauto.
  Qed.
  Theorem direct_round kp v o p : ed_correct D -> p_value o = [] ->
    pf_get_proof P (pf_setup_proof P v p) = Some p -> pf_to_jcs P (pf_remove_proof P (pf_setup_proof P v p)) = pf_to_jcs P v ->
    eddsa_create_proof D P kp v o = Ok p ->
    eddsa_verify_proof D P (ed_pub_key D kp) (pf_setup_proof P v p) = Ok {| verified := true; document := Some (pf_remove_proof P (pf_setup_proof P v p)) |}.
  Proof.
    intros Hed Hv Hg Hj A. apply direct_create in A as (O & t & Ht & E). apply direct_verify.
    exists p, Base58Btc, (ed_sign D kp (text_message D o t)), t, true.
    split; [exact Hg|]. split; [rewrite E; exact O|]. split; [rewrite Hj; exact Ht|]. split; [rewrite E; apply mb58_reads|]. split; [|reflexivity].
    replace (with_value p []) with o; [apply Hed|]. subst p. destruct o; cbn in *; subst; reflexivity.
  Qed.
End Direct.
