(** Proofs of C97. *)
From Verif Require Addr AddrDemo.
From Verif Require Import Base BaseFacts Codec CodecFacts Json JsonParse Deps Types Keys KeyStore Doc Identity Proof Vc Suite JsonSpec Spec IdentitySpec VcSpec SuiteSpec MiscSpec FlowSpec Grammar CanonSpec ReadFacts ConnSpec WorldSpec
  FlowFacts Float FloatSpec FloatLaws FloatWorld Demo DemoFacts FlowDemo SuiteFacts PropsVc FloatDemo TimeSpec BasesSpec DigestSpec DigestFacts AeadSpec SealSpec SealFacts Hash Ed25519 Ed25519Spec Ed25519World ShaSpec ShaFacts ShaWorld PemSpec X25519Spec X25519World Argon2Spec Argon2World PemWorld WholeSpec.
Local Opaque argon2_kdf.

Section Run.
  Variable D : deps.
  Hypotheses (R : rfc8032 D) (H : real_hashes D) (W : ieee D).
  Lemma attack_standard pk past o j sig : readable (ed_pub_bytes D pk) -> attack D pk past o j sig -> forged D pk past o j sig \/ collides D pk past o j.
  Proof.
    destruct H as (S & _). intros Rd [[V N]|(x & I & C)].
    - left. exists (real_sha256 (canonical D (proof_json o))), (real_sha256 (canonical D j)). split; [apply sha256_iff; reflexivity|]. split; [apply sha256_iff; reflexivity|]. split.
      + destruct R as (secret & _ & _ & Rv). apply verify_accepted. rewrite <- Rv by exact Rd. unfold message in V. rewrite !S in V. exact V.
      + intros x I [A1 A2]. apply N. apply in_map_iff. exists x. split; [|exact I]. apply sha256_iff in A1, A2. unfold signing_message, message. rewrite !S. congruence.
    - right. destruct C as [[Nt E]|[Nt E]]; rewrite !S in E; exists x; do 2 eexists; eexists; (split; [exact I|]).
      + split; [left; split; reflexivity|]. split; [exact Nt|]. split; [apply sha256_iff; reflexivity|apply sha256_iff; exact E].
      + split; [right; split; reflexivity|]. split; [exact Nt|]. split; [apply sha256_iff; reflexivity|apply sha256_iff; exact E].
  Qed.
  Theorem standard_vc run : Forall (@real_event D) run -> forall past pk s e future r, readable (ed_pub_bytes D pk) ->
    run = past ++ VerifiesVc D pk s e :: future ->
    verify_proof D (vc_proofable D) pk s e = Ok r -> verified r = true ->
    exists w o sig, document r = Some w /\ carried D (vc_proofable D) s o sig /\ p_purpose o = e /\
      ((exists kp v, In (Signs D kp (SignVc v o)) past /\ ed_pub_bytes D (ed_pub_key D kp) = ed_pub_bytes D pk /\
          signs_ok D kp (SignVc v o) = true /\ vc_renumbered same_float v w) \/
       forged D pk past o (vc_json w) sig \/ collides D pk past o (vc_json w)).
  Proof.
    intros F past pk s e future r Rd E V Y. destruct (@accepted_vc D W run F past pk s e future r (proj1 (real_sizes H)) E V Y) as (w & o & sig & H1 & H2 & H3 & [A|A]);
      exists w, o, sig; do 3 (split; [assumption|]); [left; exact A|right; exact (attack_standard _ _ _ _ _ Rd A)].
  Qed.
  Theorem standard_vp run : Forall (@real_event D) run -> forall past pk s e future r, readable (ed_pub_bytes D pk) ->
    run = past ++ VerifiesVp D pk s e :: future ->
    verify_proof D (vp_proofable D) pk s e = Ok r -> verified r = true ->
    exists w o sig, document r = Some w /\ carried D (vp_proofable D) s o sig /\ p_purpose o = e /\
      ((exists kp v, In (Signs D kp (SignVp v o)) past /\ ed_pub_bytes D (ed_pub_key D kp) = ed_pub_bytes D pk /\
          signs_ok D kp (SignVp v o) = true /\ vp_renumbered same_float v w) \/
       forged D pk past o (vp_json w) sig \/ collides D pk past o (vp_json w)).
  Proof.
    intros F past pk s e future r Rd E V Y. destruct (@accepted_vp D W run F past pk s e future r (proj1 (real_sizes H)) E V Y) as (w & o & sig & H1 & H2 & H3 & [A|A]);
      exists w, o, sig; do 3 (split; [assumption|]); [left; exact A|right; exact (attack_standard _ _ _ _ _ Rd A)].
  Qed.
End Run.

(** ** With dependencies that meet every law *)
Theorem whole_laws :
  rfc8032 whole /\ rfc7748 whole seed_bytes /\ real_hashes whole /\ ieee whole /\ multibase09 whole /\ chrono (-262143) 262142 whole /\ pkcs8 whole /\ xchacha whole /\ argon2 whole /\ ed_sealed whole /\
  ed_correct whole /\ ed_hex_law whole /\ ed_bytes_inj whole /\ dh_hex_law whole /\ pem_law whole /\ ed_seal_law whole /\ dh_seal_law whole /\ seals_wf whole /\
  ks_json_law whole demo_ks_json demo_json_ks /\ jcs_order whole /\ jcs_utf16 whole /\ jcs_numbers whole /\ jcs_stable whole /\ floats_written whole /\
  sha256_size whole /\ sha384_size whole /\ blake3_size whole /\ (exists view, Addr.multiaddr18 AddrDemo.nothing_else whole view).
Proof.
  split; [exact whole_rfc8032|]. split; [exact whole_rfc7748|]. split; [exact whole_hashes|]. split; [exact whole_ieee|]. split; [exact whole_multibase|]. split; [exact whole_chrono|]. split; [exact whole_pkcs8|]. split; [exact whole_xchacha|]. split; [exact whole_argon2|].
  split; [exact whole_sealed|]. split; [exact whole_correct|]. split; [exact whole_hex|]. split; [exact whole_bytes|]. split; [exact whole_dh|]. split; [exact whole_pem|]. split; [exact whole_ed_seal|].
  split; [exact whole_dh_seal|]. split; [exact whole_seals|]. split; [exact whole_ks_json|]. split; [exact (proj1 whole_order)|]. split; [exact (proj2 whole_order)|].
  destruct (ieee_laws whole_ieee) as (L1 & L2 & L3). split; [exact L1|]. split; [exact L2|]. split; [exact L3|]. destruct whole_sizes as (S1 & S2 & S3). split; [exact S1|]. split; [exact S2|]. split; [exact S3|]. eexists. exact whole_multiaddr.
Qed.
Theorem whole_life v (cs : list (icall whole)) pw r1 r2 r3 r4 ks : utf8 v ->
  build_private_keys (irun (identity_new whole v) cs) pw r1 r2 r3 r4 = Ok ks ->
  forall ed dh, first_assertion cs = Some (ed, dh) ->
  exists stored published ks' d p pem a e1 e2,
    ipk_to_json demo_ks_json whole ks = Ok (JSONValue stored) /\ doc_to_json whole (to_doc (irun (identity_new whole v) cs)) = Ok (JSONValue published) /\
    ipk_from_slice demo_json_ks whole stored = Some ks' /\ ipk_assertion ks' = Some p /\ decrypt_verification whole p pw = Ok pem /\ account_from_pem whole pem = Ok a /\
    doc_from_slice whole published = Some d /\ doc_id d = v /\ doc_assertion d = Some [e1; e2] /\
    exists pk, decode_pub_key whole e1 = Ok (EdDSA whole pk) /\
    forall c o c', vc_shape real c -> proof_wf o -> (depth (vc_subject c) <= 126)%nat -> vc_proof c = None -> p_value o = [] ->
      add_proof whole (vc_proofable whole) (acc_pair a) c o = Ok c' ->
      exists t, vc_to_json whole c' = Ok (JSONValue t) /\
        verify_proof whole (vc_proofable whole) pk t (p_purpose o) = Ok {| verified := true; document := Some c |}.
Proof.
  intros U B ed dh F.
  destruct (life_assertion whole_ks_json whole_seals whole_ed_seal whole_dh_seal whole_pem whole_correct whole_hex whole_dh U B F)
    as (stored & published & ks' & d & p & pem & a & e1 & e2 & H1 & H2 & H3 & H4 & H5 & H6 & H7 & H8 & H9 & _ & _ & pk & H10 & H11).
  exists stored, published, ks', d, p, pem, a, e1, e2. do 9 (split; [assumption|]). exists pk. split; [exact H10|]. intros c o c' S. exact (H11 c o c' (vc_real whole_ieee S)).
Qed.

(** A run: a credential is signed, sent and accepted. *)
Definition sevens : ed_pair whole := exist (fun s => Nat.eqb (length s) 32 = true) (repeat x07 32) eq_refl.
Theorem whole_run : exists t, let run := [Signs whole sevens (SignVc decimal_vc demo_proof); VerifiesVc whole (ed_pub_key whole sevens) t AssertionMethod] in
  Forall (@real_event whole) run /\ readable (ed_pub_bytes whole (ed_pub_key whole sevens)) /\ signs_ok whole sevens (SignVc decimal_vc demo_proof) = true /\
  verify_proof whole (vc_proofable whole) (ed_pub_key whole sevens) t AssertionMethod = Ok {| verified := true; document := Some decimal_vc |}.
Proof.
  assert (O : options_ok whole demo_proof).
  { split; [reflexivity|]. split; [reflexivity|]. do 2 eexists. split; [reflexivity|]. change (datetime whole) with read_stamp. vm_compute. reflexivity. }
  assert (C : vc_complete decimal_vc) by (repeat split; discriminate).
  destruct (add_proof whole (vc_proofable whole) sevens decimal_vc demo_proof) as [v'|x] eqn:A.
  2:{ exfalso. eassert (Y : add_proof whole (vc_proofable whole) sevens decimal_vc demo_proof = Ok _).
      { apply (doc_add_proof (vc_doc_laws whole)). split; [exact O|]. split; [discriminate|]. split; [exact C|reflexivity]. }
      rewrite Y in A. discriminate A. }
  destruct (@vc_sent whole whole_ieee sevens decimal_vc demo_proof v') as (t & _ & V); [exact whole_correct|exact decimal_shape|repeat split; exact I| |reflexivity|reflexivity|exact A|].
  { cbn. repeat constructor. }
  exists t. cbv zeta. split; [repeat constructor; exact decimal_shape|]. split; [apply public_readable|]. split; [cbn [signs_ok]; rewrite A; reflexivity|exact V].
Qed.
