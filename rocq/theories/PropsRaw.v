(** C104: accounts that also sign other things than documents. *)
From Verif Require Import Base Codec Json Deps Types Proof Vc Keys Suite JsonSpec Spec VcSpec SuiteSpec FlowSpec CanonSpec ReadFacts ConnSpec WorldSpec RawSpec RawFacts
  Demo DemoFacts PropsVc PropsSuite.

(** C104. In every execution with accounts that sign documents and also bytes of whatever origin: when bytes are accepted for a key,
    the document was signed before, for the expected purpose, successfully and with that key (numbers up to their canonical
    text); or an account with that key signed 64 bytes that are the hashes of the options and of the document; or the key's holder is
    impersonated. *)
Theorem C104_vc : forall D run past pk s e future r, Forall (act_wf D) run -> sha256_size D -> jcs_numbers D ->
  run = past ++ Event D (VerifiesVc D pk s e) :: future ->
  verify_proof D (vc_proofable D) pk s e = Ok r -> verified r = true ->
  exists w o sig, document r = Some w /\ carried D (vc_proofable D) s o sig /\ p_purpose o = e /\
    ((exists kp v, In (Event D (Signs D kp (SignVc v o))) past /\ ed_pub_bytes D (ed_pub_key D kp) = ed_pub_bytes D pk /\
        signs_ok D kp (SignVc v o) = true /\ vc_renumbered (equal_canonical D) v w /\
        (all_numbers (fun _ => False) (vc_subject v) -> w = v)) \/
     (exists m, signed_raw D pk past m /\ two_hashes D o (vc_json w) m) \/
     raw_attack D pk past o (vc_json w) sig).
Proof. exact raw_vc. Qed.
Print Assumptions C104_vc.
Theorem C104_vp : forall D run past pk s e future r, Forall (act_wf D) run -> sha256_size D -> jcs_numbers D ->
  run = past ++ Event D (VerifiesVp D pk s e) :: future ->
  verify_proof D (vp_proofable D) pk s e = Ok r -> verified r = true ->
  exists w o sig, document r = Some w /\ carried D (vp_proofable D) s o sig /\ p_purpose o = e /\
    ((exists kp v, In (Event D (Signs D kp (SignVp v o))) past /\ ed_pub_bytes D (ed_pub_key D kp) = ed_pub_bytes D pk /\
        signs_ok D kp (SignVp v o) = true /\ vp_renumbered (equal_canonical D) v w /\
        (Forall (fun c => all_numbers (fun _ => False) (vc_subject c)) (vp_credentials v) -> w = v)) \/
     (exists m, signed_raw D pk past m /\ two_hashes D o (vp_json w) m) \/
     raw_attack D pk past o (vp_json w) sig).
Proof. exact raw_vp. Qed.
Print Assumptions C104_vp.
(** "What is accepted was signed as a document" is false: for every account and every document and options that could be signed there are
    64 bytes such that the account's signature of them, in the place of the proof value, makes the document accepted for the account's key,
    though nothing was ever signed as a document. *)
Theorem C104_vc_refuted : forall D (a : account D) v o, ed_correct D -> sha256_size D -> vc_wf D v -> proof_wf o -> (depth (vc_subject v) <= 126)%nat ->
  vc_proof v = None -> p_value o = [] -> options_ok D o -> p_purpose o <> Unknown -> vc_complete v ->
  exists m, two_hashes D o (vc_json v) m /\
  exists t, vc_to_json D (vc_with_proof v (Some (with_value o (mb_encode58 (account_sign a m))))) = Ok (JSONValue t) /\
  forall pk, pk = account_pubkey a -> signed_by D pk (events D [SignsRaw D a m; Event D (VerifiesVc D pk t (p_purpose o))]) = [] /\
    verify_proof D (vc_proofable D) pk t (p_purpose o) = Ok {| verified := true; document := Some v |}.
Proof. exact raw_makes_vc. Qed.
Print Assumptions C104_vc_refuted.
Theorem C104_vp_refuted : forall D (a : account D) v o, ed_correct D -> sha256_size D -> vp_wf D v -> proof_wf o ->
  Forall (fun c => (depth (vc_subject c) <= 124)%nat) (vp_credentials v) ->
  vp_proof v = None -> p_value o = [] -> options_ok D o -> p_purpose o <> Unknown -> vp_complete v ->
  exists m, two_hashes D o (vp_json v) m /\
  exists t, vp_to_json D (vp_with_proof v (Some (with_value o (mb_encode58 (account_sign a m))))) = Ok (JSONValue t) /\
  forall pk, pk = account_pubkey a -> signed_by D pk (events D [SignsRaw D a m; Event D (VerifiesVp D pk t (p_purpose o))]) = [] /\
    verify_proof D (vp_proofable D) pk t (p_purpose o) = Ok {| verified := true; document := Some v |}.
Proof. exact raw_makes_vp. Qed.
Print Assumptions C104_vp_refuted.
(** Nor the other way round: the proof of a document is the account's signature of 64 bytes. *)
Theorem C104_vc_raw : forall D (a : account D) v o v', sha256_size D -> add_proof D (vc_proofable D) (acc_pair a) v o = Ok v' ->
  exists m p, two_hashes D o (vc_json v) m /\ vc_proof v' = Some p /\ mb_decode (mb_other D) (p_value p) = Some (Base58Btc, account_sign a m).
Proof. exact proof_is_raw_vc. Qed.
Print Assumptions C104_vc_raw.
Theorem C104_vp_raw : forall D (a : account D) v o v', sha256_size D -> add_proof D (vp_proofable D) (acc_pair a) v o = Ok v' ->
  exists m p, two_hashes D o (vp_json v) m /\ vp_proof v' = Some p /\ mb_decode (mb_other D) (p_value p) = Some (Base58Btc, account_sign a m).
Proof. exact proof_is_raw_vp. Qed.
Print Assumptions C104_vp_raw.
(** An account signs 64 bytes, and a credential with that signature is accepted; with a signature of other bytes it is not. *)
Definition raw_account : account demo := {| acc_pair := demo_key |}.
Definition raw_text (m : bytes) : bytes :=
  match vc_to_json demo (vc_with_proof demo_vc (Some (with_value demo_proof (mb_encode58 (account_sign raw_account m))))) with Ok (JSONValue t) => t | Err _ => [] end.
Example C104_example :
  let m := message demo demo_proof (vc_json demo_vc) in
  let run := [SignsRaw demo raw_account m; Event demo (VerifiesVc demo (ed_pub_key demo demo_key) (raw_text m) AssertionMethod)] in
  Forall (act_wf demo) run /\ sha256_size demo /\ jcs_numbers demo /\ ed_correct demo /\ vc_wf demo demo_vc /\ vp_wf demo demo_vp /\ proof_wf demo_proof /\
  options_ok demo demo_proof /\ vc_complete demo_vc /\ vp_complete demo_vp /\ p_value demo_proof = [] /\ vc_proof demo_vc = None /\
  length m = 64%nat /\ signed_raw demo (ed_pub_key demo demo_key) run m /\
  outcome_of (verify_proof demo (vc_proofable demo) (ed_pub_key demo demo_key) (raw_text m) AssertionMethod) = Some true /\
  outcome_of (verify_proof demo (vc_proofable demo) (ed_pub_key demo demo_key) (raw_text (B "hello")) AssertionMethod) = Some false.
Proof.
  cbv zeta. split; [constructor; [exact I|constructor; [exact I|constructor]]|]. split; [exact demo_sha256_size|]. split; [exact demo_jcs_numbers|]. split; [exact demo_ed_correct|].
  split; [exact (proj1 C24_example)|]. split; [exact (proj1 (proj2 C24_example))|]. split; [repeat split; exact I|].
  split; [exact (proj1 C29_example)|]. split; [exact (proj1 (proj2 (proj2 C29_example)))|]. split; [exact (proj1 (proj2 (proj2 (proj2 C29_example))))|].
  do 2 (split; [reflexivity|]). split; [vm_compute; reflexivity|]. split; [exists raw_account; split; [left; reflexivity|reflexivity]|].
  split; vm_compute; reflexivity.
Qed.
