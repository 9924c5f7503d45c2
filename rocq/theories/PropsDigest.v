(** C89: with the real hash functions, a collision contains one of a compression function. *)
From Verif Require Import Base Codec Json JsonParse Deps Types Did Keys Identity Proof Vc Suite Hashlink JsonSpec VcSpec Spec SuiteSpec
  JsonParseFacts VcFacts Hash HashFacts Demo DemoFacts DigestSpec DigestFacts PropsDid PropsVc PropsSuite.
Open Scope N_scope.

(** C89. The calls of SHA-2's compression function: the padded message block by block, from the initial state, each
    from the state the one before gave; the last gives the hash. *)
Theorem C89_sha256_calls : forall m,
  concat (map snd (sha256_calls m)) = sha_pad sha256_params m /\ Forall (fun c => length (snd c) = 64%nat) (sha256_calls m) /\
  (exists b xs, sha256_calls m = (iv256, b) :: xs) /\
  (forall xs x y ys, sha256_calls m = xs ++ x :: y :: ys -> fst y = sha_block sha256_params (fst x) (snd x)).
Proof. exact (fun m => sha_run sha256_params iv256 m (le_n_S _ _ (Nat.le_0_l 3))). Qed.
Print Assumptions C89_sha256_calls.
Theorem C89_sha384_calls : forall m,
  concat (map snd (sha384_calls m)) = sha_pad sha512_params m /\ Forall (fun c => length (snd c) = 128%nat) (sha384_calls m) /\
  (exists b xs, sha384_calls m = (iv384, b) :: xs) /\
  (forall xs x y ys, sha384_calls m = xs ++ x :: y :: ys -> fst y = sha_block sha512_params (fst x) (snd x)).
Proof. exact (fun m => sha_run sha512_params iv384 m (le_n_S _ _ (Nat.le_0_l 7))). Qed.
Print Assumptions C89_sha384_calls.
Theorem C89_sha256_ends : forall m, exists xs x, sha256_calls m = xs ++ [x] /\ sha256_out x = real_sha256 m.
Proof. exact sha256_ends. Qed.
Print Assumptions C89_sha256_ends.
Theorem C89_sha384_ends : forall m, exists xs x, sha384_calls m = xs ++ [x] /\ sha384_out x = real_sha384 m.
Proof. exact sha384_ends. Qed.
Print Assumptions C89_sha384_ends.
Theorem C89_blake3_ends : forall m, exists xs x, blake3_calls m = xs ++ [x] /\ b3_out x = real_blake3 m.
Proof. exact blake3_ends. Qed.
Print Assumptions C89_blake3_ends.

(** Different messages with the same hash: among the calls made for them two differ and give the same. *)
Theorem C89_sha256 : forall m m', sha256_domain m -> sha256_domain m' -> real_sha256 m = real_sha256 m' ->
  m = m' \/ clash sha256_out (sha256_calls m) (sha256_calls m').
Proof. exact sha256_reduces. Qed.
Print Assumptions C89_sha256.
Theorem C89_sha384 : forall m m', sha384_domain m -> sha384_domain m' -> real_sha384 m = real_sha384 m' ->
  m = m' \/ clash sha384_out (sha384_calls m) (sha384_calls m').
Proof. exact sha384_reduces. Qed.
Print Assumptions C89_sha384.
Theorem C89_blake3 : forall m m', real_blake3 m = real_blake3 m' -> m = m' \/ clash b3_out (blake3_calls m) (blake3_calls m').
Proof. exact blake3_reduces. Qed.
Print Assumptions C89_blake3.
Example C89_example_calls :
  sha256_domain (b3_input 200) /\ sha384_domain (b3_input 200) /\
  length (sha256_calls (b3_input 55)) = 1%nat /\ length (sha256_calls (b3_input 56)) = 2%nat /\ length (sha384_calls (b3_input 200)) = 2%nat /\
  length (blake3_calls []) = 1%nat /\ length (blake3_calls (b3_input 1024)) = 16%nat /\ length (blake3_calls (b3_input 1025)) = 18%nat /\
  bytes_eqb (real_blake3 (b3_input 64)) (real_blake3 (b3_input 64 ++ [x00])) = false.
Proof. repeat split; vm_compute; reflexivity. Qed.

(** A hashlink that fits two texts, a DID value of two keys, one signed message of two pairs of texts. *)
Theorem C89_hashlink : forall D, real_hashes D -> forall s1 s2 t,
  verify_from_json D (Ok (JSONValue s1)) t = Ok tt -> verify_from_json D (Ok (JSONValue s2)) t = Ok tt ->
  s1 = s2 \/ clash b3_out (blake3_calls s1) (blake3_calls s2).
Proof. exact real_hashlink. Qed.
Print Assumptions C89_hashlink.
Theorem C89_identity : forall D, real_hashes D -> forall (d1 d2 : did D) i1 i2,
  did_identity d1 = Ok i1 -> did_identity d2 = Ok i2 -> id_value i1 = id_value i2 ->
  let k1 := ed_pub_bytes D (account_pubkey (did_account d1)) in
  let k2 := ed_pub_bytes D (account_pubkey (did_account d2)) in
  sha384_domain k1 -> sha384_domain k2 ->
  k1 = k2 \/ clash sha384_out (sha384_calls k1) (sha384_calls k2) \/ clash b3_out (blake3_calls (sha384 D k1)) (blake3_calls (sha384 D k2)).
Proof. exact real_identity. Qed.
Print Assumptions C89_identity.
Theorem C89_message : forall D, real_hashes D -> forall t c t' c' m,
  sha256_domain t -> sha256_domain c -> sha256_domain t' -> sha256_domain c' ->
  generate_hash D t c = Ok m -> generate_hash D t' c' = Ok m ->
  (t = t' \/ clash sha256_out (sha256_calls t) (sha256_calls t')) /\ (c = c' \/ clash sha256_out (sha256_calls c) (sha256_calls c')).
Proof. exact real_split. Qed.
Print Assumptions C89_message.

(** C33 with the real hash functions: what is accepted was signed, or a signature was forged, or the compression
    function of SHA-256 has a collision among the blocks of these texts. *)
Theorem C89_vc : forall D, real_hashes D -> forall pk history s e r,
  jcs_numbers D -> Forall (fun s => in_domain D (signing_options s) (signing_json s)) history ->
  verify_proof D (vc_proofable D) pk s e = Ok r -> verified r = true ->
  exists v p b sig, vc_parse_json_bytes D s = Ok v /\ vc_proof v = Some p /\ mb_decode (mb_other D) (p_value p) = Some (b, sig) /\
    document r = Some (vc_with_proof v None) /\ p_purpose p = e /\
    (in_domain D (with_value p []) (vc_json (vc_with_proof v None)) ->
     (exists v0, In (SignVc v0 (with_value p [])) history /\ same_vc D v0 (vc_with_proof v None)) \/
     forgery D pk history (message D (with_value p []) (vc_json (vc_with_proof v None))) sig \/
     compression_collision D history (with_value p []) (vc_json (vc_with_proof v None))).
Proof. exact real_vc_tamper. Qed.
Print Assumptions C89_vc.
Theorem C89_vp : forall D, real_hashes D -> forall pk history s e r,
  jcs_numbers D -> Forall (fun s => in_domain D (signing_options s) (signing_json s)) history ->
  verify_proof D (vp_proofable D) pk s e = Ok r -> verified r = true ->
  exists v p b sig, vp_parse_json_bytes D s = Ok v /\ vp_proof v = Some p /\ mb_decode (mb_other D) (p_value p) = Some (b, sig) /\
    document r = Some (vp_with_proof v None) /\ p_purpose p = e /\
    (in_domain D (with_value p []) (vp_json (vp_with_proof v None)) ->
     (exists v0, In (SignVp v0 (with_value p [])) history /\ same_vp D v0 (vp_with_proof v None)) \/
     forgery D pk history (message D (with_value p []) (vp_json (vp_with_proof v None))) sig \/
     compression_collision D history (with_value p []) (vp_json (vp_with_proof v None))).
Proof. exact real_vp_tamper. Qed.
Print Assumptions C89_vp.
Example C89_example :
  real_hashes demo /\ jcs_numbers demo /\
  Forall (fun s => in_domain demo (signing_options s) (signing_json s)) [SignVc demo_vc demo_proof; SignVp demo_vp demo_proof] /\
  sha384_domain (ed_pub_bytes demo (account_pubkey (did_account demo_did))) /\
  outcome_of (verify_proof demo (vc_proofable demo) (ed_pub_key demo demo_key) (signed_text (vc_proofable demo) demo_vc demo_proof) AssertionMethod) = Some true.
Proof.
  split; [repeat split; reflexivity|]. split; [exact demo_jcs_numbers|]. split; [repeat constructor; vm_compute; reflexivity|].
  split; vm_compute; reflexivity.
Qed.
