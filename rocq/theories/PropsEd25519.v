(** C91-C92: signatures of RFC 8032. *)
From Coq Require Import ZArith.
From Verif Require Import Base Codec Json Deps Types Proof Vc Suite JsonSpec Spec VcSpec SuiteSpec MiscSpec Demo DemoFacts PropsVc Hash Primes25519 Ed25519 Ed25519Spec Ed25519World.
Local Open Scope Z_scope.

(** C91. What Ed25519 signs with a secret is accepted under the secret's public key, ... *)
Theorem C91_signed_accepted : forall secret m, accepted (secret_to_public modp secret) m (ed25519_sign modp secret m).
Proof. exact signed_accepted. Qed.
Print Assumptions C91_signed_accepted.
(** ... public key and signature are those that RFC 8032 makes of the secret, ... *)
Theorem C91_signed_iff : forall secret public m s,
  signed secret public m s <-> public = secret_to_public modp secret /\ s = ed25519_sign modp secret m.
Proof. exact signed_iff. Qed.
Print Assumptions C91_signed_iff.
(** ... verification answers yes exactly on the signatures that RFC 8032 accepts, ... *)
Theorem C91_verify_iff : forall public m s, ed25519_verify modp public m s = true <-> accepted public m s.
Proof. exact verify_accepted. Qed.
Print Assumptions C91_verify_iff.
(** ... which have 64 bytes, of which the first 32 determine the others. *)
Theorem C91_sizes : forall public m s, accepted public m s -> length public = 32%nat /\ length s = 64%nat.
Proof. exact accepted_size. Qed.
Print Assumptions C91_sizes.
Theorem C91_one_completion : forall public m r s s', length r = 32%nat -> accepted public m (r ++ s) -> accepted public m (r ++ s') -> s = s'.
Proof. exact accepted_unique. Qed.
Print Assumptions C91_one_completion.
(** Public keys made from secrets can be read. *)
Theorem C91_public_readable : forall secret, readable (secret_to_public modp secret).
Proof. exact public_readable. Qed.
Print Assumptions C91_public_readable.
(** If the crate's signatures are those of RFC 8032, signatures verify (the law assumed by C30, C69, C70, C84 and others), ... *)
Theorem C91_law : forall D, rfc8032 D -> ed_correct D.
Proof. exact rfc_ed_correct. Qed.
Print Assumptions C91_law.
(** ... and a document verifies exactly if its decoded proof value is accepted on the document's message. *)
Theorem C91_vc : forall D, rfc8032 D -> forall pk s e d, readable (ed_pub_bytes D pk) ->
  verify_proof D (vc_proofable D) pk s e = Ok {| verified := true; document := d |} <->
  exists v p b sig, vc_parse_json_bytes D s = Ok v /\ vc_proof v = Some p /\ options_ok D p /\ p_purpose p = e /\ e <> Unknown /\ vc_complete v /\
    mb_decode (mb_other D) (p_value p) = Some (b, sig) /\
    accepted (ed_pub_bytes D pk) (message D (with_value p []) (vc_json (vc_with_proof v None))) sig /\ d = Some (vc_with_proof v None).
Proof. exact vc_signature_accepted. Qed.
Print Assumptions C91_vc.
Theorem C91_vp : forall D, rfc8032 D -> forall pk s e d, readable (ed_pub_bytes D pk) ->
  verify_proof D (vp_proofable D) pk s e = Ok {| verified := true; document := d |} <->
  exists v p b sig, vp_parse_json_bytes D s = Ok v /\ vp_proof v = Some p /\ options_ok D p /\ p_purpose p = e /\ e <> Unknown /\ vp_complete v /\
    mb_decode (mb_other D) (p_value p) = Some (b, sig) /\
    accepted (ed_pub_bytes D pk) (message D (with_value p []) (vp_json (vp_with_proof v None))) sig /\ d = Some (vp_with_proof v None).
Proof. exact vp_signature_accepted. Qed.
Print Assumptions C91_vp.
(** Dependencies with Ed25519 meet the laws; SHA-512 and the base point of the RFC; adding the order to S is refused. *)
Example C91_example :
  rfc8032 ed25519 /\ ed_hex_law ed25519 /\ ed_bytes_inj ed25519 /\ pem_law ed25519 /\
  hex_encode (firstn 8 (real_sha512 (B "abc"))) = B "ddaf35a193617aba" /\
  point_compress red_p generator = x58 :: repeat x66 31 /\
  accepted weak_key (B "any message") (weak_key ++ repeat x00 32) /\
  ~ accepted weak_key (B "any message") (weak_key ++ le_bytes 32 (Z.to_N order_L)).
Proof.
  split; [exact ed25519_rfc|]. split; [apply with_hex_law|]. split; [apply with_bytes_inj|]. split; [exact ed25519_pem|].
  split; [vm_compute; reflexivity|]. split; [vm_compute; reflexivity|]. split; [exact (weak_accepted (B "any message"))|].
  intros H. apply (@accepted_unique weak_key (B "any message") weak_key (repeat x00 32)) in H; [discriminate H|reflexivity|exact (weak_accepted _)].
Qed.
Print Assumptions C91_example.

(** C92. That an accepted signature belongs to one message is false of RFC 8032: under the public key 01 00 ... 00, the signature
    01 00 ... 00 is accepted on every message, ... *)
Theorem C92_one_message_refuted : readable weak_key /\ forall m, accepted weak_key m weak_signature.
Proof. exact (conj weak_readable weak_accepted). Qed.
Print Assumptions C92_one_message_refuted.
(** ... so that anybody can add a proof to any document that verifies under that key. *)
Theorem C92_vc_signed_refuted : forall D, rfc8032 D -> forall pk v o, ed_pub_bytes D pk = weak_key ->
  vc_wf D v -> proof_wf o -> (depth (vc_subject v) <= 126)%nat -> vc_complete v -> vc_proof v = None -> options_ok D o -> p_purpose o <> Unknown ->
  exists t, vc_to_json D (vc_with_proof v (Some (with_value o (mb_encode58 weak_signature)))) = Ok (JSONValue t) /\
    verify_proof D (vc_proofable D) pk t (p_purpose o) = Ok {| verified := true; document := Some v |}.
Proof. exact vc_weak. Qed.
Print Assumptions C92_vc_signed_refuted.
Theorem C92_vp_signed_refuted : forall D, rfc8032 D -> forall pk v o, ed_pub_bytes D pk = weak_key ->
  vp_wf D v -> proof_wf o -> Forall (fun c => (depth (vc_subject c) <= 124)%nat) (vp_credentials v) -> vp_complete v -> vp_proof v = None ->
  options_ok D o -> p_purpose o <> Unknown ->
  exists t, vp_to_json D (vp_with_proof v (Some (with_value o (mb_encode58 weak_signature)))) = Ok (JSONValue t) /\
    verify_proof D (vp_proofable D) pk t (p_purpose o) = Ok {| verified := true; document := Some v |}.
Proof. exact vp_weak. Qed.
Print Assumptions C92_vp_signed_refuted.
Example C92_example :
  rfc8032 ed25519 /\ ed_pub_bytes ed25519 weak_public = weak_key /\ ed_pub_from_hex ed25519 (hex_encode weak_key) = Some weak_public /\
  mb_encode58 weak_signature = B "z2AFv15MNPuA84RmU66xw2uMzGipcVxNpzAffoacGVvjFue3CBmf633fAWuiP9cwL9C3z3CJiGgRSFjJfeEcA6QX" /\
  vc_wf ed25519 demo_vc /\ proof_wf demo_proof /\ vc_complete demo_vc /\ vc_proof demo_vc = None /\ options_ok ed25519 demo_proof /\ p_purpose demo_proof <> Unknown.
Proof.
  split; [exact ed25519_rfc|]. split; [reflexivity|]. split; [exact (proj2 (with_hex_law (weak_public : ed_pub ed25519)))|].
  split; [vm_compute; reflexivity|]. split; [exact (proj1 C24_example)|]. split; [repeat split; exact I|].
  split; [repeat split; discriminate|]. split; [reflexivity|]. split; [|discriminate].
  split; [reflexivity|]. split; [reflexivity|]. do 2 eexists. split; reflexivity.
Qed.
Print Assumptions C92_example.
