(** C80: the EddsaJcs2022 cryptosuite used without the integrity layer. *)
From Verif Require Import Base Codec Json Deps Types Proof Suite JsonSpec Spec VcSpec SuiteSpec FlowSpec GenericSpec DirectSpec DirectFacts Demo DemoFacts
  PropsVc PropsSuite PropsGeneric.

(** C80. The suite creates a proof exactly for accepted options and a document with a canonical text; otherwise the first failing check is reported. *)
Theorem C80_create : forall D T (P : proofable T) kp v o p,
  eddsa_create_proof D P kp v o = Ok p <->
  options_ok D o /\ exists t, pf_to_jcs P v = Ok t /\ p = with_value o (mb_encode58 (ed_sign D kp (text_message D o t))).
Proof. exact direct_create. Qed.
Print Assumptions C80_create.
Theorem C80_create_errors : forall D T (P : proofable T) kp v o e,
  eddsa_create_proof D P kp v o = Err e <-> first_failure (create_checks D P v o) e.
Proof. exact direct_create_errors. Qed.
Print Assumptions C80_create_errors.
(** It answers exactly when the attached proof has accepted options, whatever its purpose, a decodable value and a document with a canonical text. *)
Theorem C80_verify : forall D T (P : proofable T) pk v r,
  eddsa_verify_proof D P pk v = Ok r <->
  exists p b sig t x, pf_get_proof P v = Some p /\ options_ok D p /\
    pf_to_jcs P (pf_remove_proof P v) = Ok t /\ mb_decode (mb_other D) (p_value p) = Some (b, sig) /\
    ed_verify D pk (text_message D (with_value p []) t) (hex_encode sig) = Ok x /\
    r = {| verified := x; document := if x then Some (pf_remove_proof P v) else None |}.
Proof. exact direct_verify. Qed.
Print Assumptions C80_verify.
Theorem C80_verify_errors : forall D T (P : proofable T) pk v e,
  eddsa_verify_proof D P pk v = Err e <-> first_failure (verify_checks D P pk v) e.
Proof. exact direct_verify_errors. Qed.
Print Assumptions C80_verify_errors.
(** The integrity layer adds exactly reading the document and comparing the purpose, which must be known. *)
Theorem C80_layer : forall D T (P : proofable T) pk s e r,
  verify_proof D P pk s e = Ok r <->
  exists v p, pf_parse_json_bytes P s = Ok v /\ pf_get_proof P v = Some p /\ p_purpose p = e /\ e <> Unknown /\ eddsa_verify_proof D P pk v = Ok r.
Proof. exact layer_adds. Qed.
Print Assumptions C80_layer.
(** A proof the suite created, of whatever purpose, is accepted by the suite. *)
Theorem C80_round : forall D T (P : proofable T) kp v o p, ed_correct D -> p_value o = [] ->
  pf_get_proof P (pf_setup_proof P v p) = Some p -> pf_to_jcs P (pf_remove_proof P (pf_setup_proof P v p)) = pf_to_jcs P v ->
  eddsa_create_proof D P kp v o = Ok p ->
  eddsa_verify_proof D P (ed_pub_key D kp) (pf_setup_proof P v p) =
    Ok {| verified := true; document := Some (pf_remove_proof P (pf_setup_proof P v p)) |}.
Proof. exact direct_round. Qed.
Print Assumptions C80_round.

(** Options of unknown purpose: the suite signs and accepts them, the integrity layer does not. *)
Definition vague : proof := with_purpose demo_proof Unknown.
Definition error_code {A} (r : result A proof_error) : bytes :=
  match r with Err (ProofGenerationError m) => B "gen " ++ m | Err (ProofVerificationError m) => B "ver " ++ m | _ => [] end.
Example C80_example :
  let s := B "pay 5 to Bob" in
  let made := eddsa_create_proof demo (note None) demo_key (s, None) vague in
  let q := match made with Ok p => Some p | Err _ => None end in
  p_value vague = [] /\ (exists p, q = Some p) /\
  outcome_of (eddsa_verify_proof demo (note None) (ed_pub_key demo demo_key) (s, q)) = Some true /\
  outcome_of (eddsa_verify_proof demo (note None) (ed_pub_key demo demo_key) (B "pay 6 to Bob", q)) = Some false /\
  error_code (eddsa_verify_proof demo (note None) (ed_pub_key demo demo_key) (s, None)) = B "ver missing proof from given document" /\
  error_code (verify_proof demo (note q) (ed_pub_key demo demo_key) s Unknown) = B "ver validation error: unknown proof purpose" /\
  error_code (eddsa_create_proof demo (note None) demo_key (s, None) (proof_created vague (B "yesterday"))) = B "gen input contains invalid characters".
Proof. cbv zeta. split; [reflexivity|]. split; [eexists; vm_compute; reflexivity|]. repeat split; vm_compute; reflexivity. Qed.
