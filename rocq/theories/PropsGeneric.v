(** C74: documents of any type implementing [Proofable]. *)
From Verif Require Import Base Codec Json Deps Types Proof Suite JsonSpec Spec VcSpec SuiteSpec GenericSpec GenericFacts Demo DemoFacts PropsVc PropsSuite.

(** C74. Signing attaches the signature of the hashes of the canonical options and of the document's own canonical text ... *)
Theorem C74_add : forall D T (P : proofable T) kp v o v',
  add_proof D P kp v o = Ok v' <->
  options_ok D o /\ p_purpose o <> Unknown /\
  exists t, pf_to_jcs P v = Ok t /\ v' = pf_setup_proof P v (with_value o (mb_encode58 (ed_sign D kp (text_message D o t)))).
Proof. exact any_add. Qed.
Print Assumptions C74_add.
(** ... and verification checks the signature over those of the parsed document without its proof. *)
Theorem C74_verify : forall D T (P : proofable T) pk s e r,
  verify_proof D P pk s e = Ok r <->
  exists v p b sig t x, pf_parse_json_bytes P s = Ok v /\ pf_get_proof P v = Some p /\ options_ok D p /\ p_purpose p = e /\ e <> Unknown /\
    pf_to_jcs P (pf_remove_proof P v) = Ok t /\ mb_decode (mb_other D) (p_value p) = Some (b, sig) /\
    ed_verify D pk (text_message D (with_value p []) t) (hex_encode sig) = Ok x /\
    r = {| verified := x; document := if x then Some (pf_remove_proof P v) else None |}.
Proof. exact any_verify. Qed.
Print Assumptions C74_verify.
(** A signed document verifies whenever its type keeps the proof it is given and drops it from the canonical text. *)
Theorem C74_round : forall D T (P : proofable T) kp v o v' s, ed_correct D -> p_value o = [] ->
  (forall p, pf_get_proof P (pf_setup_proof P v p) = Some p) ->
  (forall p, pf_to_jcs P (pf_remove_proof P (pf_setup_proof P v p)) = pf_to_jcs P v) ->
  add_proof D P kp v o = Ok v' -> pf_parse_json_bytes P s = Ok v' ->
  verify_proof D P (ed_pub_key D kp) s (p_purpose o) = Ok {| verified := true; document := Some (pf_remove_proof P v') |}.
Proof. exact any_round. Qed.
Print Assumptions C74_round.
(** If the type does not drop it, the signed document is accepted only by a collision or a signature valid for two messages. *)
Theorem C74_contract_needed : forall D T (P : proofable T) kp v o v' s e r t t', sha256_size D -> p_value o = [] ->
  add_proof D P kp v o = Ok v' -> pf_parse_json_bytes P s = Ok v' -> (forall p, pf_get_proof P (pf_setup_proof P v p) = Some p) ->
  pf_to_jcs P v = Ok t -> pf_to_jcs P (pf_remove_proof P v') = Ok t' -> t <> t' ->
  verify_proof D P (ed_pub_key D kp) s e = Ok r -> verified r = true ->
  collision (sha256 D) t t' \/
  (text_message D o t <> text_message D o t' /\
   ed_verify D (ed_pub_key D kp) (text_message D o t') (hex_encode (ed_sign D kp (text_message D o t))) = Ok true).
Proof. exact any_contract. Qed.
Print Assumptions C74_contract_needed.
(** The canonical text of an accepted document was signed, for the expected purpose, or there is a forgery or a collision. *)
Theorem C74_tamper : forall D T (P : proofable T) pk signed s e r, sha256_size D -> jcs_numbers D ->
  verify_proof D P pk s e = Ok r -> verified r = true ->
  exists w t o sig, document r = Some w /\ pf_to_jcs P w = Ok t /\ carried D P s o sig /\ p_purpose o = e /\
    (In (o, t) signed \/ message_forgery D pk signed (text_message D o t) sig \/ message_collision D signed o t).
Proof. exact any_tamper. Qed.
Print Assumptions C74_tamper.
(** Only the proof and the canonical text count: documents of two types agreeing in these get the same answer or the same error. *)
Theorem C74_only_text : forall D T T' (P : proofable T) (P' : proofable T') pk s s' v v' e,
  pf_parse_json_bytes P s = Ok v -> pf_parse_json_bytes P' s' = Ok v' ->
  pf_get_proof P v = pf_get_proof P' v' -> pf_to_jcs P (pf_remove_proof P v) = pf_to_jcs P' (pf_remove_proof P' v') ->
  answer (verify_proof D P pk s e) = answer (verify_proof D P' pk s' e).
Proof. exact any_same. Qed.
Print Assumptions C74_only_text.

(** A note with a detached proof [q]: its bytes are its canonical text. [wrong_note] keeps its proof in the canonical text. *)
Definition note (q : option proof) : proofable (bytes * option proof) :=
  {| pf_get_proof := snd; pf_remove_proof := fun v => (fst v, None); pf_setup_proof := fun v p => (fst v, Some p);
     pf_parse_json_bytes := fun s => Ok (s, q); pf_to_json := fun v => Ok (JSONValue (fst v)); pf_to_jcs := fun v => Ok (fst v);
     pf_validate := fun _ => Ok tt |}.
Definition wrong_note (q : option proof) : proofable (bytes * option proof) :=
  {| pf_get_proof := snd; pf_remove_proof := fun v => v; pf_setup_proof := fun v p => (fst v, Some p);
     pf_parse_json_bytes := fun s => Ok (s, q); pf_to_json := fun v => Ok (JSONValue (fst v));
     pf_to_jcs := fun v => Ok (fst v ++ match snd v with Some _ => B "!" | None => [] end); pf_validate := fun _ => Ok tt |}.
Definition attached (r : result (bytes * option proof) proof_error) : option proof := match r with Ok v => snd v | Err _ => None end.
Example C74_example :
  let s := B "pay 5 to Bob" in
  let q := attached (add_proof demo (note None) demo_key (s, None) demo_proof) in
  let q' := attached (add_proof demo (wrong_note None) demo_key (s, None) demo_proof) in
  ed_correct demo /\ sha256_size demo /\ jcs_numbers demo /\ p_value demo_proof = [] /\
  (forall v p, pf_get_proof (note q) (pf_setup_proof (note q) v p) = Some p) /\
  (forall v p, pf_to_jcs (note q) (pf_remove_proof (note q) (pf_setup_proof (note q) v p)) = pf_to_jcs (note q) v) /\
  outcome_of (verify_proof demo (note q) (ed_pub_key demo demo_key) s AssertionMethod) = Some true /\
  outcome_of (verify_proof demo (note q) (ed_pub_key demo demo_key) (B "pay 6 to Bob") AssertionMethod) = Some false /\
  outcome_of (verify_proof demo (wrong_note q') (ed_pub_key demo demo_key) s AssertionMethod) = Some false.
Proof.
  cbv zeta. split; [exact demo_ed_correct|]. split; [exact demo_sha256_size|]. split; [exact demo_jcs_numbers|]. split; [reflexivity|].
  split; [reflexivity|]. split; [reflexivity|]. repeat split; vm_compute; reflexivity.
Qed.
