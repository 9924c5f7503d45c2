(** C99: challenges, domains and other unsigned claims. *)
From Verif Require Import Base Codec Json JsonParse Deps Types Proof Vc Suite JsonSpec Spec VcSpec SuiteSpec Grammar TextSpec SessionSpec SessionFacts Demo DemoFacts PropsVc PropsSuite.

(** C99. "A presentation that is accepted and names the challenge and the domain of the verifier was made for them" is false:
    from any text that gets an answer, a text with the same answer is made that says whatever one likes, both in the
    proof (challenge, domain, nonce, ...) and beside it, as long as the names are not the crate's own. *)
Theorem C99_vp_refuted : forall D pk s e r top inner, verify_proof D (vp_proofable D) pk s e = Ok r ->
  new vp_names top -> new proof_names inner ->
  exists s', text_of (says top inner) s' /\ verify_proof D (vp_proofable D) pk s' e = Ok r.
Proof. exact vp_claims. Qed.
Print Assumptions C99_vp_refuted.
(** Likewise for credentials: validity periods, status and the like can be added to or taken from an accepted credential. *)
Theorem C99_vc_refuted : forall D pk s e r top inner, verify_proof D (vc_proofable D) pk s e = Ok r ->
  new vc_names top -> new proof_names inner ->
  exists s', text_of (says top inner) s' /\ verify_proof D (vc_proofable D) pk s' e = Ok r.
Proof. exact vc_claims. Qed.
Print Assumptions C99_vc_refuted.
(** The errors InvalidDomainError, InvalidChallengeError and ProofTransformationError are never returned. *)
Theorem C99_errors : forall D e,
  (exists kp v o, add_proof D (vc_proofable D) kp v o = Err e) \/ (exists kp v o, add_proof D (vp_proofable D) kp v o = Err e) \/
  (exists pk s x, verify_proof D (vc_proofable D) pk s x = Err e) \/ (exists pk s x, verify_proof D (vp_proofable D) pk s x = Err e) ->
  exists m, e = ProofGenerationError m \/ e = ProofVerificationError m.
Proof. exact errors_usual. Qed.
Print Assumptions C99_errors.
(** A presentation made without a challenge is accepted with one that is put in later. *)
Fixpoint put_after (k x s : bytes) : bytes :=
  if bytes_eqb (firstn (length k) s) k then k ++ x ++ skipn (length k) s
  else match s with [] => [] | c :: r => c :: put_after k x r end.
Definition todays : claims := [(B "challenge", B "n-0S6"); (B "domain", B "bank.example")].
Example C99_example :
  let s := signed_text (vp_proofable demo) demo_vp demo_proof in
  let s' := put_after (B """proof"":{") (B """challenge"":""n-0S6"",""domain"":""bank.example"",") s in
  new proof_names todays /\ new vp_names [(B "validUntil", B "2099-01-01")] /\ bytes_eqb s s' = false /\
  outcome_of (verify_proof demo (vp_proofable demo) (ed_pub_key demo demo_key) s AssertionMethod) = Some true /\
  outcome_of (verify_proof demo (vp_proofable demo) (ed_pub_key demo demo_key) s' AssertionMethod) = Some true /\
  match add_proof demo (vp_proofable demo) demo_key demo_vp (proof_purpose demo_proof (B "x")) with Err (ProofGenerationError _) => True | _ => False end.
Proof.
  assert (N : forall names cs, NoDup (map fst cs) -> forallb (fun c => utf8_valid (fst c) && utf8_valid (snd c) && negb (existsb (bytes_eqb (fst c)) names)) cs = true -> new names cs).
  { intros names cs H F. split; [exact H|]. apply Forall_forall. intros c I. rewrite forallb_forall in F. specialize (F c I). apply andb_true_iff in F as [F F3]. apply andb_true_iff in F as [F1 F2].
    split; [exact F1|]. split; [exact F2|]. intros K. apply negb_true_iff in F3. enough (X : existsb (bytes_eqb (fst c)) names = true) by congruence. apply existsb_exists. exists (fst c). split; [exact K|apply BaseFacts.bytes_eqb_refl]. }
  cbv zeta. split; [apply N; [repeat (constructor; [vm_compute; intuition discriminate|]); constructor|reflexivity]|].
  split; [apply N; [repeat (constructor; [vm_compute; intuition discriminate|]); constructor|reflexivity]|]. vm_compute. repeat split.
Qed.
