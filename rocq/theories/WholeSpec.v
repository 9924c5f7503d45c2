(** Specification vocabulary of C97: impersonation in terms of RFC 8032 and FIPS 180-4. *)
From Verif Require Import Base Codec Json Deps Types Proof Vc Suite JsonSpec Spec VcSpec SuiteSpec WorldSpec Ed25519 Ed25519Spec ShaSpec.

Section Whole.
  Variable D : deps.
  (** RFC 8032 accepts [sig] for the hashes of these options and this document, and nothing with these two hashes was signed. *)
  Definition forged (pk : ed_pub D) (past : list (event D)) (o : proof) (j : json) (sig : bytes) : Prop := exists ho hj,
    fips_sha256 (canonical D (proof_json o)) ho /\ fips_sha256 (canonical D j) hj /\ accepted (ed_pub_bytes D pk) (ho ++ hj) sig /\
    forall x, In x (signed_by D pk past) ->
      ~ (fips_sha256 (canonical D (proof_json (signing_options x))) ho /\ fips_sha256 (canonical D (signing_json x)) hj).
  (** FIPS 180-4 gives one digest to two texts, the options or the document of something signed and these. *)
  Definition collides (pk : ed_pub D) (past : list (event D)) (o : proof) (j : json) : Prop := exists x t t' h,
    In x (signed_by D pk past) /\
    ((t = canonical D (proof_json (signing_options x)) /\ t' = canonical D (proof_json o)) \/ (t = canonical D (signing_json x) /\ t' = canonical D j)) /\
    t <> t' /\ fips_sha256 t h /\ fips_sha256 t' h.
End Whole.
