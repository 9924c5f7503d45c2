(** C78: error texts. *)
From Verif Require Import Base Types Keys Proof ErrorText ErrorFacts.

(** C78. Errors with the same displayed text are the same error with the same detail, so an error wrapped as text in another
    one (as signing, verification and key restoration do) can still be told apart. *)
Theorem C78_did : forall a b, did_error_text a = did_error_text b -> a = b.
Proof. exact did_error_inj. Qed.
Print Assumptions C78_did.
Theorem C78_account : forall a b, account_error_text a = account_error_text b -> a = b.
Proof. exact account_error_inj. Qed.
Print Assumptions C78_account.
Theorem C78_proof : forall a b, proof_error_text a = proof_error_text b -> a = b.
Proof. exact proof_error_inj. Qed.
Print Assumptions C78_proof.
Theorem C78_keysecure : forall a b, keysecure_error_text a = keysecure_error_text b -> a = b.
Proof. exact keysecure_error_inj. Qed.
Print Assumptions C78_keysecure.
Example C78_example :
  did_error_text (GenerateJSONError (B "x")) <> did_error_text (GenerateJSONJCSError (B "x")) /\
  did_error_text (GenerateDocError (B "x")) = B "error generate DID DOC: x" /\
  keysecure_error_text (DecryptError (B "storage error")) <> keysecure_error_text StorageError.
Proof. repeat split; try reflexivity; discriminate. Qed.
