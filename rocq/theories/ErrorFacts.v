(** Proofs of C78: error texts identify errors. *)
From Verif Require Import Base BaseFacts Types Keys Proof ErrorText.
Set Implicit Arguments.

Theorem did_error_inj a b : did_error_text a = did_error_text b -> a = b.
Proof. destruct a, b; intros H; cbn in H; try discriminate H; try reflexivity; injection H as ->; reflexivity. Qed.
Theorem account_error_inj a b : account_error_text a = account_error_text b -> a = b.
Proof. destruct a, b; intros H; cbn in H; try discriminate H; injection H as ->; reflexivity. Qed.
Theorem proof_error_inj a b : proof_error_text a = proof_error_text b -> a = b.
Proof. destruct a, b; intros H; cbn in H; try discriminate H; injection H as ->; reflexivity. Qed.
Theorem keysecure_error_inj a b : keysecure_error_text a = keysecure_error_text b -> a = b.
Proof. destruct a, b; intros H; cbn in H; try discriminate H; try reflexivity; injection H as ->; reflexivity. Qed.
