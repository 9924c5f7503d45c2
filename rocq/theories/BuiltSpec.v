(** Proof options built by calls to their setters (C76). *)
From Verif Require Import Base Proof JsonSpec.

(** The last call of the setter [mk] sets [x]. *)
Definition set_last (mk : bytes -> proof_call) (cs : list proof_call) (x : bytes) : Prop :=
  exists before after, cs = before ++ mk x :: after /\ forall y, ~ In (mk y) after.
Definition never_set (mk : bytes -> proof_call) (cs : list proof_call) : Prop := forall y, ~ In (mk y) cs.
