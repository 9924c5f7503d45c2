(** The cryptosuite used without the integrity layer (C80). *)
From Verif Require Import Base Codec Json Deps Types Proof Suite JsonSpec Spec VcSpec SuiteSpec FlowSpec GenericSpec.

Section Direct.
  Variable D : deps.
  Context {T : Type}.
  Variable P : proofable T.
  (** The document has no canonical text. *)
  Definition no_text (v : T) (m : bytes) : Prop := exists e, pf_to_jcs P v = Err e /\ m = did_error_text e.
  Definition rejected (pk : ed_pub D) (v : T) (o : proof) (m : bytes) : Prop :=
    exists b sig t, mb_decode (mb_other D) (p_value o) = Some (b, sig) /\ pf_to_jcs P (pf_remove_proof P v) = Ok t /\
      ed_verify D pk (text_message D (with_value o []) t) (hex_encode sig) = Err m.
  (** What the suite checks, in order, when it creates and when it verifies a proof. *)
  Definition create_checks (v : T) (o : proof) : list (proof_error -> Prop) :=
    [gen (wrong_type o); gen (wrong_suite o); gen (wrong_created D o); gen (no_text v)].
  Definition verify_checks (pk : ed_pub D) (v : T) : list (proof_error -> Prop) :=
    match pf_get_proof P v with
    | None => [ver (fun m => m = B "missing proof from given document")]
    | Some o =>
      [ver (fun m => mb_decode (mb_other D) (p_value o) = None /\ m = mb_error D (p_value o));
       gen (wrong_type o); gen (wrong_suite o); gen (no_text (pf_remove_proof P v)); gen (wrong_created D o); ver (rejected pk v o)]
    end.
End Direct.
