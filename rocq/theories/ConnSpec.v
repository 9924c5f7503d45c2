(** What an accepted document may differ in from the signed one (C72), and connection credentials (C73). *)
From Verif Require Import Base Json Deps Types Vc UserConnection VcSpec SuiteSpec ReadFacts.

(** Numbers with the same canonical text. *)
Definition equal_canonical (D : deps) (a b : number) : Prop := jcs_number D a = jcs_number D b.
(** Rust strings are UTF-8, serde_json maps have distinct names in increasing order; numbers are unrestricted. *)
Definition signing_wf (s : signing) : Prop :=
  match s with SignVc v _ => vc_shape (fun _ => True) v | SignVp v _ => vp_shape (fun _ => True) v end.
Definition connection (address did : bytes) : uc_credential :=
  {| user_connection_credential := {| uc_ctx := {| user_agent_address := address; user_did := did |} |} |}.
