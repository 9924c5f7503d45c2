(** Documents of any type implementing [Proofable] (C74). *)
From Verif Require Import Base Codec Json Deps Types Proof JsonSpec Spec SuiteSpec.

(** What is signed for a document with canonical text [t] and options [o]. *)
Definition text_message (D : deps) (o : proof) (t : bytes) : bytes := sha256 D (canonical D (proof_json o)) ++ sha256 D t.
(** A signature accepted on a message that was not signed. *)
Definition message_forgery (D : deps) (pk : ed_pub D) (signed : list (proof * bytes)) (m sig : bytes) : Prop :=
  ed_verify D pk m (hex_encode sig) = Ok true /\ ~ In m (map (fun x => text_message D (fst x) (snd x)) signed).
Definition message_collision (D : deps) (signed : list (proof * bytes)) (o : proof) (t : bytes) : Prop :=
  exists x, In x signed /\
    (collision (sha256 D) (canonical D (proof_json (fst x))) (canonical D (proof_json o)) \/ collision (sha256 D) (snd x) t).
(** A verification result without its document. *)
Definition answer {T E} (r : result (verification_result T) E) : result bool E :=
  match r with Ok x => Ok (verified x) | Err e => Err e end.
