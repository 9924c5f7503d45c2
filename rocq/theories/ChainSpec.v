(** The recipient's steps from a DID URI to a public key (C75). Not part of the crate: these are the calls a recipient makes. *)
From Verif Require Import Base Deps Types Doc Hashlink Did.

(** The URI names the DID [v] and a hashlink; the text [t] reads as the document [dc], and the hashlink is that of [dc]. *)
Definition resolved (D : deps) (uri t v : bytes) (dc : doc) : Prop :=
  exists p h, parse_uri uri = Ret (Ok (v, p)) /\ hl p = Some h /\ doc_from_slice D t = Some dc /\ verify_from_json D (doc_to_json D dc) h = Ok tt.
(** [pk] is an EdDSA key in a list of entries of a document. *)
Definition listed_key (D : deps) (l : option (list primary)) (pk : ed_pub D) : Prop :=
  exists es e, l = Some es /\ In e es /\ decode_pub_key D e = Ok (EdDSA D pk).
