(** Specification vocabulary of C105: sealed keys put in other places of a stored identity. *)
From Verif Require Import Base Types Keys.

(** The two sealed keys of a method, each in the other's place. *)
Definition crossed (p : private_key_pairs) : private_key_pairs := {| pk_verification := pk_aggrement p; pk_aggrement := pk_verification p |}.
(** The keys of the two methods, each in the other's place. *)
Definition turned (k : identity_private_keys) : identity_private_keys :=
  {| ipk_identity := ipk_identity k; ipk_authentication := ipk_assertion k; ipk_assertion := ipk_authentication k |}.
(** The keys of another stored identity under this one's name. *)
Definition renamed (k k' : identity_private_keys) : identity_private_keys :=
  {| ipk_identity := ipk_identity k; ipk_authentication := ipk_authentication k'; ipk_assertion := ipk_assertion k' |}.
