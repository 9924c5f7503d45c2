(** Specification vocabulary of C106. *)
From Verif Require Import Base Deps.

(** The same public keys, or none in both. *)
Definition same_public (D : deps) (k k' : option (ed_pair D * dh_pair D)) : Prop :=
  option_map (fun k => (ed_pub_key D (fst k), dh_pub_key D (snd k))) k = option_map (fun k => (ed_pub_key D (fst k), dh_pub_key D (snd k))) k'.
