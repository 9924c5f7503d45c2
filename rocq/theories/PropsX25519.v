(** C100: key agreement between identities. *)
From Coq Require Import ZArith.
From Verif Require Import Base Codec Hash Deps Types Keys Doc Identity Spec JsonSpec IdentitySpec Demo DemoFacts PropsIdentity Ed25519 Ed25519Spec Ed25519World X25519 X25519Spec X25519Facts X25519World.

(** C100. X25519's ladder computes public keys of secrets as points of the curve ... *)
Theorem C100_public : forall secret public, public_of secret public <-> length secret = 32%nat /\ public = x25519_public secret.
Proof. exact public_iff. Qed.
Print Assumptions C100_public.
(** ... and common secrets, with every key that names a point. *)
Theorem C100_common : forall secret public P z, names_point public P ->
  (common secret public z <-> length secret = 32%nat /\ z = x25519 modp secret public).
Proof. exact common_iff. Qed.
Print Assumptions C100_common.
(** Any two identities, whatever their histories, have one secret in common, which is not zero: each computes it from the key it
    opens with its own password and the key it reads in the other's published document. *)
Theorem C100_agreement : forall D secret, rfc7748 D secret -> ed_hex_law D -> ed_seal_law D -> dh_seal_law D ->
  forall v (cs : list (icall D)) w pw r1 r2 r3 r4 ks v' (cs' : list (icall D)) w' pw' r1' r2' r3' r4' ks',
  utf8 v -> generated w cs <> None -> build_private_keys (irun (identity_new D v) cs) pw r1 r2 r3 r4 = Ok ks ->
  utf8 v' -> generated w' cs' <> None -> build_private_keys (irun (identity_new D v') cs') pw' r1' r2' r3' r4' = Ok ks' ->
  exists s b s' b' z, party v cs w pw ks s b /\ party v' cs' w' pw' ks' s' b' /\
    public_of s b /\ public_of s' b' /\ (forall x, common s b' x <-> x = z) /\ (forall x, common s' b x <-> x = z) /\ z <> zeros.
Proof. exact rfc_agreement. Qed.
Print Assumptions C100_agreement.
(** That whoever agrees on a secret with a document's key shares it with the key's owner only is false: documents whose keys name
    points of small order are read as any other, and the secret agreed with these is always zero, ... *)
Theorem C100_weak_refuted : forall D secret, rfc7748 D secret -> forall b id c, weak_agreement_key b -> exists k,
  decode_pub_key D {| pr_id := id; pr_controller := c; pr_type := B "X25519KeyAgreementKey2020"; pr_multibase := mb_encode58 (hex_encode b) |} = Ok (ECDH D k) /\
  dh_pub_to_hex D k = hex_encode b /\ forall s z, length s = 32%nat -> (common s b z <-> z = zeros).
Proof. exact rfc_weak. Qed.
Print Assumptions C100_weak_refuted.
(** ... and that different keys in documents have different owners: each has a twin, with which one has the same secrets. *)
Theorem C100_twin_refuted : forall D secret, rfc7748 D secret -> forall b P id c, names_point b P -> exists b' k k',
  decode_pub_key D {| pr_id := id; pr_controller := c; pr_type := B "X25519KeyAgreementKey2020"; pr_multibase := mb_encode58 (hex_encode b) |} = Ok (ECDH D k) /\
  decode_pub_key D {| pr_id := id; pr_controller := c; pr_type := B "X25519KeyAgreementKey2020"; pr_multibase := mb_encode58 (hex_encode b') |} = Ok (ECDH D k') /\
  dh_pub_to_hex D k = hex_encode b /\ dh_pub_to_hex D k' = hex_encode b' /\ k <> k' /\ forall s z, common s b z <-> common s b' z.
Proof. exact rfc_alias. Qed.
Print Assumptions C100_twin_refuted.

(** Dependencies with X25519 meet the laws; two identities are made and sealed; zero is a weak key; 9 names a point. *)
Definition agreeing : deps := with_x25519 demo.
Definition one_secret (c : byte) : dh_pair agreeing := exist (fun s => Nat.eqb (length s) 32 = true) (repeat c 32) eq_refl.
Definition alice_calls : list (icall agreeing) := [@CallAuth (ed_pair agreeing) (dh_pair agreeing) (B "e1") (one_secret x41)].
Definition bob_calls : list (icall agreeing) := [@CallAuth (ed_pair agreeing) (dh_pair agreeing) (B "e2") (one_secret x42);
  @CallAssertion (ed_pair agreeing) (dh_pair agreeing) (B "e3") (one_secret x43)].
Example C100_example : rfc7748 agreeing seed_bytes /\ ed_hex_law agreeing /\ ed_seal_law agreeing /\ dh_seal_law agreeing /\
  generated ForAuthentication alice_calls = Some (B "e1", one_secret x41) /\ generated ForAssertion bob_calls = Some (B "e3", one_secret x43) /\
  (let r : ks_rand agreeing := (B "salt salt", B "nonce of twenty-four byt") in
   (exists ks, build_private_keys (irun (identity_new agreeing (B "did:prople:z1")) alice_calls) (B "pw") r r r r = Ok ks) /\
   exists ks, build_private_keys (irun (identity_new agreeing (B "did:prople:z2")) bob_calls) (B "other") r r r r = Ok ks) /\
  weak_agreement_key zeros /\ ~ weak_agreement_key (x25519_public (repeat x41 32)) /\ exists P, names_point (x25519_public (repeat x41 32)) P.
Proof.
  split; [exact (with_rfc7748 demo)|]. split; [exact demo_ed_hex|]. split; [exact (@with_x_ed_seal demo)|]. split; [exact (@with_x_dh_seal demo)|].
  split; [reflexivity|]. split; [reflexivity|]. split; [split; eexists; reflexivity|]. split; [exact weak_zeros|].
  split; [|exact (public_names _)]. intros W. exact (honest_nonzero (repeat x42 32) (repeat x41 32) (weak_secret _ _ W)).
Qed.
