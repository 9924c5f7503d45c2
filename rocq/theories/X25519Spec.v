(** Specification vocabulary of C100: key agreement as RFC 7748 describes it, in terms of the points of [Ed25519Spec]: no ladder,
    no inverses and no projective coordinates. *)
From Coq Require Import ZArith.
From Verif Require Import Base Codec Hash Deps Spec IdentitySpec Doc Identity Keys Types X25519 Ed25519Spec.
Local Open Scope Z_scope.

(** Section 4.1: the u-coordinate is (1 + y) / (1 - y); that of the neutral element is 0. *)
Definition u_coordinate (P : point) (u : Z) : Prop :=
  let '(x, y) := P in coord u /\ if y =? 1 then u = 0 else same (u * (1 - y)) (1 + y).
(** Least significant byte first. *)
Definition written_u (P : point) (b : bytes) : Prop := length b = 32%nat /\ u_coordinate P (Z.of_N (le_word b)).
(** Readers ignore the highest bit and reduce the number. Section 6.1 asks for nothing more. *)
Definition names_point (b : bytes) (P : point) : Prop := length b = 32%nat /\ on_curve P /\
  exists u, u_coordinate P u /\ same u (Z.of_N (le_word b) mod 2 ^ 255).
(** Bits 0 to 2 and 255 are cleared and bit 254 is set. *)
Definition clamped (secret : bytes) (a : Z) : Prop := length secret = 32%nat /\
  forall i, 0 <= i -> Z.testbit a i = (3 <=? i) && (i <? 254) && Z.testbit (Z.of_N (le_word secret)) i || (i =? 254).
(** The public key of a secret a is a B, ... *)
Definition public_of (secret public : bytes) : Prop := exists G a A,
  base_point G /\ clamped secret a /\ multiple G (Z.to_N a) A /\ written_u A public.
(** ... and what it has in common with the owner of the point P is a P. *)
Definition common (secret public z : bytes) : Prop := exists a P Q,
  clamped secret a /\ names_point public P /\ multiple P (Z.to_N a) Q /\ written_u Q z.

(** The crate's agreement keys are those of RFC 7748: secrets of 32 bytes behind the key pairs, which are what is sealed; and
    every text of 32 bytes in hex is read as a public key, as these bytes. *)
Definition rfc7748 (D : deps) (secret : dh_pair D -> bytes) : Prop :=
  (forall kp, length (secret kp) = 32%nat /\ dh_to_hex D kp = hex_encode (secret kp) /\
     dh_pub_to_hex D (dh_pub_key D kp) = hex_encode (x25519_public (secret kp))) /\
  (forall k, exists b, length b = 32%nat /\ dh_pub_to_hex D k = hex_encode b) /\
  (forall b, length b = 32%nat -> exists k, dh_pub_to_hex D k = hex_encode b) /\
  (forall h k, dh_pub_from_hex D h = Some k <-> exists b, hex_decode h = Some b /\ length b = 32%nat /\ dh_pub_to_hex D k = hex_encode b).

(** The two places of a document, of an identity's sealed keys and of a call history. *)
Inductive place := ForAuthentication | ForAssertion.
Definition generated {D} (w : place) (cs : list (icall D)) : option (ed_pair D * dh_pair D) :=
  match w with ForAuthentication => first_auth cs | ForAssertion => first_assertion cs end.
Definition listed (w : place) (d : doc) : option (list primary) :=
  match w with ForAuthentication => doc_authentication d | ForAssertion => doc_assertion d end.
Definition stored (w : place) (k : identity_private_keys) : option private_key_pairs :=
  match w with ForAuthentication => ipk_authentication k | ForAssertion => ipk_assertion k end.
(** Whoever reads the identity's document as published finds the agreement key [b] in this place, and whoever opens its sealed
    keys with the password finds [s] there. *)
Definition party {D} (v : bytes) (cs : list (icall D)) (w : place) (pw : bytes) (ks : identity_private_keys) (s b : bytes) : Prop :=
  exists t d x e k p, doc_to_json D (to_doc (irun (identity_new D v) cs)) = Ok (JSONValue t) /\ doc_from_slice D t = Some d /\
    listed w d = Some [x; e] /\ decode_pub_key D e = Ok (ECDH D k) /\ dh_pub_to_hex D k = hex_encode b /\
    stored w ks = Some p /\ decrypt_agreement D p pw = Ok (hex_encode s).
(** A key whose point vanishes when multiplied by eight. *)
Definition weak_agreement_key (b : bytes) : Prop := exists P, names_point b P /\ multiple P 8 (0, 1).
Definition zeros : bytes := repeat x00 32.
