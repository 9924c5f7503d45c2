(** Specification vocabulary of C84: numbers of IEEE 754 and what a text's number stands for. *)
From Verif Require Import Base Codec Json JsonParse Deps Types Proof Vc Suite JsonSpec Spec VcSpec SuiteSpec Grammar CanonSpec ReadFacts ConnSpec WorldSpec Float.
Set Implicit Arguments.
Local Open Scope N_scope.

(** The value p/q of the digits [i], fraction [f] and exponent [e] of a number's text. *)
Definition power (f e : bytes) : Z := (read_exp e - Z.of_nat (length (tl f)))%Z.
Definition numerator (i f e : bytes) : N := dec_value (i ++ tl f) * 10 ^ Z.to_N (power f e).
Definition denominator (f e : bytes) : N := 10 ^ Z.to_N (- power f e).
(** How far p/q is from the float with magnitude [m] (times q, in units of 2^-1074). The magnitude [infinity] stands for
    2^1024 here, the value that would follow the greatest float. *)
Definition gap (p q m : N) : N := (units m * q - p * 2 ^ 1074) + (p * 2 ^ 1074 - units m * q).
(** [m] is the nearest to p/q, and even if there are two. *)
Definition is_nearest (p q m : N) : Prop :=
  m < infinity /\ forall m', m' <= infinity -> gap p q m <= gap p q m' /\ (gap p q m = gap p q m' -> m' = m \/ N.even m = true).

(** The float nearest to a number. *)
Definition nearest_int (k : N) : N := match round k 0 with Some m => m | None => 0 end.
Definition float_of (n : number) : N :=
  match n with PosInt k => nearest_int k | NegInt k => 2 ^ 63 + nearest_int k | Float b => b end.
(** Numbers a [serde_json::Number] can hold: integers of the Rust types and finite floats. *)
Definition real (n : number) : Prop := in_range n /\ match n with Float b => finite b = true | _ => True end.

(** The dependencies treat numbers as IEEE 754 and ECMAScript ask for. serde_jcs may write integers either exactly or as the
    nearest float. *)
Definition ieee_written (D : deps) : Prop :=
  (forall b, f64_text D b = ryu_text b) /\
  (forall b, jcs_number D (Float b) = es_text b) /\
  (forall n, jcs_number D n = es_text (float_of n) \/ jcs_number D n = serde_number (f64_text D) n).
Definition ieee (D : deps) : Prop := ieee_written D /\ forall t, f64_parse D t = read_float t.
(** The dependencies with these numbers. *)
Definition with_numbers (D : deps) (text : N -> bytes) (parse : bytes -> option N) (num : number -> bytes) : deps := {|
  sha256 := sha256 D; sha384 := sha384 D; blake3 := blake3 D;
  ed_pair := ed_pair D; ed_pub := ed_pub D; ed_priv := ed_priv D; ed_pub_key := ed_pub_key D; ed_priv_key := ed_priv_key D;
  ed_sign := ed_sign D; ed_verify := ed_verify D; ed_pub_bytes := ed_pub_bytes D; ed_pub_to_hex := ed_pub_to_hex D;
  ed_pub_from_hex := ed_pub_from_hex D; ed_to_pem := ed_to_pem D; ed_from_pem := ed_from_pem D;
  dh_pair := dh_pair D; dh_pub := dh_pub D; dh_pub_key := dh_pub_key D; dh_pub_to_hex := dh_pub_to_hex D;
  dh_pub_from_hex := dh_pub_from_hex D; dh_to_hex := dh_to_hex D;
  kdf := kdf D; aead_decrypt := aead_decrypt D; ks_rand := ks_rand D; ed_seal := ed_seal D; dh_seal := dh_seal D; ks_decrypt := ks_decrypt D;
  f64_text := text; f64_parse := parse; jcs_number := num; jcs_leb := jcs_leb D; mb_other := mb_other D;
  datetime := datetime D; maddr := maddr D; multiaddr := multiaddr D; mb_error := mb_error D; mh_error := mh_error D;
  hex_error := hex_error D; utf8_error := utf8_error D; json_error := json_error D |}.

(** Two numbers with the same nearest float (zero has two). *)
Definition same_float (n n' : number) : Prop :=
  float_of n = float_of n' \/ magnitude (float_of n) = 0 /\ magnitude (float_of n') = 0.
(** What is signed in an execution has numbers a [serde_json::Number] can hold. *)
Definition real_signing (s : signing) : Prop := match s with SignVc v _ => vc_shape real v | SignVp v _ => vp_shape real v end.
Definition real_event (D : deps) (ev : event D) : Prop := match ev with Signs _ _ x => real_signing x | _ => True end.
