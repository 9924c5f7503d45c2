(** What RFC 8032, section 5.1, asks of an Ed25519 signature, in terms of points with integer coordinates: no inverses, no
    projective coordinates and no square roots. *)
From Coq Require Import ZArith.
From Verif Require Import Base Codec Hash Deps Ed25519.
Local Open Scope Z_scope.

Definition prime_p : Z := 2 ^ 255 - 19.
Definition order_L : Z := 2 ^ 252 + 27742317777372353535851937790883648493.
Definition same (a b : Z) : Prop := (prime_p | a - b).
Definition coord (a : Z) : Prop := 0 <= a < prime_p.
Definition point : Type := (Z * Z)%type.

(** -x^2 + y^2 = 1 + d x^2 y^2 with d = -121665/121666 *)
Definition on_curve (P : point) : Prop :=
  let '(x, y) := P in coord x /\ coord y /\ same (121666 * (y * y - x * x)) (121666 - 121665 * (x * x * (y * y))).
(** The addition law, multiplied out. *)
Definition sum (P Q R : point) : Prop :=
  let '(x1, y1) := P in let '(x2, y2) := Q in let '(x3, y3) := R in
  coord x3 /\ coord y3 /\
  same (x3 * (121666 - 121665 * (x1 * x2 * y1 * y2))) (121666 * (x1 * y2 + x2 * y1)) /\
  same (y3 * (121666 + 121665 * (x1 * x2 * y1 * y2))) (121666 * (y1 * y2 + x1 * x2)).
(** [multiple P n Q]: Q is P added to itself n times, starting from (0, 1). *)
Inductive multiple (P : point) : N -> point -> Prop :=
| multiple_0 : multiple P 0 (0, 1)
| multiple_S : forall n Q R, multiple P n Q -> sum P Q R -> multiple P (N.succ n) R.
(** The base point has y = 4/5 and an even x. *)
Definition base_point (P : point) : Prop :=
  let '(x, y) := P in on_curve P /\ same (5 * y) 4 /\ Z.even x = true.
(** A point is written as y with the parity of x as the 256th bit, least significant byte first. *)
Definition written (P : point) (b : bytes) : Prop :=
  let '(x, y) := P in length b = 32%nat /\ Z.of_N (le_word b) = y + (if Z.even x then 0 else 2 ^ 255).

(** A signature is two parts of 32 bytes: a point R and a number S below the order with S B = R + h A, where A is the public key
    and h the hash of R, A and the message. *)
Definition accepted (public msg signature : bytes) : Prop :=
  exists G A R r s S SG hA,
    base_point G /\ on_curve A /\ written A public /\
    signature = r ++ s /\ on_curve R /\ written R r /\
    length s = 32%nat /\ S = le_word s /\ Z.of_N S < order_L /\
    multiple G S SG /\ multiple A (le_word (real_sha512 (r ++ public ++ msg)) mod Z.to_N order_L) hA /\ sum R hA SG.

(** Sections 5.1.5 and 5.1.6. A secret's hash has two halves. The first, with bits 0 to 2 and 255 cleared and bit 254 set, is the
    number a with public key a B; the second is hashed with the message to make the number r. *)
Definition expanded (secret : bytes) (a : Z) (prefix : bytes) : Prop := exists half : bytes,
  real_sha512 secret = half ++ prefix /\ length half = 32%nat /\
  forall i, 0 <= i -> Z.testbit a i = (3 <=? i) && (i <? 254) && Z.testbit (Z.of_N (le_word half)) i || (i =? 254).
Definition hash_number (t : bytes) : N := le_word (real_sha512 t) mod Z.to_N order_L.
Definition signed (secret public msg signature : bytes) : Prop :=
  exists G a prefix A R r s,
    base_point G /\ expanded secret a prefix /\ multiple G (Z.to_N a) A /\ written A public /\
    multiple G (hash_number (prefix ++ msg)) R /\ written R r /\ signature = r ++ s /\ length s = 32%nat /\
    Z.of_N (le_word s) = (Z.of_N (hash_number (prefix ++ msg)) + Z.of_N (hash_number (r ++ public ++ msg)) * a) mod order_L.

(** The bytes of a public key that RFC 8032 can read. *)
Definition readable (public : bytes) : Prop := exists A, on_curve A /\ written A public.

(** The crate's signatures are those of RFC 8032, with 32-byte secrets behind the key pairs. Nothing is said of public keys that
    RFC 8032 does not read (section 5.1.3: y not below p, or x = 0 with the sign bit), some of which ed25519-dalek admits. *)
Definition rfc8032 (D : deps) : Prop := exists secret : ed_pair D -> bytes,
  (forall kp, ed_pub_bytes D (ed_pub_key D kp) = secret_to_public modp (secret kp)) /\
  (forall kp m, ed_sign D kp m = ed25519_sign modp (secret kp) m) /\
  (forall pk m s, readable (ed_pub_bytes D pk) ->
     (ed_verify D pk m (hex_encode s) = Ok true <-> ed25519_verify modp (ed_pub_bytes D pk) m s = true)).
