(** Ed25519 as the sample code of RFC 8032, section 6, computes it. The crate calls it through [prople_crypto::eddsa]
    (core/src/verifiable/proof/serialize.rs:69-73, core/src/verifiable/proof/verifier.rs:7-17). [red] is the way in which
    integers are reduced modulo the field's order. *)
From Coq Require Import ZArith.
From Verif Require Import Base Hash Primes.
Local Open Scope Z_scope.

(** FIPS 180-4, section 5.3.5 *)
Definition iv512 : list N :=
  [0x6a09e667f3bcc908; 0xbb67ae8584caa73b; 0x3c6ef372fe94f82b; 0xa54ff53a5f1d36f1;
   0x510e527fade682d1; 0x9b05688c2b3e6c1f; 0x1f83d9abfb41bd6b; 0x5be0cd19137e2179]%N.
Definition real_sha512 (m : bytes) : bytes := flat_map (be_bytes 8) (sha_state sha512_params iv512 m).

(** Base field Z_p and group order *)
Definition fieldp : Z := 57896044618658097711785492504343953926634992332820282019728792003956564819949.
Definition groupq : Z := 7237005577332262213973186563042994240857116359379907606001950938285454250989.
Definition sha512_modq (s : bytes) : Z := Z.of_N (le_word (real_sha512 s)) mod groupq.
(** -121665/121666 *)
Definition curved : Z := 37095705934669439343138083508754565189542113879843219016388785533085940283555.
(** square root of -1 *)
Definition sqrt_m1 : Z := 19681161376707505956807079304988542015446066515923890162744021073123829784752.

(** Extended coordinates (X, Y, Z, T) of x = X/Z and y = Y/Z with xy = T/Z *)
Definition xpoint : Type := (Z * Z * Z * Z)%type.
(** the generator: y = 4/5 and x even *)
Definition g_x : Z := 15112221349535400772501151409588531511454012693041857206046113283949847762202.
Definition g_y : Z := 46316835694926478169428394003475163141307993866256225615783033603165251855960.
Definition g_t : Z := 46827403850823179245072216630277197565144205554125654976674165829533817101731.
Definition generator : xpoint := (g_x, g_y, 1, g_t).
Definition neutral : xpoint := (0, 1, 1, 0).

Section Arithmetic.
  Variable red : Z -> Z.
  Definition modp_inv (x : Z) : Z := powm red x (Z.to_pos (fieldp - 2)).
  Definition point_add (P Q : xpoint) : xpoint :=
    let '(X1, Y1, Z1, T1) := P in let '(X2, Y2, Z2, T2) := Q in
    let A := red ((Y1 - X1) * (Y2 - X2)) in let B := red ((Y1 + X1) * (Y2 + X2)) in
    let C := red (red (2 * T1 * T2) * curved) in let D := red (2 * Z1 * Z2) in
    let E := B - A in let F := D - C in let G := D + C in let H := B + A in
    (red (E * F), red (G * H), red (F * G), red (E * H)).
  Fixpoint point_mul_pos (s : positive) (P : xpoint) (Q : xpoint) : xpoint :=
    match s with
    | xH => point_add Q P
    | xO s' => point_mul_pos s' (point_add P P) Q
    | xI s' => point_mul_pos s' (point_add P P) (point_add Q P)
    end.
  Definition point_mul (s : Z) (P : xpoint) : xpoint :=
    match s with Zpos s' => point_mul_pos s' P neutral | _ => neutral end.
  Definition point_equal (P Q : xpoint) : bool :=
    let '(X1, Y1, Z1, _) := P in let '(X2, Y2, Z2, _) := Q in
    (red (X1 * Z2 - X2 * Z1) =? 0) && (red (Y1 * Z2 - Y2 * Z1) =? 0).
  (** The sample code tests [x2 == 0] before reducing; section 5.1.3 rejects zero with the sign bit set, as here. *)
  Definition recover_x (y : Z) (sign : bool) : option Z :=
    if fieldp <=? y then None else
    let x2 := red ((y * y - 1) * modp_inv (curved * red (y * y) + 1)) in
    if x2 =? 0 then (if sign then None else Some 0) else
    let x := powm red x2 (Z.to_pos ((fieldp + 3) / 8)) in
    let x := if red (x * x - x2) =? 0 then x else red (x * sqrt_m1) in
    if red (x * x - x2) =? 0 then Some (if Bool.eqb (Z.odd x) sign then x else fieldp - x) else None.
  Definition point_compress (P : xpoint) : bytes :=
    let '(X, Y, Z, _) := P in
    let zinv := modp_inv Z in
    let x := red (X * zinv) in let y := red (Y * zinv) in
    le_bytes 32 (Z.to_N (y + if Z.odd x then 2 ^ 255 else 0)).
  Definition point_decompress (s : bytes) : option xpoint :=
    if negb (Nat.eqb (length s) 32) then None else
    let n := Z.of_N (le_word s) in
    let y := n mod 2 ^ 255 in
    match recover_x y (2 ^ 255 <=? n) with
    | Some x => Some (x, y, 1, red (x * y))
    | None => None
    end.

  Definition secret_expand (secret : bytes) : Z * bytes :=
    let h := real_sha512 secret in
    let a := Z.of_N (le_word (firstn 32 h)) in
    (Z.lor (Z.land a (2 ^ 254 - 8)) (2 ^ 254), skipn 32 h).
  Definition secret_to_public (secret : bytes) : bytes :=
    point_compress (point_mul (fst (secret_expand secret)) generator).
  Definition ed25519_sign (secret msg : bytes) : bytes :=
    let '(a, prefix) := secret_expand secret in
    let A := point_compress (point_mul a generator) in
    let r := sha512_modq (prefix ++ msg) in
    let Rs := point_compress (point_mul r generator) in
    let h := sha512_modq (Rs ++ A ++ msg) in
    Rs ++ le_bytes 32 (Z.to_N ((r + h * a) mod groupq)).
  Definition ed25519_verify (public msg signature : bytes) : bool :=
    if negb (Nat.eqb (length public) 32) || negb (Nat.eqb (length signature) 64) then false else
    match point_decompress public with
    | None => false
    | Some A =>
      let Rs := firstn 32 signature in
      match point_decompress Rs with
      | None => false
      | Some R =>
        let s := Z.of_N (le_word (skipn 32 signature)) in
        if groupq <=? s then false else
        let h := sha512_modq (Rs ++ public ++ msg) in
        point_equal (point_mul s generator) (point_add R (point_mul h A))
      end
    end.
End Arithmetic.
Definition modp (x : Z) : Z := x mod fieldp.
