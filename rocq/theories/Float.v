(** IEEE 754 binary64 numbers and their decimal texts: what serde_json (with the ryu crate) and serde_jcs (with ryu-js, as
    RFC 8785, section 3.2.2.3, asks for) do with the floats in a credential's subject (core/src/verifiable/vc.rs:28-29,
    [credential_subject: Value]; core/src/verifiable/proof/mod.rs:203-209 and vc.rs:86-95, [serde_jcs::to_string]).
    A float is given by its 64 bits, as in [Json.number]. These functions are a reading of IEEE 754 and ECMA-262,
    "Number::toString", not of those crates' sources, which are not in the sandbox. *)
From Verif Require Import Base Codec Json JsonParse.
Local Open Scope N_scope.

(** ** Values *)
(** Bits without the sign; those of infinity; the sign. *)
Definition magnitude (b : N) : N := b mod 2 ^ 63.
Definition infinity : N := 2047 * 2 ^ 52.
Definition negative (b : N) : bool := 2 ^ 63 <=? b.
Definition finite (b : N) : bool := (b <? 2 ^ 64) && (magnitude b <? infinity).
(** The value with this magnitude, in units of 2^-1074 (the least positive value). *)
Definition units (m : N) : N :=
  if m / 2 ^ 52 =? 0 then m mod 2 ^ 52 else (2 ^ 52 + m mod 2 ^ 52) * 2 ^ (m / 2 ^ 52 - 1).

(** ** Rounding *)
Section Nearest.
  Variable u : N -> N.     (* increasing *)
  Variable x top : N.
  (** The greatest m <= top with u m <= x, bit by bit from the bit k-1 on. *)
  Fixpoint search (k : nat) (m : N) : N :=
    match k with
    | O => m
    | S k' => let m' := m + 2 ^ N.of_nat k' in search k' (if (m' <=? top) && (u m' <=? x) then m' else m)
    end.
  (** The m < top with u m nearest to x, the even one of two; none if that is top. *)
  Definition nearest : option N :=
    let m := search 63 0 in
    if m =? top then None
    else
      let r := match u m + u (m + 1) ?= 2 * x with Gt => m | Lt => m + 1 | Eq => if N.even m then m else m + 1 end in
      if r =? top then None else Some r.
End Nearest.
(** The float nearest to d * 10^x; none beyond the greatest float. *)
Definition round (d : N) (x : Z) : option N :=
  if d =? 0 then Some 0 else nearest (fun m => units m * 10 ^ Z.to_N (- x)) (d * 10 ^ Z.to_N x * 2 ^ 1074) infinity.

(** ** Reading *)
Definition read_frac (s : bytes) : bytes * bytes :=
  match s with c :: r => if beq c "."%byte then span_digits r else ([], s) | [] => ([], []) end.
Definition read_exp (s : bytes) : Z :=
  match s with
  | c :: s0 :: r =>
    if beq s0 "-"%byte then (- Z.of_N (dec_value r))%Z
    else if beq s0 "+"%byte then Z.of_N (dec_value r) else Z.of_N (dec_value (s0 :: r))
  | _ => 0%Z
  end.
Definition read_sign (t : bytes) : bool * bytes :=
  match t with c :: r => if beq c "-"%byte then (true, r) else (false, t) | [] => (false, []) end.
(** A JSON number text, correctly rounded. *)
Definition read_float (t : bytes) : option N :=
  let '(neg, s) := read_sign t in
  let '(i, r) := span_digits s in
  let '(f, r') := read_frac r in
  option_map (fun m => if neg then 2 ^ 63 + m else m) (round (dec_value (i ++ f)) (read_exp r' - Z.of_nat (length f))).

(** ** Writing *)
(** Whether d * 10^x is rounded to m: it is between the middles of the ways to the floats below and above, where the middles
    count for even m. *)
Definition candidate (m d : N) (x : Z) : bool :=
  let q := 10 ^ Z.to_N (- x) in
  let p := 2 * (d * 10 ^ Z.to_N x * 2 ^ 1074) in
  let u := units m in
  let inside a b := match a ?= b with Lt => true | Eq => N.even m | Gt => false end in
  (m <? infinity) && ((m =? 0) || inside ((units (m - 1) + u) * q) p) && inside p ((u + units (m + 1)) * q).
Definition trim (d : N) (x : Z) : N * Z := if d mod 10 =? 0 then (d / 10, (x + 1)%Z) else (d, x).
(** The value as a fraction. *)
Definition fraction (m : N) : N * N :=
  let f := if m / 2 ^ 52 =? 0 then m mod 2 ^ 52 else 2 ^ 52 + m mod 2 ^ 52 in
  let e := m / 2 ^ 52 - 1 in
  (f * 2 ^ (e - 1074), 2 ^ (1074 - e)).
(** The place of the first digit of a/b: the least l with a/b < 10^l, found from the numbers of bits (the decimal logarithm of 2
    is between 59/196 and 28/93). *)
Definition place (a b : N) : Z :=
  let n := (Z.of_N (N.log2 a) - Z.of_N (N.log2 b) - 1)%Z in
  let l := ((if 0 <=? n then n * 59 / 196 else n * 28 / 93) + 1)%Z in
  if a * 10 ^ Z.to_N (- l) <? b * 10 ^ Z.to_N l then l else (l + 1)%Z.
(** The digits and the exponent of the shortest decimal that is rounded to m (nearest to it, then even): k digits of the value
    a/b, whose first digit is at the place l, rounded down or up; 17 digits suffice, the exact decimal is never needed. *)
Fixpoint shortest_from (m a b : N) (l : Z) (fuel : nat) (k : Z) : N * Z :=
  match fuel with
  | O => (units m * 5 ^ 1074, (- 1074)%Z)
  | S f =>
    let x := (l - k)%Z in
    let a' := a * 10 ^ Z.to_N (- x) in
    let b' := b * 10 ^ Z.to_N x in
    let d := a' / b' in
    let up := match 2 * (a' - d * b') ?= b' with Lt => false | Gt => true | Eq => negb (N.even d) end in
    let d1 := if up then d + 1 else d in
    let d2 := if up then d else d + 1 in
    if candidate m d1 x then trim d1 x else if candidate m d2 x then trim d2 x else shortest_from m a b l f (k + 1)
  end.
Definition shortest (m : N) : N * Z := let '(a, b) := fraction m in shortest_from m a b (place a b) 17 1.

(** Decimal layouts. [point] ends a number without a fraction, [plus] is the sign of a positive exponent; [low] and [high] bound
    the place of the point in texts without an exponent. *)
Definition zeros (n : Z) : bytes := repeat "0"%byte (Z.to_nat n).
Definition layout (low high : Z) (point plus : bytes) (d : N) (x : Z) : bytes :=
  let ds := dec d in
  let k := Z.of_nat (length ds) in
  let n := (k + x)%Z in
  if ((0 <=? x) && (n <=? high))%Z then ds ++ zeros x ++ point
  else if ((0 <? n) && (n <=? high))%Z then firstn (Z.to_nat n) ds ++ B "." ++ skipn (Z.to_nat n) ds
  else if ((low <? n) && (n <=? 0))%Z then B "0." ++ zeros (- n) ++ ds
  else firstn 1 ds ++ (if (k =? 1)%Z then [] else B "." ++ skipn 1 ds) ++ B "e" ++
       (if (n - 1 <? 0)%Z then B "-" ++ dec (Z.to_N (1 - n)) else plus ++ dec (Z.to_N (n - 1))).
(** ryu's text, which serde_json writes: 1.0, 1e16, 1.5e-7, -0.0. Bits that are no finite float do not occur in a [Number]. *)
Definition ryu_text (b : N) : bytes :=
  if negb (finite b) then B "0.0"
  else (if negative b then B "-" else []) ++
       (if magnitude b =? 0 then B "0.0" else let '(d, x) := shortest (magnitude b) in layout (-5) 16 (B ".0") [] d x).
(** ECMAScript's text: 1, 1e+21, 1.5e-7, 0. *)
Definition es_text (b : N) : bytes :=
  if negb (finite b) || (magnitude b =? 0) then B "0"
  else (if negative b then B "-" else []) ++ let '(d, x) := shortest (magnitude b) in layout (-6) 21 [] (B "+") d x.
