(** How serde_json reads a number's text as a float without its feature [float_roundtrip] (which cannot be seen from
    core/Cargo.toml:19-20): at most 64 bits of the digits are kept, converted to a float and multiplied with or divided by a
    float power of ten, so up to three roundings take place (serde_json's [parse_integer], [parse_long_integer],
    [parse_decimal], [parse_decimal_overflow], [parse_exponent] and [f64_from_parts], from its published source, which is not
    in the sandbox). Used for the floats in a credential's subject (core/src/verifiable/vc.rs:28-29 and 132-133).
    Simplification: exponents are unbounded integers instead of saturating 32-bit ones, which makes a difference for texts of
    two gigabytes only. *)
From Verif Require Import Base Codec Json JsonParse Float.
Local Open Scope N_scope.

(** The float nearest to p/q units of 2^-1074. *)
Definition nearest_ratio (p q : N) : option N := if p =? 0 then Some 0 else nearest (fun m => units m * q) p infinity.
(** Products and quotients of floats, rounded; none beyond the greatest float. *)
Definition float_mul (a b : N) : option N := nearest_ratio (units a * units b) (2 ^ 1074).
Definition float_div (a b : N) : option N := nearest_ratio (units a * 2 ^ 1074) (units b).
(** [significand as f64], [POW10[k]]. *)
Definition float_nat (k : N) : option N := round k 0.
Definition pow10 (k : N) : option N := round (10 ^ k) 0.

(** The digits before the point: those that fit into 64 bits, and how many are left. *)
Fixpoint fast_int (sig : N) (ds : bytes) : N * Z :=
  match ds with
  | [] => (sig, 0%Z)
  | c :: r => let s := sig * 10 + (Byte.to_N c - 48) in if s <? 2 ^ 64 then fast_int s r else (sig, Z.of_nat (length ds))
  end.
(** The digits after it: each that fits lowers the exponent, the others are ignored. *)
Fixpoint fast_frac (sig : N) (x : Z) (ds : bytes) : N * Z :=
  match ds with
  | [] => (sig, x)
  | c :: r => let s := sig * 10 + (Byte.to_N c - 48) in if s <? 2 ^ 64 then fast_frac s (x - 1) r else (sig, x)
  end.
(** [f64_from_parts]: the loop divides by 1e308 while the exponent is below -308 and the value is not 0. [fuel] divisions
    of a 64-bit significand: the second gives 0 already. *)
Fixpoint from_parts (fuel : nat) (f : N) (x : Z) : option N :=
  if (Z.abs x <=? 308)%Z then
    match pow10 (Z.to_N (Z.abs x)) with
    | Some p => if (0 <=? x)%Z then float_mul f p else float_div f p
    | None => None
    end
  else if f =? 0 then Some 0
  else if (0 <=? x)%Z then None
  else match fuel with
       | O => Some 0
       | S fuel' => match pow10 308 with
                    | Some p => match float_div f p with Some f' => from_parts fuel' f' (x + 308) | None => None end
                    | None => None
                    end
       end.
Definition read_fast (t : bytes) : option N :=
  let '(neg, s) := read_sign t in
  let '(i, r) := span_digits s in
  let '(f, r') := read_frac r in
  let '(sig, x) := fast_int 0 i in
  let '(sig', x') := fast_frac sig x f in
  match float_nat sig' with
  | Some v => option_map (fun m => if neg then 2 ^ 63 + m else m) (from_parts 2 v (x' + read_exp r'))
  | None => None
  end.
