(** Specification vocabulary of C90: significant digits, and ECMAScript's rule for the digits of a float. *)
From Verif Require Import Base Codec Json JsonParse Grammar Float FloatSpec.
Set Implicit Arguments.
Local Open Scope N_scope.

(** The digits of a number's text without the zeros at the ends; the parts are the digits [i] before the point, the fraction
    [f] with its point and the exponent [e]. *)
Fixpoint drop_zeros (s : bytes) : bytes :=
  match s with c :: r => if beq c "0"%byte then drop_zeros r else s | [] => [] end.
Definition significant (i f : bytes) : bytes := rev (drop_zeros (rev (drop_zeros (i ++ tl f)))).
Definition parts_ok (i f e : bytes) : Prop := int_ok i /\ frac_ok f /\ exp_ok e.
(** The first number is at least as near to the float with magnitude [m] as the second; fractions are compared crosswise. *)
Definition as_near (m : N) (i f e i' f' e' : bytes) : Prop :=
  gap (numerator i f e) (denominator f e) m * denominator f' e' <= gap (numerator i' f' e') (denominator f' e') m * denominator f e.
Definition same_value (i f e i' f' e' : bytes) : Prop := numerator i f e * denominator f' e' = numerator i' f' e' * denominator f e.

(** The rule (ECMAScript, Number::toString, step 5 with note 2, which RFC 8785 makes part of the canonical form): among the
    numbers with [m] as their nearest float this one has the fewest digits, no other with as few is nearer to [m], and if
    another one is as near then the last digit is even. *)
Definition shortest_rule (m : N) (i f e : bytes) : Prop :=
  is_nearest (numerator i f e) (denominator f e) m /\
  forall i' f' e', parts_ok i' f' e' -> is_nearest (numerator i' f' e') (denominator f' e') m ->
    (length (significant i f) <= length (significant i' f'))%nat /\
    (length (significant i f) = length (significant i' f') ->
      as_near m i f e i' f' e' /\
      (as_near m i' f' e' i f e -> same_value i f e i' f' e' \/ N.even (dec_value (significant i f)) = true)).

(** The same in ECMAScript's words (ECMA-262, Number::toString, steps 5 to 10, for finite x other than 0): "let n, k, and s be
    integers such that k >= 1, 10^(k-1) <= s < 10^k, F(s * 10^(n-k)) is x, and k is as small as possible. If there are
    multiple possibilities for s, choose the value of s for which s * 10^(n-k) is closest in value to x. If there are two such
    possible values of s, choose the one that is even." *)
Definition possible (m s : N) (n k : Z) : Prop :=
  (1 <= k)%Z /\ 10 ^ Z.to_N (k - 1) <= s /\ s < 10 ^ Z.to_N k /\ is_nearest (s * 10 ^ Z.to_N (n - k)) (10 ^ Z.to_N (- (n - k))) m.
Definition distance (m s : N) (n k : Z) : N := gap (s * 10 ^ Z.to_N (n - k)) (10 ^ Z.to_N (- (n - k))) m.
Definition chosen (m s : N) (n k : Z) : Prop :=
  possible m s n k /\
  (forall s' n' k', possible m s' n' k' -> (k <= k')%Z) /\
  (forall s' n', possible m s' n' k -> distance m s n k * 10 ^ Z.to_N (- (n' - k)) <= distance m s' n' k * 10 ^ Z.to_N (- (n - k))) /\
  (forall s' n', possible m s' n' k -> distance m s n k * 10 ^ Z.to_N (- (n' - k)) = distance m s' n' k * 10 ^ Z.to_N (- (n - k)) ->
    s' = s \/ N.even s = true).
(** The steps that write n, k and s. *)
Definition es_steps (s : N) (n k : Z) : bytes :=
  let digits := dec s in
  if ((k <=? n) && (n <=? 21))%Z then digits ++ repeat "0"%byte (Z.to_nat (n - k))
  else if ((0 <? n) && (n <=? 21))%Z then firstn (Z.to_nat n) digits ++ B "." ++ skipn (Z.to_nat n) digits
  else if ((-6 <? n) && (n <=? 0))%Z then B "0." ++ repeat "0"%byte (Z.to_nat (- n)) ++ digits
  else let e := (if (0 <? n)%Z then B "+" else B "-") ++ dec (Z.to_N (Z.abs (n - 1))) in
       if (k =? 1)%Z then digits ++ B "e" ++ e else firstn 1 digits ++ B "." ++ skipn 1 digits ++ B "e" ++ e.
(** Finite floats are written as ECMAScript asks for. *)
Definition ecma_texts (text : N -> bytes) : Prop :=
  forall b, finite b = true ->
    (magnitude b = 0 -> text b = B "0") /\
    (magnitude b <> 0 -> forall s n k, chosen (magnitude b) s n k -> text b = (if negative b then B "-" else []) ++ es_steps s n k).
