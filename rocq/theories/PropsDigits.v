(** C90: the digits of a float in a document's text and in its canonical form are ECMAScript's. *)
From Verif Require Import Base Codec Json JsonParse Grammar Deps Float FloatSpec FloatDemo DigitsSpec DigitsText DigitsDemo.
Local Open Scope N_scope.

(** C90. The canonical form of a finite float other than 0 has its sign, at most 17 significant digits, and the fewest that any
    number text with this float as its nearest has; no text with as few is nearer, and the last digit is even if one is as near. *)
Theorem C90_canonical : forall D b neg i f e, ieee_written D -> finite b = true -> magnitude b <> 0 -> parts_ok i f e ->
  jcs_number D (Float b) = number_text neg i f e ->
  neg = negative b /\ shortest_rule (magnitude b) i f e /\ (length (significant i f) <= 17)%nat.
Proof. exact jcs_rule. Qed.
Print Assumptions C90_canonical.
(** So has the text that serde_json writes, ... *)
Theorem C90_written : forall D b neg i f e, ieee_written D -> finite b = true -> magnitude b <> 0 -> parts_ok i f e ->
  f64_text D b = number_text neg i f e ->
  neg = negative b /\ shortest_rule (magnitude b) i f e /\ (length (significant i f) <= 17)%nat.
Proof. exact serde_rule. Qed.
Print Assumptions C90_written.
(** ... with the same digits and the same value; ... *)
Theorem C90_same_digits : forall D b neg i f e neg' i' f' e', ieee_written D -> finite b = true -> magnitude b <> 0 ->
  parts_ok i f e -> parts_ok i' f' e' -> jcs_number D (Float b) = number_text neg i f e -> f64_text D b = number_text neg' i' f' e' ->
  neg = neg' /\ significant i f = significant i' f' /\ same_value i f e i' f' e'.
Proof. exact both_rule. Qed.
Print Assumptions C90_same_digits.
(** ... the rule leaves no other value. *)
Theorem C90_only_value : forall m i f e i' f' e', 0 < m -> parts_ok i f e -> parts_ok i' f' e' ->
  shortest_rule m i f e -> shortest_rule m i' f' e' -> same_value i f e i' f' e'.
Proof. exact rule_unique. Qed.
Print Assumptions C90_only_value.
(** In ECMAScript's words: n, k and s of Number::toString exist and are unique, ... *)
Theorem C90_choice : forall b, finite b = true -> magnitude b <> 0 ->
  exists s n k, chosen (magnitude b) s n k /\ forall s' n' k', chosen (magnitude b) s' n' k' -> s' = s /\ n' = n /\ k' = k.
Proof. exact es_choice. Qed.
Print Assumptions C90_choice.
(** ... and the canonical form of the float is the text its steps make of them. *)
Theorem C90_words : forall D b s n k, ieee_written D -> finite b = true -> magnitude b <> 0 -> chosen (magnitude b) s n k ->
  jcs_number D (Float b) = (if negative b then B "-" else []) ++ es_steps s n k.
Proof. exact jcs_words. Qed.
Print Assumptions C90_words.
(** What C84 and C85 assume about canonical floats ([es_text]) is exactly that. *)
Theorem C90_assumption : forall text : N -> bytes, ecma_texts text <-> forall b, finite b = true -> text b = es_text b.
Proof. exact ecma_iff. Qed.
Print Assumptions C90_assumption.
(** Dependencies that write numbers so; 0.1, and 5/2^23 with two shortest texts that are equally near. *)
Example C90_example :
  ieee_written ieee_ints /\ finite tenth = true /\ magnitude tenth <> 0 /\ parts_ok (B "0") (B ".1") [] /\ parts_ok (B "1") [] (B "e-1") /\
  jcs_number ieee_ints (Float tenth) = number_text false (B "0") (B ".1") [] /\ f64_text ieee_ints tenth = number_text false (B "0") (B ".1") [] /\
  chosen (magnitude tenth) 1 0 1 /\ es_steps 1 0 1 = B "0.1" /\
  jcs_number ieee_ints (Float 4513732726532079616) = B "5.960464477539062e-7" /\ units 4513732726532079616 * 2 ^ 23 = 5 * 2 ^ 1074 /\
  map read_float [B "5.960464477539063e-7"; B "5.960464477539062e-7"; B "5.96046447753906e-7"] =
    [Some 4513732726532079616; Some 4513732726532079616; Some 4513732726532079614] /\
  gap 5960464477539063 (10 ^ 22) 4513732726532079616 = gap 5960464477539062 (10 ^ 22) 4513732726532079616.
Proof.
  split; [exact (proj1 ints_ieee)|]. split; [reflexivity|]. split; [discriminate|]. split; [exact tenth_parts|]. split; [exact tenth_parts_exp|]. split; [vm_compute; reflexivity|].
  split; [vm_compute; reflexivity|]. split; [exact tenth_chosen|]. split; [reflexivity|]. split; [vm_compute; reflexivity|]. split; [vm_compute; reflexivity|]. split; vm_compute; reflexivity.
Qed.
