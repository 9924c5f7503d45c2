(** The digits of 0.1. *)
From Verif Require Import Base Codec Json JsonParse JsonParseFacts Grammar GrammarFacts Deps Float FloatFacts FloatText FloatSpec FloatDemo DigitsFacts DigitsSpec DigitsText.
Require Import ZifyBool ZifyNat ZifyN.
Local Open Scope N_scope.

Lemma one_digit c : is_digit c = true -> digits1 [c].
Proof. intros H. split; [discriminate|]. constructor; [apply digit_iff; exact H|constructor]. Qed.
Theorem tenth_parts : parts_ok (B "0") (B ".1") [].
Proof.
  split; [exact (dec_int 0)|]. split; [right; exists (B "1"); split; [reflexivity|apply one_digit; reflexivity]|left; reflexivity].
Qed.
Theorem tenth_parts_exp : parts_ok (B "1") [] (B "e-1").
Proof.
  split; [exact (dec_int 1)|]. split; [left; reflexivity|]. right. exists "e"%byte, (B "-"), (B "1"). split; [reflexivity|]. split; [left; reflexivity|]. split; [right; right; left; reflexivity|].
  apply one_digit. reflexivity.
Qed.
Theorem tenth_chosen : chosen (magnitude tenth) 1 0 1.
Proof.
  assert (P : 0 < magnitude tenth) by reflexivity. assert (L : magnitude tenth < infinity) by reflexivity.
  destruct (shortest_chosen P L) as (k & X & C & _). assert (S : shortest (magnitude tenth) = (1, (-1)%Z)) by (vm_compute; reflexivity).
  unfold the_digits, the_power in *. rewrite S in *. cbn [fst snd] in *. pose proof C as [(K & L1 & L2 & _) _]. assert (k = 1%Z) as ->; [|exact C].
  destruct (Z.eq_dec k 1) as [E|E]; [exact E|]. pose proof (N.pow_le_mono_r 10 1 (Z.to_N (k - 1)) ltac:(lia) ltac:(lia)) as H. change (10 ^ 1) with 10 in H. lia.
Qed.
