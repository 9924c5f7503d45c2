(** Facts about the texts that Float.v writes: both read back as the float they were written for. *)
From Verif Require Import Base BaseFacts Codec CodecFacts Json JsonParse JsonParseFacts Grammar GrammarFacts Float FloatFacts.
Require Import ZifyBool ZifyNat ZifyN.
Set Implicit Arguments.
Local Open Scope N_scope.

(** ** Writing *)
Lemma round_trim d x : round (fst (trim d x)) (snd (trim d x)) = round d x.
Proof.
  unfold trim. destruct (N.eqb_spec (d mod 10) 0) as [E|E]; [|reflexivity]. cbn [fst snd]. rewrite <- (@round_shift (d / 10) (x + 1) 1).
  assert (Dm := N.div_mod d 10 ltac:(lia)). rewrite N.pow_1_r. f_equal; lia.
Qed.
Theorem candidate_iff m d x : candidate m d x = true <-> round d x = Some m.
Proof.
  rewrite round_iff. unfold candidate, rounds. cbv zeta. set (q := 10 ^ Z.to_N (- x)). set (p := 2 * (d * 10 ^ Z.to_N x * 2 ^ 1074)). clearbody p q.
  rewrite !andb_true_iff, orb_true_iff, N.ltb_lt, N.eqb_eq.
  assert (I : forall a b, match a ?= b with Lt => true | Eq => N.even m | Gt => false end = true <-> a < b \/ a = b /\ N.even m = true).
  { intros a b. destruct (N.compare_spec a b) as [E|E|E].
    - split; [intros H; right; split; assumption|intros [H|[_ H]]; [lia|exact H]].
    - split; [intros _; left; exact E|reflexivity].
    - split; [discriminate|intros [H|[H _]]; lia]. }
  rewrite !I. tauto.
Qed.
Lemma candidate_round m d x : candidate m d x = true -> round d x = Some m.
Proof. apply candidate_iff. Qed.
Lemma shortest_from_round m a b l fuel : m < infinity -> forall k,
  round (fst (shortest_from m a b l fuel k)) (snd (shortest_from m a b l fuel k)) = Some m.
Proof.
  intros L. induction fuel as [|f IH]; intros k; cbn [shortest_from]; [cbn [fst snd]; apply round_exact; exact L|].
  set (d := _ / _). set (x := (l - k)%Z).
  set (up := match _ ?= _ with Eq => _ | Lt => _ | Gt => _ end). clearbody up. destruct (candidate m (if up then d + 1 else d) x) eqn:C1.
  - rewrite round_trim. apply candidate_round. exact C1.
  - destruct (candidate m (if up then d else d + 1) x) eqn:C2; [|apply IH]. rewrite round_trim. apply candidate_round. exact C2.
Qed.
Theorem shortest_round m : m < infinity -> round (fst (shortest m)) (snd (shortest m)) = Some m.
Proof. intros L. unfold shortest. destruct (fraction m) as [a b]. apply shortest_from_round. exact L. Qed.
Lemma shortest_pos m : m < infinity -> m <> 0 -> 0 < fst (shortest m).
Proof.
  intros L Nz. assert (R := shortest_round L). destruct (N.eq_dec (fst (shortest m)) 0) as [E|E]; [|lia]. rewrite E, round_zero in R. congruence.
Qed.
Lemma finite_parts b : finite b = true -> magnitude b < infinity /\ b = (if negative b then 2 ^ 63 + magnitude b else magnitude b).
Proof.
  unfold finite, negative, magnitude. rewrite andb_true_iff. intros [H1 H2]. apply N.ltb_lt in H1, H2. split; [exact H2|].
  destruct (N.leb_spec (2 ^ 63) b) as [L|L].
  - assert (E : b mod 2 ^ 63 = b - 2 ^ 63). { symmetry. apply (N.mod_unique _ _ 1); [change (2 ^ 64) with (2 * 2 ^ 63) in H1|]; lia. } rewrite E. lia.
  - rewrite N.mod_small by exact L. reflexivity.
Qed.
Lemma text_neg (neg : bool) i f e : (if neg then B "-" else []) ++ number_text false i f e = number_text neg i f e. Proof. reflexivity. Qed.
Definition zero_text : int_ok (B "0") /\ frac_ok (B ".0") /\ frac_ok [] /\ exp_ok [].
Proof.
  split; [exact (dec_int 0)|]. split; [right; exists (B "0"); split; [reflexivity|exact (proj1 (dec_int 0))]|]. split; left; reflexivity.
Qed.
(** What the two texts of a float read as. *)
Theorem ryu_reads b : finite b = true -> exists neg i f e, int_ok i /\ frac_ok f /\ exp_ok e /\ ryu_text b = number_text neg i f e /\
  (f = [] -> e = [] -> False) /\ read_float (number_text neg i f e) = Some b.
Proof.
  intros F. destruct (finite_parts b F) as [L E]. unfold ryu_text. rewrite F. cbn [negb]. exists (negative b). destruct (N.eqb_spec (magnitude b) 0) as [Mz|Mz].
  - destruct zero_text as (Zi & Zf & _ & Ze). exists (B "0"), (B ".0"), []. do 3 (split; [assumption|]). split; [reflexivity|]. split; [discriminate|].
    rewrite read_float_text by assumption. change (dec_value (B "0" ++ tl (B ".0"))) with 0. rewrite round_zero. cbn [option_map]. f_equal. rewrite Mz in E. symmetry. exact E.
  - assert (R := shortest_round L). assert (P := shortest_pos L Mz). destruct (shortest (magnitude b)) as [d x]. cbn [fst snd] in *.
    destruct (@layout_shows (-5) 16 (B ".0") [] d x P (or_intror (or_introl eq_refl)) (or_introl eq_refl)) as (i & f & e & Hi & Hf & He & T & Pt & _ & Rd).
    exists i, f, e. do 3 (split; [assumption|]). split; [rewrite T; apply text_neg|]. split; [intros F0 E0; specialize (Pt F0 E0); discriminate|].
    rewrite read_float_text by assumption. rewrite Rd, R. cbn [option_map]. f_equal. symmetry. exact E.
Qed.
Theorem es_reads b : finite b = true -> magnitude b <> 0 -> exists i f e, int_ok i /\ frac_ok f /\ exp_ok e /\ es_text b = number_text (negative b) i f e /\
  round (dec_value (i ++ tl f)) (read_exp e - Z.of_nat (length (tl f))) = Some (magnitude b).
Proof.
  intros F Mz. destruct (finite_parts b F) as [L E]. unfold es_text. rewrite F. cbn [negb orb]. destruct (N.eqb_spec (magnitude b) 0) as [Mz'|_]; [congruence|].
  assert (R := shortest_round L). assert (P := shortest_pos L Mz). destruct (shortest (magnitude b)) as [d x]. cbn [fst snd] in *.
  destruct (@layout_shows (-6) 21 [] (B "+") d x P (or_introl eq_refl) (or_intror (or_introl eq_refl))) as (i & f & e & Hi & Hf & He & T & _ & _ & Rd).
  exists i, f, e. do 3 (split; [assumption|]). split; [rewrite T; apply text_neg|]. rewrite Rd. exact R.
Qed.
