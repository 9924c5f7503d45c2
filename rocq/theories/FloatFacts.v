(** Facts about binary64 numbers and their texts (C84). *)
From Verif Require Import Base BaseFacts Codec CodecFacts Json JsonParse JsonParseFacts Grammar GrammarFacts Float.
Require Import ZifyBool ZifyNat ZifyN.
Set Implicit Arguments.
Local Open Scope N_scope.
Lemma some_inj {A} (x y : A) : Some x = Some y -> x = y. Proof. congruence. Qed.

(** ** Rounding *)
Section Nearest.
  Variable u : N -> N.
  Variable x top : N.
  Hypothesis mono : forall a b, a < b -> u a < u b.
  Hypothesis zero : u 0 <= x.
  Lemma mono_le a b : a <= b -> u a <= u b.
  Proof. intros H. destruct (N.eq_dec a b) as [->|E]; [lia|]. assert (u a < u b) by (apply mono; lia). lia. Qed.
  Lemma mono_inv a b : u a < u b -> a < b.
  Proof. intros H. destruct (N.lt_ge_cases a b) as [L|L]; [exact L|]. apply mono_le in L. lia. Qed.
  Lemma search_spec k : forall m, m <= top -> u m <= x -> (forall j, j <= top -> u j <= x -> j < m + 2 ^ N.of_nat k) ->
    search u x top k m <= top /\ u (search u x top k m) <= x /\ forall j, j <= top -> u j <= x -> j <= search u x top k m.
  Proof.
    induction k as [|k IH]; intros m L U H.
    - cbn [search]. split; [exact L|]. split; [exact U|]. intros j J1 J2. specialize (H j J1 J2). change (2 ^ N.of_nat 0) with 1 in H. lia.
    - cbn [search]. assert (P : 2 ^ N.of_nat (S k) = 2 * 2 ^ N.of_nat k) by (rewrite Nat2N.inj_succ; apply N.pow_succ_r').
      rewrite P in H. set (p := 2 ^ N.of_nat k) in *. destruct ((m + p <=? top) && (u (m + p) <=? x)) eqn:E.
      + apply andb_true_iff in E. destruct E as [E1 E2]. apply N.leb_le in E1, E2. apply IH; [exact E1|exact E2|]. intros j J1 J2. specialize (H j J1 J2). fold p. lia.
      + apply IH; [exact L|exact U|]. intros j J1 J2. fold p. apply andb_false_iff in E. destruct (N.lt_ge_cases j (m + p)) as [Q|Q]; [exact Q|].
        destruct E as [E|E]; [apply N.leb_gt in E; lia|]. apply N.leb_gt in E. apply mono_le in Q. lia.
  Qed.
  Hypothesis small : top < 2 ^ 63.
  Definition above (n : N) : Prop := n = 0 \/ u (n - 1) + u n < 2 * x \/ u (n - 1) + u n = 2 * x /\ N.even n = true.
  Definition below (n : N) : Prop := 2 * x < u n + u (n + 1) \/ 2 * x = u n + u (n + 1) /\ N.even n = true.
  Theorem nearest_iff n : nearest u x top = Some n <-> n < top /\ above n /\ below n.
  Proof.
    unfold nearest. destruct (@search_spec 63 0) as (L & U & M); [lia|exact zero|intros j J _; change (N.of_nat 63) with 63; lia|].
    set (f := search u x top 63 0) in *. clearbody f. clear small.
    assert (Only : f < top -> above n /\ below n -> n = f \/ n = f + 1).
    { intros T [A Bl]. assert (G : x < u (f + 1)). { destruct (N.lt_ge_cases x (u (f + 1))) as [Q|Q]; [exact Q|]. specialize (M (f + 1)). lia. }
      destruct (N.lt_ge_cases n f) as [C|C].
      - exfalso. assert (u n < u f) by (apply mono; lia). assert (u (n + 1) <= u f) by (apply mono_le; lia). unfold below in Bl. lia.
      - destruct (N.lt_ge_cases (f + 1) n) as [C'|C']; [|lia]. exfalso.
        assert (u (f + 1) < u n) by (apply mono; lia). assert (u (f + 1) <= u (n - 1)) by (apply mono_le; lia). unfold above in A. lia. }
    destruct (N.eqb_spec f top) as [E|E].
    - split; [discriminate|]. intros (T & A & Bl). exfalso. subst f.
      assert (u n < u top) by (apply mono; lia). assert (u (n + 1) <= u top) by (apply mono_le; lia). unfold below in Bl. lia.
    - assert (T : f < top) by lia. specialize (Only T).
      assert (G : x < u (f + 1)). { destruct (N.lt_ge_cases x (u (f + 1))) as [Q|Q]; [exact Q|]. specialize (M (f + 1)). lia. }
      assert (R : f + 1 - 1 = f) by lia. assert (Ev : N.even (f + 1) = negb (N.even f)) by (rewrite N.add_1_r, N.even_succ, <- N.negb_even; reflexivity).
      assert (G1 : u (f + 1) < u (f + 1 + 1)) by (apply mono; lia).
      assert (G0 : f = 0 \/ u (f - 1) < u f). { destruct (N.eq_dec f 0); [left; assumption|right; apply mono; lia]. }
      set (r := match u f + u (f + 1) ?= 2 * x with Gt => f | Lt => f + 1 | Eq => if N.even f then f else f + 1 end).
      assert (K : forall n, n = f \/ n = f + 1 -> (above n /\ below n <-> n = r)).
      { subst r. clear - Ev R G G0 G1 U. intros n Hn; destruct Hn; subst n; unfold above, below; rewrite ?R, ?Ev; destruct (N.compare_spec (u f + u (f + 1)) (2 * x)) as [C|C|C];
          try destruct (N.even f); cbn [negb]; split; intros H; try lia. }
      destruct (N.eqb_spec r top) as [E'|E'].
      + split; [discriminate|]. intros (T' & AB). apply K in AB as AB'; [lia|]. apply Only. exact AB.
      + split.
        * intros H. apply some_inj in H. assert (n = f \/ n = f + 1).
          { rewrite <- H. unfold r. destruct (u f + u (f + 1) ?= 2 * x); [destruct (N.even f)|..]; auto. }
          split; [lia|]. apply K; [assumption|lia].
        * intros (T' & AB). f_equal. symmetry. apply K; [apply Only|]; exact AB.
  Qed.
  Lemma nearest_some : 2 * x < u (top - 1) + u top -> exists n, nearest u x top = Some n.
  Proof.
    intros H. destruct (@search_spec 63 0) as (L & U & M); [lia|exact zero|intros j J _; change (N.of_nat 63) with 63; lia|].
    generalize dependent (search u x top 63 0). intros f L U M.
    assert (T : f < top). { destruct (N.eq_dec f top) as [->|]; [|lia]. assert (u (top - 1) <= u top) by (apply mono_le; lia). lia. }
    assert (G : x < u (f + 1)). { destruct (N.lt_ge_cases x (u (f + 1))) as [Q|Q]; [exact Q|]. specialize (M (f + 1)). lia. }
    assert (R : f + 1 - 1 = f) by lia. assert (Ev : N.even (f + 1) = negb (N.even f)) by (rewrite N.add_1_r, N.even_succ, <- N.negb_even; reflexivity).
    assert (G1 : u (f + 1) < u (f + 1 + 1)) by (apply mono; lia).
    assert (G0 : f = 0 \/ u (f - 1) < u f). { destruct (N.eq_dec f 0); [left; assumption|right; apply mono; lia]. }
    assert (T' : u f + u (f + 1) <= 2 * x -> f + 1 < top). { intros C. destruct (N.eq_dec (f + 1) top) as [E|E]; [|lia]. subst top. rewrite R in H. lia. }
    destruct (N.compare_spec (u f + u (f + 1)) (2 * x)) as [C|C|C].
    - destruct (N.even f) eqn:E; [exists f|exists (f + 1)]; apply nearest_iff; unfold above, below; rewrite ?R, ?Ev, ?E; cbn [negb]; (split; [lia|]); split; lia.
    - exists (f + 1). apply nearest_iff. unfold above, below. rewrite R. split; [lia|]. split; lia.
    - exists f. apply nearest_iff. unfold above, below. split; [lia|]. split; lia.
  Qed.
End Nearest.

(** ** Units *)
Lemma units_succ m : units m < units (m + 1).
Proof.
  unfold units. assert (H0 : 0 < 2 ^ 52) by reflexivity. set (h := 2 ^ 52) in *. clearbody h.
  assert (Dm := N.div_mod m h ltac:(lia)). assert (Lm := N.mod_lt m h ltac:(lia)). set (e := m / h) in *. set (r := m mod h) in *. clearbody e r.
  destruct (N.eq_dec (r + 1) h) as [E|E].
  - assert (Q : (m + 1) / h = e + 1) by (symmetry; apply (N.div_unique _ _ _ 0); lia).
    assert (R : (m + 1) mod h = 0) by (symmetry; apply (N.mod_unique _ _ (e + 1)); lia). rewrite Q, R.
    destruct (N.eqb_spec (e + 1) 0) as [Z|_]; [lia|]. replace (e + 1 - 1) with e by lia. destruct (N.eqb_spec e 0) as [->|Z]; [rewrite N.pow_0_r; lia|].
    assert (P : 2 ^ e = 2 * 2 ^ (e - 1)) by (rewrite <- N.pow_succ_r'; f_equal; lia). rewrite P. assert (0 < 2 ^ (e - 1)) by (apply N.neq_0_lt_0, N.pow_nonzero; lia). nia.
  - assert (Q : (m + 1) / h = e) by (symmetry; apply (N.div_unique _ _ _ (r + 1)); lia).
    assert (R : (m + 1) mod h = r + 1) by (symmetry; apply (N.mod_unique _ _ e); lia). rewrite Q, R.
    destruct (N.eqb_spec e 0) as [_|Z]; [lia|]. assert (0 < 2 ^ (e - 1)) by (apply N.neq_0_lt_0, N.pow_nonzero; lia). nia.
Qed.
Lemma units_mono a b : a < b -> units a < units b.
Proof.
  intros H. replace b with (a + 1 + (b - a - 1)) by lia. generalize (b - a - 1). clear H. intros k. induction k as [|k IH] using N.peano_ind.
  - rewrite N.add_0_r. apply units_succ.
  - eapply N.lt_trans; [exact IH|]. replace (a + 1 + N.succ k) with (a + 1 + k + 1) by lia. apply units_succ.
Qed.
Lemma units_zero : units 0 = 0. Proof. reflexivity. Qed.

(** ** Decimals: [rounds p q m] says that p/q is rounded to m *)
Definition rounds (p q m : N) : Prop :=
  m < infinity /\
  (m = 0 \/ (units (m - 1) + units m) * q < 2 * (p * 2 ^ 1074) \/ (units (m - 1) + units m) * q = 2 * (p * 2 ^ 1074) /\ N.even m = true) /\
  (2 * (p * 2 ^ 1074) < (units m + units (m + 1)) * q \/ 2 * (p * 2 ^ 1074) = (units m + units (m + 1)) * q /\ N.even m = true).
Lemma ten_pos n : 0 < 10 ^ n. Proof. apply N.neq_0_lt_0, N.pow_nonzero. lia. Qed.
Lemma round_iff_pos d x m : nearest (fun m => units m * 10 ^ Z.to_N (- x)) (d * 10 ^ Z.to_N x * 2 ^ 1074) infinity = Some m <-> rounds (d * 10 ^ Z.to_N x) (10 ^ Z.to_N (- x)) m.
Proof.
  unfold rounds. assert (Q := ten_pos (Z.to_N (- x))). set (q := 10 ^ Z.to_N (- x)) in *. set (p := d * 10 ^ Z.to_N x * 2 ^ 1074). clearbody p q.
  rewrite nearest_iff.
  - unfold above, below. rewrite !N.mul_add_distr_r. reflexivity.
  - intros a b H. apply N.mul_lt_mono_pos_r; [exact Q|]. apply units_mono. exact H.
  - rewrite units_zero. lia.
  - reflexivity.
Qed.
Lemma round_zero x : round 0 x = Some 0. Proof. reflexivity. Qed.
Theorem round_iff d x m : round d x = Some m <-> rounds (d * 10 ^ Z.to_N x) (10 ^ Z.to_N (- x)) m.
Proof.
  unfold round. destruct (N.eqb_spec d 0) as [->|D]; [|apply round_iff_pos]. rewrite <- round_iff_pos. enough (E : nearest (fun m => units m * 10 ^ Z.to_N (- x)) (0 * 10 ^ Z.to_N x * 2 ^ 1074) infinity = Some 0) by (rewrite E; reflexivity).
  apply round_iff_pos. rewrite N.mul_0_l. unfold rounds. split; [reflexivity|]. split; [left; reflexivity|]. left. assert (Q := ten_pos (Z.to_N (- x))).
  set (q := 10 ^ Z.to_N (- x)) in *. clearbody q. rewrite N.mul_0_l. generalize (units_mono (a := 0) (b := 1) eq_refl). change (0 + 1) with 1. rewrite units_zero. generalize (units 1). intros. nia.
Qed.
(** Numbers from half way between the greatest float and 2^1024 on. *)
Theorem round_none d x : round d x = None <->
  (units (infinity - 1) + units infinity) * 10 ^ Z.to_N (- x) <= 2 * (d * 10 ^ Z.to_N x * 2 ^ 1074).
Proof.
  assert (Q := ten_pos (Z.to_N (- x))). split.
  - unfold round. destruct (N.eqb_spec d 0) as [->|D]; [discriminate|]. set (q := 10 ^ Z.to_N (- x)) in *. set (p := d * 10 ^ Z.to_N x * 2 ^ 1074). clearbody p q.
    intros H. apply N.nlt_ge. intros C. rewrite N.mul_add_distr_r in C. apply (@nearest_some (fun m => units m * q) p infinity) in C as [n E].
    + clear - H E. generalize dependent (nearest (fun m => units m * q) p infinity). intros o -> H. discriminate H.
    + intros a b L. apply N.mul_lt_mono_pos_r; [exact Q|]. apply units_mono. exact L.
    + rewrite units_zero. lia.
    + reflexivity.
  - intros H. destruct (round d x) as [m|] eqn:R; [|reflexivity]. exfalso. apply round_iff in R. destruct R as (L & _ & Bl).
    assert (Od : N.even (infinity - 1) = false) by reflexivity. set (q := 10 ^ Z.to_N (- x)) in *. set (p := d * 10 ^ Z.to_N x * 2 ^ 1074) in *. clearbody p q.
    generalize dependent infinity. intros top H L Od. destruct (N.eq_dec m (top - 1)) as [->|Ne].
    + replace (top - 1 + 1) with top in Bl by lia. destruct Bl as [Bl|[_ Ev]]; [lia|congruence].
    + assert (A : units (m + 1) < units top) by (apply units_mono; lia). assert (C : units m < units (top - 1)) by (apply units_mono; lia).
      assert ((units m + units (m + 1)) * q < (units (top - 1) + units top) * q) by (apply N.mul_lt_mono_pos_r; lia). destruct Bl as [Bl|[Bl _]]; lia.
Qed.
Lemma rounds_scale p q m k : 0 < k -> (rounds p q m <-> rounds (k * p) (k * q) m).
Proof.
  intros K. unfold rounds. assert (P : 2 * (k * p * 2 ^ 1074) = k * (2 * (p * 2 ^ 1074))) by (generalize (2 ^ 1074); intros; nia). rewrite P.
  set (y := 2 * (p * 2 ^ 1074)). clearbody y. generalize (units (m - 1) + units m), (units m + units (m + 1)). intros a b.
  replace (a * (k * q)) with (k * (a * q)) by nia. replace (b * (k * q)) with (k * (b * q)) by nia.
  rewrite <- !N.mul_lt_mono_pos_l by exact K. rewrite !N.mul_cancel_l by lia. reflexivity.
Qed.
(** Zeros at the end of the digits. *)
Lemma round_shift d x k : round (d * 10 ^ k) (x - Z.of_N k) = round d x.
Proof.
  assert (E : forall m, round (d * 10 ^ k) (x - Z.of_N k) = Some m <-> round d x = Some m).
  { intros m. rewrite !round_iff. destruct (Z.le_gt_cases (Z.of_N k) x) as [L|L].
    - replace (Z.to_N (- (x - Z.of_N k))) with 0 by lia. replace (Z.to_N (- x)) with 0 by lia.
      replace (d * 10 ^ k * 10 ^ Z.to_N (x - Z.of_N k)) with (d * 10 ^ Z.to_N x); [reflexivity|]. rewrite <- N.mul_assoc, <- N.pow_add_r. do 2 f_equal. lia.
    - replace (Z.to_N (x - Z.of_N k)) with 0 by lia. rewrite N.pow_0_r, N.mul_1_r. symmetry. destruct (Z.le_gt_cases 0 x) as [L'|L'].
      + replace (Z.to_N (- x)) with 0 by lia. rewrite (@rounds_scale _ _ _ (10 ^ (k - Z.to_N x)) (ten_pos _)).
        replace (10 ^ (k - Z.to_N x) * (d * 10 ^ Z.to_N x)) with (d * 10 ^ k).
        * replace (10 ^ (k - Z.to_N x) * 10 ^ 0) with (10 ^ Z.to_N (- (x - Z.of_N k))); [reflexivity|]. rewrite N.pow_0_r, N.mul_1_r. f_equal. lia.
        * assert (K : 10 ^ k = 10 ^ (k - Z.to_N x) * 10 ^ Z.to_N x) by (rewrite <- N.pow_add_r; f_equal; lia). rewrite K. generalize (10 ^ (k - Z.to_N x)), (10 ^ Z.to_N x). intros; nia.
      + replace (Z.to_N x) with 0 by lia. rewrite N.pow_0_r, N.mul_1_r. rewrite (@rounds_scale _ _ _ (10 ^ k) (ten_pos _)). rewrite (N.mul_comm (10 ^ k) d).
        rewrite <- N.pow_add_r. replace (k + Z.to_N (- x)) with (Z.to_N (- (x - Z.of_N k))) by lia. reflexivity. }
  destruct (round d x) as [m|] eqn:R; [apply E; reflexivity|]. destruct (round (d * 10 ^ k) (x - Z.of_N k)) as [m|] eqn:R'; [|reflexivity].
  assert (H := proj1 (E m) eq_refl). discriminate.
Qed.
(** A float is rounded to itself. *)
Lemma rounds_exact m q : 0 < q -> m < infinity -> rounds (units m * q) (q * 2 ^ 1074) m.
Proof.
  intros Q L. unfold rounds. assert (G : 0 < 2 ^ 1074) by reflexivity. set (t := 2 ^ 1074) in *. clearbody t. split; [exact L|].
  assert (A := units_succ m). assert (K : 0 < q * t) by nia. replace (units m * q * t) with (units m * (q * t)) by nia. set (k := q * t) in *. clearbody k. split.
  - destruct (N.eq_dec m 0) as [E|E]; [left; exact E|]. right. left. assert (Bm : units (m - 1) < units m) by (apply units_mono; lia). nia.
  - left. nia.
Qed.
Lemma round_exact m : m < infinity -> round (units m * 5 ^ 1074) (-1074) = Some m.
Proof.
  intros L. apply round_iff. change (Z.to_N (-1074)) with 0. change (Z.to_N (- -1074)) with 1074. rewrite N.pow_0_r, N.mul_1_r.
  replace (10 ^ 1074) with (5 ^ 1074 * 2 ^ 1074) by (rewrite <- N.pow_mul_l; reflexivity). apply rounds_exact; [reflexivity|exact L].
Qed.

(** ** Reading *)
Lemma text_parts neg i f e : int_ok i -> frac_ok f -> exp_ok e ->
  read_sign (number_text neg i f e) = (neg, i ++ f ++ e) /\ span_digits (i ++ f ++ e) = (i, f ++ e) /\ read_frac (f ++ e) = (tl f, e).
Proof.
  intros ((Hn & Fi) & Hz) Hf He. unfold number_text. assert (Ee : no_digit e) by (rewrite <- (app_nil_r e); apply exp_no_digit; [exact He|exact I]).
  split; [|split].
  - destruct neg; [reflexivity|]. cbn [app]. destruct i as [|c i]; [congruence|]. cbn [app read_sign]. destruct (beq c "-") eqn:E; [|reflexivity].
    apply beq_eq in E. subst c. apply Forall_inv, digit_iff in Fi. discriminate.
  - apply span_digits_app; [apply digits_iff; exact Fi|apply frac_no_digit; assumption].
  - destruct Hf as [->|(ds & -> & (_ & F))].
    + cbn [app tl]. assert (Dt : not_start (fun c => beq c "."%byte) e) by (rewrite <- (app_nil_r e); apply exp_not_dot; [exact He|reflexivity]).
      destruct e as [|c e]; [reflexivity|]. cbn in Dt. cbn [read_frac]. rewrite Dt. reflexivity.
    + cbn [app read_frac tl]. change (beq "." ".") with true. cbv iota. apply span_digits_app; [apply digits_iff; exact F|exact Ee].
Qed.
Lemma read_float_text neg i f e : int_ok i -> frac_ok f -> exp_ok e ->
  read_float (number_text neg i f e) =
  option_map (fun m => if neg then 2 ^ 63 + m else m) (round (dec_value (i ++ tl f)) (read_exp e - Z.of_nat (length (tl f)))).
Proof. intros Hi Hf He. destruct (@text_parts neg i f e Hi Hf He) as (S & P & R). unfold read_float. rewrite S, P, R. reflexivity. Qed.
Lemma dec_app a b : dec_value (a ++ b) = dec_value a * 10 ^ N.of_nat (length b) + dec_value b.
Proof.
  unfold dec_value. rewrite fold_left_app. set (acc := fold_left _ a 0). clearbody acc. induction b as [|c b IH] using rev_ind; [cbn; lia|].
  rewrite !fold_left_app, app_length. cbn [fold_left length]. rewrite IH. replace (N.of_nat (length b + 1)) with (N.succ (N.of_nat (length b))) by lia.
  rewrite N.pow_succ_r'. lia.
Qed.
Lemma dec_zeros n : dec_value (zeros n) = 0.
Proof. unfold dec_value, zeros. induction (Z.to_nat n) as [|k IH]; [reflexivity|exact IH]. Qed.
Lemma zeros_digits n : Forall digit (zeros n).
Proof. apply Forall_forall. intros c H. apply repeat_spec in H. subst c. split; vm_compute; discriminate. Qed.
Lemma dec_pos d : 0 < d -> exists c ds, dec d = c :: ds /\ c <> "0"%byte /\ Forall digit (c :: ds).
Proof.
  intros P. destruct (dec_shape d) as (c & ds & E & H & _). exists c, ds. split; [exact E|]. split.
  - intros ->. destruct (H eq_refl) as [Z _]. lia.
  - rewrite <- E. apply digits_iff, dec_digits.
Qed.
Lemma dec_int d : int_ok (dec d).
Proof.
  destruct (dec_shape d) as (c & ds & E & H & _). split; [split; [rewrite E; discriminate|apply digits_iff, dec_digits]|].
  rewrite E. cbn [hd]. intros ->. destruct (H eq_refl) as [_ ->]. reflexivity.
Qed.
Lemma int_more d ds : 0 < d -> Forall digit ds -> int_ok (dec d ++ ds).
Proof.
  intros P F. destruct (dec_pos P) as (c & r & E & N & F'). rewrite E. split; [split; [discriminate|]|].
  - apply Forall_app. split; assumption.
  - cbn [app hd]. intros ->. congruence.
Qed.
(** The text of a layout, and the decimal it shows. *)
Definition shows (t : bytes) (d : N) (x : Z) (point : bytes) : Prop :=
  exists i f e, int_ok i /\ frac_ok f /\ exp_ok e /\ t = number_text false i f e /\ (f = [] -> e = [] -> point = []) /\
    (exists j k, i ++ tl f = repeat "0"%byte j ++ dec d ++ repeat "0"%byte k /\ (read_exp e - Z.of_nat (length (tl f)) = x - Z.of_nat k)%Z) /\
    round (dec_value (i ++ tl f)) (read_exp e - Z.of_nat (length (tl f))) = round d x.
Lemma read_exp_neg n : read_exp (B "e" ++ B "-" ++ dec n) = (- Z.of_N n)%Z.
Proof. change (read_exp (B "e" ++ B "-" ++ dec n)) with (- Z.of_N (dec_value (dec n)))%Z. rewrite dec_value_dec. reflexivity. Qed.
Lemma digit_sign c : digit c -> beq c "-" = false /\ beq c "+" = false.
Proof.
  intros H. apply digit_iff in H.
  assert (Q : forall c, is_digit c = true -> negb (beq c "-" || beq c "+") = true) by (apply byte_impl; reflexivity). apply Q in H.
  rewrite negb_true_iff, orb_false_iff in H. exact H.
Qed.
Lemma read_exp_pos plus n : In plus [[]; B "+"] -> read_exp (B "e" ++ plus ++ dec n) = Z.of_N n.
Proof.
  intros [<-|[<-|[]]].
  - destruct (dec_shape n) as (c & ds & E & _ & Dg). change (B "e" ++ [] ++ dec n) with ("e"%byte :: dec n). rewrite E. cbn [read_exp].
    destruct (digit_sign (proj2 (digit_iff c) Dg)) as [-> ->]. rewrite <- E, dec_value_dec. reflexivity.
  - change (read_exp (B "e" ++ B "+" ++ dec n)) with (Z.of_N (dec_value (dec n))). rewrite dec_value_dec. reflexivity.
Qed.
Lemma layout_shows low high point plus d x : 0 < d -> In point [[]; B ".0"] -> In plus [[]; B "+"] -> shows (layout low high point plus d x) d x point.
Proof.
  intros P Hp Hs. assert (V := dec_value_dec d). assert (Fd : Forall digit (dec d)) by (apply digits_iff, dec_digits). unfold layout.
  set (ds := dec d) in *. set (k := Z.of_nat (length ds)). set (n := (k + x)%Z).
  assert (Kp : (1 <= k)%Z). { unfold k. destruct (dec_pos P) as (c & r & E & _). unfold ds. rewrite E. cbn [length]. lia. }
  destruct ((0 <=? x) && (n <=? high))%Z eqn:C1; [|destruct ((0 <? n) && (n <=? high))%Z eqn:C2; [|destruct ((low <? n) && (n <=? 0))%Z eqn:C3]].
  - assert (X : (0 <= x)%Z) by lia. exists (ds ++ zeros x), point, []. split; [apply int_more; [exact P|apply zeros_digits]|].
    split. { destruct Hp as [<-|[<-|[]]]; [left; reflexivity|]. right. exists (B "0"). split; [reflexivity|]. split; [discriminate|]. repeat constructor; vm_compute; discriminate. }
    split; [left; reflexivity|]. split; [unfold number_text; cbn [app]; rewrite app_nil_r, <- app_assoc; reflexivity|]. split; [auto|]. cbn [read_exp].
    split. { destruct Hp as [<-|[<-|[]]].
      - exists O, (Z.to_nat x). cbn [tl repeat app length]. rewrite app_nil_r. split; [reflexivity|lia].
      - exists O, (Z.to_nat x + 1)%nat. change (tl (B ".0")) with ["0"%byte]. cbn [repeat app length]. rewrite <- app_assoc, repeat_app. split; [reflexivity|lia]. }
    assert (L : N.of_nat (length (zeros x)) = Z.to_N x) by (unfold zeros; rewrite repeat_length; lia).
    destruct Hp as [<-|[<-|[]]].
    + cbn [tl length]. rewrite app_nil_r, dec_app, L. rewrite dec_zeros, N.add_0_r, V. rewrite <- (@round_shift d x (Z.to_N x)). f_equal. lia.
    + change (tl (B ".0")) with ["0"%byte]. rewrite dec_app, dec_app, L. rewrite dec_zeros, N.add_0_r, V. cbn [length].
      change (dec_value ["0"%byte]) with 0. rewrite N.add_0_r. rewrite <- (@round_shift d x (Z.to_N x + 1)). f_equal; [|lia].
      rewrite N.pow_add_r, N.mul_assoc. reflexivity.
  - assert (X : (0 < n < k)%Z) by lia. exists (firstn (Z.to_nat n) ds), ("."%byte :: skipn (Z.to_nat n) ds), [].
    assert (Sp := firstn_skipn (Z.to_nat n) ds). assert (Lf : length (firstn (Z.to_nat n) ds) = Z.to_nat n) by (apply firstn_length_le; lia).
    assert (Ls : length (skipn (Z.to_nat n) ds) = (length ds - Z.to_nat n)%nat) by apply skipn_length.
    rewrite <- Sp in Fd. apply Forall_app in Fd. destruct Fd as [F1 F2]. split.
    { split; [split; [intros E; rewrite E in Lf; cbn in Lf; lia|exact F1]|]. destruct (dec_pos P) as (c & r & E & Nz & _). unfold ds. rewrite E.
      destruct (Z.to_nat n) as [|j] eqn:J; [lia|]. cbn [firstn hd]. intros H. congruence. }
    split; [right; eexists; split; [reflexivity|]; split; [intros E; rewrite E in Ls; cbn in Ls; lia|exact F2]|].
    split; [left; reflexivity|]. split; [unfold number_text; cbn [app]; rewrite app_nil_r; reflexivity|]. split; [discriminate|]. cbn [read_exp tl].
    split; [exists O, O; cbn [repeat app]; rewrite Sp, app_nil_r, Ls; split; [reflexivity|lia]|]. rewrite Sp, V, Ls. f_equal. lia.
  - assert (X : (n <= 0)%Z) by lia. exists (B "0"), ("."%byte :: zeros (- n) ++ ds), []. split.
    { split; [split; [discriminate|]|reflexivity]. repeat constructor; vm_compute; discriminate. }
    split. { right. eexists. split; [reflexivity|]. split; [|apply Forall_app; split; [apply zeros_digits|exact Fd]]. intros E. apply app_eq_nil in E. destruct E as [_ E]. unfold k in Kp. rewrite E in Kp. cbn in Kp. lia. }
    split; [left; reflexivity|]. split; [unfold number_text; rewrite app_nil_r; reflexivity|]. split; [discriminate|]. cbn [read_exp tl]. rewrite app_length.
    split; [exists (S (Z.to_nat (- n))), O; cbn [repeat]; rewrite app_nil_r; split; [reflexivity|unfold zeros; rewrite repeat_length; lia]|].
    rewrite dec_app, dec_app. rewrite dec_zeros. change (dec_value (B "0")) with 0. rewrite !N.mul_0_l, !N.add_0_l, V. f_equal.
    unfold zeros. rewrite repeat_length. lia.
  - destruct (dec_pos P) as (c & r & E & Nz & F'). unfold ds in *. rewrite E in *. cbn [firstn skipn].
    exists [c], (if (k =? 1)%Z then [] else "."%byte :: r), (B "e" ++ (if (n - 1 <? 0)%Z then B "-" ++ dec (Z.to_N (1 - n)) else plus ++ dec (Z.to_N (n - 1)))).
    assert (Lr : k = (Z.of_nat (length r) + 1)%Z) by (unfold k; try unfold ds; rewrite ?E; cbn [length]; lia). split.
    { split; [split; [discriminate|]|cbn [hd]; congruence]. constructor; [exact (Forall_inv F')|constructor]. }
    split. { destruct (Z.eqb_spec k 1) as [K1|K1]; [left; reflexivity|]. right. exists r. split; [reflexivity|]. split; [intros ->; cbn in Lr; lia|exact (Forall_inv_tail F')]. }
    split. { right. destruct (n - 1 <? 0)%Z; [exists "e"%byte, (B "-"), (dec (Z.to_N (1 - n)))|exists "e"%byte, plus, (dec (Z.to_N (n - 1)))]; (split; [reflexivity|]);
             (split; [left; reflexivity|]); (split; [|exact (proj1 (dec_int _))]); [right; right; left; reflexivity|]. destruct Hs as [<-|[<-|[]]]; [left|right; left]; reflexivity. }
    split. { unfold number_text. cbn [app]. destruct (k =? 1)%Z; reflexivity. }
    split; [discriminate|].
    assert (T : tl (if (k =? 1)%Z then [] else "."%byte :: r) = r). { destruct (Z.eqb_spec k 1) as [K1|K1]; [|reflexivity]. destruct r; [reflexivity|cbn in Lr; lia]. }
    rewrite T. change ([c] ++ r) with (c :: r).
    assert (X : (read_exp (B "e" ++ (if (n - 1 <? 0)%Z then B "-" ++ dec (Z.to_N (1 - n)) else plus ++ dec (Z.to_N (n - 1)))) - Z.of_nat (length r) = x)%Z).
    { destruct (Z.ltb_spec (n - 1) 0) as [Q|Q]; [rewrite read_exp_neg|rewrite read_exp_pos by exact Hs]; lia. }
    rewrite X, V. split; [exists O, O; cbn [repeat app]; rewrite E, app_nil_r; split; [reflexivity|lia]|reflexivity].
Qed.
