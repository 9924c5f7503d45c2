(** The group of the points of a twisted Edwards curve -x^2 + y^2 = 1 + d x^2 y^2 over a field in which -1 is a square and
    [d] is not. *)
From Coq Require Import ZArith Lia Field Arith.

Section Edwards.
  Variable F : Type.
  Variables (f0 f1 : F) (fadd fmul fsub : F -> F -> F) (fopp : F -> F) (fdiv : F -> F -> F) (finv : F -> F).
  Hypothesis FT : field_theory f0 f1 fadd fmul fsub fopp fdiv finv eq.
  Hypothesis F_dec : forall a b : F, {a = b} + {a <> b}.
  Variables (d i : F).
  Add Field Ff : FT.
  Local Notation "0" := f0. Local Notation "1" := f1.
  Local Infix "+" := fadd. Local Infix "*" := fmul. Local Infix "-" := fsub. Local Infix "/" := fdiv.
  Local Notation "- x" := (fopp x).

  Hypothesis two : 1 + 1 <> 0.
  Hypothesis i_sq : i * i = - (1).
  Hypothesis d_nonsquare : forall z, z * z <> d.

  Lemma no_zero_div a b : a * b = 0 -> a = 0 \/ b = 0.
  Proof using FT F_dec.
    intros E. destruct (F_dec a 0) as [|N]; [now left|]. right.
    replace b with (finv a * (a * b)) by (field; exact N). rewrite E. ring.
  Qed.
  Lemma mul_nonzero a b : a <> 0 -> b <> 0 -> a * b <> 0.
  Proof using FT F_dec. intros A B E. apply no_zero_div in E. tauto. Qed.
  Lemma sub_zero a b : a - b = 0 -> a = b.
  Proof using FT. intros E. replace a with (a - b + b) by ring. rewrite E. ring. Qed.

  Definition oncurve (P : F * F) : Prop :=
    let '(x, y) := P in y * y - x * x = 1 + d * (x * x) * (y * y).
  Definition O : F * F := (0, 1).
  Definition neg (P : F * F) : F * F := let '(x, y) := P in (- x, y).
  Definition plus (P Q : F * F) : F * F :=
    let '(x1, y1) := P in let '(x2, y2) := Q in
    ((x1 * y2 + x2 * y1) / (1 + d * x1 * x2 * y1 * y2), (y1 * y2 + x1 * x2) / (1 - d * x1 * x2 * y1 * y2)).

  Lemma O_oncurve : oncurve O.
  Proof using FT. cbn. ring. Qed.
  Lemma neg_oncurve P : oncurve P -> oncurve (neg P).
  Proof using FT. destruct P as [x y]. cbn. intros E. replace (- x * - x) with (x * x) by ring. exact E. Qed.

  (** The denominators never vanish. *)
  Lemma no_unit e x1 y1 x2 y2 : oncurve (x1, y1) -> oncurve (x2, y2) -> e * e = 1 -> d * x1 * x2 * y1 * y2 <> e.
  Proof.
    cbn. intros H1 H2 He E.
    assert (N1 : x1 * y1 <> 0).
    { intros Z. apply two. assert (e = 0) by (rewrite <- E; replace (d * x1 * x2 * y1 * y2) with (d * x2 * y2 * (x1 * y1)) by ring; rewrite Z; ring).
      assert (W : 1 = 0) by (rewrite <- He, H; ring). rewrite W. ring. }
    assert (N2 : x2 * y2 <> 0).
    { intros Z. apply two. assert (e = 0) by (rewrite <- E; replace (d * x1 * x2 * y1 * y2) with (d * x1 * y1 * (x2 * y2)) by ring; rewrite Z; ring).
      assert (W : 1 = 0) by (rewrite <- He, H; ring). rewrite W. ring. }
    assert (K : forall j, j * j = - (1) ->
      (j * x1 + e * y1) * (j * x1 + e * y1) = d * ((x1 * y1) * (j * x2 + y2)) * ((x1 * y1) * (j * x2 + y2))).
    { intros j Hj.
      transitivity ((j * j) * (x1 * x1) + (e * e) * (y1 * y1) + (1 + 1) * e * j * (x1 * y1)); [ring|].
      transitivity (d * (x1 * x1) * (y1 * y1) * ((j * j) * (x2 * x2) + y2 * y2)
                    + (1 + 1) * j * (x1 * y1) * (d * x1 * x2 * y1 * y2)); [|ring].
      rewrite Hj, E, He.
      replace (- (1) * (x2 * x2) + y2 * y2) with (y2 * y2 - x2 * x2) by ring. rewrite H2.
      replace (- (1) * (x1 * x1) + 1 * (y1 * y1)) with (y1 * y1 - x1 * x1) by ring. rewrite H1.
      replace (d * (x1 * x1) * (y1 * y1) * (1 + d * (x2 * x2) * (y2 * y2)))
        with (d * (x1 * x1) * (y1 * y1) + (d * x1 * x2 * y1 * y2) * (d * x1 * x2 * y1 * y2)) by ring.
      rewrite E, He. ring. }
    assert (S : forall j, j * j = - (1) -> j * x2 + y2 = 0).
    { intros j Hj. destruct (F_dec (j * x2 + y2) 0) as [|N]; [assumption|]. exfalso.
      apply (d_nonsquare ((j * x1 + e * y1) / ((x1 * y1) * (j * x2 + y2)))).
      assert (x1 <> 0) by (intros Z; apply N1; rewrite Z; ring).
      assert (y1 <> 0) by (intros Z; apply N1; rewrite Z; ring).
      transitivity (((j * x1 + e * y1) * (j * x1 + e * y1)) / (((x1 * y1) * (j * x2 + y2)) * ((x1 * y1) * (j * x2 + y2)))).
      - field. repeat split; assumption.
      - rewrite (K j Hj). field. repeat split; assumption. }
    pose proof (S i i_sq) as S1.
    assert (S2 : - i * x2 + y2 = 0) by (apply S; rewrite <- i_sq; ring).
    assert (Y : (1 + 1) * y2 = 0).
    { transitivity ((i * x2 + y2) + (- i * x2 + y2)); [ring|]. rewrite S1, S2. ring. }
    apply no_zero_div in Y. destruct Y as [Y|Y]; [tauto|]. apply N2. rewrite Y. ring.
  Qed.
  Lemma complete_p x1 y1 x2 y2 : oncurve (x1, y1) -> oncurve (x2, y2) -> 1 + d * x1 * x2 * y1 * y2 <> 0.
  Proof.
    intros H1 H2 E. apply (no_unit (- (1)) x1 y1 x2 y2 H1 H2); [ring|]. apply sub_zero. rewrite <- E. ring.
  Qed.
  Lemma complete_m x1 y1 x2 y2 : oncurve (x1, y1) -> oncurve (x2, y2) -> 1 - d * x1 * x2 * y1 * y2 <> 0.
  Proof.
    intros H1 H2 E. apply (no_unit 1 x1 y1 x2 y2 H1 H2); [ring|]. symmetry. apply sub_zero. rewrite <- E. ring.
  Qed.

  Lemma curve_zero x y : oncurve (x, y) -> y * y - x * x - 1 - d * x * x * y * y = 0.
  Proof using FT. cbn. intros E. rewrite E. ring. Qed.
  Lemma plus_oncurve P Q : oncurve P -> oncurve Q -> oncurve (plus P Q).
  Proof.
    destruct P as [x1 y1], Q as [x2 y2]. intros H1 H2.
    pose proof (complete_p _ _ _ _ H1 H2) as NP. pose proof (complete_m _ _ _ _ H1 H2) as NM.
    apply curve_zero in H1, H2. cbn [plus oncurve].
    set (A := x1 * y2 + x2 * y1). set (C := y1 * y2 + x1 * x2). set (B := 1 + d * x1 * x2 * y1 * y2) in *.
    set (D := 1 - d * x1 * x2 * y1 * y2) in *.
    apply sub_zero.
    transitivity ((C * C * B * B - A * A * D * D - B * B * D * D - d * A * A * C * C) / (B * B * D * D)); [field; split; assumption|].
    replace (C * C * B * B - A * A * D * D - B * B * D * D - d * A * A * C * C) with 0; [field; split; assumption|].
    symmetry. unfold A, B, C, D.
    transitivity (
        (y2 * y2 * y2 * y2 - (1 + 1 + 1 + 1) * x2 * x2 * y2 * y2 - (1 + 1) * x2 * x2 * y2 * y2 * d + (1 + 1) * x2 * x2
         * y2 * y2 * y2 * y2 + x2 * x2 * x2 * x2 - (1 + 1) * x2 * x2 * x2 * x2 * y2 * y2 - (1 + 1) * x2 * x2 * x2 * x2
         * y2 * y2 * y2 * y2 * d - x2 * x2 * x2 * x2 * y2 * y2 * y2 * y2 * d * d - y1 * y1 * x2 * x2 * y2 * y2 * y2 *
         y2 * d + y1 * y1 * x2 * x2 * x2 * x2 * y2 * y2 * d + y1 * y1 * x2 * x2 * x2 * x2 * y2 * y2 * y2 * y2 * d * d
         + x1 * x1 * x2 * x2 * y2 * y2 * y2 * y2 * d - x1 * x1 * x2 * x2 * x2 * x2 * y2 * y2 * d - x1 * x1 * x2 * x2 *
         x2 * x2 * y2 * y2 * y2 * y2 * d * d + x1 * x1 * y1 * y1 * x2 * x2 * x2 * x2 * y2 * y2 * y2 * y2 * d * d * d)
        * (y1 * y1 - x1 * x1 - 1 - d * x1 * x1 * y1 * y1) +
        (1 + y2 * y2 - x2 * x2 + (1 + 1) * x2 * x2 * y2 * y2 + x2 * x2 * y2 * y2 * d - y1 * y1 * y2 * y2 + y1 * y1 *
         x2 * x2 - (1 + 1) * y1 * y1 * x2 * x2 * y2 * y2 - (1 + 1) * y1 * y1 * x2 * x2 * y2 * y2 * d + y1 * y1 * y1 *
         y1 * x2 * x2 * y2 * y2 * d + x1 * x1 * y2 * y2 - x1 * x1 * x2 * x2 + (1 + 1) * x1 * x1 * x2 * x2 * y2 * y2 +
         (1 + 1) * x1 * x1 * x2 * x2 * y2 * y2 * d + x1 * x1 * x1 * x1 * x2 * x2 * y2 * y2 * d)
        * (y2 * y2 - x2 * x2 - 1 - d * x2 * x2 * y2 * y2)); [ring|].
    rewrite H1, H2. ring.
  Qed.
  Lemma plus_comm P Q : plus P Q = plus Q P.
  Proof using FT.
    destruct P as [x1 y1], Q as [x2 y2]. cbn. f_equal; f_equal; ring.
  Qed.
  Lemma plus_O P : plus O P = P.
  Proof using FT.
    destruct P as [x y]. cbn. f_equal.
    - replace (1 + d * 0 * x * 1 * y) with 1 by ring. field. apply (F_1_neq_0 FT).
    - replace (1 - d * 0 * x * 1 * y) with 1 by ring. field. apply (F_1_neq_0 FT).
  Qed.
  Lemma plus_neg P : oncurve P -> plus P (neg P) = O.
  Proof.
    destruct P as [x y]. intros H. pose proof (neg_oncurve _ H) as H'. cbn [neg] in H'.
    pose proof (complete_p _ _ _ _ H H') as NP. pose proof (complete_m _ _ _ _ H H') as NM.
    cbn. unfold O. f_equal.
    - field. exact NP.
    - apply sub_zero. cbn in H.
      transitivity ((y * y - x * x - (1 + d * (x * x) * (y * y))) / (1 - d * x * - x * y * y)); [field; exact NM|].
      rewrite H. field. exact NM.
  Qed.
  Lemma div_eq a b c e : b <> 0 -> e <> 0 -> a * e - c * b = 0 -> a / b = c / e.
  Proof using FT.
    intros B E H. apply sub_zero. transitivity ((a * e - c * b) / (b * e)); [field; split; assumption|].
    rewrite H. field. split; assumption.
  Qed.
  Local Ltac nz :=
    first [assumption
          |match goal with N : ?e <> f0 |- ?g <> f0 => let Z := fresh in intros Z; apply N; rewrite <- Z; ring end].
  Lemma plus_assoc P Q R : oncurve P -> oncurve Q -> oncurve R -> plus (plus P Q) R = plus P (plus Q R).
  Proof.
    destruct P as [x1 y1], Q as [x2 y2], R as [x3 y3]. intros H1 H2 H3.
    pose proof (plus_oncurve _ _ H1 H2) as H12. pose proof (plus_oncurve _ _ H2 H3) as H23.
    pose proof (complete_p _ _ _ _ H1 H2) as NB. pose proof (complete_m _ _ _ _ H1 H2) as ND.
    pose proof (complete_p _ _ _ _ H2 H3) as NB'. pose proof (complete_m _ _ _ _ H2 H3) as ND'.
    cbn [plus] in *.
    pose proof (complete_p _ _ _ _ H12 H3) as NP. pose proof (complete_m _ _ _ _ H12 H3) as NM.
    pose proof (complete_p _ _ _ _ H1 H23) as NP'. pose proof (complete_m _ _ _ _ H1 H23) as NM'.
    apply curve_zero in H1, H2, H3. clear H12 H23.
    remember (1 + d * x1 * x2 * y1 * y2) as B eqn:EB. remember (1 - d * x1 * x2 * y1 * y2) as D eqn:ED.
    remember (x1 * y2 + x2 * y1) as A eqn:EA. remember (y1 * y2 + x1 * x2) as C eqn:EC.
    remember (1 + d * x2 * x3 * y2 * y3) as B' eqn:EB'. remember (1 - d * x2 * x3 * y2 * y3) as D' eqn:ED'.
    remember (x2 * y3 + x3 * y2) as A' eqn:EA'. remember (y2 * y3 + x2 * x3) as C' eqn:EC'.
    assert (MP : B * D + d * A * C * x3 * y3 <> 0).
    { intros Z. apply NP. transitivity ((B * D + d * A * C * x3 * y3) / (B * D)); [field; split; assumption|].
      rewrite Z. field; split; assumption. }
    assert (MM : B * D - d * A * C * x3 * y3 <> 0).
    { intros Z. apply NM. transitivity ((B * D - d * A * C * x3 * y3) / (B * D)); [field; split; assumption|].
      rewrite Z. field; split; assumption. }
    assert (MP' : B' * D' + d * x1 * y1 * A' * C' <> 0).
    { intros Z. apply NP'. transitivity ((B' * D' + d * x1 * y1 * A' * C') / (B' * D')); [field; split; assumption|].
      rewrite Z. field; split; assumption. }
    assert (MM' : B' * D' - d * x1 * y1 * A' * C' <> 0).
    { intros Z. apply NM'. transitivity ((B' * D' - d * x1 * y1 * A' * C') / (B' * D')); [field; split; assumption|].
      rewrite Z. field; split; assumption. }
    f_equal.
    - transitivity ((A * D * y3 + C * B * x3) / (B * D + d * A * C * x3 * y3)); [field; repeat split; nz|].
      transitivity ((x1 * C' * B' + A' * D' * y1) / (B' * D' + d * x1 * y1 * A' * C')); [|field; repeat split; nz].
      apply div_eq; [assumption|assumption|]. clear NP NM NP' NM' NB ND NB' ND' MP MM MP' MM'. subst A B C D A' B' C' D'.
      transitivity (
        (0 - y1 * x2 * y2 * y2 * y2 * y2 * x3 * x3 * y3 * d - y1 * x2 * x2 * y2 * y2 * y2 * x3 * d - y1 * x2 * x2 * y2
         * y2 * y2 * x3 * x3 * x3 * d - y1 * x2 * x2 * x2 * y2 * y2 * y3 * d + y1 * x2 * x2 * x2 * y2 * y2 * y3 * y3 *
         y3 * d + y1 * x2 * x2 * x2 * y2 * y2 * y2 * y2 * x3 * x3 * y3 * d * d + y1 * x2 * x2 * x2 * x2 * y2 * x3 * y3
         * y3 * d + y1 * x2 * x2 * x2 * x2 * y2 * y2 * y2 * x3 * y3 * y3 * d * d + x1 * x2 * y2 * y2 * y2 * y2 * x3 *
         y3 * y3 * d - x1 * x2 * x2 * y2 * y2 * y2 * y3 * d + x1 * x2 * x2 * y2 * y2 * y2 * y3 * y3 * y3 * d - x1 * x2
         * x2 * x2 * y2 * y2 * x3 * d - x1 * x2 * x2 * x2 * y2 * y2 * x3 * x3 * x3 * d - x1 * x2 * x2 * x2 * y2 * y2 *
         y2 * y2 * x3 * y3 * y3 * d * d - x1 * x2 * x2 * x2 * x2 * y2 * x3 * x3 * y3 * d - x1 * x2 * x2 * x2 * x2 * y2
         * y2 * y2 * x3 * x3 * y3 * d * d)
        * (y1 * y1 - x1 * x1 - 1 - d * x1 * x1 * y1 * y1) +
        (y1 * y2 * x3 - y1 * y2 * x3 * y3 * y3 + y1 * y2 * x3 * x3 * x3 + y1 * y2 * x3 * x3 * x3 * y3 * y3 * d + y1 *
         x2 * y3 - y1 * x2 * y3 * y3 * y3 + y1 * x2 * x3 * x3 * y3 + y1 * x2 * x3 * x3 * y3 * y3 * y3 * d - y1 * x2 *
         y2 * y2 * x3 * x3 * y3 * d - y1 * x2 * x2 * y2 * x3 * y3 * y3 * d - y1 * y1 * y1 * y2 * x3 + y1 * y1 * y1 *
         y2 * x3 * y3 * y3 - y1 * y1 * y1 * y2 * x3 * x3 * x3 - y1 * y1 * y1 * y2 * x3 * x3 * x3 * y3 * y3 * d - y1 *
         y1 * y1 * x2 * y3 + y1 * y1 * y1 * x2 * y3 * y3 * y3 - y1 * y1 * y1 * x2 * x3 * x3 * y3 - y1 * y1 * y1 * x2 *
         x3 * x3 * y3 * y3 * y3 * d + y1 * y1 * y1 * x2 * y2 * y2 * x3 * x3 * y3 * d + y1 * y1 * y1 * x2 * x2 * y2 *
         x3 * y3 * y3 * d + x1 * y2 * y3 - x1 * y2 * y3 * y3 * y3 + x1 * y2 * x3 * x3 * y3 + x1 * y2 * x3 * x3 * y3 *
         y3 * y3 * d + x1 * x2 * x3 - x1 * x2 * x3 * y3 * y3 + x1 * x2 * x3 * x3 * x3 + x1 * x2 * x3 * x3 * x3 * y3 *
         y3 * d + x1 * x2 * y2 * y2 * x3 * y3 * y3 * d + x1 * x2 * x2 * y2 * x3 * x3 * y3 * d - x1 * y1 * y1 * y2 * y3
         + x1 * y1 * y1 * y2 * y3 * y3 * y3 - x1 * y1 * y1 * y2 * x3 * x3 * y3 - x1 * y1 * y1 * y2 * x3 * x3 * y3 * y3
         * y3 * d - x1 * y1 * y1 * x2 * x3 + x1 * y1 * y1 * x2 * x3 * y3 * y3 - x1 * y1 * y1 * x2 * x3 * x3 * x3 - x1
         * y1 * y1 * x2 * x3 * x3 * x3 * y3 * y3 * d - x1 * y1 * y1 * x2 * y2 * y2 * x3 * y3 * y3 * d + x1 * y1 * y1 *
         x2 * y2 * y2 * x3 * x3 * x3 * y3 * y3 * d * d - x1 * y1 * y1 * x2 * x2 * y2 * x3 * x3 * y3 * d - x1 * y1 * y1
         * x2 * x2 * y2 * x3 * x3 * y3 * y3 * y3 * d * d + x1 * x1 * y1 * y2 * x3 - x1 * x1 * y1 * y2 * x3 * y3 * y3 +
         x1 * x1 * y1 * y2 * x3 * x3 * x3 + x1 * x1 * y1 * y2 * x3 * x3 * x3 * y3 * y3 * d + x1 * x1 * y1 * x2 * y3 -
         x1 * x1 * y1 * x2 * y3 * y3 * y3 + x1 * x1 * y1 * x2 * x3 * x3 * y3 + x1 * x1 * y1 * x2 * x3 * x3 * y3 * y3 *
         y3 * d - x1 * x1 * y1 * x2 * y2 * y2 * x3 * x3 * y3 * d - x1 * x1 * y1 * x2 * y2 * y2 * x3 * x3 * y3 * y3 *
         y3 * d * d - x1 * x1 * y1 * x2 * x2 * y2 * x3 * y3 * y3 * d + x1 * x1 * y1 * x2 * x2 * y2 * x3 * x3 * x3 * y3
         * y3 * d * d + x1 * x1 * x1 * y2 * y3 - x1 * x1 * x1 * y2 * y3 * y3 * y3 + x1 * x1 * x1 * y2 * x3 * x3 * y3 +
         x1 * x1 * x1 * y2 * x3 * x3 * y3 * y3 * y3 * d + x1 * x1 * x1 * x2 * x3 - x1 * x1 * x1 * x2 * x3 * y3 * y3 +
         x1 * x1 * x1 * x2 * x3 * x3 * x3 + x1 * x1 * x1 * x2 * x3 * x3 * x3 * y3 * y3 * d + x1 * x1 * x1 * x2 * y2 *
         y2 * x3 * y3 * y3 * d + x1 * x1 * x1 * x2 * x2 * y2 * x3 * x3 * y3 * d)
        * (y2 * y2 - x2 * x2 - 1 - d * x2 * x2 * y2 * y2) +
        (0 - y1 * y2 * x3 + y1 * y2 * y2 * y2 * x3 - y1 * x2 * y3 + y1 * x2 * y2 * y2 * y3 - y1 * x2 * x2 * y2 * x3 -
         y1 * x2 * x2 * x2 * y3 + y1 * y1 * y1 * y2 * x3 - y1 * y1 * y1 * y2 * y2 * y2 * x3 + y1 * y1 * y1 * x2 * y3 -
         y1 * y1 * y1 * x2 * y2 * y2 * y3 + y1 * y1 * y1 * x2 * x2 * y2 * x3 + y1 * y1 * y1 * x2 * x2 * x2 * y3 - x1 *
         y2 * y3 + x1 * y2 * y2 * y2 * y3 - x1 * x2 * x3 + x1 * x2 * y2 * y2 * x3 - x1 * x2 * x2 * y2 * y3 - x1 * x2 *
         x2 * x2 * x3 + x1 * y1 * y1 * y2 * y3 - x1 * y1 * y1 * y2 * y2 * y2 * y3 + x1 * y1 * y1 * x2 * x3 - x1 * y1 *
         y1 * x2 * y2 * y2 * x3 - x1 * y1 * y1 * x2 * y2 * y2 * x3 * d + x1 * y1 * y1 * x2 * x2 * y2 * y3 + x1 * y1 *
         y1 * x2 * x2 * y2 * y3 * d + x1 * y1 * y1 * x2 * x2 * x2 * x3 - x1 * x1 * y1 * y2 * x3 + x1 * x1 * y1 * y2 *
         y2 * y2 * x3 - x1 * x1 * y1 * x2 * y3 + x1 * x1 * y1 * x2 * y2 * y2 * y3 + x1 * x1 * y1 * x2 * y2 * y2 * y3 *
         d - x1 * x1 * y1 * x2 * x2 * y2 * x3 - x1 * x1 * y1 * x2 * x2 * y2 * x3 * d - x1 * x1 * y1 * x2 * x2 * x2 *
         y3 - x1 * x1 * x1 * y2 * y3 + x1 * x1 * x1 * y2 * y2 * y2 * y3 - x1 * x1 * x1 * x2 * x3 + x1 * x1 * x1 * x2 *
         y2 * y2 * x3 - x1 * x1 * x1 * x2 * x2 * y2 * y3 - x1 * x1 * x1 * x2 * x2 * x2 * x3)
        * (y3 * y3 - x3 * x3 - 1 - d * x3 * x3 * y3 * y3)); [ring|].
      rewrite H1, H2, H3. ring.
    - transitivity ((C * B * y3 + A * D * x3) / (B * D - d * A * C * x3 * y3)); [field; repeat split; nz|].
      transitivity ((y1 * C' * B' + x1 * A' * D') / (B' * D' - d * x1 * y1 * A' * C')); [|field; repeat split; nz].
      apply div_eq; [assumption|assumption|]. clear NP NM NP' NM' NB ND NB' ND' MP MM MP' MM'. subst A B C D A' B' C' D'.
      transitivity (
        (y1 * x2 * y2 * y2 * y2 * y2 * x3 * y3 * y3 * d - y1 * x2 * x2 * y2 * y2 * y2 * y3 * d + y1 * x2 * x2 * y2 *
         y2 * y2 * y3 * y3 * y3 * d - y1 * x2 * x2 * x2 * y2 * y2 * x3 * d - y1 * x2 * x2 * x2 * y2 * y2 * x3 * x3 *
         x3 * d - y1 * x2 * x2 * x2 * y2 * y2 * y2 * y2 * x3 * y3 * y3 * d * d - y1 * x2 * x2 * x2 * x2 * y2 * x3 * x3
         * y3 * d - y1 * x2 * x2 * x2 * x2 * y2 * y2 * y2 * x3 * x3 * y3 * d * d - x1 * x2 * y2 * y2 * y2 * y2 * x3 *
         x3 * y3 * d - x1 * x2 * x2 * y2 * y2 * y2 * x3 * d - x1 * x2 * x2 * y2 * y2 * y2 * x3 * x3 * x3 * d - x1 * x2
         * x2 * x2 * y2 * y2 * y3 * d + x1 * x2 * x2 * x2 * y2 * y2 * y3 * y3 * y3 * d + x1 * x2 * x2 * x2 * y2 * y2 *
         y2 * y2 * x3 * x3 * y3 * d * d + x1 * x2 * x2 * x2 * x2 * y2 * x3 * y3 * y3 * d + x1 * x2 * x2 * x2 * x2 * y2
         * y2 * y2 * x3 * y3 * y3 * d * d)
        * (y1 * y1 - x1 * x1 - 1 - d * x1 * x1 * y1 * y1) +
        (y1 * y2 * y3 - y1 * y2 * y3 * y3 * y3 + y1 * y2 * x3 * x3 * y3 + y1 * y2 * x3 * x3 * y3 * y3 * y3 * d + y1 *
         x2 * x3 - y1 * x2 * x3 * y3 * y3 + y1 * x2 * x3 * x3 * x3 + y1 * x2 * x3 * x3 * x3 * y3 * y3 * d + y1 * x2 *
         y2 * y2 * x3 * y3 * y3 * d + y1 * x2 * x2 * y2 * x3 * x3 * y3 * d - y1 * y1 * y1 * y2 * y3 + y1 * y1 * y1 *
         y2 * y3 * y3 * y3 - y1 * y1 * y1 * y2 * x3 * x3 * y3 - y1 * y1 * y1 * y2 * x3 * x3 * y3 * y3 * y3 * d - y1 *
         y1 * y1 * x2 * x3 + y1 * y1 * y1 * x2 * x3 * y3 * y3 - y1 * y1 * y1 * x2 * x3 * x3 * x3 - y1 * y1 * y1 * x2 *
         x3 * x3 * x3 * y3 * y3 * d - y1 * y1 * y1 * x2 * y2 * y2 * x3 * y3 * y3 * d - y1 * y1 * y1 * x2 * x2 * y2 *
         x3 * x3 * y3 * d + x1 * y2 * x3 - x1 * y2 * x3 * y3 * y3 + x1 * y2 * x3 * x3 * x3 + x1 * y2 * x3 * x3 * x3 *
         y3 * y3 * d + x1 * x2 * y3 - x1 * x2 * y3 * y3 * y3 + x1 * x2 * x3 * x3 * y3 + x1 * x2 * x3 * x3 * y3 * y3 *
         y3 * d - x1 * x2 * y2 * y2 * x3 * x3 * y3 * d - x1 * x2 * x2 * y2 * x3 * y3 * y3 * d - x1 * y1 * y1 * y2 * x3
         + x1 * y1 * y1 * y2 * x3 * y3 * y3 - x1 * y1 * y1 * y2 * x3 * x3 * x3 - x1 * y1 * y1 * y2 * x3 * x3 * x3 * y3
         * y3 * d - x1 * y1 * y1 * x2 * y3 + x1 * y1 * y1 * x2 * y3 * y3 * y3 - x1 * y1 * y1 * x2 * x3 * x3 * y3 - x1
         * y1 * y1 * x2 * x3 * x3 * y3 * y3 * y3 * d + x1 * y1 * y1 * x2 * y2 * y2 * x3 * x3 * y3 * d + x1 * y1 * y1 *
         x2 * y2 * y2 * x3 * x3 * y3 * y3 * y3 * d * d + x1 * y1 * y1 * x2 * x2 * y2 * x3 * y3 * y3 * d - x1 * y1 * y1
         * x2 * x2 * y2 * x3 * x3 * x3 * y3 * y3 * d * d + x1 * x1 * y1 * y2 * y3 - x1 * x1 * y1 * y2 * y3 * y3 * y3 +
         x1 * x1 * y1 * y2 * x3 * x3 * y3 + x1 * x1 * y1 * y2 * x3 * x3 * y3 * y3 * y3 * d + x1 * x1 * y1 * x2 * x3 -
         x1 * x1 * y1 * x2 * x3 * y3 * y3 + x1 * x1 * y1 * x2 * x3 * x3 * x3 + x1 * x1 * y1 * x2 * x3 * x3 * x3 * y3 *
         y3 * d + x1 * x1 * y1 * x2 * y2 * y2 * x3 * y3 * y3 * d - x1 * x1 * y1 * x2 * y2 * y2 * x3 * x3 * x3 * y3 *
         y3 * d * d + x1 * x1 * y1 * x2 * x2 * y2 * x3 * x3 * y3 * d + x1 * x1 * y1 * x2 * x2 * y2 * x3 * x3 * y3 * y3
         * y3 * d * d + x1 * x1 * x1 * y2 * x3 - x1 * x1 * x1 * y2 * x3 * y3 * y3 + x1 * x1 * x1 * y2 * x3 * x3 * x3 +
         x1 * x1 * x1 * y2 * x3 * x3 * x3 * y3 * y3 * d + x1 * x1 * x1 * x2 * y3 - x1 * x1 * x1 * x2 * y3 * y3 * y3 +
         x1 * x1 * x1 * x2 * x3 * x3 * y3 + x1 * x1 * x1 * x2 * x3 * x3 * y3 * y3 * y3 * d - x1 * x1 * x1 * x2 * y2 *
         y2 * x3 * x3 * y3 * d - x1 * x1 * x1 * x2 * x2 * y2 * x3 * y3 * y3 * d)
        * (y2 * y2 - x2 * x2 - 1 - d * x2 * x2 * y2 * y2) +
        (0 - y1 * y2 * y3 + y1 * y2 * y2 * y2 * y3 - y1 * x2 * x3 + y1 * x2 * y2 * y2 * x3 - y1 * x2 * x2 * y2 * y3 -
         y1 * x2 * x2 * x2 * x3 + y1 * y1 * y1 * y2 * y3 - y1 * y1 * y1 * y2 * y2 * y2 * y3 + y1 * y1 * y1 * x2 * x3 -
         y1 * y1 * y1 * x2 * y2 * y2 * x3 + y1 * y1 * y1 * x2 * x2 * y2 * y3 + y1 * y1 * y1 * x2 * x2 * x2 * x3 - x1 *
         y2 * x3 + x1 * y2 * y2 * y2 * x3 - x1 * x2 * y3 + x1 * x2 * y2 * y2 * y3 - x1 * x2 * x2 * y2 * x3 - x1 * x2 *
         x2 * x2 * y3 + x1 * y1 * y1 * y2 * x3 - x1 * y1 * y1 * y2 * y2 * y2 * x3 + x1 * y1 * y1 * x2 * y3 - x1 * y1 *
         y1 * x2 * y2 * y2 * y3 - x1 * y1 * y1 * x2 * y2 * y2 * y3 * d + x1 * y1 * y1 * x2 * x2 * y2 * x3 + x1 * y1 *
         y1 * x2 * x2 * y2 * x3 * d + x1 * y1 * y1 * x2 * x2 * x2 * y3 - x1 * x1 * y1 * y2 * y3 + x1 * x1 * y1 * y2 *
         y2 * y2 * y3 - x1 * x1 * y1 * x2 * x3 + x1 * x1 * y1 * x2 * y2 * y2 * x3 + x1 * x1 * y1 * x2 * y2 * y2 * x3 *
         d - x1 * x1 * y1 * x2 * x2 * y2 * y3 - x1 * x1 * y1 * x2 * x2 * y2 * y3 * d - x1 * x1 * y1 * x2 * x2 * x2 *
         x3 - x1 * x1 * x1 * y2 * x3 + x1 * x1 * x1 * y2 * y2 * y2 * x3 - x1 * x1 * x1 * x2 * y3 + x1 * x1 * x1 * x2 *
         y2 * y2 * y3 - x1 * x1 * x1 * x2 * x2 * y2 * x3 - x1 * x1 * x1 * x2 * x2 * x2 * y3)
        * (y3 * y3 - x3 * x3 - 1 - d * x3 * x3 * y3 * y3)); [ring|].
      rewrite H1, H2, H3. ring.
  Qed.

  (** Extended coordinates (X, Y, Z, T): x = X/Z, y = Y/Z and xy = T/Z. *)
  Definition extended (X Y Z T : F) (P : F * F) : Prop :=
    let '(x, y) := P in Z <> 0 /\ X = x * Z /\ Y = y * Z /\ T = x * y * Z.
  Lemma extended_plus X1 Y1 Z1 T1 X2 Y2 Z2 T2 P Q :
    oncurve P -> oncurve Q -> extended X1 Y1 Z1 T1 P -> extended X2 Y2 Z2 T2 Q ->
    let A := (Y1 - X1) * (Y2 - X2) in let B := (Y1 + X1) * (Y2 + X2) in
    let C := (1 + 1) * T1 * T2 * d in let D := (1 + 1) * Z1 * Z2 in
    extended ((B - A) * (D - C)) ((D + C) * (B + A)) ((D - C) * (D + C)) ((B - A) * (B + A)) (plus P Q).
  Proof.
    destruct P as [x1 y1], Q as [x2 y2]. intros HP HQ (N1 & -> & -> & ->) (N2 & -> & -> & ->). cbv zeta. cbn [extended plus].
    pose proof (complete_p _ _ _ _ HP HQ) as DP. pose proof (complete_m _ _ _ _ HP HQ) as DM.
    assert (Fz : (1 + 1) * Z1 * Z2 - (1 + 1) * (x1 * y1 * Z1) * (x2 * y2 * Z2) * d
                 = (1 + 1) * (Z1 * Z2) * (1 - d * x1 * x2 * y1 * y2)) by ring.
    assert (Gz : (1 + 1) * Z1 * Z2 + (1 + 1) * (x1 * y1 * Z1) * (x2 * y2 * Z2) * d
                 = (1 + 1) * (Z1 * Z2) * (1 + d * x1 * x2 * y1 * y2)) by ring.
    rewrite Fz, Gz.
    split; [repeat apply mul_nonzero; assumption|]. repeat split; field; repeat split; assumption.
  Qed.
  Lemma extended_affine X Y Z T P : extended X Y Z T P -> P = (X * finv Z, Y * finv Z).
  Proof using FT. destruct P as [x y]. intros (N & -> & -> & _). f_equal; field; assumption. Qed.
  Lemma extended_equal X1 Y1 Z1 T1 X2 Y2 Z2 T2 P Q : extended X1 Y1 Z1 T1 P -> extended X2 Y2 Z2 T2 Q ->
    (X1 * Z2 - X2 * Z1 = 0 /\ Y1 * Z2 - Y2 * Z1 = 0 <-> P = Q).
  Proof using FT F_dec.
    destruct P as [x1 y1], Q as [x2 y2]. intros (N1 & -> & -> & _) (N2 & -> & -> & _).
    assert (M : forall a b, a * Z1 * Z2 - b * Z2 * Z1 = 0 <-> a = b).
    { intros a b. split; [|intros ->; ring]. intros E. replace (a * Z1 * Z2 - b * Z2 * Z1) with ((a - b) * (Z1 * Z2)) in E by ring.
      apply no_zero_div in E. destruct E as [E|E]; [now apply sub_zero|]. exfalso. now apply (mul_nonzero Z1 Z2). }
    rewrite !M. split; [intros [-> ->]; reflexivity|intros E; injection E; auto].
  Qed.

  (** Multiples of a point. *)
  Fixpoint times (n : nat) (P : F * F) : F * F := match n with 0%nat => O | S m => plus P (times m P) end.
  Lemma times_oncurve n P : oncurve P -> oncurve (times n P).
  Proof. intros H. induction n as [|n IH]; [apply O_oncurve|]. now apply plus_oncurve. Qed.
  Lemma times_add m n P : oncurve P -> times (m + n)%nat P = plus (times m P) (times n P).
  Proof.
    intros H. induction m as [|m IH]; cbn [times Nat.add]; [now rewrite plus_O|].
    rewrite IH, plus_assoc; try apply times_oncurve; auto.
  Qed.
  Lemma times_O n : times n O = O.
  Proof using FT. induction n as [|n IH]; [reflexivity|]. cbn [times]. rewrite IH. apply plus_O. Qed.
  Lemma times_mul m n P : oncurve P -> times (m * n)%nat P = times m (times n P).
  Proof.
    intros H. induction m as [|m IH]; [reflexivity|]. cbn [Nat.mul times]. now rewrite times_add, IH.
  Qed.
End Edwards.
