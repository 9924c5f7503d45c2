(** The y-coordinates of sums and doubles on a twisted Edwards curve, by the formulas of Montgomery's ladder. *)
From Coq Require Import ZArith Ring Field.
From Verif Require Import Edwards.

Section Montgomery.
  Variable F : Type.
  Variables (f0 f1 : F) (fadd fmul fsub : F -> F -> F) (fopp : F -> F) (fdiv : F -> F -> F) (finv : F -> F).
  Hypothesis FT : field_theory f0 f1 fadd fmul fsub fopp fdiv finv eq.
  Hypothesis F_dec : forall a b : F, {a = b} + {a <> b}.
  Variables (d i a : F).
  Add Field Ff : FT.
  Local Notation "0" := f0. Local Notation "1" := f1.
  Local Infix "+" := fadd. Local Infix "*" := fmul. Local Infix "-" := fsub. Local Infix "/" := fdiv.
  Local Notation "- x" := (fopp x).
  Hypothesis two : 1 + 1 <> 0.
  Hypothesis i_sq : i * i = - (1).
  Hypothesis d_nonsquare : forall z, z * z <> d.
  Hypothesis a_den : a + 1 <> 0.
  Hypothesis d_eq : d * (a + 1) = - a.
  Notation oncurve := (oncurve F f1 fadd fmul fsub d).
  Notation plus := (plus F f1 fadd fmul fsub fdiv d).
  Notation neg := (neg F fopp).
  Notation O := (O F f0 f1).

  (** (X : Z) is ((1 + y) : (1 - y)). *)
  Definition mont (X Z : F) (P : F * F) : Prop := exists c, c <> 0 /\ X = c * (1 + snd P) /\ Z = c * (1 - snd P).
  Lemma zero_div u v : u * v = 0 -> u = 0 \/ v = 0.
  Proof using FT F_dec. exact (no_zero_div F f0 f1 fadd fmul fsub fopp fdiv finv FT F_dec u v). Qed.
  Lemma cancel_inv c v z : c <> 0 -> z <> 0 -> c * v * finv (c * z) = v * finv z.
  Proof using FT. intros C Z. field. split; assumption. Qed.
  Lemma inv_mul z : z <> 0 -> z * finv z = 1.
  Proof using FT. intros Z. field. exact Z. Qed.
  Lemma flat_x y y' : 1 <> 0 -> (0 * y' + 0 * y) / (1 + d * 0 * 0 * y * y') = 0.
  Proof using FT. intros N. field. intros Z. apply N. etransitivity; [|exact Z]. ring. Qed.
  Lemma flat_y y y' : 1 <> 0 -> (y * y' + 0 * 0) / (1 - d * 0 * 0 * y * y') = y * y'.
  Proof using FT. intros N. field. intros Z. apply N. etransitivity; [|exact Z]. ring. Qed.
  Lemma quotient_mul v z : z <> 0 -> v * finv z * z = v.
  Proof using FT. intros Z. field. exact Z. Qed.
  Lemma mont_of X Z x y : ~ (X = 0 /\ Z = 0) -> X * (1 - y) = Z * (1 + y) -> mont X Z (x, y).
  Proof using FT two.
    intros N E. exists ((X + Z) / (1 + 1)). cbn [snd].
    assert (EX : X = (X + Z) / (1 + 1) * (1 + y)).
    { transitivity ((X * (1 - y) + X * (1 + y)) / (1 + 1)); [field; exact two|]. rewrite E. field. exact two. }
    assert (EZ : Z = (X + Z) / (1 + 1) * (1 - y)).
    { transitivity ((Z * (1 - y) + Z * (1 + y)) / (1 + 1)); [field; exact two|]. rewrite <- E. field. exact two. }
    split; [|split; assumption]. intros C. apply N. rewrite C in EX, EZ. split; [rewrite EX|rewrite EZ]; ring.
  Qed.
  Lemma den_y x y : oncurve (x, y) -> 1 + d * (y * y) <> 0.
  Proof using FT F_dec two i_sq d_nonsquare.
    cbn. intros E Z. destruct (F_dec y 0) as [Y|Y].
    - subst y. apply two. assert (W : 1 = 0) by (rewrite <- Z; ring). rewrite W. ring.
    - apply (d_nonsquare (i / y)). transitivity ((i * i) / (y * y)); [field; exact Y|]. rewrite i_sq.
      assert (D : d * (y * y) = - (1)) by (transitivity (1 + d * (y * y) - 1); [ring|]; rewrite Z; ring). rewrite <- D. field. exact Y.
  Qed.
  Lemma x_square x y : oncurve (x, y) -> x * x = (y * y - 1) / (1 + d * (y * y)).
  Proof using FT F_dec two i_sq d_nonsquare.
    intros H. pose proof (den_y x y H) as N. cbn in H.
    assert (E : (x * x) * (1 + d * (y * y)) = y * y - 1).
    { transitivity (x * x + (1 + d * (x * x) * (y * y)) - 1); [ring|]. rewrite <- H. ring. }
    rewrite <- E. field. exact N.
  Qed.

  Lemma double_mont X Z P : oncurve P -> mont X Z P ->
    let AA := (X + Z) * (X + Z) in let BB := (X - Z) * (X - Z) in let E := AA - BB in
    mont (AA * BB) (E * (AA + a * E)) (plus P P).
  Proof.
    destruct P as [x y]. intros H (c & C & -> & ->). cbn [snd]. cbv zeta.
    pose proof (complete_m F f0 f1 fadd fmul fsub fopp fdiv finv FT F_dec d i two i_sq d_nonsquare x y x y H H) as N.
    set (k := (1 + 1) * ((1 + 1) * (c * c))). 
    assert (K : k <> 0). { intros Z. unfold k in Z. apply zero_div in Z as [Z|Z]; [tauto|]. apply zero_div in Z as [Z|Z]; [tauto|]. apply zero_div in Z. tauto. }
    replace ((c * (1 + y) + c * (1 - y)) * (c * (1 + y) + c * (1 - y))) with k by (unfold k; ring).
    replace ((c * (1 + y) - c * (1 - y)) * (c * (1 + y) - c * (1 - y))) with (k * (y * y)) by (unfold k; ring).
    unfold Edwards.plus. clearbody k. clear c C.
    assert (Q : y * y = (1 + a * (1 - y * y)) * (1 + x * x)).
    { assert (D : d = - a / (a + 1)) by (rewrite <- d_eq; field; exact a_den).
      assert (X2 : (x * x) * (1 + a * (1 - y * y)) = (a + 1) * (y * y - 1)).
      { cbn in H. assert (G : y * y - x * x - 1 - d * (x * x) * (y * y) = 0) by (rewrite H; ring).
        transitivity ((a + 1) * (y * y - 1) - (a + 1) * (y * y - x * x - 1) + (- a) * (x * x) * (y * y)); [ring|]. rewrite <- d_eq.
        transitivity ((a + 1) * (y * y - 1) - (a + 1) * (y * y - x * x - 1 - d * (x * x) * (y * y))); [ring|]. rewrite G. ring. }
      transitivity (1 + a * (1 - y * y) + (x * x) * (1 + a * (1 - y * y))); [rewrite X2; ring|ring]. }
    assert (S : 1 - d * x * x * y * y = 1 + 1 - y * y + x * x).
    { cbn in H. transitivity (1 + 1 - (1 + d * (x * x) * (y * y))); [ring|]. rewrite <- H. ring. }
    apply mont_of.
    - intros [Z1 Z2]. apply zero_div in Z1 as [Z1|Z1]; [tauto|]. apply zero_div in Z1 as [Z1|Z1]; [tauto|].
      rewrite Z1 in Z2. assert (W : k * (k * (a + 1)) = 0) by (rewrite <- Z2; ring).
      apply zero_div in W as [W|W]; [tauto|]. apply zero_div in W. tauto.
    - rewrite S in N |- *.
      transitivity (k * k * (1 - y * y) * ((1 + 1) * (y * y)) / (1 + 1 - y * y + x * x)); [field; exact N|].
      rewrite Q at 2. field. exact N.
  Qed.
  Lemma add_mont u X2 Z2 X3 Z3 P1 P2 P3 : oncurve P2 -> oncurve P3 -> oncurve P1 -> plus P3 (neg P2) = P1 \/ plus P2 (neg P3) = P1 ->
    u <> 0 -> u * (1 - snd P1) = 1 + snd P1 -> mont X2 Z2 P2 -> mont X3 Z3 P3 ->
    let DA := (X3 - Z3) * (X2 + Z2) in let CB := (X3 + Z3) * (X2 - Z2) in
    mont ((DA + CB) * (DA + CB)) (u * ((DA - CB) * (DA - CB))) (plus P2 P3).
  Proof.
    destruct P1 as [x1 y1], P2 as [x2 y2], P3 as [x3 y3]. cbn [snd]. intros H2 H3 H1 HD U HU (c & C & -> & ->) (e & E & -> & ->).
    cbn [snd]. cbv zeta.
    pose proof (complete_m F f0 f1 fadd fmul fsub fopp fdiv finv FT F_dec d i two i_sq d_nonsquare x2 y2 x3 y3 H2 H3) as N.
    pose proof (complete_p F f0 f1 fadd fmul fsub fopp fdiv finv FT F_dec d i two i_sq d_nonsquare x2 y2 x3 y3 H2 H3) as N'.
    set (k := (1 + 1) * ((1 + 1) * (c * e))).
    assert (K : k <> 0). { intros Z. unfold k in Z. apply zero_div in Z as [Z|Z]; [tauto|]. apply zero_div in Z as [Z|Z]; [tauto|]. apply zero_div in Z. tauto. }
    replace ((e * (1 + y3) - e * (1 - y3)) * (c * (1 + y2) + c * (1 - y2))) with (k * y3) by (unfold k; ring).
    replace ((e * (1 + y3) + e * (1 - y3)) * (c * (1 + y2) - c * (1 - y2))) with (k * y2) by (unfold k; ring).
    clearbody k. clear c C e E.
    assert (Y1 : y1 = (y2 * y3 - x2 * x3) / (1 + d * x2 * x3 * y2 * y3)).
    { destruct HD as [HD|HD]; unfold Edwards.plus, Edwards.neg in HD; apply (f_equal snd) in HD; cbn [snd] in HD; rewrite <- HD; field;
        repeat split; try exact N'; intros Z; apply N'; rewrite <- Z; ring. }
    assert (NY : 1 - y1 <> 0).
    { intros Z. rewrite Z in HU. apply two. assert (Q : y1 = 1) by (transitivity (1 - (1 - y1)); [ring|]; rewrite Z; ring). 
      transitivity (1 + y1); [rewrite Q; reflexivity|]. rewrite <- HU. ring. }
    assert (NY' : 1 + y1 <> 0).
    { intros Z. rewrite Z in HU. apply zero_div in HU. tauto. }
    assert (U1 : u = (1 + y1) / (1 - y1)) by (rewrite <- HU; field; exact NY).
    pose proof (x_square x2 y2 H2) as S2. pose proof (x_square x3 y3 H3) as S3.
    pose proof (den_y x2 y2 H2) as D2. pose proof (den_y x3 y3 H3) as D3.
    unfold Edwards.plus. apply mont_of.
    - intros [Z1 Z2].
      assert (A : y3 + y2 = 0).
      { replace ((k * y3 + k * y2) * (k * y3 + k * y2)) with ((k * k) * ((y3 + y2) * (y3 + y2))) in Z1 by ring.
        apply zero_div in Z1 as [Z1|Z1]; [apply zero_div in Z1; tauto|]. apply zero_div in Z1. tauto. }
      assert (A' : y3 - y2 = 0).
      { replace ((k * y3 - k * y2) * (k * y3 - k * y2)) with ((k * k) * ((y3 - y2) * (y3 - y2))) in Z2 by ring.
        apply zero_div in Z2 as [Z2|Z2]; [tauto|].
        apply zero_div in Z2 as [Z2|Z2]; [apply zero_div in Z2; tauto|]. apply zero_div in Z2. tauto. }
      assert (Y3 : y3 = 0). { assert (W : (1 + 1) * y3 = 0) by (transitivity ((y3 + y2) + (y3 - y2)); [ring|]; rewrite A, A'; ring). apply zero_div in W. tauto. }
      assert (Y2 : y2 = 0). { rewrite Y3 in A. rewrite <- A. ring. }
      subst y2 y3. 
      assert (T : (1 - y1) * (1 + y1) = 0).
      { transitivity (1 - y1 * y1); [ring|]. rewrite Y1.
        transitivity (1 - (x2 * x2) * (x3 * x3)). { field. intros Z. apply N'. etransitivity; [|exact Z]. ring. }
        rewrite S2, S3. field. repeat split; intros Z; first [apply D3; etransitivity; [|exact Z]; ring|apply D2; etransitivity; [|exact Z]; ring]. }
      apply zero_div in T. tauto.
    - assert (I : (y3 + y2) * (y3 + y2) * ((1 - y2 * y3) * (1 - y2 * y3) - (x2 * x3 + d * x2 * x3 * y2 * y3) * (x2 * x3 + d * x2 * x3 * y2 * y3))
                = (y3 - y2) * (y3 - y2) * ((1 + y2 * y3) * (1 + y2 * y3) - (x2 * x3 - d * x2 * x3 * y2 * y3) * (x2 * x3 - d * x2 * x3 * y2 * y3))).
      { replace ((x2 * x3 + d * x2 * x3 * y2 * y3) * (x2 * x3 + d * x2 * x3 * y2 * y3)) with ((x2 * x2) * (x3 * x3) * ((1 + d * y2 * y3) * (1 + d * y2 * y3))) by ring.
        replace ((x2 * x3 - d * x2 * x3 * y2 * y3) * (x2 * x3 - d * x2 * x3 * y2 * y3)) with ((x2 * x2) * (x3 * x3) * ((1 - d * y2 * y3) * (1 - d * y2 * y3))) by ring.
        rewrite S2, S3. field. split; assumption. }
      rewrite U1.
      assert (J : (y3 + y2) * (y3 + y2) * ((1 - y1) * (1 - (y2 * y3 + x2 * x3) / (1 - d * x2 * x3 * y2 * y3))) =
                  (y3 - y2) * (y3 - y2) * ((1 + y1) * (1 + (y2 * y3 + x2 * x3) / (1 - d * x2 * x3 * y2 * y3)))).
      { rewrite Y1.
        transitivity ((y3 + y2) * (y3 + y2) * ((1 - y2 * y3) * (1 - y2 * y3) - (x2 * x3 + d * x2 * x3 * y2 * y3) * (x2 * x3 + d * x2 * x3 * y2 * y3))
          / ((1 - d * x2 * x3 * y2 * y3) * (1 + d * x2 * x3 * y2 * y3))); [field; split; assumption|].
        rewrite I. field. split; assumption. }
      set (y5 := (y2 * y3 + x2 * x3) / (1 - d * x2 * x3 * y2 * y3)) in *. clearbody y5.
      transitivity (k * k * ((y3 + y2) * (y3 + y2) * ((1 - y1) * (1 - y5))) / (1 - y1)); [field; exact NY|].
      rewrite J. field. exact NY.
  Qed.
End Montgomery.
