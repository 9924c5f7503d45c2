(** Floats are written with the fewest digits. *)
From Coq Require Import QArith Qabs Qpower Lqa.
From Verif Require Import Base BaseFacts Codec CodecFacts Json JsonParse Deps Float FloatFacts FloatText FloatSpec FloatLaws.
Require Import ZifyBool ZifyNat ZifyN.
Set Implicit Arguments.
Local Open Scope N_scope.

(** ** Rationals *)
Definition qN (n : N) : Q := inject_Z (Z.of_N n).
Definition ten (x : Z) : Q := Qpower (inject_Z 10) x.
Definition two (x : Z) : Q := Qpower (inject_Z 2) x.
Lemma qN_lt a b : a < b <-> (qN a < qN b)%Q.
Proof. unfold qN. rewrite <- Zlt_Qlt. lia. Qed.
Lemma qN_le a b : a <= b <-> (qN a <= qN b)%Q.
Proof. unfold qN. rewrite <- Zle_Qle. lia. Qed.
Lemma qN_eq a b : a = b <-> (qN a == qN b)%Q.
Proof. unfold qN. rewrite inject_Z_injective. lia. Qed.
Lemma qN_mul a b : (qN (a * b) == qN a * qN b)%Q.
Proof. unfold qN. rewrite N2Z.inj_mul, inject_Z_mult. reflexivity. Qed.
Lemma qN_add a b : (qN (a + b) == qN a + qN b)%Q.
Proof. unfold qN. rewrite N2Z.inj_add, inject_Z_plus. reflexivity. Qed.
Lemma qN_pos a : 0 < a -> (0 < qN a)%Q.
Proof. intros H. change 0%Q with (qN 0). apply qN_lt. exact H. Qed.
Lemma qN_nonneg a : (0 <= qN a)%Q.
Proof. change 0%Q with (qN 0). apply qN_le. lia. Qed.
Lemma ten_gt x : (0 < ten x)%Q. Proof. apply Qpower_0_lt. reflexivity. Qed.
Lemma two_gt x : (0 < two x)%Q. Proof. apply Qpower_0_lt. reflexivity. Qed.
Lemma ten_plus x y : (ten (x + y) == ten x * ten y)%Q. Proof. apply Qpower_plus. discriminate. Qed.
Lemma two_plus x y : (two (x + y) == two x * two y)%Q. Proof. apply Qpower_plus. discriminate. Qed.
Lemma ten_N n : (ten (Z.of_N n) == qN (10 ^ n))%Q.
Proof. unfold ten, qN. rewrite N2Z.inj_pow. symmetry. apply (Zpower_Qpower 10). lia. Qed.
Lemma two_N n : (two (Z.of_N n) == qN (2 ^ n))%Q.
Proof. unfold two, qN. rewrite N2Z.inj_pow. symmetry. apply (Zpower_Qpower 2). lia. Qed.
Lemma ten_inv x : (ten x * ten (- x) == 1)%Q.
Proof. rewrite <- ten_plus. replace (x + - x)%Z with 0%Z by lia. reflexivity. Qed.
Lemma two_inv x : (two x * two (- x) == 1)%Q.
Proof. rewrite <- two_plus. replace (x + - x)%Z with 0%Z by lia. reflexivity. Qed.
Lemma ten_split x : (ten x * qN (10 ^ Z.to_N (- x)) == qN (10 ^ Z.to_N x))%Q.
Proof.
  rewrite <- !ten_N, <- ten_plus. destruct (Z.leb_spec 0 x) as [H|H].
  - replace (Z.of_N (Z.to_N (- x))) with 0%Z by lia. replace (Z.of_N (Z.to_N x)) with x by lia. rewrite Z.add_0_r. reflexivity.
  - replace (Z.of_N (Z.to_N (- x))) with (- x)%Z by lia. replace (Z.of_N (Z.to_N x)) with 0%Z by lia. replace (x + - x)%Z with 0%Z by lia. reflexivity.
Qed.
Lemma ten_mono x y : (x <= y)%Z -> (ten x <= ten y)%Q.
Proof. intros H. apply Qpower_le_compat_l; [exact H|discriminate]. Qed.

(** ** Powers of two and of ten *)
Lemma le_up k n : 196 * k <= 59 * n -> 10 ^ k <= 2 ^ n.
Proof.
  intros H. apply (N.pow_le_mono_l_iff _ _ 196); [lia|]. rewrite <- !N.pow_mul_r, (N.mul_comm k), (N.mul_comm n).
  transitivity (10 ^ (59 * n)); [apply N.pow_le_mono_r; lia|]. rewrite !N.pow_mul_r. apply N.pow_le_mono_l. apply N.leb_le. reflexivity.
Qed.
Lemma le_up2 k n : 28 * n <= 93 * k -> 2 ^ n <= 10 ^ k.
Proof.
  intros H. apply (N.pow_le_mono_l_iff _ _ 93); [lia|]. rewrite <- !N.pow_mul_r, (N.mul_comm k), (N.mul_comm n).
  transitivity (10 ^ (28 * n)); [rewrite !N.pow_mul_r; apply N.pow_le_mono_l; apply N.leb_le; reflexivity|]. apply N.pow_le_mono_r; lia.
Qed.
Lemma inv_le a a' b b' : (a * a' == 1 -> b * b' == 1 -> 0 < a -> 0 < b -> a <= b -> b' <= a')%Q.
Proof.
  intros A B Pa Pb H. assert (A' : (0 < a')%Q) by (apply Qnot_le_lt; intros C; nra). assert (B' : (0 < b')%Q) by (apply Qnot_le_lt; intros C; nra).
  apply Qnot_lt_le. intros C. assert (a * a' < b * b')%Q by nra. lra.
Qed.
Lemma ten_two k n : ((0 <= n /\ 196 * k <= 59 * n) \/ (n <= 0 /\ 93 * k <= 28 * n))%Z -> (ten k <= two n)%Q.
Proof.
  intros [[Z H]|[Z H]].
  - destruct (Z.leb_spec 0 k) as [K|K].
    + replace k with (Z.of_N (Z.to_N k)) by lia. replace n with (Z.of_N (Z.to_N n)) by lia. rewrite ten_N, two_N. apply qN_le, le_up. lia.
    + apply (Qle_trans _ 1); [apply (ten_mono (x := k) (y := 0)); lia|]. apply (Qpower_le_compat_l (inject_Z 2) 0 n); [exact Z|discriminate].
  - apply (@inv_le (two (- n)) (two n) (ten (- k)) (ten k)); [rewrite Qmult_comm; apply two_inv|rewrite Qmult_comm; apply ten_inv|apply two_gt|apply ten_gt|].
    replace (- k)%Z with (Z.of_N (Z.to_N (- k))) by lia. replace (- n)%Z with (Z.of_N (Z.to_N (- n))) by lia. rewrite ten_N, two_N. apply qN_le, le_up2. lia.
Qed.
Lemma two_ten k n : ((0 <= n /\ 28 * n <= 93 * k) \/ (n <= 0 /\ 59 * n <= 196 * k))%Z -> (two n <= ten k)%Q.
Proof.
  intros [[Z H]|[Z H]].
  - replace k with (Z.of_N (Z.to_N k)) by lia. replace n with (Z.of_N (Z.to_N n)) by lia. rewrite ten_N, two_N. apply qN_le, le_up2. lia.
  - destruct (Z.leb_spec 0 k) as [K|K].
    + apply (Qle_trans _ 1); [apply (Qpower_le_compat_l (inject_Z 2) n 0); [exact Z|discriminate]|apply (ten_mono (x := 0) (y := k)); lia].
    + apply (@inv_le (ten (- k)) (ten k) (two (- n)) (two n)); [rewrite Qmult_comm; apply ten_inv|rewrite Qmult_comm; apply two_inv|apply ten_gt|apply two_gt|].
      replace (- k)%Z with (Z.of_N (Z.to_N (- k))) by lia. replace (- n)%Z with (Z.of_N (Z.to_N (- n))) by lia. rewrite ten_N, two_N. apply qN_le, le_up. lia.
Qed.

(** ** Floats as units *)
Definition frac_bits (m : N) : N := if m / 2 ^ 52 =? 0 then m mod 2 ^ 52 else 2 ^ 52 + m mod 2 ^ 52.
Definition exp_bits (m : N) : N := m / 2 ^ 52 - 1.
Lemma units_bits m : units m = frac_bits m * 2 ^ exp_bits m.
Proof. unfold units, frac_bits, exp_bits. destruct (N.eqb_spec (m / 2 ^ 52) 0) as [->|E]; [rewrite N.mul_1_r|]; reflexivity. Qed.
Lemma frac_lt m : frac_bits m < 2 ^ 53.
Proof. unfold frac_bits. pose proof (N.mod_lt m (2 ^ 52) ltac:(lia)) as L. change (2 ^ 53) with (2 * 2 ^ 52). destruct (_ =? 0); lia. Qed.
Lemma exp_mono m : exp_bits m <= exp_bits (m + 1).
Proof. unfold exp_bits. pose proof (N.div_le_mono m (m + 1) (2 ^ 52) ltac:(lia) ltac:(lia)). lia. Qed.
Lemma units_next m : units (m + 1) = units m + 2 ^ exp_bits m.
Proof.
  unfold units, exp_bits. assert (H0 : 0 < 2 ^ 52) by reflexivity. set (h := 2 ^ 52) in *. clearbody h.
  assert (Dm := N.div_mod m h ltac:(lia)). assert (Lm := N.mod_lt m h ltac:(lia)). set (e := m / h) in *. set (r := m mod h) in *. clearbody e r.
  destruct (N.eq_dec (r + 1) h) as [E|E].
  - assert (Q : (m + 1) / h = e + 1) by (symmetry; apply (N.div_unique _ _ _ 0); lia).
    assert (R : (m + 1) mod h = 0) by (symmetry; apply (N.mod_unique _ _ (e + 1)); lia). rewrite Q, R.
    destruct (N.eqb_spec (e + 1) 0) as [Z|_]; [lia|]. replace (e + 1 - 1) with e by lia. destruct (N.eqb_spec e 0) as [->|Z]; [cbn [N.sub]; rewrite !N.pow_0_r; lia|].
    assert (P : 2 ^ e = 2 * 2 ^ (e - 1)) by (rewrite <- N.pow_succ_r'; f_equal; lia). rewrite P. nia.
  - assert (Q : (m + 1) / h = e) by (symmetry; apply (N.div_unique _ _ _ (r + 1)); lia).
    assert (R : (m + 1) mod h = r + 1) by (symmetry; apply (N.mod_unique _ _ e); lia). rewrite Q, R.
    destruct (N.eqb_spec e 0) as [->|Z]; [cbn [N.sub]; rewrite N.pow_0_r; lia|]. nia.
Qed.
Lemma fraction_units m : fst (fraction m) * 2 ^ 1074 = units m * snd (fraction m).
Proof.
  unfold fraction. fold (frac_bits m). fold (exp_bits m). cbn [fst snd]. rewrite units_bits. generalize (frac_bits m) (exp_bits m). intros f e.
  rewrite <- !N.mul_assoc, <- !N.pow_add_r. do 2 f_equal. lia.
Qed.
Lemma fraction_pos m : 0 < m -> 0 < fst (fraction m) /\ 0 < snd (fraction m).
Proof.
  intros H. assert (S : 0 < snd (fraction m)) by (apply N.neq_0_lt_0, N.pow_nonzero; lia). split; [|exact S].
  pose proof (fraction_units m) as E. pose proof (units_mono H) as U. rewrite units_zero in U. destruct (N.eq_dec (fst (fraction m)) 0) as [Z|Z]; [|lia].
  rewrite Z, N.mul_0_l in E. nia.
Qed.
Lemma fraction_logs m : 0 < m -> m < infinity -> N.log2 (fst (fraction m)) < 1025 /\ N.log2 (snd (fraction m)) <= 1074.
Proof.
  intros P H. assert (E : exp_bits m <= 2045).
  { unfold exp_bits. assert (m / 2 ^ 52 < 2047) by (apply N.div_lt_upper_bound; [lia|]; rewrite N.mul_comm; exact H). lia. }
  split.
  - apply N.log2_lt_pow2; [exact (proj1 (fraction_pos P))|]. unfold fraction. fold (frac_bits m). fold (exp_bits m). cbn [fst]. pose proof (frac_lt m) as F.
    apply N.lt_le_trans with (2 ^ 53 * 2 ^ (exp_bits m - 1074)); [apply N.mul_lt_mono_pos_r; [apply N.neq_0_lt_0, N.pow_nonzero; lia|exact F]|].
    rewrite <- N.pow_add_r. apply N.pow_le_mono_r; lia.
  - unfold fraction. fold (exp_bits m). cbn [snd]. rewrite N.log2_pow2 by lia. lia.
Qed.

(** ** Decimals in units *)
Definition W : Q := qN (2 ^ 1074).
Definition V (d : N) (x : Z) : Q := (qN d * ten x * W)%Q.
Lemma W_pos : (0 < W)%Q. Proof. apply qN_pos. apply N.ltb_lt. reflexivity. Qed.
Lemma scale_pos x : (0 < qN (10 ^ Z.to_N (- x)))%Q. Proof. apply qN_pos, ten_pos. Qed.
Lemma V_scaled d x : (V d x * qN (10 ^ Z.to_N (- x)) == qN (d * 10 ^ Z.to_N x * 2 ^ 1074))%Q.
Proof. unfold V. rewrite !qN_mul, <- (ten_split x). unfold W. ring. Qed.
Section Bridge.
  Variables (d A : N) (x : Z).
  Let p := d * 10 ^ Z.to_N x * 2 ^ 1074.
  Let q := 10 ^ Z.to_N (- x).
  Lemma V_lt : A * q < p <-> (qN A < V d x)%Q.
  Proof. unfold p, q. rewrite qN_lt, <- (V_scaled d x), qN_mul. rewrite Qmult_lt_r by apply scale_pos. reflexivity. Qed.
  Lemma V_gt : p < A * q <-> (V d x < qN A)%Q.
  Proof. unfold p, q. rewrite qN_lt, <- (V_scaled d x), qN_mul. rewrite Qmult_lt_r by apply scale_pos. reflexivity. Qed.
  Lemma V_ge : p <= A * q <-> (V d x <= qN A)%Q.
  Proof. unfold p, q. rewrite qN_le, <- (V_scaled d x), qN_mul. rewrite Qmult_le_r by apply scale_pos. reflexivity. Qed.
  Lemma V_le : A * q <= p <-> (qN A <= V d x)%Q.
  Proof. unfold p, q. rewrite qN_le, <- (V_scaled d x), qN_mul. rewrite Qmult_le_r by apply scale_pos. reflexivity. Qed.
  Lemma V_eq : A * q = p <-> (qN A == V d x)%Q.
  Proof.
    unfold p, q. rewrite qN_eq, <- (V_scaled d x), qN_mul. pose proof (scale_pos x) as S. split; intros H; [|rewrite H; reflexivity].
    apply (Qmult_inj_r _ _ (qN (10 ^ Z.to_N (- x)))); [lra|exact H].
  Qed.
End Bridge.
Lemma V_double d x : (V (2 * d) x == 2 * V d x)%Q.
Proof. unfold V. rewrite qN_mul. change (qN 2) with 2%Q. ring. Qed.
Lemma V_succ d x : (V (d + 1) x == V d x + V 1 x)%Q.
Proof. unfold V. rewrite qN_add. ring. Qed.
Lemma V_le_mono d d' x : d <= d' -> (V d x <= V d' x)%Q.
Proof. intros H. unfold V. apply qN_le in H. pose proof (ten_gt x). pose proof W_pos. apply Qmult_le_compat_r; [|lra]. apply Qmult_le_compat_r; [exact H|lra]. Qed.
Lemma V_pos d x : 0 < d -> (0 < V d x)%Q.
Proof. intros H. unfold V. apply qN_pos in H. pose proof (ten_gt x). pose proof W_pos. apply Qmult_lt_0_compat; [apply Qmult_lt_0_compat|]; assumption. Qed.
Lemma V_shift d k x : (V (d * 10 ^ k) x == V d (x + Z.of_N k))%Q.
Proof. unfold V. rewrite qN_mul, ten_plus, ten_N. ring. Qed.

(** ** The interval of the numbers rounded to m *)
Definition inside (m : N) (y : Q) : Prop :=
  (m = 0 \/ (qN (units (m - 1) + units m) < 2 * y)%Q \/ (qN (units (m - 1) + units m) == 2 * y)%Q /\ N.even m = true) /\
  ((2 * y < qN (units m + units (m + 1)))%Q \/ (2 * y == qN (units m + units (m + 1)))%Q /\ N.even m = true).
Lemma rounds_inside d x m : rounds (d * 10 ^ Z.to_N x) (10 ^ Z.to_N (- x)) m <-> m < infinity /\ inside m (V d x).
Proof.
  unfold rounds, inside. rewrite <- !V_double.
  assert (E : 2 * (d * 10 ^ Z.to_N x * 2 ^ 1074) = 2 * d * 10 ^ Z.to_N x * 2 ^ 1074) by lia. rewrite E.
  rewrite V_lt, V_gt, V_eq. assert (S : forall A, 2 * d * 10 ^ Z.to_N x * 2 ^ 1074 = A * 10 ^ Z.to_N (- x) <-> (V (2 * d) x == qN A)%Q).
  { intros A. split; intros H; [symmetry; apply V_eq; symmetry; exact H|symmetry; apply V_eq; symmetry; exact H]. }
  rewrite S. reflexivity.
Qed.
Lemma candidate_inside m d x : m < infinity -> (candidate m d x = true <-> inside m (V d x)).
Proof. intros H. rewrite candidate_iff, round_iff, rounds_inside. tauto. Qed.
Lemma inside_convex m y1 y y2 : inside m y1 -> inside m y2 -> (y1 <= y)%Q -> (y <= y2)%Q -> inside m y.
Proof.
  intros [A _] [_ B] L1 L2. split.
  - destruct A as [A|[A|[A E]]]; [left; exact A|right; left; lra|]. right. destruct (Qlt_le_dec (qN (units (m - 1) + units m)) (2 * y)) as [H|H]; [left; exact H|right; split; [lra|exact E]].
  - destruct B as [B|[B E]]; [left; lra|]. destruct (Qlt_le_dec (2 * y) (qN (units m + units (m + 1)))) as [H|H]; [left; exact H|right; split; [lra|exact E]].
Qed.
Lemma inside_eq m y y' : (y == y')%Q -> inside m y -> inside m y'.
Proof. intros E H. apply (inside_convex H H); lra. Qed.
Lemma inside_near m y : 0 < m -> (2 ^ 54 * (y - qN (units m)) < qN (units m))%Q -> (2 ^ 54 * (qN (units m) - y) < qN (units m))%Q -> inside m y.
Proof.
  intros P H1 H2. assert (E : exists k, m = k + 1) by (exists (m - 1); lia). destruct E as [k ->]. unfold inside. replace (k + 1 - 1) with k by lia.
  rewrite !qN_add. rewrite (units_next (k + 1)), (units_next k) in *. rewrite !qN_add in *. set (u := qN (units k)) in *.
  assert (G : (u + qN (2 ^ exp_bits k) <= 2 ^ 53 * qN (2 ^ exp_bits k))%Q).
  { unfold u. change (2 ^ 53)%Q with (qN (2 ^ 53)). rewrite <- qN_add, <- qN_mul. apply qN_le. rewrite units_bits. pose proof (frac_lt k) as F.
    assert (0 < 2 ^ exp_bits k) by (apply N.neq_0_lt_0, N.pow_nonzero; lia). nia. }
  assert (G' : (qN (2 ^ exp_bits k) <= qN (2 ^ exp_bits (k + 1)))%Q) by (apply qN_le, N.pow_le_mono_r; [lia|apply exp_mono]).
  set (g := qN (2 ^ exp_bits k)) in *. set (g' := qN (2 ^ exp_bits (k + 1))) in *. change (2 ^ 53)%Q with 9007199254740992%Q in *. change (2 ^ 54)%Q with 18014398509481984%Q in *.
  split; [right; left; lra|left; lra].
Qed.

Lemma V_inj_le d d' x : (V d x <= V d' x)%Q -> d <= d'.
Proof.
  intros H. destruct (N.leb_spec d d') as [L|L]; [exact L|]. pose proof (V_le_mono x (d := d' + 1) (d' := d) ltac:(lia)) as Hm. rewrite V_succ in Hm.
  pose proof (V_pos x (d := 1) ltac:(lia)). lra.
Qed.
Lemma V_inj_lt d d' x : (V d x < V d' x)%Q -> d < d'.
Proof. intros H. destruct (N.ltb_spec d d') as [L|L]; [exact L|]. pose proof (V_le_mono x L). lra. Qed.
Lemma shortest_eq m : shortest m = shortest_from m (fst (fraction m)) (snd (fraction m)) (place (fst (fraction m)) (snd (fraction m))) 17 1.
Proof. unfold shortest. destruct (fraction m). reflexivity. Qed.

(** ** The place of the first digit *)
Section Writing.
  Variable m : N.
  Hypothesis Pm : 0 < m.
  Hypothesis Fm : m < infinity.
  Let a := fst (fraction m).
  Let b := snd (fraction m).
  Let u := qN (units m).
  Let l := place a b.
  Lemma a_pos : 0 < a. Proof. exact (proj1 (fraction_pos Pm)). Qed.
  Lemma b_pos : 0 < b. Proof. exact (proj2 (fraction_pos Pm)). Qed.
  Lemma u_ab : (u * qN b == qN a * W)%Q.
  Proof. unfold u, W. rewrite <- !qN_mul. apply qN_eq. symmetry. apply fraction_units. Qed.
  Lemma u_above y : (ten y * qN b <= qN a)%Q -> (V 1 y <= u)%Q.
  Proof.
    intros H. apply (Qmult_le_r _ _ (qN b)); [apply qN_pos, b_pos|]. rewrite u_ab. unfold V. change (qN 1) with 1%Q. pose proof W_pos.
    setoid_replace (1 * ten y * W * qN b)%Q with (ten y * qN b * W)%Q by ring. apply Qmult_le_compat_r; [exact H|lra].
  Qed.
  Lemma u_below y : (qN a < ten y * qN b)%Q -> (u < V 1 y)%Q.
  Proof.
    intros H. apply (Qmult_lt_r _ _ (qN b)); [apply qN_pos, b_pos|]. rewrite u_ab. unfold V. change (qN 1) with 1%Q.
    setoid_replace (1 * ten y * W * qN b)%Q with (ten y * qN b * W)%Q by ring. apply Qmult_lt_r; [exact W_pos|exact H].
  Qed.
  Lemma compare_ten y : (a * 10 ^ Z.to_N (- y) < b * 10 ^ Z.to_N y) <-> (qN a < ten y * qN b)%Q.
  Proof.
    rewrite qN_lt, !qN_mul, <- (ten_split y). setoid_replace (qN b * (ten y * qN (10 ^ Z.to_N (- y))))%Q with (ten y * qN b * qN (10 ^ Z.to_N (- y)))%Q by ring.
    apply Qmult_lt_r. apply scale_pos.
  Qed.
  Lemma log_bounds n : 0 < n -> (two (Z.of_N (N.log2 n)) <= qN n)%Q /\ (qN n < two (Z.of_N (N.log2 n) + 1))%Q.
  Proof.
    intros H. destruct (N.log2_spec n H) as [L U]. split; [rewrite two_N; apply qN_le; exact L|].
    replace (Z.of_N (N.log2 n) + 1)%Z with (Z.of_N (N.succ (N.log2 n))) by lia. rewrite two_N. apply qN_lt. exact U.
  Qed.
  Lemma place_spec : (V 1 (l - 1) <= u)%Q /\ (u < V 1 l)%Q.
  Proof.
    unfold l, place. set (n := (Z.of_N (N.log2 a) - Z.of_N (N.log2 b) - 1)%Z). set (k := (if (0 <=? n)%Z then n * 59 / 196 else n * 28 / 93)%Z).
    destruct (log_bounds a_pos) as [La Ua]. destruct (log_bounds b_pos) as [Lb Ub]. pose proof (qN_pos b_pos) as Pb.
    assert (R : (-1076 <= n <= 1024)%Z) by (destruct (fraction_logs Pm Fm) as [A B]; fold a in A; fold b in B; unfold n; lia).
    assert (K1 : (ten k <= two n)%Q) by (apply ten_two; unfold k; destruct (Z.leb_spec 0 n); lia).
    assert (K2 : (two (n + 2) <= ten (k + 2))%Q) by (apply two_ten; unfold k; destruct (Z.leb_spec 0 n); lia).
    assert (E1 : (ten k * qN b <= qN a)%Q).
    { apply Qle_trans with (two n * qN b)%Q; [apply Qmult_le_compat_r; lra|]. apply Qle_trans with (two n * two (Z.of_N (N.log2 b) + 1))%Q.
      - rewrite (Qmult_comm (two n)), (Qmult_comm (two n)). apply Qmult_le_compat_r; [lra|]. pose proof (two_gt n). lra.
      - rewrite <- two_plus. replace (n + (Z.of_N (N.log2 b) + 1))%Z with (Z.of_N (N.log2 a)) by (unfold n; lia). exact La. }
    assert (E2 : (qN a < ten (k + 2) * qN b)%Q).
    { apply Qlt_le_trans with (two (n + 2) * qN b)%Q; [|apply Qmult_le_compat_r; lra]. apply Qlt_le_trans with (two (n + 2) * two (Z.of_N (N.log2 b)))%Q.
      - rewrite <- two_plus. replace (n + 2 + Z.of_N (N.log2 b))%Z with (Z.of_N (N.log2 a) + 1)%Z by (unfold n; lia). exact Ua.
      - rewrite (Qmult_comm (two (n + 2))), (Qmult_comm (two (n + 2))). apply Qmult_le_compat_r; [exact Lb|]. pose proof (two_gt (n + 2)). lra. }
    destruct (N.ltb_spec (a * 10 ^ Z.to_N (- (k + 1))) (b * 10 ^ Z.to_N (k + 1))) as [C|C].
    - apply compare_ten in C. split; [|exact (u_below _ C)]. replace (k + 1 - 1)%Z with k by lia. exact (u_above _ E1).
    - split; [|replace (k + 1 + 1)%Z with (k + 2)%Z by lia; exact (u_below _ E2)]. replace (k + 1 + 1 - 1)%Z with (k + 1)%Z by lia. apply u_above.
      apply Qnot_lt_le. intros H. apply compare_ten in H. lia.
  Qed.

  (** ** One step *)
  Definition low (x : Z) : N := a * 10 ^ Z.to_N (- x) / (b * 10 ^ Z.to_N x).
  Lemma rescale c e x : let p := 10 ^ Z.to_N x in let q := 10 ^ Z.to_N (- x) in
    (c * (b * p) * 2 ^ 1074 = c * p * 2 ^ 1074 * b) /\ (e * (a * q) * 2 ^ 1074 = e * units m * q * b).
  Proof.
    intros p q. pose proof (fraction_units m) as E. fold a b in E. set (t := 2 ^ 1074) in *. clearbody t p q. split; [lia|].
    transitivity (e * q * (a * t)); [lia|]. rewrite E. lia.
  Qed.
  Lemma scaled_le c e x : (c * (b * 10 ^ Z.to_N x) <= e * (a * 10 ^ Z.to_N (- x))) <-> (V c x <= qN (e * units m))%Q.
  Proof.
    rewrite <- V_ge. destruct (rescale c e x) as [E1 E2]. pose proof b_pos as B.
    assert (T : 0 < 2 ^ 1074) by (apply N.ltb_lt; reflexivity). set (t := 2 ^ 1074) in *. clearbody t.
    rewrite (N.mul_le_mono_pos_r _ _ t T), E1, E2, <- N.mul_le_mono_pos_r by exact B. reflexivity.
  Qed.
  Lemma scaled_ge c e x : (e * (a * 10 ^ Z.to_N (- x)) <= c * (b * 10 ^ Z.to_N x)) <-> (qN (e * units m) <= V c x)%Q.
  Proof.
    rewrite <- V_le. destruct (rescale c e x) as [E1 E2]. pose proof b_pos as B.
    assert (T : 0 < 2 ^ 1074) by (apply N.ltb_lt; reflexivity). set (t := 2 ^ 1074) in *. clearbody t.
    rewrite (N.mul_le_mono_pos_r _ _ t T), E1, E2, <- N.mul_le_mono_pos_r by exact B. reflexivity.
  Qed.
  Lemma low_scaled c x : (c * (b * 10 ^ Z.to_N x) <= a * 10 ^ Z.to_N (- x)) <-> (V c x <= u)%Q.
  Proof. pose proof (scaled_le c 1 x) as H. rewrite !N.mul_1_l in H. exact H. Qed.
  Lemma denominator_pos x : 0 < b * 10 ^ Z.to_N x.
  Proof. pose proof b_pos. pose proof (ten_pos (Z.to_N x)). nia. Qed.
  Lemma low_spec x : (V (low x) x <= u)%Q /\ (u < V (low x + 1) x)%Q.
  Proof.
    pose proof (denominator_pos x) as P. split.
    - apply low_scaled. unfold low. rewrite N.mul_comm. apply N.mul_div_le. lia.
    - apply Qnot_le_lt. intros H. apply low_scaled in H. pose proof (N.mul_succ_div_gt (a * 10 ^ Z.to_N (- x)) (b * 10 ^ Z.to_N x) ltac:(lia)) as G. fold (low x) in G. lia.
  Qed.
  Definition upward (x : Z) : bool :=
    match 2 * (a * 10 ^ Z.to_N (- x) - low x * (b * 10 ^ Z.to_N x)) ?= b * 10 ^ Z.to_N x with Lt => false | Gt => true | Eq => negb (N.even (low x)) end.
  Lemma upward_spec x : if upward x then (V (low x) x + V (low x + 1) x <= 2 * u)%Q else (2 * u <= V (low x) x + V (low x + 1) x)%Q.
  Proof.
    assert (L : low x * (b * 10 ^ Z.to_N x) <= a * 10 ^ Z.to_N (- x)) by (apply low_scaled, low_spec).
    assert (E : (V (low x) x + V (low x + 1) x == V (2 * low x + 1) x)%Q) by (rewrite !V_succ, V_double; ring).
    assert (U : (2 * u == qN (2 * units m))%Q) by (unfold u; rewrite qN_mul; reflexivity).
    pose proof (scaled_le (2 * low x + 1) 2 x) as S1. pose proof (scaled_ge (2 * low x + 1) 2 x) as S2. unfold upward.
    set (p := b * 10 ^ Z.to_N x) in *. set (q := a * 10 ^ Z.to_N (- x)) in *.
    destruct (N.compare_spec (2 * (q - low x * p)) p) as [C|C|C].
    - assert (H1 : (V (2 * low x + 1) x <= qN (2 * units m))%Q) by (apply S1; lia). assert (H2 : (qN (2 * units m) <= V (2 * low x + 1) x)%Q) by (apply S2; lia).
      destruct (negb (N.even (low x))); lra.
    - assert (H2 : (qN (2 * units m) <= V (2 * low x + 1) x)%Q) by (apply S2; lia). lra.
    - assert (H1 : (V (2 * low x + 1) x <= qN (2 * units m))%Q) by (apply S1; lia). lra.
  Qed.

  Lemma upward_tie x : (2 * u == V (low x) x + V (low x + 1) x)%Q -> upward x = negb (N.even (low x)).
  Proof.
    intros T. assert (L : low x * (b * 10 ^ Z.to_N x) <= a * 10 ^ Z.to_N (- x)) by (apply low_scaled, low_spec).
    assert (E : (V (low x) x + V (low x + 1) x == V (2 * low x + 1) x)%Q) by (rewrite !V_succ, V_double; ring).
    assert (U : (2 * u == qN (2 * units m))%Q) by (unfold u; rewrite qN_mul; reflexivity).
    pose proof (proj2 (scaled_le (2 * low x + 1) 2 x) ltac:(lra)) as S1. pose proof (proj2 (scaled_ge (2 * low x + 1) 2 x) ltac:(lra)) as S2. unfold upward.
    set (p := b * 10 ^ Z.to_N x) in *. set (q := a * 10 ^ Z.to_N (- x)) in *.
    destruct (N.compare_spec (2 * (q - low x * p)) p) as [C|C|C]; [reflexivity|lia|lia].
  Qed.

  (** ** The digits *)
  Definition good (k : Z) : Prop := inside m (V (low (l - k)) (l - k)) \/ inside m (V (low (l - k) + 1) (l - k)).
  Definition choice (k : Z) : N :=
    let x := (l - k)%Z in
    let d1 := if upward x then low x + 1 else low x in
    let d2 := if upward x then low x else low x + 1 in
    if candidate m d1 x then d1 else d2.
  Lemma u_inside : inside m u.
  Proof.
    unfold u. apply inside_near; [exact Pm| |]; pose proof (units_mono Pm) as H; rewrite units_zero in H; apply qN_pos in H;
      change (2 ^ 54)%Q with 18014398509481984%Q; lra.
  Qed.
  Lemma grid k g : inside m (V g (l - k)) -> good k.
  Proof.
    intros H. destruct (low_spec (l - k)) as [L U]. destruct (N.leb_spec g (low (l - k))) as [G|G].
    - left. apply (inside_convex H u_inside); [apply V_le_mono; exact G|exact L].
    - right. apply (inside_convex u_inside H); [lra|]. apply V_le_mono. lia.
  Qed.
  Lemma good_17 : good 17.
  Proof.
    unfold good. set (x := (l - 17)%Z). destruct (low_spec x) as [L U]. pose proof (upward_spec x) as P. destruct place_spec as [A _].
    assert (S : (V 1 (l - 1) == 10000000000000000 * V 1 x)%Q).
    { replace (l - 1)%Z with (x + Z.of_N 16)%Z by (unfold x; lia). rewrite <- V_shift. unfold V. rewrite qN_mul. change (qN (10 ^ 16)) with 10000000000000000%Q. ring. }
    pose proof (V_succ (low x) x) as E. pose proof (V_pos x (d := 1) ltac:(lia)) as Q. unfold u in *.
    destruct (upward x); [right|left]; (apply inside_near; [exact Pm| |]); change (2 ^ 54)%Q with 18014398509481984%Q; lra.
  Qed.
  Definition dist (y : Q) : Q := Qabs (y - u).
  Lemma choice_cases k : choice k = low (l - k) \/ choice k = low (l - k) + 1.
  Proof. unfold choice. cbv zeta. destruct (upward (l - k)), (candidate m _ _); auto. Qed.
  Lemma dist_below y y' : (y <= y')%Q -> (y' <= u)%Q -> (dist y' <= dist y)%Q.
  Proof. intros H1 H2. unfold dist. rewrite !Qabs_neg by lra. lra. Qed.
  Lemma dist_above y y' : (u <= y')%Q -> (y' <= y)%Q -> (dist y' <= dist y)%Q.
  Proof. intros H1 H2. unfold dist. rewrite !Qabs_pos by lra. lra. Qed.
  Lemma dist_low x : (dist (V (low x) x) == u - V (low x) x)%Q.
  Proof. destruct (low_spec x) as [L _]. unfold dist. rewrite Qabs_neg by lra. lra. Qed.
  Lemma dist_high x : (dist (V (low x + 1) x) == V (low x + 1) x - u)%Q.
  Proof. destruct (low_spec x) as [_ L]. unfold dist. rewrite Qabs_pos by lra. lra. Qed.
  Lemma choice_spec k : good k -> inside m (V (choice k) (l - k)) /\
    forall g, inside m (V g (l - k)) -> (dist (V (choice k) (l - k)) <= dist (V g (l - k)))%Q.
  Proof.
    unfold choice, good. cbv zeta. set (x := (l - k)%Z). intros G.
    pose proof (candidate_inside (low x) x Fm) as C1. pose proof (candidate_inside (low x + 1) x Fm) as C2. pose proof (upward_spec x) as P.
    pose proof (dist_low x) as D1. pose proof (dist_high x) as D2. destruct (low_spec x) as [L U].
    assert (N : forall g, (g <= low x -> (dist (V (low x) x) <= dist (V g x))%Q) /\ (low x < g -> (dist (V (low x + 1) x) <= dist (V g x))%Q)).
    { intros g. split; intros H; [apply dist_below|apply dist_above]; try lra; apply V_le_mono; lia. }
    assert (I1 : forall g, inside m (V g x) -> g <= low x -> inside m (V (low x) x)).
    { intros g H Hg. apply (inside_convex H u_inside); [apply V_le_mono; exact Hg|exact L]. }
    assert (I2 : forall g, inside m (V g x) -> low x < g -> inside m (V (low x + 1) x)).
    { intros g H Hg. apply (inside_convex u_inside H); [lra|apply V_le_mono; lia]. }
    destruct (upward x); cbv iota.
    - destruct (candidate m (low x + 1) x) eqn:E.
      + split; [apply C2; reflexivity|]. intros g Hg. destruct (N g) as [N1 N2]. destruct (N.leb_spec g (low x)) as [B|B]; [specialize (N1 B); lra|exact (N2 B)].
      + assert (NI : ~ inside m (V (low x + 1) x)) by (rewrite <- C2; discriminate). split; [destruct G as [G|G]; [exact G|contradiction]|].
        intros g Hg. destruct (N g) as [N1 N2]. destruct (N.leb_spec g (low x)) as [B|B]; [exact (N1 B)|]. exfalso. exact (NI (I2 g Hg B)).
    - destruct (candidate m (low x) x) eqn:E.
      + split; [apply C1; reflexivity|]. intros g Hg. destruct (N g) as [N1 N2]. destruct (N.leb_spec g (low x)) as [B|B]; [exact (N1 B)|specialize (N2 B); lra].
      + assert (NI : ~ inside m (V (low x) x)) by (rewrite <- C1; discriminate). split; [destruct G as [G|G]; [contradiction|exact G]|].
        intros g Hg. destruct (N g) as [N1 N2]. destruct (N.leb_spec g (low x)) as [B|B]; [|exact (N2 B)]. exfalso. exact (NI (I1 g Hg B)).
  Qed.
  (** A tie leaves an even digit. *)
  Lemma choice_tie k g : good k -> inside m (V g (l - k)) -> g <> choice k -> (dist (V g (l - k)) <= dist (V (choice k) (l - k)))%Q -> N.even (choice k) = true /\ N.even g = false.
  Proof.
    intros G Ig Ne T. destruct (choice_spec G) as [Ic Nc]. pose proof (Nc g Ig) as Ng. pose proof (choice_cases k) as Cc.
    set (x := (l - k)%Z) in *. destruct (low_spec x) as [L U].
    pose proof (dist_low x) as D1. pose proof (dist_high x) as D2.
    pose proof (V_succ (low x) x) as Vs. pose proof (V_pos x (d := 1) ltac:(lia)) as Vp.
    assert (G1 : g < low x -> False).
    { intros H. assert (I : inside m (V (low x) x)) by (apply (inside_convex Ig u_inside); [apply V_le_mono; lia|exact L]). specialize (Nc _ I).
      pose proof (V_le_mono x (d := g + 1) (d' := low x) ltac:(lia)) as Hm. rewrite V_succ in Hm.
      assert (E : (dist (V g x) == u - V g x)%Q) by (unfold dist; rewrite Qabs_neg by lra; lra). lra. }
    assert (G2 : low x + 1 < g -> False).
    { intros H. assert (I : inside m (V (low x + 1) x)) by (apply (inside_convex u_inside Ig); [lra|apply V_le_mono; lia]). specialize (Nc _ I).
      pose proof (V_le_mono x (d := low x + 1 + 1) (d' := g) ltac:(lia)) as Hm. rewrite (V_succ (low x + 1)) in Hm.
      assert (E : (dist (V g x) == V g x - u)%Q) by (unfold dist; rewrite Qabs_pos by lra; lra). lra. }
    assert (Hg : g = low x /\ choice k = low x + 1 \/ g = low x + 1 /\ choice k = low x) by lia.
    assert (Both : inside m (V (low x) x) /\ inside m (V (low x + 1) x)) by (destruct Hg as [[-> E]|[-> E]]; rewrite E in Ic; tauto).
    assert (Tie : (2 * u == V (low x) x + V (low x + 1) x)%Q) by (destruct Hg as [[-> E]|[-> E]]; rewrite E in *; lra).
    destruct Both as [B1 B2]. apply (candidate_inside (low x) x Fm) in B1. apply (candidate_inside (low x + 1) x Fm) in B2.
    assert (Ev : N.even (choice k) = true).
    { unfold choice. cbv zeta. fold x. rewrite (upward_tie Tie). destruct (N.even (low x)) eqn:Ev; cbn [negb]; [rewrite B1; exact Ev|rewrite B2].
      rewrite N.add_1_r, N.even_succ, <- N.negb_even, Ev. reflexivity. }
    split; [exact Ev|]. destruct Hg as [[-> E]|[-> E]]; rewrite E in Ev; rewrite N.add_1_r, N.even_succ, <- N.negb_even in *; [apply negb_true_iff; exact Ev|rewrite Ev; reflexivity].
  Qed.

  (** ** The loop *)
  Lemma good_dec k : good k \/ ~ good k.
  Proof.
    unfold good. pose proof (candidate_inside (low (l - k)) (l - k) Fm) as C1. pose proof (candidate_inside (low (l - k) + 1) (l - k) Fm) as C2.
    destruct (candidate m (low (l - k)) (l - k)), (candidate m (low (l - k) + 1) (l - k)); intuition discriminate.
  Qed.
  Lemma shortest_step f k : (good k -> shortest_from m a b l (S f) k = trim (choice k) (l - k)) /\
    (~ good k -> shortest_from m a b l (S f) k = shortest_from m a b l f (k + 1)).
  Proof.
    cbn [shortest_from]. fold (low (l - k)). fold (upward (l - k)). unfold good, choice. cbv zeta.
    pose proof (candidate_inside (low (l - k)) (l - k) Fm) as C1. pose proof (candidate_inside (low (l - k) + 1) (l - k) Fm) as C2.
    destruct (upward (l - k)), (candidate m (low (l - k)) (l - k)), (candidate m (low (l - k) + 1) (l - k)); split; intros H; try reflexivity; exfalso; intuition discriminate.
  Qed.
  Lemma loop f : forall k, (k <= 17 < k + Z.of_nat f)%Z -> exists k0, (k <= k0 <= 17)%Z /\ good k0 /\ (forall j, (k <= j < k0)%Z -> ~ good j) /\
    shortest_from m a b l f k = trim (choice k0) (l - k0).
  Proof.
    induction f as [|f IH]; intros k H; [lia|]. destruct (shortest_step f k) as [S1 S2]. destruct (good_dec k) as [G|G].
    - exists k. split; [lia|]. split; [exact G|]. split; [intros j Hj; lia|exact (S1 G)].
    - assert (Nk : k <> 17%Z) by (intros ->; exact (G good_17)). destruct (IH (k + 1)%Z ltac:(lia)) as (k0 & R & G0 & M & E). exists k0. split; [lia|]. split; [exact G0|].
      split; [|rewrite (S2 G); exact E]. intros j Hj. destruct (Z.eq_dec j k) as [->|Nj]; [exact G|apply M; lia].
  Qed.
  Lemma first_good : exists k0, (1 <= k0 <= 17)%Z /\ good k0 /\ (forall j, (1 <= j < k0)%Z -> ~ good j) /\ shortest m = trim (choice k0) (l - k0).
  Proof.
    destruct (@loop 17 1 ltac:(lia)) as (k0 & R & G & M & E). exists k0. do 3 (split; [assumption|]). rewrite <- E. apply shortest_eq.
  Qed.
  Lemma V_grid k : (0 <= k)%Z -> (V 1 l == V (10 ^ Z.to_N k) (l - k))%Q.
  Proof. intros H. rewrite <- (N.mul_1_l (10 ^ _)), V_shift, Z2N.id by exact H. replace (l - k + k)%Z with l by lia. reflexivity. Qed.
  Lemma V_grid' k : (1 <= k)%Z -> (V 1 (l - 1) == V (10 ^ Z.to_N (k - 1)) (l - k))%Q.
  Proof. intros H. rewrite <- (N.mul_1_l (10 ^ _)), V_shift, Z2N.id by lia. replace (l - k + (k - 1))%Z with (l - 1)%Z by lia. reflexivity. Qed.
  Lemma low_range k : (1 <= k)%Z -> 10 ^ Z.to_N (k - 1) <= low (l - k) /\ low (l - k) < 10 ^ Z.to_N k.
  Proof.
    intros H. destruct place_spec as [P1 P2]. destruct (low_spec (l - k)) as [L U]. pose proof (V_grid' H) as E1. pose proof (@V_grid k ltac:(lia)) as E2. split.
    - assert (10 ^ Z.to_N (k - 1) < low (l - k) + 1) by (apply V_inj_lt with (x := (l - k)%Z); lra). lia.
    - apply V_inj_lt with (x := (l - k)%Z). lra.
  Qed.
  Lemma V_trim d x : (V (fst (trim d x)) (snd (trim d x)) == V d x)%Q.
  Proof.
    unfold trim. destruct (N.eqb_spec (d mod 10) 0) as [E|E]; cbn [fst snd]; [|reflexivity]. rewrite <- (V_shift _ 1), N.pow_1_r.
    replace (d / 10 * 10) with d by (pose proof (N.div_mod d 10 ltac:(lia)); lia). reflexivity.
  Qed.
  (** The digits found. *)
  Definition the_digits : N := fst (shortest m).
  Definition the_power : Z := snd (shortest m).
  Definition value : Q := V the_digits the_power.
  Lemma found : exists k0, (1 <= k0 <= 17)%Z /\ good k0 /\ (forall j, (1 <= j < k0)%Z -> ~ good j) /\ (value == V (choice k0) (l - k0))%Q /\
    10 ^ Z.to_N (k0 - 1) <= the_digits /\ the_digits < 10 ^ Z.to_N k0 /\ the_digits mod 10 <> 0 /\
    (the_digits = choice k0 /\ the_power = (l - k0)%Z \/ k0 = 1%Z /\ choice k0 = 10 /\ the_digits = 1 /\ the_power = l).
  Proof.
    destruct first_good as (k0 & R & G & M & E). exists k0. do 3 (split; [assumption|]). unfold value, the_digits, the_power. rewrite E. split; [apply V_trim|].
    pose proof (@low_range k0 ltac:(lia)) as Lr. pose proof (choice_cases k0) as Cc. destruct (choice_spec G) as [Ic _].
    set (c := choice k0) in *. clearbody c. clear E. set (P := 10 ^ Z.to_N (k0 - 1)) in *.
    assert (EP : 10 ^ Z.to_N k0 = 10 * P) by (unfold P; rewrite <- N.pow_succ_r'; f_equal; lia). rewrite EP in *.
    assert (P1 : 0 < P) by (apply ten_pos). unfold trim. destruct (N.eqb_spec (c mod 10) 0) as [Z0|Z0].
    - destruct (Z.eq_dec k0 1) as [->|K].
      + change P with 1 in *. assert (c = 10) as ->. { pose proof (N.div_mod c 10 ltac:(lia)). lia. } cbn [fst snd]. change (10 / 10) with 1. change (1 mod 10) with 1.
        split; [lia|]. split; [lia|]. split; [lia|]. right. repeat split; lia.
      + exfalso. apply (M (k0 - 1)%Z ltac:(lia)). apply grid with (g := c / 10). apply inside_eq with (y := V c (l - k0)); [|exact Ic].
        replace (l - (k0 - 1))%Z with (l - k0 + Z.of_N 1)%Z by lia. rewrite <- V_shift, N.pow_1_r.
        replace (c / 10 * 10) with c by (pose proof (N.div_mod c 10 ltac:(lia)); lia). reflexivity.
    - cbn [fst snd]. assert (c <> 10 * P). { intros ->. apply Z0. rewrite N.mul_comm. apply N.mod_mul. lia. }
      split; [lia|]. split; [lia|]. split; [exact Z0|]. left. split; reflexivity.
  Qed.
  (** 9 and 10 cannot tie. *)
  Lemma no_tie x : inside m (V 9 x) -> inside m (V 10 x) -> (2 * u == V 19 x)%Q -> False.
  Proof.
    intros I9 I10 T. assert (E : exists k, m = k + 1) by (exists (m - 1); lia). destruct E as [k Ek].
    destruct I9 as [I9 _]. destruct I10 as [_ I10]. rewrite !qN_add in *. replace (m - 1) with k in * by lia.
    assert (E10 : (V 10 x == 10 * V 1 x)%Q) by (unfold V; change (qN 10) with 10%Q; change (qN 1) with 1%Q; ring).
    assert (E9 : (V 9 x == 9 * V 1 x)%Q) by (unfold V; change (qN 9) with 9%Q; change (qN 1) with 1%Q; ring).
    assert (E19 : (V 19 x == 19 * V 1 x)%Q) by (unfold V; change (qN 19) with 19%Q; change (qN 1) with 1%Q; ring).
    assert (U1 : (qN (units (m + 1)) == u + qN (2 ^ exp_bits m))%Q) by (rewrite units_next, qN_add; reflexivity).
    assert (U0 : (u == qN (units k) + qN (2 ^ exp_bits k))%Q) by (unfold u; rewrite Ek, units_next, qN_add; reflexivity).
    assert (U2 : (qN (2 ^ exp_bits k) <= qN (2 ^ exp_bits m))%Q) by (apply qN_le, N.pow_le_mono_r; [lia|rewrite Ek; apply exp_mono]).
    assert (Bd : (2 * u <= 19 * qN (2 ^ exp_bits m))%Q) by (fold u in I9, I10; intuition lra).
    assert (Fb : frac_bits m <= 9).
    { unfold u in Bd. change 2%Q with (qN 2) in Bd. change 19%Q with (qN 19) in Bd. rewrite <- !qN_mul in Bd. apply qN_le in Bd. rewrite units_bits in Bd.
      assert (0 < 2 ^ exp_bits m) by (apply N.neq_0_lt_0, N.pow_nonzero; lia). nia. }
    assert (Um : units m = m).
    { rewrite units_bits. unfold frac_bits in *. unfold exp_bits. destruct (N.eqb_spec (m / 2 ^ 52) 0) as [Z0|Z0]; [|assert (9 < 2 ^ 52) by reflexivity; lia].
      rewrite Z0. apply N.div_small_iff in Z0; [|discriminate]. rewrite N.mod_small by exact Z0. change (2 ^ (0 - 1)) with 1. lia. }
    assert (M9 : 0 < m <= 9).
    { split; [exact Pm|]. unfold frac_bits in Fb. destruct (N.eqb_spec (m / 2 ^ 52) 0) as [Z0|Z0]; [|assert (9 < 2 ^ 52) by reflexivity; lia].
      apply N.div_small_iff in Z0; [|discriminate]. rewrite N.mod_small in Fb by exact Z0. exact Fb. }
    assert (Q : (qN (2 * units m) == V 19 x)%Q) by (rewrite <- T, qN_mul; reflexivity). apply V_eq in Q. rewrite Um in Q.
    assert (Dv : (19 | 10 ^ Z.to_N (- x) * (2 * m))).
    { exists (10 ^ Z.to_N x * 2 ^ 1074). rewrite (N.mul_comm (10 ^ Z.to_N (- x))), Q. lia. }
    assert (G : forall n y, (19 | 10 ^ n * y) -> (19 | y)).
    { intros n y. induction n as [|n IH] using N.peano_ind; [rewrite N.pow_0_r, N.mul_1_l; auto|]. rewrite N.pow_succ_r', <- N.mul_assoc. intros H. apply IH. apply (N.gauss 19 10); [exact H|reflexivity]. }
    apply G in Dv. destruct Dv as [z Hz]. lia.
  Qed.
  (** No decimal read as the float has fewer digits, none with as many is nearer, and the last digit is even if one is as near. *)
  Theorem minimal d x n : inside m (V d x) -> (1 <= n)%Z -> 10 ^ Z.to_N (n - 1) <= d -> d < 10 ^ Z.to_N n ->
    the_digits < 10 ^ Z.to_N n /\ (10 ^ Z.to_N (n - 1) <= the_digits -> (dist value <= dist (V d x))%Q /\
      ((dist (V d x) <= dist value)%Q -> (V d x == value)%Q \/ N.even the_digits = true /\ N.even d = false)).
  Proof.
    intros I Hn B1 B2. destruct found as (k0 & R & G & M & Ev & L1 & L2 & _ & Cs). destruct place_spec as [P1 P2].
    assert (Y1 : (V 1 (x + n - 1) <= V d x)%Q).
    { replace (x + n - 1)%Z with (x + Z.of_N (Z.to_N (n - 1)))%Z by lia. rewrite <- V_shift, N.mul_1_l. apply V_le_mono. exact B1. }
    assert (Y2 : (V d x < V 1 (x + n))%Q).
    { replace (x + n)%Z with (x + Z.of_N (Z.to_N n))%Z by lia. rewrite <- V_shift, N.mul_1_l. pose proof (V_le_mono x (d := d + 1) ltac:(apply N.le_succ_l in B2; rewrite N.add_1_r; exact B2)) as Hm.
      rewrite V_succ in Hm. pose proof (V_pos x (d := 1) ltac:(lia)). lra. }
    assert (Mono : forall i j, (i <= j)%Z -> (V 1 i <= V 1 j)%Q).
    { intros i j H. unfold V. pose proof (ten_mono H) as Ht. pose proof W_pos. change (qN 1) with 1%Q. rewrite !Qmult_1_l. apply Qmult_le_compat_r; [exact Ht|lra]. }
    assert (E10 : (V 1 l == V 10 (l - 1))%Q) by (rewrite (@V_grid 1 ltac:(lia)); reflexivity).
    assert (Pw : forall i j, (i <= j)%Z -> 10 ^ Z.to_N i <= 10 ^ Z.to_N j) by (intros i j H; apply N.pow_le_mono_r; lia).
    assert (Ge : good n -> (k0 <= n)%Z) by (intros Gn; destruct (Z.leb_spec k0 n) as [C|C]; [exact C|exfalso; exact (M n ltac:(lia) Gn)]).
    assert (G1 : good 1 -> k0 = 1%Z) by (intros Gn; destruct (Z.eq_dec k0 1) as [C|C]; [exact C|exfalso; exact (M 1%Z ltac:(lia) Gn)]).
    assert (Sz : 10 ^ Z.to_N (n - 1) <= the_digits -> (n <= k0)%Z).
    { intros H. destruct (Z.leb_spec n k0) as [C|C]; [exact C|]. pose proof (@Pw k0 (n - 1)%Z ltac:(lia)). lia. }
    destruct (choice_spec G) as [Ic Nc].
    assert (Dv : forall y y', (y == y')%Q -> (dist y == dist y')%Q) by (intros y y' E; unfold dist; rewrite E; reflexivity). pose proof (Dv _ _ Ev) as De.
    destruct (Z.lt_trichotomy (x + n) l) as [C|[C|C]].
    - pose proof (@Mono (x + n)%Z (l - 1)%Z ltac:(lia)) as H. assert (I1 : inside m (V 1 (l - 1))) by (apply (inside_convex I u_inside); lra).
      pose proof (G1 (@grid 1%Z _ I1)) as ->. split; [pose proof (@Pw 1%Z n ltac:(lia)); lia|]. intros _. pose proof (Nc _ I1) as N1.
      assert (D : (dist (V 1 (l - 1)) < dist (V d x))%Q) by (unfold dist; rewrite !Qabs_neg by lra; lra). split; [lra|]. intros D'. lra.
    - assert (X : x = (l - n)%Z) by lia. subst x. pose proof (Ge (@grid n _ I)) as K. split; [pose proof (@Pw k0 n K); lia|]. intros S. pose proof (Sz S). assert (n = k0) as -> by lia.
      pose proof (Nc _ I) as N1. split; [lra|]. intros D'. destruct (N.eq_dec d (choice k0)) as [->|Nd]; [left; symmetry; exact Ev|right].
      assert (T := choice_tie G I Nd ltac:(lra)). destruct Cs as [[-> _]|(-> & C10 & _)]; [exact T|]. exfalso. change (10 ^ Z.to_N 1) with 10 in *.
      pose proof (choice_cases 1) as Cc. destruct (low_range (k := 1) ltac:(lia)) as [_ Lr]. change (10 ^ Z.to_N 1) with 10 in Lr. assert (L9 : low (l - 1) = 9) by lia.
      destruct (low_spec (l - 1)) as [S1 S2]. pose proof (dist_low (l - 1)) as D1. pose proof (dist_high (l - 1)) as D2. rewrite C10 in *. rewrite L9 in *. change (9 + 1) with 10 in *.
      assert (I9 : inside m (V 9 (l - 1))) by (apply (inside_convex I u_inside); [apply V_le_mono; lia|exact S1]).
      assert (D9 : (dist (V 9 (l - 1)) <= dist (V d (l - 1)))%Q) by (apply dist_below; [apply V_le_mono; lia|exact S1]).
      apply (no_tie I9 Ic). pose proof (Nc _ I9). assert (E19 : (V 19 (l - 1) == V 9 (l - 1) + V 10 (l - 1))%Q) by (unfold V; change (qN 19) with 19%Q; change (qN 9) with 9%Q; change (qN 10) with 10%Q; ring). lra.
    - pose proof (@Mono l (x + n - 1)%Z ltac:(lia)) as H. assert (I1 : inside m (V 10 (l - 1))) by (apply (inside_convex u_inside I); lra).
      pose proof (G1 (@grid 1%Z _ I1)) as ->. split; [pose proof (@Pw 1%Z n ltac:(lia)); lia|]. intros S. pose proof (Sz S) as Sn. pose proof (Nc _ I1) as N1.
      assert (D : (dist (V d x) - dist (V 10 (l - 1)) == V d x - V 10 (l - 1))%Q) by (unfold dist; rewrite !Qabs_pos by lra; lra). split; [lra|]. intros D'.
      assert (Eq : (V d x == V 10 (l - 1))%Q) by lra. destruct (N.eq_dec (choice 1) 10) as [C10|C10]; [left; rewrite Ev, C10; exact Eq|right].
      assert (T := choice_tie G I1 (fun E => C10 (eq_sym E)) ltac:(lra)). destruct Cs as [[-> _]|(_ & C' & _)]; [|contradiction]. split; [exact (proj1 T)|].
      assert (Hd : (V d l <= V d x)%Q).
      { pose proof (@ten_mono l x ltac:(lia)) as Ht. unfold V. pose proof W_pos. pose proof (qN_nonneg d). apply Qmult_le_compat_r; [|lra]. rewrite !(Qmult_comm (qN d)). apply Qmult_le_compat_r; assumption. }
      assert (d <= 1) by (apply V_inj_le with (x := l); lra). pose proof (ten_pos (Z.to_N (n - 1))). assert (d = 1) as -> by lia. reflexivity.
  Qed.
End Writing.
