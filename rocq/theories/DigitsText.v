(** The texts of floats follow ECMAScript's rule. *)
From Coq Require Import QArith Qabs Lqa.
From Verif Require Import Base BaseFacts Codec CodecFacts Json JsonParse JsonParseFacts Grammar GrammarFacts Deps Float FloatFacts FloatText FloatSpec FloatLaws DigitsFacts DigitsSpec.
Require Import ZifyBool ZifyNat ZifyN.
Set Implicit Arguments.
Local Open Scope N_scope.

(** ** Digits *)
Lemma drop_split s : exists j, s = repeat "0"%byte j ++ drop_zeros s /\ (drop_zeros s = [] \/ hd "0"%byte (drop_zeros s) <> "0"%byte).
Proof.
  induction s as [|c r (j & E & H)]; [exists O; split; [reflexivity|left; reflexivity]|]. cbn [drop_zeros]. destruct (beq c "0") eqn:Bq.
  - apply beq_eq in Bq. subst c. exists (S j). cbn [repeat app]. rewrite <- E. split; [reflexivity|exact H].
  - exists O. split; [reflexivity|]. right. cbn [hd]. intros ->. discriminate.
Qed.
Lemma drop_repeat j s : drop_zeros (repeat "0"%byte j ++ s) = drop_zeros s.
Proof. induction j as [|j IH]; [reflexivity|exact IH]. Qed.
Lemma drop_head c s : c <> "0"%byte -> drop_zeros (c :: s) = c :: s.
Proof. intros H. cbn [drop_zeros]. destruct (beq c "0") eqn:E; [apply beq_eq in E; contradiction|reflexivity]. Qed.
Lemma rev_zeros n : rev (repeat "0"%byte n) = repeat "0"%byte n.
Proof. induction n as [|n IH]; [reflexivity|]. cbn [repeat rev]. rewrite IH. symmetry. apply repeat_cons. Qed.
(** Digits with nonzero ends are what is left. *)
Lemma significant_of i f j k c s t x : i ++ tl f = repeat "0"%byte j ++ s ++ repeat "0"%byte k -> s = c :: t -> c <> "0"%byte -> rev s = x :: tl (rev s) -> x <> "0"%byte -> significant i f = s.
Proof.
  intros E Hs Hc Hr Hx. unfold significant. rewrite E, drop_repeat, Hs. cbn [app]. rewrite drop_head by exact Hc. change (c :: t ++ repeat "0"%byte k) with ((c :: t) ++ repeat "0"%byte k). rewrite <- Hs.
  rewrite rev_app_distr, rev_zeros, drop_repeat, Hr, drop_head by exact Hx. rewrite <- Hr. apply rev_involutive.
Qed.
Lemma significant_split i f : exists j k, i ++ tl f = repeat "0"%byte j ++ significant i f ++ repeat "0"%byte k /\ (significant i f = [] \/ hd "0"%byte (significant i f) <> "0"%byte).
Proof.
  unfold significant. destruct (drop_split (i ++ tl f)) as (j & E & H). set (r := drop_zeros (i ++ tl f)) in *. destruct (drop_split (rev r)) as (k & E' & H').
  set (q := drop_zeros (rev r)) in *. assert (R : r = rev q ++ repeat "0"%byte k) by (rewrite <- (rev_involutive r), E', rev_app_distr, rev_zeros; reflexivity).
  exists j, k. split; [rewrite E at 1; rewrite R at 1; reflexivity|]. destruct (rev q) as [|c t] eqn:Q; [left; reflexivity|right]. rewrite R in H. cbn [app hd] in *. destruct H as [H|H]; [discriminate|exact H].
Qed.
Lemma digit_bound c : digit c -> Byte.to_N c - 48 <= 9 /\ (c <> "0"%byte -> 1 <= Byte.to_N c - 48).
Proof.
  intros H. apply digit_iff in H. assert (Q : forall c, is_digit c = true -> (Byte.to_N c - 48 <=? 9) && ((1 <=? Byte.to_N c - 48) || beq c "0") = true) by (apply byte_impl; reflexivity).
  apply Q in H. apply andb_prop in H. destruct H as [H1 H2]. split; [lia|]. intros Nz. apply orb_prop in H2. destruct H2 as [H2|H2]; [lia|apply beq_eq in H2; contradiction].
Qed.
Lemma dec_snoc s c : dec_value (s ++ [c]) = dec_value s * 10 + (Byte.to_N c - 48).
Proof. unfold dec_value. rewrite fold_left_app. reflexivity. Qed.
Lemma digits_below s : Forall digit s -> dec_value s < 10 ^ N.of_nat (length s).
Proof.
  induction s as [|c s IH] using rev_ind; intros F; [reflexivity|]. apply Forall_app in F. destruct F as [F1 F2]. destruct (digit_bound (Forall_inv F2)) as [D _].
  rewrite dec_snoc, app_length. cbn [length]. replace (N.of_nat (length s + 1)) with (N.succ (N.of_nat (length s))) by lia. rewrite N.pow_succ_r'. specialize (IH F1). lia.
Qed.
Lemma digits_above c s : Forall digit (c :: s) -> c <> "0"%byte -> 10 ^ N.of_nat (length s) <= dec_value (c :: s).
Proof.
  intros F Nz. change (c :: s) with ([c] ++ s). rewrite dec_app. destruct (digit_bound (Forall_inv F)) as [_ D]. specialize (D Nz).
  change (dec_value [c]) with (Byte.to_N c - 48). nia.
Qed.
Lemma last_digit s c : digit c -> dec_value (s ++ [c]) mod 10 <> 0 -> c <> "0"%byte.
Proof. intros D H ->. apply H. rewrite dec_snoc. change (Byte.to_N "0" - 48) with 0. rewrite N.add_0_r. apply N.mod_mul. lia. Qed.

(** ** Values *)
Lemma scale_neg x : (0 < qN (10 ^ Z.to_N (- x)))%Q. Proof. apply qN_pos, ten_pos. Qed.
Lemma gap_dist d x m : (qN (gap (d * 10 ^ Z.to_N x) (10 ^ Z.to_N (- x)) m) == dist m (V d x) * qN (10 ^ Z.to_N (- x)))%Q.
Proof.
  pose proof (scale_neg x) as P. pose proof (V_scaled d x) as E. unfold gap, dist. set (A := units m). set (p := d * 10 ^ Z.to_N x * 2 ^ 1074) in *.
  set (q := 10 ^ Z.to_N (- x)) in *. clearbody p q. assert (Ea : (qN (A * q) == qN A * qN q)%Q) by apply qN_mul.
  destruct (N.leb_spec (A * q) p) as [L|L].
  - replace (A * q - p + (p - A * q)) with (p - A * q) by lia. assert (Es : (qN (p - A * q) == qN p - qN (A * q))%Q).
    { assert (H : (qN p == qN (p - A * q) + qN (A * q))%Q) by (rewrite <- qN_add; apply qN_eq; lia). lra. }
    apply qN_le in L. rewrite Qabs_pos; [rewrite Es, Ea, <- E; ring|]. assert (H : (0 <= (V d x - qN A) * qN q)%Q) by lra.
    apply Qmult_le_r with (z := qN q); [exact P|lra].
  - replace (A * q - p + (p - A * q)) with (A * q - p) by lia. assert (Es : (qN (A * q - p) == qN (A * q) - qN p)%Q).
    { assert (H : (qN (A * q) == qN (A * q - p) + qN p)%Q) by (rewrite <- qN_add; apply qN_eq; lia). lra. }
    apply qN_lt in L. rewrite Qabs_neg; [rewrite Es, Ea, <- E; ring|]. apply Qmult_le_r with (z := qN q); [exact P|lra].
Qed.
Lemma near_dist d x d' x' m :
  gap (d * 10 ^ Z.to_N x) (10 ^ Z.to_N (- x)) m * 10 ^ Z.to_N (- x') <= gap (d' * 10 ^ Z.to_N x') (10 ^ Z.to_N (- x')) m * 10 ^ Z.to_N (- x) <->
  (dist m (V d x) <= dist m (V d' x'))%Q.
Proof.
  rewrite qN_le, !qN_mul, !gap_dist. pose proof (scale_neg x) as P. pose proof (scale_neg x') as P'.
  set (q := qN (10 ^ Z.to_N (- x))) in *. set (q' := qN (10 ^ Z.to_N (- x'))) in *.
  assert (PP : (0 < q * q')%Q) by (apply Qmult_lt_0_compat; assumption).
  set (y := dist m (V d x)). set (y' := dist m (V d' x')). assert (E1 : (y * q * q' == y * (q * q'))%Q) by ring. assert (E2 : (y' * q' * q == y' * (q * q'))%Q) by ring.
  rewrite E1, E2. apply Qmult_le_r. exact PP.
Qed.
Lemma value_eq d x d' x' : d * 10 ^ Z.to_N x * 10 ^ Z.to_N (- x') = d' * 10 ^ Z.to_N x' * 10 ^ Z.to_N (- x) <-> (V d x == V d' x')%Q.
Proof.
  rewrite qN_eq, !qN_mul. pose proof (scale_neg x) as P. pose proof (scale_neg x') as P'. rewrite <- (ten_split x), <- (ten_split x'). unfold V. pose proof W_pos as Pw.
  set (q := qN (10 ^ Z.to_N (- x))) in *. set (q' := qN (10 ^ Z.to_N (- x'))) in *. set (A := (qN d * ten x)%Q). set (A' := (qN d' * ten x')%Q).
  assert (Ne : forall z, (0 < z)%Q -> ~ (z == 0)%Q) by (intros z Hz Hz'; rewrite Hz' in Hz; exact (Qlt_irrefl _ Hz)).
  split; intros H.
  - assert (H' : (A * (q * q') == A' * (q * q'))%Q) by (unfold A, A'; lra). apply Qmult_inj_r in H'; [rewrite H'; reflexivity|]. apply Ne, Qmult_lt_0_compat; assumption.
  - apply Qmult_inj_r in H; [|apply Ne; exact Pw]. assert (E : (A * (q * q') == A' * (q * q'))%Q) by (rewrite H; reflexivity). unfold A, A' in E. lra.
Qed.

(** ** Texts *)
Lemma nearest_inside i f e m : is_nearest (numerator i f e) (denominator f e) m <-> m < infinity /\ inside m (V (dec_value (i ++ tl f)) (power f e)).
Proof. unfold numerator, denominator. rewrite <- rounds_nearest by apply ten_pos. apply rounds_inside. Qed.
Lemma inside_pos m d x : 0 < m -> inside m (V d x) -> 0 < d.
Proof.
  intros P [[H|H] _]; [lia|]. destruct (N.eq_dec d 0) as [->|D]; [|lia]. exfalso. assert (E : (V 0 x == 0)%Q) by (unfold V; change (qN 0) with 0%Q; ring).
  assert (U : (0 < qN (units (m - 1) + units m))%Q). { apply qN_pos. pose proof (units_mono P) as H'. rewrite units_zero in H'. lia. } lra.
Qed.
(** The rule for a text that shows the digits found; a number that is as near has an odd last digit. *)
Definition sole (m : N) (i f e : bytes) : Prop :=
  forall i' f' e', parts_ok i' f' e' -> is_nearest (numerator i' f' e') (denominator f' e') m -> length (significant i f) = length (significant i' f') ->
    as_near m i' f' e' i f e -> same_value i f e i' f' e' \/ N.even (dec_value (significant i' f')) = false.
Lemma shown_rule m i f e j k : 0 < m -> m < infinity -> parts_ok i f e ->
  i ++ tl f = repeat "0"%byte j ++ dec (fst (shortest m)) ++ repeat "0"%byte k -> (read_exp e - Z.of_nat (length (tl f)) = snd (shortest m) - Z.of_nat k)%Z ->
  shortest_rule m i f e /\ significant i f = dec (fst (shortest m)) /\ (length (significant i f) <= 17)%nat /\ (V (dec_value (i ++ tl f)) (power f e) == value m)%Q /\ sole m i f e.
Proof.
  intros P L _ E X. destruct (found P L) as (k0 & R & _ & _ & _ & L1 & L2 & M10 & _). pose proof (shortest_round L) as Rd. apply round_iff, rounds_inside in Rd. fold (the_digits m) in *. fold (the_power m) in *.
  destruct Rd as [_ Ri]. fold (value m) in Ri. pose proof (inside_pos P Ri) as Dp. destruct (dec_pos Dp) as (c & t & Ec & Cz & Fd). pose proof (dec_value_dec (the_digits m)) as Vd.
  assert (Sg : significant i f = dec (the_digits m)).
  { destruct (exists_last (l := dec (the_digits m)) ltac:(rewrite Ec; discriminate)) as (s & x & Ex). apply significant_of with (1 := E) (2 := Ec) (x := x); [exact Cz|rewrite Ex, rev_app_distr; reflexivity|].
    apply last_digit with (s := s); [|rewrite <- Ex, Vd; exact M10]. rewrite <- Ec, Ex in Fd. apply Forall_app in Fd. exact (Forall_inv (proj2 Fd)). }
  assert (Vv : (V (dec_value (i ++ tl f)) (power f e) == value m)%Q).
  { rewrite E. rewrite !dec_app. assert (Z : forall n, dec_value (repeat "0"%byte n) = 0) by (intros n; rewrite <- (Nat2Z.id n); apply dec_zeros). rewrite !Z, N.mul_0_l, N.add_0_l, N.add_0_r, Vd, repeat_length.
    rewrite V_shift. unfold power. rewrite X. unfold value. replace (the_power m - Z.of_nat k + Z.of_N (N.of_nat k))%Z with (the_power m) by lia. reflexivity. }
  assert (Bl : 10 ^ N.of_nat (length t) <= the_digits m) by (rewrite <- Vd, Ec; apply digits_above; [exact Fd|exact Cz]).
  assert (Lt : N.of_nat (length t) < 17). { apply (N.pow_lt_mono_r_iff 10); [lia|]. pose proof (N.pow_le_mono_r 10 (Z.to_N k0) 17 ltac:(lia) ltac:(lia)). lia. }
  assert (Main : forall i' f' e', parts_ok i' f' e' -> is_nearest (numerator i' f' e') (denominator f' e') m ->
    (length (significant i f) <= length (significant i' f'))%nat /\
    (length (significant i f) = length (significant i' f') ->
      as_near m i f e i' f' e' /\
      (as_near m i' f' e' i f e -> same_value i f e i' f' e' \/ N.even (dec_value (significant i f)) = true /\ N.even (dec_value (significant i' f')) = false))).
  2: { split; [|split; [exact Sg|split; [rewrite Sg, Ec; cbn [length]; lia|split; [exact Vv|]]]].
       - split; [apply nearest_inside; split; [exact L|apply inside_eq with (y := value m); [symmetry; exact Vv|exact Ri]]|]. intros i' f' e' Ok Ns. destruct (Main i' f' e' Ok Ns) as [A C]. split; [exact A|].
         intros Le. destruct (C Le) as [C1 C2]. split; [exact C1|]. intros T. destruct (C2 T) as [C3|[C3 _]]; [left|right]; exact C3.
       - intros i' f' e' Ok Ns Le T. destruct (Main i' f' e' Ok Ns) as [_ C]. destruct (C Le) as [_ C2]. destruct (C2 T) as [C3|[_ C3]]; [left|right]; exact C3. }
  intros i' f' e' (Hi & Hf & He) Ns. apply nearest_inside in Ns. destruct Ns as [_ Ns]. destruct (significant_split i' f') as (j' & k' & E' & H'). rewrite Sg.
  set (s := significant i' f') in *. clearbody s.
  assert (Fs : Forall digit s).
  { assert (F : Forall digit (i' ++ tl f')). { apply Forall_app. split; [exact (proj2 (proj1 Hi))|]. destruct Hf as [->|(ds & -> & F)]; [constructor|exact (proj2 F)]. }
    rewrite E' in F. apply Forall_app in F. destruct F as [_ F]. apply Forall_app in F. exact (proj1 F). }
  assert (V' : (V (dec_value (i' ++ tl f')) (power f' e') == V (dec_value s) (power f' e' + Z.of_nat k'))%Q).
  { rewrite E'. rewrite !dec_app. assert (Z : forall n, dec_value (repeat "0"%byte n) = 0) by (intros n; rewrite <- (Nat2Z.id n); apply dec_zeros). rewrite !Z, N.mul_0_l, N.add_0_l, N.add_0_r, repeat_length.
    rewrite V_shift. replace (Z.of_N (N.of_nat k')) with (Z.of_nat k') by lia. reflexivity. }
  apply (inside_eq V') in Ns. pose proof (inside_pos P Ns) as Sp. destruct s as [|c' t']; [cbn in Sp; lia|]. destruct H' as [H'|H']; [discriminate|]. cbn [hd] in H'.
  assert (N1 : Z.to_N (Z.of_nat (length (c' :: t')) - 1) = N.of_nat (length t')) by (cbn [length]; lia).
  assert (N2 : Z.to_N (Z.of_nat (length (c' :: t'))) = N.of_nat (length (c' :: t'))) by lia.
  destruct (@minimal m P L _ _ (Z.of_nat (length (c' :: t'))) Ns ltac:(cbn [length]; lia)) as [M1 M2].
  { rewrite N1. apply digits_above; assumption. }
  { rewrite N2. apply digits_below. exact Fs. }
  rewrite N1, N2 in *. split.
  - rewrite Ec. cbn [length]. assert (N.of_nat (length t) < N.of_nat (length (c' :: t'))) by (apply (N.pow_lt_mono_r_iff 10); [lia|]; lia). cbn [length] in *. lia.
  - rewrite Ec. intros Le. assert (Lt' : length t' = length t) by (cbn [length] in Le; lia). rewrite Lt' in *. destruct (M2 Bl) as [M3 M4].
    assert (D1 : (dist m (V (dec_value (i ++ tl f)) (power f e)) == dist m (value m))%Q) by (unfold dist; rewrite Vv; reflexivity).
    assert (D2 : (dist m (V (dec_value (i' ++ tl f')) (power f' e')) == dist m (V (dec_value (c' :: t')) (power f' e' + Z.of_nat k')))%Q) by (unfold dist; rewrite V'; reflexivity).
    unfold as_near, same_value, numerator, denominator. rewrite !near_dist, value_eq. split; [lra|]. intros T. destruct M4 as [M4|M4]; [lra| |].
    + left. lra.
    + right. rewrite <- Ec, Vd. exact M4.
Qed.
Lemma text_inj neg i f e neg' i' f' e' : parts_ok i f e -> parts_ok i' f' e' -> number_text neg i f e = number_text neg' i' f' e' -> neg = neg' /\ i = i' /\ f = f' /\ e = e'.
Proof.
  intros (Hi & Hf & He) (Hi' & Hf' & He') E. destruct (@text_parts neg i f e Hi Hf He) as (S & P & R). destruct (@text_parts neg' i' f' e' Hi' Hf' He') as (S' & P' & R').
  rewrite <- E, S in S'. pose proof (f_equal fst S') as E1. pose proof (f_equal snd S') as E2. cbn [fst snd] in E1, E2. rewrite <- E2, P in P'.
  pose proof (f_equal fst P') as E3. pose proof (f_equal snd P') as E4. cbn [fst snd] in E3, E4. rewrite <- E4, R in R'. pose proof (f_equal snd R') as E5. cbn [fst snd] in E5.
  subst e' i'. apply app_inv_tail in E4. auto.
Qed.
Lemma written_rule low high point plus m neg i f e : 0 < m -> m < infinity -> In point [[]; B ".0"] -> In plus [[]; B "+"] -> parts_ok i f e ->
  (if neg : bool then B "-" else []) ++ layout low high point plus (fst (shortest m)) (snd (shortest m)) = number_text neg i f e ->
  shortest_rule m i f e /\ significant i f = dec (fst (shortest m)) /\ (length (significant i f) <= 17)%nat /\ (V (dec_value (i ++ tl f)) (power f e) == value m)%Q /\ sole m i f e.
Proof.
  intros P L Hp Hs Ok T. destruct (@layout_shows low high point plus (fst (shortest m)) (snd (shortest m)) ltac:(apply shortest_pos; [exact L|lia]) Hp Hs) as (i0 & f0 & e0 & Hi & Hf & He & T0 & _ & (j & k & E & X) & _).
  rewrite T0, text_neg in T. apply text_inj in T; [|split; [exact Hi|split; [exact Hf|exact He]]|exact Ok]. destruct T as (_ & -> & -> & ->). apply shown_rule with (j := j) (k := k); assumption.
Qed.
Lemma negative_text neg neg' low high point plus m i f e : 0 < m -> m < infinity -> In point [[]; B ".0"] -> In plus [[]; B "+"] -> parts_ok i f e ->
  (if neg : bool then B "-" else []) ++ layout low high point plus (fst (shortest m)) (snd (shortest m)) = number_text neg' i f e -> neg = neg'.
Proof.
  intros P L Hp Hs Ok T. destruct (@layout_shows low high point plus (fst (shortest m)) (snd (shortest m)) ltac:(apply shortest_pos; [exact L|lia]) Hp Hs) as (i0 & f0 & e0 & Hi & Hf & He & T0 & _ & _ & _).
  rewrite T0, text_neg in T. apply text_inj in T; [|split; [exact Hi|split; [exact Hf|exact He]]|exact Ok]. apply T.
Qed.
Lemma es_written b neg i f e : finite b = true -> magnitude b <> 0 -> parts_ok i f e -> es_text b = number_text neg i f e ->
  neg = negative b /\ shortest_rule (magnitude b) i f e /\ significant i f = dec (fst (shortest (magnitude b))) /\ (length (significant i f) <= 17)%nat /\ (V (dec_value (i ++ tl f)) (power f e) == value (magnitude b))%Q /\ sole (magnitude b) i f e.
Proof.
  intros F Mz Ok. destruct (finite_parts b F) as [L _]. unfold es_text. rewrite F. cbn [negb orb]. destruct (N.eqb_spec (magnitude b) 0) as [Mz'|_]; [congruence|].
  rewrite (surjective_pairing (shortest (magnitude b))). intros T. pose proof (fun H => @negative_text _ _ _ _ _ _ (magnitude b) i f e H L (or_introl eq_refl) (or_intror (or_introl eq_refl)) Ok T) as Ng.
  assert (En : negative b = neg) by (apply Ng; lia). subst neg. split; [reflexivity|]. eapply written_rule; [lia|exact L|left; reflexivity|right; left; reflexivity|exact Ok|exact T].
Qed.
Lemma ryu_written b neg i f e : finite b = true -> magnitude b <> 0 -> parts_ok i f e -> ryu_text b = number_text neg i f e ->
  neg = negative b /\ shortest_rule (magnitude b) i f e /\ significant i f = dec (fst (shortest (magnitude b))) /\ (length (significant i f) <= 17)%nat /\ (V (dec_value (i ++ tl f)) (power f e) == value (magnitude b))%Q /\ sole (magnitude b) i f e.
Proof.
  intros F Mz Ok. destruct (finite_parts b F) as [L _]. unfold ryu_text. rewrite F. cbn [negb]. destruct (N.eqb_spec (magnitude b) 0) as [Mz'|_]; [congruence|].
  rewrite (surjective_pairing (shortest (magnitude b))). intros T. pose proof (fun H => @negative_text _ _ _ _ _ _ (magnitude b) i f e H L (or_intror (or_introl eq_refl)) (or_introl eq_refl) Ok T) as Ng.
  assert (En : negative b = neg) by (apply Ng; lia). subst neg. split; [reflexivity|]. eapply written_rule; [lia|exact L|right; left; reflexivity|left; reflexivity|exact Ok|exact T].
Qed.
(** ** The theorems *)
Theorem jcs_rule D b neg i f e : ieee_written D -> finite b = true -> magnitude b <> 0 -> parts_ok i f e -> jcs_number D (Float b) = number_text neg i f e ->
  neg = negative b /\ shortest_rule (magnitude b) i f e /\ (length (significant i f) <= 17)%nat.
Proof. intros (_ & H & _) F Mz Ok. rewrite H. intros T. destruct (@es_written b neg i f e F Mz Ok T) as (A & B & _ & C & _). auto. Qed.
Theorem serde_rule D b neg i f e : ieee_written D -> finite b = true -> magnitude b <> 0 -> parts_ok i f e -> f64_text D b = number_text neg i f e ->
  neg = negative b /\ shortest_rule (magnitude b) i f e /\ (length (significant i f) <= 17)%nat.
Proof. intros (H & _) F Mz Ok. rewrite H. intros T. destruct (@ryu_written b neg i f e F Mz Ok T) as (A & B & _ & C & _). auto. Qed.
Theorem both_rule D b neg i f e neg' i' f' e' : ieee_written D -> finite b = true -> magnitude b <> 0 -> parts_ok i f e -> parts_ok i' f' e' ->
  jcs_number D (Float b) = number_text neg i f e -> f64_text D b = number_text neg' i' f' e' -> neg = neg' /\ significant i f = significant i' f' /\ same_value i f e i' f' e'.
Proof.
  intros (H1 & H2 & _) F Mz Ok Ok'. rewrite H1, H2. intros T T'. destruct (@es_written b neg i f e F Mz Ok T) as (A & _ & S & _ & Vv & _). destruct (@ryu_written b neg' i' f' e' F Mz Ok' T') as (A' & _ & S' & _ & Vv' & _).
  split; [congruence|]. split; [congruence|]. unfold same_value, numerator, denominator. apply value_eq. rewrite Vv, Vv'. reflexivity.
Qed.
(** The rule leaves one value. *)
Theorem rule_unique m i f e i' f' e' : 0 < m -> parts_ok i f e -> parts_ok i' f' e' -> shortest_rule m i f e -> shortest_rule m i' f' e' -> same_value i f e i' f' e'.
Proof.
  intros P Ok Ok' R R'. assert (L : m < infinity) by apply R.
  destruct (@layout_shows (-6) 21 [] (B "+") (fst (shortest m)) (snd (shortest m)) ltac:(apply shortest_pos; [exact L|lia]) (or_introl eq_refl) (or_intror (or_introl eq_refl))) as (i0 & f0 & e0 & Hi & Hf & He & _ & _ & (j & k & E & X) & _).
  assert (Ok0 : parts_ok i0 f0 e0) by (split; [exact Hi|split; [exact Hf|exact He]]).
  destruct (@shown_rule m i0 f0 e0 j k P L Ok0 E X) as (R0 & _ & _ & _ & So).
  assert (Eq : forall i1 f1 e1, parts_ok i1 f1 e1 -> shortest_rule m i1 f1 e1 -> same_value i0 f0 e0 i1 f1 e1).
  { intros i1 f1 e1 Ok1 [N1 R1]. destruct R0 as [N0 R0]. destruct (R1 _ _ _ Ok0 N0) as [A1 B1]. destruct (R0 _ _ _ Ok1 N1) as [A0 B0]. assert (Le : length (significant i1 f1) = length (significant i0 f0)) by lia.
    destruct (B1 Le) as [C1 D1]. destruct (B0 (eq_sym Le)) as [C0 _]. destruct (D1 C0) as [D|D]; [unfold same_value in *; symmetry; exact D|].
    destruct (So _ _ _ Ok1 N1 (eq_sym Le) C1) as [S|S]; [exact S|congruence]. }
  pose proof (Eq _ _ _ Ok R) as E1. pose proof (Eq _ _ _ Ok' R') as E2. unfold same_value, numerator, denominator in *. apply value_eq in E1, E2. apply value_eq. rewrite <- E1, <- E2. reflexivity.
Qed.

(** ** ECMAScript's words *)
Lemma possible_inside m s n k : possible m s n k <-> (1 <= k)%Z /\ 10 ^ Z.to_N (k - 1) <= s /\ s < 10 ^ Z.to_N k /\ m < infinity /\ inside m (V s (n - k)).
Proof. unfold possible. rewrite <- rounds_nearest by apply ten_pos. rewrite rounds_inside. reflexivity. Qed.
Lemma digits_length s k : (1 <= k)%Z -> 10 ^ Z.to_N (k - 1) <= s -> s < 10 ^ Z.to_N k -> Z.of_nat (length (dec s)) = k.
Proof.
  intros K L1 L2. assert (P : 0 < s) by (pose proof (ten_pos (Z.to_N (k - 1))); lia). destruct (dec_pos P) as (c & t & E & Nz & F). pose proof (dec_value_dec s) as Vd. rewrite E in *.
  pose proof (digits_above F Nz) as A. pose proof (digits_below F) as Bl. rewrite Vd in *.
  assert (Z.to_N (k - 1) < N.of_nat (length (c :: t))) by (apply (N.pow_lt_mono_r_iff 10); lia). assert (N.of_nat (length t) < Z.to_N k) by (apply (N.pow_lt_mono_r_iff 10); lia). cbn [length] in *. lia.
Qed.
Lemma place_inj s s' n n' k : (1 <= k)%Z -> 10 ^ Z.to_N (k - 1) <= s -> s < 10 ^ Z.to_N k -> 10 ^ Z.to_N (k - 1) <= s' -> s' < 10 ^ Z.to_N k -> (V s (n - k) == V s' (n' - k))%Q -> s = s' /\ n = n'.
Proof.
  intros K A1 A2 B1 B2 E.
  assert (Bd : forall d x, 10 ^ Z.to_N (k - 1) <= d -> d < 10 ^ Z.to_N k -> (V 1 (x - 1) <= V d (x - k))%Q /\ (V d (x - k) < V 1 x)%Q).
  { intros d x H1 H2. assert (E1 : (V 1 (x - 1) == V (10 ^ Z.to_N (k - 1)) (x - k))%Q).
    { rewrite <- (N.mul_1_l (10 ^ _)), V_shift, Z2N.id by lia. replace (x - k + (k - 1))%Z with (x - 1)%Z by lia. reflexivity. }
    assert (E2 : (V 1 x == V (10 ^ Z.to_N k) (x - k))%Q).
    { rewrite <- (N.mul_1_l (10 ^ _)), V_shift, Z2N.id by lia. replace (x - k + k)%Z with x by lia. reflexivity. }
    rewrite E1, E2. split; [apply V_le_mono; exact H1|]. pose proof (V_le_mono (x - k) (d := d + 1) (d' := 10 ^ Z.to_N k) ltac:(lia)) as Hm. rewrite V_succ in Hm. pose proof (V_pos (x - k) (d := 1) ltac:(lia)). lra. }
  assert (Mono : forall i j, (i <= j)%Z -> (V 1 i <= V 1 j)%Q).
  { intros i j H. unfold V. pose proof (ten_mono H) as Ht. pose proof W_pos. change (qN 1) with 1%Q. rewrite !Qmult_1_l. apply Qmult_le_compat_r; [exact Ht|lra]. }
  destruct (Bd s n A1 A2) as [S1 S2]. destruct (Bd s' n' B1 B2) as [S1' S2'].
  assert (n = n') as ->.
  { destruct (Z.lt_trichotomy n n') as [H|[H|H]]; [|exact H|]; exfalso; [pose proof (@Mono n (n' - 1)%Z ltac:(lia))|pose proof (@Mono n' (n - 1)%Z ltac:(lia))]; lra. }
  split; [|reflexivity]. assert (s <= s') by (apply V_inj_le with (x := (n' - k)%Z); lra). assert (s' <= s) by (apply V_inj_le with (x := (n' - k)%Z); lra). lia.
Qed.
Lemma shortest_chosen m : 0 < m -> m < infinity -> exists k, the_power m = (the_power m + k - k)%Z /\ chosen m (the_digits m) (the_power m + k) k /\
  forall s n k', chosen m s n k' -> s = the_digits m /\ n = (the_power m + k)%Z /\ k' = k.
Proof.
  intros P L. destruct (found P L) as (k0 & R & _ & _ & _ & L1 & L2 & _ & _). pose proof (shortest_round L) as Rd. apply round_iff, rounds_inside in Rd. fold (the_digits m) in Rd. fold (the_power m) in Rd.
  destruct Rd as [_ Ri]. fold (value m) in Ri. exists k0. set (x := the_power m) in *. assert (X : x = (x + k0 - k0)%Z) by lia. split; [exact X|].
  assert (Pd : possible m (the_digits m) (x + k0) k0) by (apply possible_inside; split; [lia|]; split; [exact L1|]; split; [exact L2|]; split; [exact L|]; rewrite <- X; exact Ri).
  assert (Vx : value m = V (the_digits m) (x + k0 - k0)) by (rewrite <- X; reflexivity).
  assert (Mn : forall s n k, possible m s n k -> (k0 <= k)%Z /\ (k = k0 -> (dist m (value m) <= dist m (V s (n - k)))%Q /\
    ((dist m (V s (n - k)) <= dist m (value m))%Q -> (V s (n - k) == value m)%Q \/ N.even (the_digits m) = true /\ N.even s = false))).
  { intros s n k H. apply possible_inside in H. destruct H as (K & S1 & S2 & _ & I). destruct (minimal P L I K S1 S2) as [M1 M2]. split.
    - destruct (Z.leb_spec k0 k) as [C|C]; [exact C|]. pose proof (N.pow_le_mono_r 10 (Z.to_N k) (Z.to_N (k0 - 1)) ltac:(lia) ltac:(lia)). lia.
    - intros ->. exact (M2 L1). }
  assert (Nd : forall s n, distance m (the_digits m) (x + k0) k0 * 10 ^ Z.to_N (- (n - k0)) <= distance m s n k0 * 10 ^ Z.to_N (- (x + k0 - k0)) <-> (dist m (value m) <= dist m (V s (n - k0)))%Q)
    by (intros s n; rewrite Vx; apply near_dist).
  assert (Nd' : forall s n, distance m s n k0 * 10 ^ Z.to_N (- (x + k0 - k0)) <= distance m (the_digits m) (x + k0) k0 * 10 ^ Z.to_N (- (n - k0)) <-> (dist m (V s (n - k0)) <= dist m (value m))%Q)
    by (intros s n; rewrite Vx; apply near_dist).
  assert (Inj : forall s n, possible m s n k0 -> (V s (n - k0) == value m)%Q -> s = the_digits m /\ n = (x + k0)%Z).
  { intros s n H E. apply possible_inside in H. destruct H as (K & S1 & S2 & _). apply place_inj with (k := k0); try assumption. rewrite <- Vx. exact E. }
  split.
  - split; [exact Pd|]. split; [intros s n k H; exact (proj1 (Mn s n k H))|]. split.
    + intros s n H. apply Nd. exact (proj1 (proj2 (Mn s n k0 H) eq_refl)).
    + intros s n H E. destruct (proj2 (Mn s n k0 H) eq_refl) as [_ T]. destruct T as [T|[T _]]; [apply Nd'; lia|left; exact (proj1 (Inj s n H T))|right; exact T].
  - intros s n k (H & C1 & C2 & C3). assert (k = k0) as -> by (pose proof (C1 _ _ _ Pd); pose proof (proj1 (Mn _ _ _ H)); lia).
    destruct (proj2 (Mn _ _ _ H) eq_refl) as [D1 T]. pose proof (C2 _ _ Pd) as D2. pose proof (proj2 (Nd s n) D1) as D3. pose proof (proj1 (Nd' s n) D2) as D4.
    assert (Sv : (V s (n - k0) == value m)%Q \/ s = the_digits m /\ N.even s = false).
    { destruct (T D4) as [T'|[T1 T2]]; [left; exact T'|]. destruct (C3 _ _ Pd ltac:(lia)) as [E|E]; [|congruence]. right. split; [congruence|exact T2]. }
    assert (Sv' : (V s (n - k0) == value m)%Q).
    { destruct Sv as [Sv|[Sv Ev]]; [exact Sv|]. destruct (T D4) as [T'|[T1 T2]]; [exact T'|]. rewrite Sv in Ev. congruence. }
    destruct (Inj s n H Sv') as [-> ->]. auto.
Qed.
Lemma layout_steps s n k : Z.of_nat (length (dec s)) = k -> layout (-6) 21 [] (B "+") s (n - k) = es_steps s n k.
Proof.
  intros K. unfold layout, es_steps, zeros. rewrite K. replace (k + (n - k))%Z with n by lia. rewrite app_nil_r. replace (0 <=? n - k)%Z with (k <=? n)%Z by lia.
  destruct ((k <=? n) && (n <=? 21))%Z eqn:C1; [reflexivity|]. destruct ((0 <? n) && (n <=? 21))%Z eqn:C2; [reflexivity|]. destruct ((-6 <? n) && (n <=? 0))%Z eqn:C3; [reflexivity|].
  assert (E : (if (n - 1 <? 0)%Z then B "-" ++ dec (Z.to_N (1 - n)) else B "+" ++ dec (Z.to_N (n - 1))) = (if (0 <? n)%Z then B "+" else B "-") ++ dec (Z.to_N (Z.abs (n - 1)))).
  { destruct (Z.ltb_spec (n - 1) 0) as [H|H]; [replace (0 <? n)%Z with false by lia|replace (0 <? n)%Z with true by lia]; do 3 f_equal; lia. }
  rewrite E. destruct (Z.eqb_spec k 1) as [K1|K1].
  - cbn [app]. f_equal. destruct (dec s) as [|c [|c' t]]; cbn [length] in K; [lia|reflexivity|lia].
  - rewrite <- app_assoc. reflexivity.
Qed.
Theorem es_words b s n k : finite b = true -> magnitude b <> 0 -> chosen (magnitude b) s n k -> es_text b = (if negative b then B "-" else []) ++ es_steps s n k.
Proof.
  intros F Mz C. destruct (finite_parts b F) as [L _]. destruct (@shortest_chosen (magnitude b) ltac:(lia) L) as (k0 & X & _ & U). destruct (U _ _ _ C) as (-> & -> & ->).
  destruct C as [Pd _]. apply possible_inside in Pd. destruct Pd as (K & S1 & S2 & _). unfold es_text. rewrite F. cbn [negb orb]. destruct (N.eqb_spec (magnitude b) 0) as [Mz'|_]; [congruence|].
  rewrite (surjective_pairing (shortest (magnitude b))). f_equal. fold (the_digits (magnitude b)). fold (the_power (magnitude b)). rewrite X at 1. apply layout_steps. apply digits_length; assumption.
Qed.
Theorem es_choice b : finite b = true -> magnitude b <> 0 -> exists s n k, chosen (magnitude b) s n k /\ forall s' n' k', chosen (magnitude b) s' n' k' -> s' = s /\ n' = n /\ k' = k.
Proof.
  intros F Mz. destruct (finite_parts b F) as [L _]. destruct (@shortest_chosen (magnitude b) ltac:(lia) L) as (k & X & C & U). exists (the_digits (magnitude b)), (the_power (magnitude b) + k)%Z, k. split; [exact C|exact U].
Qed.
Theorem jcs_words D b s n k : ieee_written D -> finite b = true -> magnitude b <> 0 -> chosen (magnitude b) s n k ->
  jcs_number D (Float b) = (if negative b then B "-" else []) ++ es_steps s n k.
Proof. intros (_ & H & _) F Mz C. rewrite H. apply es_words; assumption. Qed.
Theorem ecma_iff text : ecma_texts text <-> forall b, finite b = true -> text b = es_text b.
Proof.
  split.
  - intros H b F. destruct (H b F) as [H0 H1]. destruct (N.eq_dec (magnitude b) 0) as [Z|Z].
    + rewrite (H0 Z). unfold es_text. rewrite F, Z. reflexivity.
    + destruct (es_choice b F Z) as (s & n & k & C & _). rewrite (H1 Z s n k C). symmetry. apply es_words; assumption.
  - intros H b F. rewrite (H b F). split; [intros Z; unfold es_text; rewrite F, Z; reflexivity|]. intros Z s n k C. apply es_words; assumption.
Qed.
