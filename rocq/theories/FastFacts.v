(** Proofs of C86. *)
From Verif Require Import Base BaseFacts Codec CodecFacts Json JsonFacts JsonParseFacts ParseFacts Deps Types Proof Vc Suite JsonSpec VcSpec Spec VcFacts MiscSpec SuiteSpec SuiteFacts ReadFacts FlowSpec FlowFacts Grammar GrammarFacts CanonSpec CanonFacts Float FloatFacts FloatText FloatSpec FloatLaws Fast FastSpec JsonParse.
Require Import ZifyBool ZifyNat ZifyN.
Set Implicit Arguments.
Local Open Scope N_scope.

(** ** Exact products and quotients *)
Lemma ratio_iff p q m : 0 < q -> (nearest_ratio (p * 2 ^ 1074) q = Some m <-> rounds p q m).
Proof.
  intros Q. assert (G : 0 < 2 ^ 1074) by reflexivity. unfold nearest_ratio, rounds. destruct (N.eqb_spec (p * 2 ^ 1074) 0) as [E|E].
  - set (t := 2 ^ 1074) in *. clearbody t. assert (p = 0) by nia. subst p. rewrite N.mul_0_l. assert (U := units_succ 0). change (0 + 1) with 1 in U. split.
    + intros H. apply some_inj in H. subst m. split; [reflexivity|]. split; [left; reflexivity|]. left. rewrite units_zero in *. change (0 + 1) with 1. nia.
    + intros (L & A & _). f_equal. symmetry. destruct A as [A|[A|[A _]]]; [exact A|lia|]. destruct (N.eq_dec m 0) as [|Nz]; [assumption|]. assert (X := units_mono (a := 0) (b := m) ltac:(lia)). rewrite units_zero in X.
      exfalso. rewrite N.mul_0_r in A. apply N.eq_mul_0 in A. lia.
  - set (X := p * 2 ^ 1074) in *. clearbody X. rewrite nearest_iff.
    + unfold above, below. rewrite !N.mul_add_distr_r. reflexivity.
    + intros a b H. apply N.mul_lt_mono_pos_r; [exact Q|]. apply units_mono. exact H.
    + rewrite units_zero. lia.
    + reflexivity.
Qed.
Lemma opt_ext (a b : option N) : (forall m, a = Some m <-> b = Some m) -> a = b.
Proof. intros H. destruct a as [m|]; [symmetry; apply H; reflexivity|]. destruct b as [m|]; [apply H; reflexivity|reflexivity]. Qed.
Definition two_1074 : N := 2 ^ 1074.
Lemma two_pos : 0 < two_1074. Proof. reflexivity. Qed.
(** Small integers are floats. *)
Lemma small_exact k : k <= 2 ^ 53 -> exists m, m < infinity /\ units m = k * two_1074.
Proof.
  intros H. destruct (N.eq_dec k 0) as [->|Nz]; [exists 0; split; reflexivity|]. destruct (N.eq_dec k (2 ^ 53)) as [->|Nb]; [exists ((1023 + 53) * 2 ^ 52); split; vm_compute; reflexivity|].
  assert (P : 0 < k) by lia. destruct (N.log2_spec k P) as [L1 L2]. assert (Lb : N.log2 k < 53) by (apply N.log2_lt_pow2; lia). set (b := N.log2 k) in *.
  set (fr := k * 2 ^ (52 - b) - 2 ^ 52). exists ((1023 + b) * 2 ^ 52 + fr).
  assert (S1 : 2 ^ 52 = 2 ^ b * 2 ^ (52 - b)) by (rewrite <- N.pow_add_r; f_equal; lia).
  assert (S2 : 2 ^ 53 = 2 ^ N.succ b * 2 ^ (52 - b)) by (rewrite <- N.pow_add_r; f_equal; lia).
  assert (Pp : 0 < 2 ^ (52 - b)) by (apply N.neq_0_lt_0, N.pow_nonzero; lia).
  assert (F1 : 2 ^ 52 <= k * 2 ^ (52 - b)) by (rewrite S1; apply N.mul_le_mono_r; exact L1).
  assert (F2 : k * 2 ^ (52 - b) < 2 ^ 53) by (rewrite S2; apply N.mul_lt_mono_pos_r; assumption).
  assert (Fr : fr < 2 ^ 52) by (unfold fr; change (2 ^ 53) with (2 * 2 ^ 52) in F2; lia).
  split.
  - unfold infinity. change (2 ^ 53) with (2 * 2 ^ 52) in F2. set (t := 2 ^ 52) in *. clearbody t. nia.
  - unfold units. assert (Dv : ((1023 + b) * 2 ^ 52 + fr) / 2 ^ 52 = 1023 + b) by (symmetry; apply (N.div_unique _ _ _ fr); [exact Fr|lia]).
    assert (Mo : ((1023 + b) * 2 ^ 52 + fr) mod 2 ^ 52 = fr) by (symmetry; apply (N.mod_unique _ _ (1023 + b)); [exact Fr|lia]).
    rewrite Dv, Mo. destruct (N.eqb_spec (1023 + b) 0); [lia|]. replace (2 ^ 52 + fr) with (k * 2 ^ (52 - b)) by (unfold fr; lia).
    rewrite <- N.mul_assoc, <- N.pow_add_r. f_equal. unfold two_1074. f_equal. lia.
Qed.
Lemma exact_rounds p q m : 0 < q -> m < infinity -> units m * q = p * two_1074 -> rounds p q m.
Proof.
  intros Q L E. unfold rounds. fold two_1074. rewrite <- E. split; [exact L|]. split; [destruct (N.eq_dec m 0) as [Z|Z]; [left; exact Z|right]|]; left.
  - assert (X := units_mono (a := m - 1) (b := m) ltac:(lia)). nia.
  - assert (X := units_succ m). nia.
Qed.
Lemma nat_exact k : k <= 2 ^ 53 -> exists m, float_nat k = Some m /\ units m = k * two_1074.
Proof.
  intros H. destruct (small_exact H) as (m & L & E). exists m. split; [|exact E]. apply round_iff. change (Z.to_N 0) with 0. change (Z.to_N (- 0)) with 0.
  rewrite N.pow_0_r, N.mul_1_r. apply exact_rounds; [reflexivity|exact L|lia].
Qed.
Definition exact_power (k : N) : bool := match pow10 k with Some p => units p =? 10 ^ k * two_1074 | None => false end.
Lemma powers_exact : forallb exact_power (map N.of_nat (seq 0 23)) = true. Proof. vm_compute. reflexivity. Qed.
Lemma power_exact k : k <= 22 -> exists p, pow10 k = Some p /\ units p = 10 ^ k * two_1074.
Proof.
  intros H. assert (E := powers_exact). rewrite forallb_forall in E. assert (I : In k (map N.of_nat (seq 0 23))).
  { apply in_map_iff. exists (N.to_nat k). split; [lia|]. apply in_seq. lia. }
  specialize (E k I). unfold exact_power in E. destruct (pow10 k) as [p|]; [|discriminate]. exists p. split; [reflexivity|]. apply N.eqb_eq. exact E.
Qed.
Lemma ratio_scale p q k : 0 < q -> 0 < k -> nearest_ratio (k * p * two_1074) (k * q) = nearest_ratio (p * two_1074) q.
Proof.
  intros Q K. apply opt_ext. intros m. unfold two_1074. rewrite !ratio_iff by (assumption || (apply N.mul_pos_pos; assumption)). symmetry. apply rounds_scale. exact K.
Qed.
Theorem parts_exact fuel d x v : d <= 2 ^ 53 -> (-22 <= x <= 22)%Z -> float_nat d = Some v -> from_parts fuel v x = round d x.
Proof.
  intros Hd Hx Hv. destruct (nat_exact Hd) as (v' & Ev & Uv). rewrite Ev in Hv. apply some_inj in Hv. subst v'.
  destruct (@power_exact (Z.to_N (Z.abs x)) ltac:(lia)) as (p & Ep & Up).
  assert (F : from_parts fuel v x = if (0 <=? x)%Z then float_mul v p else float_div v p).
  { destruct fuel; cbn [from_parts]; (destruct (Z.leb_spec (Z.abs x) 308); [|lia]); rewrite Ep; reflexivity. }
  rewrite F. clear F. apply opt_ext. intros m. rewrite round_iff. destruct (Z.leb_spec 0 x) as [L|L].
  - unfold float_mul. rewrite Uv, Up. fold two_1074. replace (Z.to_N (Z.abs x)) with (Z.to_N x) by lia. replace (Z.to_N (- x)) with 0 by lia. rewrite N.pow_0_r.
    replace (d * two_1074 * (10 ^ Z.to_N x * two_1074)) with (two_1074 * (d * 10 ^ Z.to_N x) * two_1074) by (generalize two_1074, (10 ^ Z.to_N x); intros; nia).
    assert (R := @ratio_scale (d * 10 ^ Z.to_N x) 1 two_1074 eq_refl two_pos). rewrite N.mul_1_r in R. rewrite R. apply ratio_iff. reflexivity.
  - unfold float_div. rewrite Uv, Up. fold two_1074. replace (Z.to_N (Z.abs x)) with (Z.to_N (- x)) by lia. replace (Z.to_N x) with 0 by lia. rewrite N.pow_0_r, N.mul_1_r.
    rewrite (N.mul_comm d two_1074), (N.mul_comm (10 ^ _) two_1074). rewrite ratio_scale by (reflexivity || apply ten_pos). apply ratio_iff. apply ten_pos.
Qed.

(** ** Reading *)
Definition grow (n : N) (ds : bytes) : N := fold_left (fun n c => n * 10 + (Byte.to_N c - 48)) ds n.
Lemma grow_le ds : forall n, n <= grow n ds.
Proof. induction ds as [|c ds IH]; intros n; cbn [grow fold_left]; [lia|]. specialize (IH (n * 10 + (Byte.to_N c - 48))). unfold grow in IH. lia. Qed.
Lemma int_fits ds : forall n, grow n ds < 2 ^ 64 -> fast_int n ds = (grow n ds, 0%Z).
Proof.
  induction ds as [|c ds IH]; intros n H; [reflexivity|]. cbn [fast_int]. change (grow n (c :: ds)) with (grow (n * 10 + (Byte.to_N c - 48)) ds) in *.
  assert (L := grow_le ds (n * 10 + (Byte.to_N c - 48))). destruct (N.ltb_spec (n * 10 + (Byte.to_N c - 48)) (2 ^ 64)); [|lia]. apply IH. exact H.
Qed.
Lemma frac_fits ds : forall n x, grow n ds < 2 ^ 64 -> fast_frac n x ds = (grow n ds, (x - Z.of_nat (length ds))%Z).
Proof.
  induction ds as [|c ds IH]; intros n x H; [cbn; f_equal; lia|]. cbn [fast_frac]. change (grow n (c :: ds)) with (grow (n * 10 + (Byte.to_N c - 48)) ds) in *.
  assert (L := grow_le ds (n * 10 + (Byte.to_N c - 48))). destruct (N.ltb_spec (n * 10 + (Byte.to_N c - 48)) (2 ^ 64)); [|lia]. rewrite IH by exact H. f_equal. cbn [length]. lia.
Qed.
Theorem read_fast_exact neg i f e : plain_decimal i f e -> read_fast (number_text neg i f e) = read_float (number_text neg i f e).
Proof.
  intros (Hi & Hf & He & Hd & Hx). destruct (@text_parts neg i f e Hi Hf He) as (S & P & R). rewrite read_float_text by assumption. unfold read_fast. rewrite S, P, R.
  assert (G : dec_value (i ++ tl f) = grow (grow 0 i) (tl f)) by (unfold dec_value, grow; apply fold_left_app). rewrite G in *.
  assert (L : grow (grow 0 i) (tl f) < 2 ^ 64) by (eapply N.le_lt_trans; [exact Hd|reflexivity]).
  rewrite int_fits by (eapply N.le_lt_trans; [apply (grow_le (tl f))|exact L]). rewrite frac_fits by exact L.
  destruct (nat_exact Hd) as (v & Ev & _). rewrite Ev. replace (0 - Z.of_nat (length (tl f)) + read_exp e)%Z with (power f e) by (unfold power; lia).
  rewrite (@parts_exact 2 _ (power f e) v Hd Hx Ev). reflexivity.
Qed.
Lemma ratio_finite p q m : 0 < q -> nearest_ratio p q = Some m -> m < infinity.
Proof.
  intros Q. unfold nearest_ratio. destruct (N.eqb_spec p 0); [intros H; apply some_inj in H; subst m; reflexivity|]. rewrite nearest_iff; [tauto| |rewrite units_zero; lia|reflexivity].
  intros a b H. apply N.mul_lt_mono_pos_r; [exact Q|]. apply units_mono. exact H.
Qed.
Lemma units_pos m : 0 < m -> 0 < units m. Proof. intros H. apply (units_mono (a := 0)). exact H. Qed.
Lemma pow10_pos k p : pow10 k = Some p -> 0 < p.
Proof.
  intros H. apply round_iff in H. change (Z.to_N 0) with 0 in H. change (Z.to_N (- 0)) with 0 in H. rewrite N.pow_0_r, N.mul_1_r in H. destruct (N.eq_dec p 0) as [->|]; [|lia]. exfalso.
  destruct H as (_ & _ & Bl). fold two_1074 in Bl. assert (T := ten_pos k). assert (U : units (0 + 1) = 1) by reflexivity. rewrite units_zero, U in Bl. assert (T2 := two_pos). assert (1 < two_1074) by reflexivity.
  set (t := two_1074) in *. clearbody t. nia.
Qed.
Lemma parts_finite fuel : forall f x m, f < infinity -> from_parts fuel f x = Some m -> m < infinity.
Proof.
  assert (Dv : forall f k p m, pow10 k = Some p -> float_div f p = Some m -> m < infinity).
  { intros f k p m Ep H. apply ratio_finite in H; [exact H|]. apply units_pos, (pow10_pos _ Ep). }
  assert (Step : forall f x m, match pow10 (Z.to_N (Z.abs x)) with Some p => if (0 <=? x)%Z then float_mul f p else float_div f p | None => None end = Some m -> m < infinity).
  { intros f x m. destruct (pow10 (Z.to_N (Z.abs x))) as [p|] eqn:Ep; [|discriminate]. destruct (0 <=? x)%Z; intros H; [apply ratio_finite in H; [exact H|reflexivity]|exact (Dv _ _ _ _ Ep H)]. }
  induction fuel as [|fuel IH]; intros f x m F; cbn [from_parts]; (destruct (Z.abs x <=? 308)%Z; [apply Step|]); (destruct (f =? 0); [intros H; apply some_inj in H; subst m; reflexivity|]);
    (destruct (0 <=? x)%Z; [discriminate|]).
  - intros H. apply some_inj in H. subst m. reflexivity.
  - destruct (pow10 308) as [p|] eqn:Ep; [|discriminate]. destruct (float_div f p) as [f'|] eqn:Ed; [|discriminate]. apply IH. exact (Dv _ _ _ _ Ep Ed).
Qed.
Theorem fast_finite t b : read_fast t = Some b -> finite b = true.
Proof.
  unfold read_fast. destruct (read_sign t) as [neg r]. destruct (span_digits r) as [i s]. destruct (read_frac s) as [f e]. destruct (fast_int 0 i) as [sig x]. destruct (fast_frac sig x f) as [sig' x'].
  destruct (float_nat sig') as [v|] eqn:Ev; [|discriminate]. apply round_iff in Ev. destruct (from_parts 2 v (x' + read_exp e)) as [m|] eqn:Ep; [|discriminate]. cbn [option_map]. intros H. apply some_inj in H. subst b.
  exact (proj1 (sign_parts neg (@parts_finite 2 _ _ _ (proj1 Ev) Ep))).
Qed.

(** ** The loop ends before its fuel *)
Lemma ratio_le p q m : 0 < q -> nearest_ratio p q = Some m -> units m * q <= 2 * p.
Proof.
  intros Q. unfold nearest_ratio. destruct (N.eqb_spec p 0) as [|Nz]; [intros H; apply some_inj in H; subst m; rewrite units_zero; lia|].
  rewrite nearest_iff; [|intros a b H; apply N.mul_lt_mono_pos_r; [exact Q|]; apply units_mono; exact H|rewrite units_zero; lia|reflexivity].
  intros (_ & A & _). unfold above in A. destruct A as [->|[A|[A _]]]; [rewrite units_zero|..]; lia.
Qed.
Lemma big_power : match pow10 308 with Some p => 2 ^ 2090 <=? units p | None => false end = true. Proof. vm_compute. reflexivity. Qed.
Lemma twice_zero p f g h : pow10 308 = Some p -> units f <= 2 ^ 65 * two_1074 -> float_div f p = Some g -> float_div g p = Some h -> h = 0.
Proof.
  intros Ep F G H. assert (Q := big_power). rewrite Ep in Q. apply N.leb_le in Q. assert (P := units_pos (pow10_pos _ Ep)).
  apply ratio_le in G, H; [|exact P|exact P]. fold two_1074 in G, H. destruct (N.eq_dec h 0) as [|Nz]; [assumption|]. exfalso. assert (U := units_pos (m := h) ltac:(lia)).
  assert (K : 2 ^ 67 * (two_1074 * (two_1074 * two_1074)) < 2 ^ 2090 * 2 ^ 2090) by (vm_compute; reflexivity).
  set (t := two_1074) in *. set (q := units p) in *. set (w := 2 ^ 2090) in *. set (a := units f) in *. set (b := units g) in *. set (c := units h) in *. change (2 ^ 67) with (4 * 2 ^ 65) in K. set (s := 2 ^ 65) in *. clearbody t q w a b c s.
  assert (K1 : w * w <= q * q) by (apply N.mul_le_mono; exact Q). assert (K2 : q * q <= c * q * q) by nia.
  assert (K3 : c * q * q <= 2 * (b * t) * q) by (apply N.mul_le_mono_r; exact H).
  assert (K4 : b * q * t <= 2 * (a * t) * t) by (apply N.mul_le_mono_r; exact G).
  assert (K5 : a * t * t <= s * t * t * t) by (apply N.mul_le_mono_r, N.mul_le_mono_r; exact F). nia.
Qed.
Lemma parts_zero fuel x : from_parts fuel 0 x = from_parts 0 0 x.
Proof. destruct fuel; reflexivity. Qed.
Theorem parts_fuel n f x : units f <= 2 ^ 65 * two_1074 -> from_parts (2 + n) f x = from_parts 2 f x.
Proof.
  intros F. change (2 + n)%nat with (S (S n)). cbn [from_parts]. destruct (Z.abs x <=? 308)%Z; [reflexivity|]. destruct (f =? 0); [reflexivity|]. destruct (0 <=? x)%Z; [reflexivity|].
  destruct (pow10 308) as [p|] eqn:Ep; [|reflexivity]. destruct (float_div f p) as [g|] eqn:G; [|reflexivity]. cbn [from_parts]. destruct (Z.abs (x + 308) <=? 308)%Z; [reflexivity|]. destruct (g =? 0); [reflexivity|].
  destruct (0 <=? x + 308)%Z; [reflexivity|]. destruct (float_div g p) as [h|] eqn:H; [|reflexivity]. rewrite (@twice_zero p f g h Ep F G H). apply parts_zero.
Qed.
Lemma frac_bound ds : forall n x, n < 2 ^ 64 -> fst (fast_frac n x ds) < 2 ^ 64.
Proof. induction ds as [|c ds IH]; intros n x H; cbn [fast_frac]; [exact H|]. destruct (N.ltb_spec (n * 10 + (Byte.to_N c - 48)) (2 ^ 64)) as [L|L]; [apply IH; exact L|exact H]. Qed.
Lemma int_bound ds : forall n, n < 2 ^ 64 -> fst (fast_int n ds) < 2 ^ 64.
Proof. induction ds as [|c ds IH]; intros n H; cbn [fast_int]; [exact H|]. destruct (N.ltb_spec (n * 10 + (Byte.to_N c - 48)) (2 ^ 64)) as [L|L]; [apply IH; exact L|exact H]. Qed.
Theorem significand_bound i f sig x sig' x' v : fast_int 0 i = (sig, x) -> fast_frac sig x f = (sig', x') -> float_nat sig' = Some v -> units v <= 2 ^ 65 * two_1074.
Proof.
  intros H1 H2 Hv. assert (B1 := int_bound i (n := 0) eq_refl). rewrite H1 in B1. assert (B2 := frac_bound f x (n := sig) B1). rewrite H2 in B2. cbn [fst] in B2. apply round_iff in Hv.
  change (Z.to_N 0) with 0 in Hv. change (Z.to_N (- 0)) with 0 in Hv. rewrite N.pow_0_r, N.mul_1_r in Hv. destruct Hv as (_ & A & _). fold two_1074 in A.
  change (2 ^ 65) with (2 * 2 ^ 64). set (s := 2 ^ 64) in *. set (t := two_1074) in *. clearbody s t. assert (sig' * t <= s * t) by (apply N.mul_le_mono_r; lia). destruct A as [->|[A|[A _]]]; [rewrite units_zero; lia|lia|lia].
Qed.

(** ** Documents *)
Section Documents.
  Variable D : deps.
  Hypothesis W : fast D.
  Lemma plain_float b : plain (Float b) -> json_reads D (Float b) (Float b).
  Proof.
    intros [[_ F] (neg & i & f & e & P & T)]. destruct (ryu_reads b F) as (g & i' & f' & e' & Hi & Hf & He & T' & Nz & R). exists g, i', f', e'. do 3 (split; [assumption|]).
    split; [cbn [serde_number]; rewrite (proj1 (proj1 W)); exact T'|].
    assert (R' : f64_parse D (number_text g i' f' e') = Some b) by (rewrite (proj2 W), <- R, <- T', T; apply read_fast_exact; exact P).
    unfold number_of. destruct f' as [|c f']; [destruct e' as [|c e']; [exfalso; auto|]|]; cbn [is_empty andb]; rewrite R'; reflexivity.
  Qed.
  Lemma plain_rereads n : plain n -> rereads D n.
  Proof.
    intros H. destruct n as [k|k|b]; [exact I|exact I|]. apply rereads_iff; [exact I|]. apply plain_float. exact H.
  Qed.
  Lemma vc_plain v : vc_shape plain v -> vc_wf D v.
  Proof.
    intros H. apply vc_shape_wf.
    - revert H. apply vc_shape_impl. intros [k|k|b] [[R F] _]; [exact R|exact R|exact I].
    - destruct H as (_ & _ & V & _). unfold vc_rereads. apply val_ok_numbers. revert V. apply val_ok_impl. exact plain_rereads.
  Qed.
  Lemma vp_plain v : vp_shape plain v -> vp_wf D v.
  Proof. intros (H1 & H2 & H3 & H4). split; [exact H1|]. split; [exact H2|]. split; [|exact H4]. eapply Forall_impl; [|exact H3]. exact vc_plain. Qed.
  Theorem vc_sent_plain kp v o v' : ed_correct D -> vc_shape plain v -> proof_wf o -> (depth (vc_subject v) <= 126)%nat ->
    vc_proof v = None -> p_value o = [] -> add_proof D (vc_proofable D) kp v o = Ok v' ->
    exists t, vc_to_json D v' = Ok (JSONValue t) /\
      verify_proof D (vc_proofable D) (ed_pub_key D kp) t (p_purpose o) = Ok {| verified := true; document := Some v |}.
  Proof. intros C S. apply (doc_transport (vc_doc_laws D)); [exact C|exact (vc_plain S)]. Qed.
  Theorem vp_sent_plain kp v o v' : ed_correct D -> vp_shape plain v -> proof_wf o -> Forall (fun c => (depth (vc_subject c) <= 124)%nat) (vp_credentials v) ->
    vp_proof v = None -> p_value o = [] -> add_proof D (vp_proofable D) kp v o = Ok v' ->
    exists t, vp_to_json D v' = Ok (JSONValue t) /\
      verify_proof D (vp_proofable D) (ed_pub_key D kp) t (p_purpose o) = Ok {| verified := true; document := Some v |}.
  Proof. intros C S. apply (doc_transport (vp_doc_laws D)); [exact C|exact (vp_plain S)]. Qed.
End Documents.
Theorem fast_plain_read D neg i f e b : fast D -> plain_decimal i f e ->
  (f64_parse D (number_text neg i f e) = Some b <->
   finite b = true /\ negative b = neg /\ is_nearest (numerator i f e) (denominator f e) (magnitude b)).
Proof. intros [_ P] H. rewrite P, read_fast_exact by exact H. destruct H as (Hi & Hf & He & _). apply read_nearest; assumption. Qed.


(** ** Any number's text *)
Lemma ratio_general p q m : 0 < q -> (nearest_ratio p q = Some m <-> rounds p (q * two_1074) m).
Proof.
  intros Q. assert (T := two_pos). destruct (N.eq_dec p 0) as [->|Nz].
  - change (nearest_ratio 0 q) with (nearest_ratio (0 * 2 ^ 1074) (q * two_1074)). apply ratio_iff. apply N.mul_pos_pos; assumption.
  - unfold nearest_ratio. destruct (N.eqb_spec p 0); [lia|]. rewrite nearest_iff.
    + unfold above, below, rounds. fold two_1074. rewrite <- !N.mul_add_distr_r. set (t := two_1074) in *. clearbody t. generalize (units (m - 1) + units m), (units m + units (m + 1)). intros a b.
      replace (a * (q * t)) with (t * (a * q)) by nia. replace (b * (q * t)) with (t * (b * q)) by nia. replace (2 * (p * t)) with (t * (2 * p)) by nia.
      rewrite <- !N.mul_lt_mono_pos_l by exact T. rewrite !N.mul_cancel_l by lia. reflexivity.
    + intros a b H. apply N.mul_lt_mono_pos_r; [exact Q|]. apply units_mono. exact H.
    + rewrite units_zero. lia.
    + reflexivity.
Qed.
Lemma mul_nearest a b m : float_mul a b = Some m <-> is_nearest (units a * units b) (2 ^ 2148) m.
Proof. unfold float_mul. fold two_1074. rewrite ratio_general by exact two_pos. replace (two_1074 * two_1074) with (2 ^ 2148) by (vm_compute; reflexivity). apply rounds_nearest. reflexivity. Qed.
Lemma div_nearest a b m : 0 < b -> (float_div a b = Some m <-> is_nearest (units a) (units b) m).
Proof. intros P. unfold float_div. rewrite ratio_iff by exact (units_pos P). apply rounds_nearest. exact (units_pos P). Qed.
Lemma nat_nearest k m : float_nat k = Some m <-> is_nearest k 1 m.
Proof. unfold float_nat. rewrite round_iff. change (Z.to_N 0) with 0. change (Z.to_N (- 0)) with 0. rewrite N.pow_0_r, N.mul_1_r. apply rounds_nearest. reflexivity. Qed.
Lemma pow_nearest k p : pow10 k = Some p <-> is_nearest (10 ^ k) 1 p.
Proof. exact (nat_nearest (10 ^ k) p). Qed.
Lemma parts_scaled n : forall v x m, (- x <= 308 * Z.of_nat n + 308)%Z -> from_parts n v x = Some m -> scaled v x m.
Proof.
  assert (Step : forall v x m, (Z.abs x <= 308)%Z -> match pow10 (Z.to_N (Z.abs x)) with Some p => if (0 <=? x)%Z then float_mul v p else float_div v p | None => None end = Some m -> scaled v x m).
  { intros v x m L H. destruct (pow10 (Z.to_N (Z.abs x))) as [p|] eqn:Ep; [|discriminate]. assert (Pp := pow10_pos _ Ep). apply pow_nearest in Ep. destruct (Z.leb_spec 0 x) as [G|G].
    - rewrite Z.abs_eq in Ep by exact G. apply mul_nearest in H. refine (@Multiplied v x p m _ Ep H). lia.
    - rewrite Z.abs_neq in Ep by lia. apply (div_nearest v m Pp) in H. refine (@Divided v x p m _ Ep H). lia. }
  induction n as [|n IH]; intros v x m B; cbn [from_parts]; (destruct (Z.leb_spec (Z.abs x) 308) as [L|L]; [apply Step; exact L|]);
    (destruct (N.eqb_spec v 0) as [->|Nz]; [intros H; apply some_inj in H; subst m; apply Nothing; lia|]); (destruct (Z.leb_spec 0 x) as [G|G]; [discriminate|]); [exfalso; lia|].
  destruct (pow10 308) as [p|] eqn:Ep; [|discriminate]. assert (Pp := pow10_pos _ Ep). destruct (float_div v p) as [v'|] eqn:Ed; [|discriminate]. intros H.
  apply (div_nearest v v' Pp) in Ed. apply pow_nearest in Ep. refine (@Again v x p v' m _ _ Ep Ed _); [lia|lia|]. apply IH; [lia|exact H].
Qed.
Lemma scaled_parts v x m : scaled v x m -> exists n, forall j, from_parts (n + j) v x = Some m.
Proof.
  induction 1 as [v x p m L P M|v x p m L P M|v x p v' m L V P Dv _ IH|x L].
  - exists 0%nat. intros j. apply pow_nearest in P. apply mul_nearest in M.
    destruct j; cbn [Nat.add from_parts]; (destruct (Z.leb_spec (Z.abs x) 308); [|lia]); rewrite Z.abs_eq by lia; rewrite P; (destruct (Z.leb_spec 0 x); [exact M|lia]).
  - exists 0%nat. intros j. apply pow_nearest in P. apply (div_nearest v m (pow10_pos _ P)) in M.
    destruct j; cbn [Nat.add from_parts]; (destruct (Z.leb_spec (Z.abs x) 308); [|lia]); rewrite Z.abs_neq by lia; rewrite P; (destruct (Z.leb_spec 0 x); [lia|exact M]).
  - destruct IH as [n IH]. exists (S n). intros j. cbn [Nat.add from_parts]. destruct (Z.leb_spec (Z.abs x) 308); [lia|]. destruct (N.eqb_spec v 0); [lia|]. destruct (Z.leb_spec 0 x); [lia|].
    apply pow_nearest in P. rewrite P. apply (div_nearest v v' (pow10_pos _ P)) in Dv. rewrite Dv. apply IH.
  - exists 0%nat. intros j. destruct j; cbn [Nat.add from_parts]; (destruct (Z.leb_spec (Z.abs x) 308); [lia|]); reflexivity.
Qed.
Theorem parts_iff v x m : units v <= 2 ^ 65 * two_1074 -> (from_parts 2 v x = Some m <-> scaled v x m).
Proof.
  intros U. split.
  - intros H. apply (@parts_scaled (2 + Z.to_nat (- x))); [lia|]. rewrite parts_fuel by exact U. exact H.
  - intros H. destruct (scaled_parts H) as [n E]. specialize (E 2%nat). rewrite Nat.add_comm, parts_fuel in E by exact U. exact E.
Qed.
Lemma grow_split ds : forall n, grow n ds = n * 10 ^ N.of_nat (length ds) + grow 0 ds.
Proof.
  induction ds as [|c ds IH]; intros n; [cbn; lia|]. change (grow n (c :: ds)) with (grow (n * 10 + (Byte.to_N c - 48)) ds). change (grow 0 (c :: ds)) with (grow (0 * 10 + (Byte.to_N c - 48)) ds).
  rewrite IH, (IH (0 * 10 + _)). cbn [length]. rewrite Nat2N.inj_succ, N.pow_succ_r'. generalize (10 ^ N.of_nat (length ds)), (Byte.to_N c - 48), (grow 0 ds). intros. nia.
Qed.
Lemma grow_below ds : Forall digit ds -> forall n, n * 10 ^ N.of_nat (length ds) <= grow n ds /\ grow n ds < (n + 1) * 10 ^ N.of_nat (length ds).
Proof.
  induction 1 as [|c ds Hc _ IH]; intros n; [cbn; lia|]. change (grow n (c :: ds)) with (grow (n * 10 + (Byte.to_N c - 48)) ds). destruct (IH (n * 10 + (Byte.to_N c - 48))) as [A B].
  cbn [length]. rewrite Nat2N.inj_succ, N.pow_succ_r'. unfold digit in Hc. assert (D : Byte.to_N c - 48 <= 9) by lia. set (d := Byte.to_N c - 48) in *. clearbody d. set (t := 10 ^ N.of_nat (length ds)) in *. clearbody t. split; nia.
Qed.
(** The first digit that does not fit. *)
Lemma int_kept ds : Forall digit ds -> forall n s x, n < 2 ^ 64 -> fast_int n ds = (s, x) ->
  s < 2 ^ 64 /\ (s = grow n ds /\ x = 0%Z \/
    exists d k, d <= 9 /\ 2 ^ 64 <= s * 10 + d /\ x = Z.of_N (k + 1) /\ (s * 10 + d) * 10 ^ k <= grow n ds /\ grow n ds < (s + 1) * 10 ^ (k + 1)).
Proof.
  induction 1 as [|c ds Hc Hd IH]; intros n s x L; cbn [fast_int]; [intros E; inversion E; subst; split; [exact L|left; split; reflexivity]|].
  destruct (N.ltb_spec (n * 10 + (Byte.to_N c - 48)) (2 ^ 64)) as [K|K]; [intros E; exact (IH _ _ _ K E)|]. intros E. inversion E; subst s x. split; [exact L|right].
  exists (Byte.to_N c - 48), (N.of_nat (length ds)). unfold digit in Hc. split; [lia|]. split; [exact K|]. split; [cbn [length]; lia|]. split.
  - apply (grow_below Hd).
  - destruct (grow_below (ds := c :: ds) (Forall_cons _ Hc Hd) n) as [_ B]. replace (N.of_nat (length ds) + 1) with (N.of_nat (length (c :: ds))) by (cbn [length]; lia). exact B.
Qed.
Lemma frac_kept ds : Forall digit ds -> forall n s x x', n < 2 ^ 64 -> fast_frac n x ds = (s, x') ->
  exists k, shortened (grow n ds) s k /\ x' = (x - Z.of_nat (length ds) + Z.of_N k)%Z.
Proof.
  induction 1 as [|c ds Hc Hd IH]; intros n s x x' L; cbn [fast_frac].
  - intros E. inversion E; subst. exists 0. split; [|cbn; lia]. unfold shortened. cbn. lia.
  - destruct (N.ltb_spec (n * 10 + (Byte.to_N c - 48)) (2 ^ 64)) as [K|K].
    + intros E. destruct (IH _ _ _ _ K E) as (k & S & X). exists k. split; [exact S|]. cbn [length]. lia.
    + intros E. inversion E; subst s x'. exists (N.of_nat (length (c :: ds))). split; [|lia]. destruct (grow_below (ds := c :: ds) (Forall_cons _ Hc Hd) n) as [A B].
      set (t := 10 ^ N.of_nat (length (c :: ds))) in *. unfold digit in Hc. split; [exact L|]. split; [exact A|]. split; [eapply N.lt_le_trans; [exact B|apply N.mul_le_mono_r; lia]|]. split; [cbn [length]; lia|lia].
Qed.
Theorem digits_kept i f s x s' x' : Forall digit i -> Forall digit f -> fast_int 0 i = (s, x) -> fast_frac s x f = (s', x') ->
  exists k, shortened (dec_value (i ++ f)) s' k /\ x' = (Z.of_N k - Z.of_nat (length f))%Z.
Proof.
  intros Hi Hf E F. assert (G : dec_value (i ++ f) = grow (grow 0 i) f) by (unfold dec_value, grow; apply fold_left_app). rewrite G. clear G.
  destruct (int_kept Hi (n := 0) eq_refl E) as [L [[-> ->]|(d & k & D & K & -> & A & B)]].
  - destruct (frac_kept Hf _ L F) as (k & S & ->). exists k. split; [exact S|lia].
  - destruct (grow_below Hf (grow 0 i)) as [A' B']. set (g := grow 0 i) in *. set (h := grow g f) in *. set (t := 10 ^ N.of_nat (length f)) in *.
    assert (T : 0 < t) by apply ten_pos. assert (P := ten_pos k). assert (Pk : 10 ^ (k + N.of_nat (length f)) = 10 ^ k * t) by apply N.pow_add_r.
    assert (Pk1 : 10 ^ (k + 1) = 10 * 10 ^ k) by (rewrite N.add_1_r; apply N.pow_succ_r').
    assert (Low : (s * 10 + d) * 10 ^ (k + N.of_nat (length f)) <= h).
    { rewrite Pk. eapply N.le_trans; [|exact A']. rewrite N.mul_assoc. apply N.mul_le_mono_r. exact A. }
    assert (High : h < (s * 10 + 10) * 10 ^ (k + N.of_nat (length f))).
    { rewrite Pk. eapply N.lt_le_trans; [exact B'|]. rewrite N.mul_assoc. apply N.mul_le_mono_r. rewrite Pk1 in B. set (w := 10 ^ k) in *. clearbody w g. nia. }
    set (w := 10 ^ (k + N.of_nat (length f))) in *.
    assert (Keep : exists j, shortened h s j /\ Z.of_N (k + 1) = (Z.of_N j - Z.of_nat (length f))%Z).
    { exists (k + 1 + N.of_nat (length f)). split; [|lia]. assert (W : 10 ^ (k + 1 + N.of_nat (length f)) = 10 * w) by (replace (k + 1 + N.of_nat (length f)) with (N.succ (k + N.of_nat (length f))) by lia; apply N.pow_succ_r').
      unfold shortened. rewrite W. assert (0 < w) by apply ten_pos. clearbody w h. clear - L K D Low High. repeat split; [exact L|nia|nia|lia|lia]. }
    destruct f as [|c r]; cbn [fast_frac] in F; [inversion F; subst s' x'; exact Keep|]. destruct (N.ltb_spec (s * 10 + (Byte.to_N c - 48)) (2 ^ 64)) as [M|M]; [|inversion F; subst s' x'; exact Keep].
    assert (Stop : fast_frac (s * 10 + (Byte.to_N c - 48)) (Z.of_N (k + 1) - 1) r = (s * 10 + (Byte.to_N c - 48), (Z.of_N (k + 1) - 1)%Z)).
    { destruct r as [|c' r]; [reflexivity|]. cbn [fast_frac]. destruct (N.ltb_spec ((s * 10 + (Byte.to_N c - 48)) * 10 + (Byte.to_N c' - 48)) (2 ^ 64)) as [M'|M']; [|reflexivity]. exfalso. lia. }
    rewrite Stop in F. clear Stop. inversion F; subst s' x'. set (d' := Byte.to_N c - 48) in *. exists (k + N.of_nat (length (c :: r))). fold w. split; [|lia].
    assert (d' < d) by lia. split; [exact M|]. fold w. split; [eapply N.le_trans; [|exact Low]; apply N.mul_le_mono_r; lia|]. split; [eapply N.lt_le_trans; [exact High|]; apply N.mul_le_mono_r; lia|].
    split; [cbn [length]; lia|lia].
Qed.
Theorem fast_read D neg i f e : fast D -> int_ok i -> frac_ok f -> exp_ok e ->
  exists s k, shortened (dec_value (i ++ tl f)) s k /\
    forall b, f64_parse D (number_text neg i f e) = Some b <->
      finite b = true /\ negative b = neg /\ exists v, is_nearest s 1 v /\ scaled v (power f e + Z.of_N k) (magnitude b).
Proof.
  intros [_ P] Hi Hf He. destruct (@text_parts neg i f e Hi Hf He) as (S & Q & R).
  assert (Fi : Forall digit i) by apply Hi. assert (Ff : Forall digit (tl f)) by (destruct Hf as [->|(ds & -> & _ & Fd)]; [constructor|exact Fd]).
  destruct (fast_int 0 i) as [s x] eqn:Ei. destruct (fast_frac s x (tl f)) as [s' x'] eqn:Ef. destruct (digits_kept Fi Ff Ei Ef) as (k & Sh & X). exists s', k. split; [exact Sh|].
  intros b. rewrite P. unfold read_fast. rewrite S, Q, R, Ei, Ef. replace (x' + read_exp e)%Z with (power f e + Z.of_N k)%Z by (unfold power; lia). split.
  - destruct (float_nat s') as [v|] eqn:Ev; [|discriminate]. destruct (from_parts 2 v (power f e + Z.of_N k)) as [m|] eqn:Em; [|discriminate]. cbn [option_map]. intros H. apply some_inj in H. subst b.
    assert (Fv : v < infinity) by (apply round_iff in Ev; exact (proj1 Ev)). destruct (sign_parts neg (@parts_finite 2 _ _ _ Fv Em)) as (F & N & M).
    split; [exact F|]. split; [exact N|]. rewrite M. exists v. split; [apply nat_nearest; exact Ev|]. apply parts_iff; [exact (significand_bound _ _ Ei Ef Ev)|exact Em].
  - intros (F & N & v & Nv & Sc). apply nat_nearest in Nv. rewrite Nv. apply (fun H => proj2 (@parts_iff v _ _ H)) in Sc; [|exact (significand_bound _ _ Ei Ef Nv)]. rewrite Sc. cbn [option_map].
    destruct (finite_parts b F) as [_ Eb]. rewrite N in Eb. congruence.
Qed.
