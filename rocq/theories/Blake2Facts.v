(** BLAKE2b and Argon2's compression function of [Argon2] are those of [Blake2Spec]. *)
From Coq Require Import Arith ZArith Lia Bool ZifyBool ZifyNat ZifyN.
From Verif Require Import Base BaseFacts Codec Hash HashFacts DigestFacts AeadFacts Ed25519 ShaSpec ShaFacts ShaWorld ArxSpec ArxFacts Argon2 Argon2Spec Argon2Facts Blake2Spec.
Local Open Scope N_scope.

Notation M64 := (2 ^ 64).
Definition fit (l : list N) : Prop := Forall (fun x => x < M64) l.
Lemma m64 : M64 <> 0.
Proof. discriminate. Qed.
Lemma mod64 x : x mod M64 < M64.
Proof. apply N.mod_lt, m64. Qed.
Lemma fit_nth l i : fit l -> nth i l 0 < M64.
Proof. intros H. destruct (nth_in_or_default i l 0) as [I|E]; [|rewrite E; reflexivity]. unfold fit in H. rewrite Forall_forall in H. now apply H. Qed.
Lemma xor_fit x y : x < M64 -> y < M64 -> N.lxor x y < M64.
Proof. intros X Y. apply small_bits. intros i L. rewrite N.lxor_spec, !(high 64) by assumption. reflexivity. Qed.
Lemma nth_zip : forall a b i, length a = length b -> nth i (zip_xor a b) 0 = N.lxor (nth i a 0) (nth i b 0).
Proof.
  induction a as [|x a IH]; intros [|y b] i L; try discriminate L; [now destruct i|]. injection L as L. cbn [zip_xor]. destruct i as [|i]; [reflexivity|]. cbn [nth]. now apply IH.
Qed.
Lemma fit_zip : forall a b, fit a -> fit b -> fit (zip_xor a b).
Proof.
  induction a as [|x a IH]; intros [|y b] A B; cbn [zip_xor]; try constructor.
  - inversion A; inversion B; subst. now apply xor_fit.
  - inversion A; inversion B; subst. now apply IH.
Qed.

(** * Stirring *)
Definition spin64 (r x y : N) : N := rotr 64 r (N.lxor x y).
Lemma spin64_fit r x y : x < M64 -> y < M64 -> r < 64 -> spin64 r x y < M64.
Proof.
  intros X Y R. apply small_bits. intros i L. unfold spin64. rewrite rotr_bit by (try apply xor_fit; assumption). now rewrite (proj2 (N.ltb_ge i 64)).
Qed.
Lemma turned64_iff r x y z : x < M64 -> y < M64 -> r < 64 -> (turned64 r x y z <-> z = spin64 r x y).
Proof.
  intros X Y R. assert (T : forall i, i < 64 -> N.testbit (spin64 r x y) i = xorb (N.testbit x ((i + r) mod 64)) (N.testbit y ((i + r) mod 64))).
  { intros i L. unfold spin64. rewrite rotr_bit by (try apply xor_fit; assumption). rewrite N.lxor_spec, (proj2 (N.ltb_lt i 64)) by exact L. reflexivity. }
  pose proof (spin64_fit r x y X Y R) as S. unfold turned64. split.
  - intros [Z H]. apply (eq_bits 64); [exact Z|exact S|]. intros i L. now rewrite T, H.
  - intros ->. split; [exact S|exact T].
Qed.
Definition fit4 (q : N * N * N * N) : Prop := let '(a, b, c, d) := q in a < M64 /\ b < M64 /\ c < M64 /\ d < M64.
Lemma line_fit s j v : fit v -> fit4 (line s j v).
Proof. intros H. cbn [line fit4]. repeat split; now apply fit_nth. Qed.
Lemma p_fit q : fit4 q -> p0 q < M64 /\ p1 q < M64 /\ p2 q < M64 /\ p3 q < M64.
Proof. now destruct q as [[[a b] c] d]. Qed.
Lemma spread_fit q : (forall j, fit4 (q j)) -> fit (spread0 q) /\ fit (spread1 q).
Proof. intros H. split; repeat constructor; apply p_fit, H. Qed.
Section Stir64.
  (** The addition of the model is that of the specification, up to multiples of 2^64. *)
  Variables sum add : N -> N -> N.
  Hypothesis SA : forall a b, add a b = sum a b mod M64.
  Definition stir64 (mx my : N) (q : N * N * N * N) : N * N * N * N :=
    let '(a, b, c, d) := q in
    let a1 := wadd 64 (add a b) mx in let d1 := spin64 32 d a1 in let c1 := add c d1 in let b1 := spin64 24 b c1 in
    let a2 := wadd 64 (add a1 b1) my in let d2 := spin64 16 d1 a2 in let c2 := add c1 d2 in let b2 := spin64 63 b1 c2 in
    (a2, b2, c2, d2).
  Lemma add_fit a b : add a b < M64.
  Proof. rewrite SA. apply mod64. Qed.
  Lemma wadd_fit a b : wadd 64 a b < M64.
  Proof. rewrite wadd_mod. apply mod64. Qed.
  Lemma wadd_sum a b x : wadd 64 (add a b) x = (sum a b + x) mod M64.
  Proof. rewrite wadd_mod, SA. apply N.add_mod_idemp_l. exact m64. Qed.
  Lemma stir64_fit mx my q : fit4 q -> fit4 (stir64 mx my q).
  Proof.
    destruct q as [[[a b] c] d]. intros (A & B & C & D). cbn [stir64 fit4].
    repeat match goal with |- _ /\ _ => split end; repeat (apply add_fit || apply wadd_fit || apply spin64_fit || assumption || reflexivity).
  Qed.
  Lemma stirred64_iff mx my q q' : fit4 q -> (stirred64 sum mx my q q' <-> q' = stir64 mx my q).
  Proof.
    destruct q as [[[a b] c] d]. destruct q' as [[[a' b'] c'] d'].
    intros (A & B & C & D). cbn [stir64 stirred64]. split.
    - intros (a1 & b1 & c1 & d1 & E1 & E2 & E3 & E4 & E5 & E6 & E7 & E8).
      rewrite <- wadd_sum in E1, E5. rewrite <- SA in E3, E7.
      assert (A1 : a1 < M64) by (rewrite E1; apply wadd_fit). assert (A2 : a' < M64) by (rewrite E5; apply wadd_fit).
      assert (C1 : c1 < M64) by (rewrite E3; apply add_fit). assert (C2 : c' < M64) by (rewrite E7; apply add_fit).
      apply turned64_iff in E2; [|assumption|assumption|reflexivity].
      apply turned64_iff in E4; [|assumption|assumption|reflexivity].
      assert (D1 : d1 < M64) by (rewrite E2; apply spin64_fit; [assumption|assumption|reflexivity]).
      assert (B1 : b1 < M64) by (rewrite E4; apply spin64_fit; [assumption|assumption|reflexivity]).
      apply turned64_iff in E6; [|assumption|assumption|reflexivity].
      apply turned64_iff in E8; [|assumption|assumption|reflexivity].
      subst. reflexivity.
    - intros E. injection E as -> -> -> ->. exists (wadd 64 (add a b) mx), (spin64 24 b (add c (spin64 32 d (wadd 64 (add a b) mx)))), (add c (spin64 32 d (wadd 64 (add a b) mx))), (spin64 32 d (wadd 64 (add a b) mx)).
      assert (A1 : wadd 64 (add a b) mx < M64) by apply wadd_fit. assert (D1 : spin64 32 d (wadd 64 (add a b) mx) < M64) by (apply spin64_fit; [assumption|assumption|reflexivity]).
      split; [apply wadd_sum|]. set (a1 := wadd 64 (add a b) mx) in *. split; [apply turned64_iff; [assumption|assumption|reflexivity|reflexivity]|]. set (d1 := spin64 32 d a1) in *.
      split; [apply SA|]. assert (C1 : add c d1 < M64) by apply add_fit. set (c1 := add c d1) in *. split; [apply turned64_iff; [assumption|assumption|reflexivity|reflexivity]|].
      assert (B1 : spin64 24 b c1 < M64) by (apply spin64_fit; [assumption|assumption|reflexivity]). set (b1 := spin64 24 b c1) in *.
      split; [apply wadd_sum|]. split; [apply turned64_iff; [assumption|apply wadd_fit|reflexivity|reflexivity]|]. split; [apply SA|].
      apply turned64_iff; [assumption|apply add_fit|reflexivity|reflexivity].
  Qed.
  (** * Rounds *)
  Definition stirs64 (s : nat) (m v : list N) (j : nat) : N * N * N * N := stir64 (nth (8 * s + 2 * j) m 0) (nth (8 * s + 2 * j + 1) m 0) (line s j v).
  Lemma stirs64_fit s m v j : fit v -> fit4 (stirs64 s m v j).
  Proof. intros O. apply stir64_fit. now apply line_fit. Qed.
  Lemma half64_0 m v v' : fit v -> (half64 sum 0 m v v' <-> v' = spread0 (stirs64 0 m v)).
  Proof.
    intros O. unfold half64. split.
    - intros [L H]. apply spread0_line; [exact L|]. intros j J. apply stirred64_iff; [now apply line_fit|now apply H].
    - intros ->. split; [reflexivity|]. intros j J. apply stirred64_iff; [now apply line_fit|now apply line_spread0].
  Qed.
  Lemma half64_1 m v v' : fit v -> (half64 sum 1 m v v' <-> v' = spread1 (stirs64 1 m v)).
  Proof.
    intros O. unfold half64. split.
    - intros [L H]. apply spread1_line; [exact L|]. intros j J. apply stirred64_iff; [now apply line_fit|now apply H].
    - intros ->. split; [reflexivity|]. intros j J. apply stirred64_iff; [now apply line_fit|now apply line_spread1].
  Qed.
  Definition round64 (m v : list N) : list N := spread1 (stirs64 1 m (spread0 (stirs64 0 m v))).
  Lemma full64_round m v v' : fit v -> (full64 sum m v v' <-> v' = round64 m v).
  Proof.
    intros O. assert (O1 : fit (spread0 (stirs64 0 m v))) by (apply spread_fit; intros j; now apply stirs64_fit). unfold full64. split.
    - intros (v1 & H1 & H2). apply half64_0 in H1; [|exact O]. subst v1. now apply half64_1 in H2.
    - intros ->. eexists. split; [now apply half64_0|now apply half64_1].
  Qed.
  Lemma round64_fit m v : fit v -> fit (round64 m v).
  Proof. intros O. apply spread_fit. intros j. apply stirs64_fit. apply spread_fit. intros i. now apply stirs64_fit. Qed.
  Lemma mix_list v i j k l mx my : mix add v i j k l mx my = let q := stir64 mx my (nth i v 0, nth j v 0, nth k v 0, nth l v 0) in
    set_nth i (p0 q) (set_nth j (p1 q) (set_nth k (p2 q) (set_nth l (p3 q) v))).
  Proof. reflexivity. Qed.
  Section Explicit.
    Local Opaque stir64.
    Variables x0 x1 x2 x3 x4 x5 x6 x7 x8 x9 x10 x11 x12 x13 x14 x15 : N.
    Lemma mix_0 mx my : mix add [x0; x1; x2; x3; x4; x5; x6; x7; x8; x9; x10; x11; x12; x13; x14; x15] 0 4 8 12 mx my = let q := stir64 mx my (x0, x4, x8, x12) in [p0 q; x1; x2; x3; p1 q; x5; x6; x7; p2 q; x9; x10; x11; p3 q; x13; x14; x15].
    Proof. rewrite mix_list. reflexivity. Qed.
    Lemma mix_1 mx my : mix add [x0; x1; x2; x3; x4; x5; x6; x7; x8; x9; x10; x11; x12; x13; x14; x15] 1 5 9 13 mx my = let q := stir64 mx my (x1, x5, x9, x13) in [x0; p0 q; x2; x3; x4; p1 q; x6; x7; x8; p2 q; x10; x11; x12; p3 q; x14; x15].
    Proof. rewrite mix_list. reflexivity. Qed.
    Lemma mix_2 mx my : mix add [x0; x1; x2; x3; x4; x5; x6; x7; x8; x9; x10; x11; x12; x13; x14; x15] 2 6 10 14 mx my = let q := stir64 mx my (x2, x6, x10, x14) in [x0; x1; p0 q; x3; x4; x5; p1 q; x7; x8; x9; p2 q; x11; x12; x13; p3 q; x15].
    Proof. rewrite mix_list. reflexivity. Qed.
    Lemma mix_3 mx my : mix add [x0; x1; x2; x3; x4; x5; x6; x7; x8; x9; x10; x11; x12; x13; x14; x15] 3 7 11 15 mx my = let q := stir64 mx my (x3, x7, x11, x15) in [x0; x1; x2; p0 q; x4; x5; x6; p1 q; x8; x9; x10; p2 q; x12; x13; x14; p3 q].
    Proof. rewrite mix_list. reflexivity. Qed.
    Lemma mix_4 mx my : mix add [x0; x1; x2; x3; x4; x5; x6; x7; x8; x9; x10; x11; x12; x13; x14; x15] 0 5 10 15 mx my = let q := stir64 mx my (x0, x5, x10, x15) in [p0 q; x1; x2; x3; x4; p1 q; x6; x7; x8; x9; p2 q; x11; x12; x13; x14; p3 q].
    Proof. rewrite mix_list. reflexivity. Qed.
    Lemma mix_5 mx my : mix add [x0; x1; x2; x3; x4; x5; x6; x7; x8; x9; x10; x11; x12; x13; x14; x15] 1 6 11 12 mx my = let q := stir64 mx my (x1, x6, x11, x12) in [x0; p0 q; x2; x3; x4; x5; p1 q; x7; x8; x9; x10; p2 q; p3 q; x13; x14; x15].
    Proof. rewrite mix_list. reflexivity. Qed.
    Lemma mix_6 mx my : mix add [x0; x1; x2; x3; x4; x5; x6; x7; x8; x9; x10; x11; x12; x13; x14; x15] 2 7 8 13 mx my = let q := stir64 mx my (x2, x7, x8, x13) in [x0; x1; p0 q; x3; x4; x5; x6; p1 q; p2 q; x9; x10; x11; x12; p3 q; x14; x15].
    Proof. rewrite mix_list. reflexivity. Qed.
    Lemma mix_7 mx my : mix add [x0; x1; x2; x3; x4; x5; x6; x7; x8; x9; x10; x11; x12; x13; x14; x15] 3 4 9 14 mx my = let q := stir64 mx my (x3, x4, x9, x14) in [x0; x1; x2; p0 q; p1 q; x5; x6; x7; x8; p2 q; x10; x11; x12; x13; p3 q; x15].
    Proof. rewrite mix_list. reflexivity. Qed.
  End Explicit.
  Local Opaque mix stir64.
  Lemma mix_round_eq v m : length v = 16%nat -> mix_round add v m = round64 m v.
  Proof.
    intros L. destruct (sixteen v L) as (x0 & x1 & x2 & x3 & x4 & x5 & x6 & x7 & x8 & x9 & x10 & x11 & x12 & x13 & x14 & x15 & ->). unfold mix_round. cbv zeta.
    rewrite mix_0. cbv zeta. rewrite mix_1. cbv zeta. rewrite mix_2. cbv zeta. rewrite mix_3. cbv zeta.
    rewrite mix_4. cbv zeta. rewrite mix_5. cbv zeta. rewrite mix_6. cbv zeta. rewrite mix_7. reflexivity.
  Qed.
  Lemma mix_round_fit v m : length v = 16%nat -> fit v -> fit (mix_round add v m).
  Proof. intros L O. rewrite mix_round_eq by exact L. now apply round64_fit. Qed.
  Theorem full64_iff m v v' : length v = 16%nat -> fit v -> (full64 sum m v v' <-> v' = mix_round add v m).
  Proof. intros L O. rewrite mix_round_eq by exact L. now apply full64_round. Qed.
End Stir64.
Lemma wadd_add a b : wadd 64 a b = (a + b) mod M64.
Proof. apply wadd_mod. Qed.
Lemma blamka_sum a b : blamka a b = product_sum a b mod M64.
Proof. unfold blamka, product_sum. rewrite !wmask_mod, N.mul_assoc. reflexivity. Qed.
Global Opaque mix_round.

(** * BLAKE2b's compression *)
Section Chain.
  Context {A : Type} (good : A -> Prop) (R : nat -> A -> A -> Prop) (F : nat -> A -> A).
  Hypothesis RF : forall r v v', good v -> (R r v v' <-> v' = F r v).
  Hypothesis GF : forall r v, good v -> good (F r v).
  Lemma chain_good l : forall v, good v -> good (fold_left (fun v r => F r v) l v).
  Proof. induction l as [|r l IH]; intros v G; [exact G|]. apply IH, GF, G. Qed.
  Lemma chain_iff n v v' : good v ->
    ((exists state : nat -> A, state 0%nat = v /\ state n = v' /\ forall r, (r < n)%nat -> R r (state r) (state (S r))) <-> v' = fold_left (fun v r => F r v) (seq 0 n) v).
  Proof.
    intros G. split.
    - intros (st & E0 & <- & H). assert (K : forall k, (k <= n)%nat -> st k = fold_left (fun v r => F r v) (seq 0 k) v); [|now apply K].
      induction k as [|k IH]; intros L; [exact E0|]. rewrite seq_S, fold_left_app. cbn [fold_left Nat.add]. rewrite <- IH by lia.
      apply RF; [|apply H; lia]. rewrite IH by lia. now apply chain_good.
    - intros ->. exists (fun k => fold_left (fun v r => F r v) (seq 0 k) v). split; [reflexivity|]. split; [reflexivity|]. intros r _.
      apply RF; [now apply chain_good|]. now rewrite seq_S, fold_left_app.
  Qed.
End Chain.
Definition good16 (v : list N) : Prop := length v = 16%nat /\ fit v.
Lemma good16_round sum add : (forall a b, add a b = sum a b mod M64) -> forall v m, good16 v -> good16 (mix_round add v m).
Proof. intros SA v m [L O]. split; [now apply mix_round_len|exact (mix_round_fit sum add SA v m L O)]. Qed.
Lemma sigma_orders : sigma ++ firstn 2 sigma = map (fun r => map (order r) (seq 0 16)) (seq 0 12).
Proof. vm_compute. reflexivity. Qed.
Definition rounds12 (m v : list N) : list N := fold_left (fun v s => mix_round (wadd 64) v (map (fun i => nth i m 0) s)) (sigma ++ firstn 2 sigma) v.
Lemma fold_map {A B C} (f : A -> C -> A) (g : B -> C) l : forall a, fold_left f (map g l) a = fold_left (fun a b => f a (g b)) l a.
Proof. induction l as [|b l IH]; intros a; [reflexivity|]. cbn [map fold_left]. apply IH. Qed.
Lemma fold_same {A B} (f g : A -> B -> A) : (forall a b, f a b = g a b) -> forall l a, fold_left f l a = fold_left g l a.
Proof. intros H. induction l as [|b l IH]; intros a; [reflexivity|]. cbn [fold_left]. rewrite H. apply IH. Qed.
Lemma rounds12_seq m v : rounds12 m v = fold_left (fun v r => mix_round (wadd 64) v (ordered r m)) (seq 0 12) v.
Proof.
  unfold rounds12. rewrite sigma_orders, fold_map. apply fold_same. intros w r. apply (f_equal (mix_round (wadd 64) w)). apply map_map.
Qed.
Lemma twelve_iff m v v' : good16 v -> (twelve_rounds m v v' <-> v' = rounds12 m v) /\ good16 (rounds12 m v).
Proof.
  intros G. rewrite rounds12_seq. split.
  - apply (chain_iff good16 (fun r => full64 N.add (ordered r m)) (fun r v => mix_round (wadd 64) v (ordered r m))); [| |exact G].
    + intros r w w' [L O]. apply full64_iff; [exact wadd_add|exact L|exact O].
    + intros r w W. apply (good16_round N.add); [exact wadd_add|exact W].
  - apply (chain_good good16 (fun r v => mix_round (wadd 64) v (ordered r m))); [|exact G]. intros r w W. apply (good16_round N.add); [exact wadd_add|exact W].
Qed.
Definition good8 (h : list N) : Prop := length h = 8%nat /\ fit h.
Lemma tail_eq t (last : bool) : zip_xor iv512 [0; 0; 0; 0; wmask 64 t; N.shiftr t 64; (if last then N.ones 64 else 0); 0] =
  firstn 4 iv512 ++ [N.lxor (nth 4 iv512 0) (t mod 2 ^ 64); N.lxor (nth 5 iv512 0) (t / 2 ^ 64); (if last then 2 ^ 64 - 1 - nth 6 iv512 0 else nth 6 iv512 0); nth 7 iv512 0].
Proof. rewrite wmask_mod, N.shiftr_div_pow2. generalize (t mod 2 ^ 64) (t / 2 ^ 64). intros x y. destruct last; reflexivity. Qed.
Section Compress2.
  Variables (h : list N) (t : N) (last : bool).
  Hypothesis G : good8 h.
  Hypothesis T : t < 2 ^ 128.
  Let v : list N := h ++ zip_xor iv512 [0; 0; 0; 0; wmask 64 t; N.shiftr t 64; (if last then N.ones 64 else 0); 0].
  Lemma v_good : good16 v.
  Proof.
    destruct G as [L O]. unfold v. split; [rewrite app_length, L, zip_xor_len; reflexivity|]. apply Forall_app. split; [exact O|]. apply fit_zip; [repeat constructor|].
    repeat constructor; [rewrite wmask_mod; apply mod64| |destruct last; reflexivity]. rewrite N.shiftr_div_pow2. apply N.div_lt_upper_bound; [discriminate|]. exact T.
  Qed.
  Lemma b2_out b : b2_compress h b t last = map (fun i => N.lxor (nth i h 0) (N.lxor (nth i (rounds12 (b2_words b) v) 0) (nth (8 + i) (rounds12 (b2_words b) v) 0))) (seq 0 8).
  Proof.
    unfold b2_compress. cbv zeta. fold v. fold (rounds12 (b2_words b) v). destruct (twelve_iff (b2_words b) v (rounds12 (b2_words b) v) v_good) as [_ [L _]].
    revert L. generalize (rounds12 (b2_words b) v). intros r L. destruct G as [Lh _]. clear G v. apply (nth_ext _ _ 0 0).
    - rewrite !zip_xor_len, firstn_length, skipn_length, L, Lh, map_length. reflexivity.
    - intros i I. rewrite !zip_xor_len, firstn_length, skipn_length, L, Lh in I. cbn in I. rewrite nth_map_seq by exact I.
      rewrite !nth_zip by (rewrite ?zip_xor_len, firstn_length, skipn_length, L, ?Lh; reflexivity). do 2 f_equal.
      + destruct (sixteen r L) as (x0 & x1 & x2 & x3 & x4 & x5 & x6 & x7 & x8 & x9 & x10 & x11 & x12 & x13 & x14 & x15 & ->). do 8 (destruct i as [|i]; [reflexivity|]). lia.
      + destruct (sixteen r L) as (x0 & x1 & x2 & x3 & x4 & x5 & x6 & x7 & x8 & x9 & x10 & x11 & x12 & x13 & x14 & x15 & ->). do 8 (destruct i as [|i]; [reflexivity|]). lia.
  Qed.
  Lemma b2_good b : good8 (b2_compress h b t last).
  Proof.
    destruct (twelve_iff (b2_words b) v (rounds12 (b2_words b) v) v_good) as [_ [L O]]. rewrite b2_out. split; [reflexivity|]. apply Forall_forall. intros x X.
    apply in_map_iff in X as (i & <- & _). destruct G as [_ Oh]. apply xor_fit; [now apply fit_nth|]. apply xor_fit; now apply fit_nth.
  Qed.
  Lemma compressed2_iff b h' : compressed2 iv512 h (b2_words b) t last h' <-> h' = b2_compress h b t last.
  Proof.
    rewrite b2_out. unfold compressed2. rewrite <- tail_eq. fold v. split.
    - intros (v0 & v' & -> & H1 & H2 & H3). apply twelve_iff in H1; [|exact v_good]. subst v'. rewrite (list_map_seq h' 8 H2). apply map_ext_in. intros i I. apply in_seq in I. apply H3. lia.
    - intros ->. exists v, (rounds12 (b2_words b) v). split; [reflexivity|]. split; [apply twelve_iff; [exact v_good|reflexivity]|]. split; [reflexivity|].
      intros i I. now rewrite (nth_map_seq (fun i => N.lxor (nth i h 0) (N.lxor (nth i (rounds12 (b2_words b) v) 0) (nth (8 + i) (rounds12 (b2_words b) v) 0)))).
  Qed.
End Compress2.

(** * Texts as words *)
Lemma words64_map n (b : bytes) : length b = (n * 8)%nat -> map le_word (chunks 8 b) = map (fun i => word64 i b) (seq 0 n).
Proof.
  intros L. apply (nth_ext _ _ 0 0).
  - rewrite !map_length, seq_length. apply (chunks_fuel_count 8%nat ltac:(lia)); [exact L|reflexivity].
  - intros i I. rewrite map_length in I. unfold chunks in I. rewrite (chunks_fuel_count 8%nat ltac:(lia) _ n) in I by (try exact L; reflexivity).
    change 0 with (le_word []) at 1. rewrite map_nth. unfold chunks. rewrite (chunks_fuel_nth 8%nat ltac:(lia) _ _ _ (le_n _)).
    rewrite (nth_indep _ 0 (word64 0%nat b)) by (rewrite map_length, seq_length; exact I). rewrite (map_nth (fun i => word64 i b)), seq_nth by exact I.
    unfold word64. rewrite <- little_word. do 3 f_equal. lia.
Qed.
Lemma word64_zeros i b n : word64 i (b ++ repeat x00 n) = word64 i b.
Proof. unfold word64. rewrite skipn_app, skipn_zeros, firstn_app, firstn_zeros. apply little_zeros. Qed.
Lemma word64_fit i b : word64 i b < M64.
Proof.
  unfold word64. eapply N.lt_le_trans; [apply little_bound|]. change M64 with (256 ^ 8). apply N.pow_le_mono_r; [discriminate|]. rewrite firstn_length. lia.
Qed.
Lemma message64_iff b m : (length b <= 128)%nat -> (message64 b m <-> m = b2_words b).
Proof.
  intros L. unfold b2_words. rewrite firstn_app, firstn_all2, firstn_zeros by exact L. rewrite (words64_map 16) by (rewrite app_length, repeat_length; lia). unfold message64. split.
  - intros [Lm H]. rewrite (list_map_seq m 16 Lm). apply map_ext_in. intros i I. apply in_seq in I. rewrite word64_zeros. apply H. lia.
  - intros ->. split; [now rewrite map_length, seq_length|]. intros i I. rewrite (nth_map_seq (fun i => word64 i (b ++ _))) by exact I. apply word64_zeros.
Qed.
(** A text is determined by its words. *)
Lemma words64_text n : forall (d : bytes) (f : nat -> N), length d = (n * 8)%nat -> (forall i, (i < n)%nat -> f i < M64) ->
  ((forall i, (i < n)%nat -> word64 i d = f i) <-> d = flat_map (le_bytes 8) (map f (seq 0 n))).
Proof.
  induction n as [|n IH]; intros d f L F.
  - split; [intros _; destruct d; [reflexivity|discriminate]|intros _ i I; lia].
  - assert (L1 : length (firstn 8 d) = 8%nat) by (rewrite firstn_length; lia). assert (L2 : length (skipn 8 d) = (n * 8)%nat) by (rewrite skipn_length; lia).
    assert (W : forall i, word64 (S i) d = word64 i (skipn 8 d)) by (intros i; unfold word64; rewrite skipn_skipn; do 3 f_equal; lia).
    specialize (IH (skipn 8 d) (fun i => f (S i)) L2). cbn [seq map flat_map]. rewrite <- seq_shift, map_map.
    pose proof (eq_sym (firstn_skipn 8 d)) as Ed. split.
    + intros H. transitivity (firstn 8 d ++ skipn 8 d); [exact Ed|]. f_equal.
      * apply little_inj; [now rewrite le_bytes_len|]. rewrite little_bytes. specialize (H 0%nat ltac:(lia)). unfold word64 in H. cbn [Nat.mul] in H. rewrite skipn_O in H. rewrite H.
        symmetry. apply N.mod_small. apply F. lia.
      * apply IH; [intros i I; apply F; lia|]. intros i I. rewrite <- W. apply H. lia.
    + intros E. rewrite Ed in E. apply app_eq_length in E as [E1 E2]; [|rewrite L1, le_bytes_len; reflexivity]. intros [|i] I.
      * unfold word64. cbn [Nat.mul]. rewrite skipn_O, E1, little_bytes. apply N.mod_small. apply F. lia.
      * rewrite W. apply IH; [intros k K; apply F; lia|exact E2|lia].
Qed.

(** * Blocks *)
Lemma chunks128_next (b rest : bytes) : length b = 128%nat -> rest <> [] -> exists x y, chunks 128 (b ++ rest) = b :: x :: y /\ chunks 128 rest = x :: y.
Proof.
  intros L R. rewrite chunks_next by (exact L || lia). destruct rest as [|z t]; [congruence|]. unfold chunks. exists (firstn 128 (z :: t)), (chunks_fuel (length t) 128 (skipn 128 (z :: t))). split; reflexivity.
Qed.
Lemma last_block t h data : (length data <= 128)%nat -> good8 h -> t + N.of_nat (length data) < 2 ^ 128 ->
  b2_blocks h t (chunks 128 data) = b2_compress h data (t + N.of_nat (length data)) true.
Proof.
  intros D O T. destruct data as [|x data]; [cbn; now rewrite N.add_0_r|]. rewrite chunks_one by (discriminate || exact D). reflexivity.
Qed.
Lemma absorbed2_iff n : forall data t h h', (length data <= n)%nat -> t + N.of_nat (length data) < 2 ^ 128 -> good8 h ->
  (absorbed2 iv512 t h data h' <-> h' = b2_blocks h t (chunks 128 data)) /\ good8 (b2_blocks h t (chunks 128 data)).
Proof.
  induction n as [n IH] using (well_founded_induction lt_wf). intros data t h h' L T O. destruct (le_lt_dec (length data) 128) as [D|D].
  - rewrite last_block by assumption. pose proof (compressed2_iff h _ true O T data h') as CI. split; [|now apply b2_good]. split.
    + intros A. inversion A as [? ? ? m ? D1 M C|? ? b rest m h1 ? D1 R M C A1]; subst; [|rewrite app_length in D; destruct rest; [congruence|cbn [length] in D; lia]].
      apply message64_iff in M; [|exact D]. subst m. now apply CI in C.
    + intros ->. eapply absorbed2_last; [exact D|apply message64_iff; [exact D|reflexivity]|]. now apply CI.
  - assert (L1 : length (firstn 128 data) = 128%nat) by (rewrite firstn_length; lia). assert (R1 : skipn 128 data <> []).
    { intros E. apply (f_equal (@length byte)) in E. rewrite skipn_length in E. cbn [length] in E. lia. }
    pose proof (firstn_skipn 128 data) as Ed. revert Ed. generalize dependent (skipn 128 data). generalize dependent (firstn 128 data). intros b Lb rest R1 <-. clear D.
    destruct (chunks128_next b rest Lb R1) as (x & y & E1 & E2). rewrite E1. change (b2_blocks h t (b :: x :: y)) with (b2_blocks (b2_compress h b (t + 128) false) (t + 128) (x :: y)). rewrite <- E2.
    rewrite app_length, Lb in T, L. assert (T1 : t + 128 < 2 ^ 128) by lia. assert (Q : (length b <= 128)%nat) by lia.
    pose proof (b2_good h (t + 128) false O T1 b) as O1. pose proof (compressed2_iff h (t + 128) false O T1 b) as CI.
    destruct (IH (length rest) ltac:(lia) rest (t + 128) _ h' (le_n _) ltac:(lia) O1) as [I1 I2]. split; [|exact I2]. rewrite <- I1. split.
    + intros A. inversion A as [? ? ? m ? D1 M C|? ? b' rest' m h1 ? D1 R M C A1 Eq1 Eq2]; subst.
      * exfalso. rewrite app_length in D1. destruct rest; [congruence|cbn [length] in D1; lia].
      * match goal with H : _ ++ _ = _ ++ _ |- _ => apply app_eq_length in H as [-> ->]; [|congruence] end. apply message64_iff in M; [|exact Q]. subst m.
        apply CI in C. subst h1. exact A1.
    + intros A. eapply absorbed2_next; [exact Lb|exact R1|apply message64_iff; [exact Q|reflexivity]| |exact A]. now apply CI.
Qed.
Lemma param_sum size : (size <= 64)%nat -> N.lxor 0x01010000 (N.of_nat size) = 0x01010000 + N.of_nat size.
Proof. intros H. do 65 (destruct size as [|size]; [reflexivity|]). lia. Qed.
Definition start8 (size : nat) : list N := zip_xor iv512 [N.lxor 0x01010000 (N.of_nat size); 0; 0; 0; 0; 0; 0; 0].
Lemma start8_eq size : (size <= 64)%nat -> start8 size = N.lxor (nth 0 iv512 0) (0x01010000 + N.of_nat size) :: tl iv512.
Proof. intros H. unfold start8. rewrite (param_sum size H). generalize (0x01010000 + N.of_nat size). intros x. reflexivity. Qed.
Lemma start8_good size : (size <= 64)%nat -> good8 (start8 size).
Proof.
  intros H. split; [reflexivity|]. rewrite (start8_eq size H). constructor; [|repeat constructor]. apply xor_fit; [reflexivity|]. change M64 with 18446744073709551616. lia.
Qed.
Theorem blake2b_iff size m d : (size <= 64)%nat -> N.of_nat (length m) < 2 ^ 128 -> (blake2b_digest size m d <-> d = blake2b size m).
Proof.
  intros S L. pose proof (start8_good size S) as G. destruct (absorbed2_iff (length m) m 0 (start8 size) (b2_blocks (start8 size) 0 (chunks 128 m)) (le_n _) L G) as [A [L8 F8]].
  unfold blake2b_digest. change (blake2b size m) with (firstn size (flat_map (le_bytes 8) (b2_blocks (start8 size) 0 (chunks 128 m)))).
  assert (E : flat_map (le_bytes 8) (b2_blocks (start8 size) 0 (chunks 128 m)) = flat_map (le_bytes 8) (map (fun i => nth i (b2_blocks (start8 size) 0 (chunks 128 m)) 0) (seq 0 8))) by (f_equal; now apply list_map_seq).
  split.
  - intros (IV & out & whole & L0 & R & H & Lw & W & ->). rewrite (roots_only 2 64 0 iv512 iv512_roots IV L0 R) in H. rewrite <- (start8_eq size S) in H.
    apply (absorbed2_iff (length m) m 0 (start8 size) out (le_n _) L G) in H. f_equal. rewrite E, <- H. apply words64_text; [exact Lw|intros; rewrite H; now apply fit_nth|exact W].
  - intros ->. exists iv512, (b2_blocks (start8 size) 0 (chunks 128 m)), (flat_map (le_bytes 8) (b2_blocks (start8 size) 0 (chunks 128 m))).
    split; [reflexivity|]. split; [exact iv512_roots|]. split; [rewrite <- (start8_eq size S); now apply A|].
    assert (Lw : length (flat_map (le_bytes 8) (b2_blocks (start8 size) 0 (chunks 128 m))) = 64%nat) by (rewrite (@flat_map_length _ _ _ 8) by apply le_bytes_length; rewrite L8; reflexivity).
    split; [exact Lw|]. split; [|reflexivity]. apply words64_text; [exact Lw|intros; now apply fit_nth|exact E].
Qed.

(** * Digests of any size *)
Lemma sizes size : (64 < size)%nat -> (1 <= (size + 31) / 32 - 2 /\ size - 32 * ((size + 31) / 32 - 2) <= 64)%nat.
Proof.
  intros H. pose proof (Nat.div_mod (size + 31) 32 ltac:(lia)) as E. pose proof (Nat.mod_upper_bound (size + 31) 32 ltac:(lia)) as U.
  remember ((size + 31) / 32)%nat as k. lia.
Qed.
Global Opaque blake2b.
Definition times (text : bytes) (i : nat) : bytes := Nat.iter i (blake2b 64) text.
Lemma times_next text i : times (blake2b 64 text) i = times text (S i).
Proof. induction i as [|i IH]; [reflexivity|]. change (blake2b 64 (times (blake2b 64 text) i) = blake2b 64 (times text (S i))). now rewrite IH. Qed.
Lemma long_tail_eq size r : forall text, long_tail r size text = flat_map (fun i => firstn 32 (times text i)) (seq 1 r) ++ blake2b size (times text r).
Proof.
  induction r as [|r IH]; intros text; [reflexivity|]. cbn [long_tail]. cbv zeta. rewrite IH, times_next. cbn [seq flat_map]. rewrite <- app_assoc. apply (f_equal2 (@app byte)); [reflexivity|].
  apply (f_equal2 (@app byte)); [|reflexivity]. rewrite <- (seq_shift r 1). rewrite flat_map_concat_map, flat_map_concat_map, map_map. f_equal. apply map_ext. intros i. now rewrite times_next.
Qed.
Lemma times_len text i : (1 <= i)%nat -> length (times text i) = 64%nat.
Proof. intros H. destruct i as [|i]; [lia|]. change (times text (S i)) with (blake2b 64 (times text i)). apply blake2b_len. lia. Qed.
Lemma small128 n : (n <= 64)%nat -> N.of_nat n < 2 ^ 128.
Proof. intros H. change (2 ^ 128) with 340282366920938463463374607431768211456. lia. Qed.
Theorem long_iff size m d : N.of_nat size < 2 ^ 32 -> N.of_nat (length m) < 2 ^ 64 -> (long_digest size m d <-> d = blake2b_long size m).
Proof.
  intros SZ L. set (len := le_bytes 4 (N.of_nat size)). assert (E : little len = N.of_nat size) by (unfold len; rewrite little_bytes; apply N.mod_small; exact SZ).
  assert (LT : N.of_nat (length (len ++ m)) < 2 ^ 128).
  { rewrite app_length. unfold len. rewrite le_bytes_len. change (2 ^ 128) with 340282366920938463463374607431768211456. change (2 ^ 64) with 18446744073709551616 in L. lia. }
  unfold blake2b_long. cbv zeta. fold len. set (text := len ++ m) in *.
  assert (R : long_digest size m d <-> if (size <=? 64)%nat then blake2b_digest size text d
    else exists V : nat -> bytes, let r := ((size + 31) / 32 - 2)%nat in
      blake2b_digest 64 text (V 1%nat) /\ (forall i, (1 <= i < r)%nat -> blake2b_digest 64 (V i) (V (S i))) /\
      blake2b_digest (size - 32 * r) (V r) (V (S r)) /\ d = flat_map (fun i => firstn 32 (V i)) (seq 1 r) ++ V (S r)).
  { unfold long_digest. split.
    - intros (l & Ll & El & H). assert (l = len) by (apply little_inj; [unfold len; now rewrite le_bytes_len|congruence]). subst l. exact H.
    - intros H. exists len. split; [apply le_bytes_len|]. split; [exact E|exact H]. }
  rewrite R. destruct (Nat.leb_spec size 64) as [Q|Q]; [apply blake2b_iff; assumption|].
  destruct (sizes size Q) as [R1 R2]. cbv zeta. set (r := ((size + 31) / 32 - 2)%nat) in *. set (s := (size - 32 * r)%nat) in *. rewrite long_tail_eq. split.
  - intros (V & H1 & H2 & H3 & ->). assert (K : forall i, (1 <= i <= r)%nat -> V i = times text i).
    { induction i as [|i IH]; intros I; [lia|]. destruct i as [|i]; [exact (proj1 (blake2b_iff 64 text (V 1%nat) (le_n _) LT) H1)|].
      specialize (IH ltac:(lia)). specialize (H2 (S i) ltac:(lia)). rewrite IH in H2. refine (proj1 (blake2b_iff 64 _ _ (le_n _) _) H2). rewrite times_len by lia. exact (small128 64 (le_n _)). }
    rewrite (K r) in H3 by lia. assert (T64 : N.of_nat (length (times text r)) < 2 ^ 128) by (rewrite times_len by lia; exact (small128 64 (le_n _))). rewrite (proj1 (blake2b_iff _ _ _ R2 T64) H3). f_equal.
    rewrite !flat_map_concat_map. f_equal. apply map_ext_in. intros i I. apply in_seq in I. now rewrite K by lia.
  - intros ->. exists (fun i => if Nat.eqb i (S r) then blake2b s (times text r) else times text i).
    assert (K : forall i, (i <= r)%nat -> (if Nat.eqb i (S r) then blake2b s (times text r) else times text i) = times text i).
    { intros i I. destruct (Nat.eqb_spec i (S r)); [lia|reflexivity]. }
    split; [rewrite (K 1%nat) by exact R1; exact (proj2 (blake2b_iff 64 text _ (le_n _) LT) eq_refl)|]. split; [|split].
    + intros i I. rewrite !K by lia. refine (proj2 (blake2b_iff 64 _ _ (le_n _) _) eq_refl). rewrite times_len by lia. exact (small128 64 (le_n _)).
    + rewrite K, Nat.eqb_refl by lia. refine (proj2 (blake2b_iff _ _ _ R2 _) eq_refl). rewrite times_len by lia. exact (small128 64 (le_n _)).
    + rewrite Nat.eqb_refl. f_equal. rewrite !flat_map_concat_map. f_equal. apply map_ext_in. intros i I. apply in_seq in I. now rewrite K by lia.
Qed.

(** * Argon2's compression function *)
Lemma nth_flat {A} w (f : A -> list N) (d : A) : forall l k i, (forall a, In a l -> length (f a) = w) -> (k < length l)%nat -> (i < w)%nat ->
  nth (w * k + i) (flat_map f l) 0 = nth i (f (nth k l d)) 0.
Proof.
  induction l as [|a l IH]; intros k i W K I; [cbn in K; lia|]. cbn [flat_map]. destruct k as [|k].
  - rewrite Nat.mul_0_r. cbn [Nat.add nth]. apply app_nth1. rewrite W by (left; reflexivity). exact I.
  - rewrite app_nth2 by (rewrite W by (left; reflexivity); nia). rewrite W by (left; reflexivity). cbn [nth]. replace (w * S k + i - w)%nat with (w * k + i)%nat by nia.
    apply IH; [intros b B; apply W; right; exact B|cbn [length] in K; lia|exact I].
Qed.
Lemma flat_len_w {A} w (f : A -> list N) : forall l, (forall a, In a l -> length (f a) = w) -> length (flat_map f l) = (w * length l)%nat.
Proof.
  induction l as [|a l IH]; intros W; [cbn; lia|]. cbn [flat_map length]. rewrite app_length, (W a) by (left; reflexivity). rewrite IH by (intros b B; apply W; right; exact B). lia.
Qed.
Lemma nth_skip (l : list N) k : forall i, nth i (skipn k l) 0 = nth (k + i) l 0.
Proof. revert k. induction l as [|x l IH]; intros k i; [rewrite skipn_nil; now destruct i, k|]. destruct k as [|k]; [reflexivity|]. cbn [skipn Nat.add nth]. apply IH. Qed.
Lemma nth_first (l : list N) k : forall i, (i < k)%nat -> nth i (firstn k l) 0 = nth i l 0.
Proof. revert k. induction l as [|x l IH]; intros k i H; [now rewrite firstn_nil|]. destruct k as [|k]; [lia|]. cbn [firstn]. destruct i as [|i]; [reflexivity|]. cbn [nth]. apply IH. lia. Qed.
Lemma row_len k b : length (row_of k b) = 16%nat.
Proof. unfold row_of. now rewrite map_length, seq_length. Qed.
Lemma column_len k b : length (column_of k b) = 16%nat.
Proof. unfold column_of. now rewrite map_length, seq_length. Qed.
Lemma nth_row k b i : (i < 16)%nat -> nth i (row_of k b) 0 = nth (16 * k + i) b 0.
Proof. intros H. unfold row_of. now rewrite (nth_map_seq (fun i => nth (16 * k + i) b 0)). Qed.
Lemma nth_column k b i : (i < 16)%nat -> nth i (column_of k b) 0 = nth (16 * (i / 2) + 2 * k + i mod 2) b 0.
Proof. intros H. unfold column_of. now rewrite (nth_map_seq (fun i => nth (16 * (i / 2) + 2 * k + i mod 2) b 0)). Qed.
Lemma row_good k b : fit b -> good16 (row_of k b).
Proof. intros F. split; [apply row_len|]. apply Forall_forall. intros x X. apply in_map_iff in X as (i & <- & _). now apply fit_nth. Qed.
Lemma map_fit (f : nat -> nat) b n : fit b -> fit (map (fun i => nth (f i) b 0) (seq 0 n)).
Proof. intros F. generalize (seq 0 n). intros l. induction l as [|i l IH]; constructor; [exact (fit_nth b (f i) F)|exact IH]. Qed.
Lemma column_good k b : fit b -> good16 (column_of k b).
Proof. intros F. split; [apply column_len|]. exact (map_fit (fun i => 16 * (i / 2) + 2 * k + i mod 2)%nat b 16 F). Qed.
Lemma rows_chunks n : forall f (l : list N), length l = (16 * n)%nat -> (length l <= f)%nat -> chunks_fuel f 16 l = map (fun k => row_of k l) (seq 0 n).
Proof.
  induction n as [|n IH]; intros f l L F; [destruct l; [now destruct f|discriminate]|]. destruct f as [|f]; [lia|]. destruct l as [|x l']; [cbn [length] in L; lia|]. set (l := x :: l') in *.
  change (chunks_fuel (S f) 16 l) with (firstn 16 l :: chunks_fuel f 16 (skipn 16 l)). clearbody l. cbn [seq map]. rewrite <- seq_shift, map_map. apply f_equal2.
  - apply (nth_ext _ _ 0 0); [rewrite firstn_length, row_len; lia|]. intros i I. rewrite firstn_length in I. rewrite nth_first, nth_row by lia. now rewrite Nat.mul_0_r.
  - rewrite (IH f) by (rewrite skipn_length; lia). apply map_ext. intros k. unfold row_of. apply map_ext. intros i. rewrite nth_skip. apply (f_equal (fun j => nth j l 0)). lia.
Qed.
Lemma permute_good v : good16 v -> good16 (permute v).
Proof. apply (good16_round product_sum blamka blamka_sum). Qed.
Lemma permuted_iff v v' : good16 v -> (full64 product_sum [] v v' <-> v' = permute v).
Proof. intros [L F]. exact (full64_iff product_sum blamka blamka_sum [] v v' L F). Qed.
Global Opaque permute.
Lemma rows_flat b : length b = 128%nat -> permute_rows b = flat_map (fun k => permute (row_of k b)) (seq 0 8).
Proof.
  intros L. unfold permute_rows, chunks. rewrite (rows_chunks 8 (length b) b L (le_n _)). rewrite !flat_map_concat_map, map_map. reflexivity.
Qed.
Lemma permute_row b k : length b = 128%nat -> fit b -> (k < 8)%nat -> row_of k (permute_rows b) = permute (row_of k b).
Proof.
  intros L F K. assert (W : forall a, In a (seq 0 8) -> length (permute (row_of a b)) = 16%nat) by (intros a _; apply permute_good, row_good, F).
  apply (nth_ext _ _ 0 0); [rewrite row_len; symmetry; apply permute_good, row_good, F|]. intros i I. rewrite row_len in I. rewrite nth_row by exact I.
  rewrite rows_flat by exact L. rewrite (nth_flat 16 _ 0%nat) by (try exact W; rewrite ?seq_length; assumption). now rewrite seq_nth.
Qed.
Lemma rows_len b : length b = 128%nat -> fit b -> length (permute_rows b) = 128%nat.
Proof.
  intros L F. rewrite rows_flat by exact L. rewrite (flat_len_w 16); [now rewrite seq_length|]. intros a _. apply permute_good, row_good, F.
Qed.
Lemma column_eq b k : column b k = column_of k b.
Proof.
  unfold column, column_of. cbn [seq map flat_map app].
  repeat (apply f_equal2; [apply (f_equal (fun j => nth j b 0)); cbn [Nat.div Nat.modulo Nat.divmod fst snd Nat.sub]; lia|]). reflexivity.
Qed.
Lemma columns_len b : length (permute_columns b) = 128%nat.
Proof.
  unfold permute_columns. cbv zeta. rewrite (flat_len_w 16); [now rewrite seq_length|]. intros k _. rewrite (flat_len_w 2); [now rewrite map_length, seq_length|]. reflexivity.
Qed.
Lemma place i : (i < 128)%nat -> (i = 16 * (i / 16) + i mod 16 /\ i / 16 < 8 /\ i mod 16 < 16)%nat.
Proof. intros H. split; [apply Nat.div_mod; lia|]. split; [apply Nat.div_lt_upper_bound; lia|apply Nat.mod_upper_bound; lia]. Qed.
Lemma halve i : (i < 16)%nat -> (i = 2 * (i / 2) + i mod 2 /\ i / 2 < 8 /\ i mod 2 < 2)%nat.
Proof. intros H. split; [apply Nat.div_mod; lia|]. split; [apply Nat.div_lt_upper_bound; lia|apply Nat.mod_upper_bound; lia]. Qed.
Lemma pair_nth (x : nat -> N) k e : (e < 2)%nat -> nth e [x k; x (k + 1)%nat] 0 = x (k + e)%nat.
Proof. intros E. destruct e as [|[|e]]; [now rewrite Nat.add_0_r|reflexivity|lia]. Qed.
Lemma columns_nth b a c e : (a < 8)%nat -> (c < 8)%nat -> (e < 2)%nat -> nth (16 * a + (2 * c + e)) (permute_columns b) 0 = nth (2 * a + e) (permute (column_of c b)) 0.
Proof.
  intros A C E. unfold permute_columns. cbv zeta. rewrite (nth_flat 16 _ 0%nat).
  - rewrite seq_nth by exact A. cbn [Nat.add]. rewrite (nth_flat 2 _ []).
    + rewrite (nth_indep _ [] (permute (column b 0))) by (rewrite map_length, seq_length; exact C). rewrite (map_nth (fun i => permute (column b i))), seq_nth by exact C.
      rewrite column_eq. exact (pair_nth (fun j => nth j (permute (column_of c b)) 0) (2 * a)%nat e E).
    + reflexivity.
    + now rewrite map_length, seq_length.
    + exact E.
  - intros k _. rewrite (flat_len_w 2); [now rewrite map_length, seq_length|]. reflexivity.
  - now rewrite seq_length.
  - lia.
Qed.
Lemma permute_column b k : fit b -> (k < 8)%nat -> column_of k (permute_columns b) = permute (column_of k b).
Proof.
  intros F K. apply (nth_ext _ _ 0 0); [rewrite column_len; symmetry; apply permute_good, column_good, F|]. intros i I. rewrite column_len in I. rewrite nth_column by exact I.
  destruct (halve i I) as (E & H1 & H2). rewrite <- Nat.add_assoc, columns_nth by assumption. now rewrite <- E.
Qed.
Lemma by_rows a b : length a = 128%nat -> length b = 128%nat -> (forall k, (k < 8)%nat -> row_of k a = row_of k b) -> a = b.
Proof.
  intros La Lb H. apply (nth_ext _ _ 0 0); [congruence|]. intros i I. rewrite La in I. destruct (place i I) as (E & H1 & H2). rewrite E, <- !nth_row by exact H2. now rewrite H.
Qed.
Lemma by_columns a b : length a = 128%nat -> length b = 128%nat -> (forall k, (k < 8)%nat -> column_of k a = column_of k b) -> a = b.
Proof.
  intros La Lb H. apply (nth_ext _ _ 0 0); [congruence|]. intros i I. rewrite La in I. destruct (place i I) as (E & H1 & H2). destruct (halve _ H2) as (E2 & H3 & H4).
  assert (P : forall l, nth i l 0 = nth (2 * (i / 16) + i mod 16 mod 2) (column_of (i mod 16 / 2) l) 0).
  { intros l. rewrite nth_column by lia. apply (f_equal (fun j => nth j l 0)). rewrite E at 1. rewrite E2 at 1.
    replace ((2 * (i / 16) + i mod 16 mod 2) / 2)%nat with (i / 16)%nat by (apply (Nat.div_unique _ 2 _ (i mod 16 mod 2)); lia).
    replace ((2 * (i / 16) + i mod 16 mod 2) mod 2)%nat with (i mod 16 mod 2)%nat by (apply (Nat.mod_unique _ 2 (i / 16)); lia). lia. }
  rewrite !P. now rewrite H.
Qed.
Lemma fit_of_nth l : (forall i, (i < length l)%nat -> nth i l 0 < M64) -> fit l.
Proof. intros H. apply Forall_forall. intros x X. apply (In_nth _ _ 0) in X as (i & I & <-). now apply H. Qed.
Lemma rows_fit b : length b = 128%nat -> fit b -> fit (permute_rows b).
Proof.
  intros L F. apply fit_of_nth. intros i I. rewrite rows_len in I by assumption. destruct (place i I) as (E & H1 & H2). rewrite E, <- nth_row by exact H2. rewrite permute_row by assumption.
  apply fit_nth. apply permute_good, row_good, F.
Qed.
Lemma columns_fit b : fit b -> fit (permute_columns b).
Proof.
  intros F. apply fit_of_nth. intros i I. rewrite columns_len in I. destruct (place i I) as (E & H1 & H2). destruct (halve _ H2) as (E2 & H3 & H4). rewrite E, E2, columns_nth by assumption.
  apply fit_nth. apply permute_good, column_good, F.
Qed.
Global Opaque permute_rows permute_columns.
Lemma zip_proper x y : proper x -> proper y -> proper (zip_xor x y).
Proof. intros [Lx Fx] [Ly Fy]. split; [now rewrite zip_xor_len, Lx, Ly|now apply fit_zip]. Qed.
Theorem compress_proper x y : proper x -> proper y -> proper (compress x y).
Proof.
  intros X Y. destruct (zip_proper x y X Y) as [L F]. unfold compress. cbv zeta. apply zip_proper; [split; assumption|]. split; [apply columns_len|]. apply columns_fit, rows_fit; assumption.
Qed.
Theorem compress_iff x y z : proper x -> proper y -> (block_mixed x y z <-> z = compress x y).
Proof.
  intros X Y. pose proof X as [Lx _]. pose proof Y as [Ly _]. destruct (zip_proper x y X Y) as [L F]. unfold compress. cbv zeta.
  assert (Lr : length (permute_rows (zip_xor x y)) = 128%nat) by (apply rows_len; assumption). assert (Fr : fit (permute_rows (zip_xor x y))) by (apply rows_fit; assumption).
  pose proof (columns_len (permute_rows (zip_xor x y))) as Lc. unfold block_mixed. split.
  - intros (r & q & p & R1 & Q1 & P1 & Z1 & HR & HQ & HP & HZ).
    assert (Er : r = zip_xor x y) by (apply (nth_ext _ _ 0 0); [congruence|]; intros i I; rewrite nth_zip by congruence; apply HR; lia). subst r.
    assert (Eq : q = permute_rows (zip_xor x y)).
    { apply by_rows; [exact Q1|exact Lr|]. intros k K. rewrite permute_row by assumption. apply permuted_iff; [now apply row_good|now apply HQ]. }
    subst q. assert (Ep : p = permute_columns (permute_rows (zip_xor x y))).
    { apply by_columns; [exact P1|exact Lc|]. intros k K. rewrite permute_column by assumption. apply permuted_iff; [now apply column_good|now apply HP]. }
    subst p. apply (nth_ext _ _ 0 0); [rewrite zip_xor_len, L, Lc; exact Z1|]. intros i I. rewrite (nth_zip (zip_xor x y)) by congruence. apply HZ. lia.
  - intros ->. exists (zip_xor x y), (permute_rows (zip_xor x y)), (permute_columns (permute_rows (zip_xor x y))).
    split; [exact L|]. split; [exact Lr|]. split; [exact Lc|]. split; [now rewrite zip_xor_len, L, Lc|]. split; [intros i I; apply nth_zip; congruence|].
    split; [intros k K; apply permuted_iff; [now apply row_good|now apply permute_row]|].
    split; [intros k K; apply permuted_iff; [now apply column_good|now apply permute_column]|]. intros i I. apply nth_zip. congruence.
Qed.
