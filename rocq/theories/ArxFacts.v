(** ChaCha20's block function of [Aead] and BLAKE3 of [Hash] are those of [ArxSpec]. *)
From Coq Require Import ZArith Lia Bool ZifyBool ZifyNat ZifyN.
From Verif Require Import Base BaseFacts Codec Hash HashFacts DigestFacts Aead ShaSpec ShaFacts ShaWorld ArxSpec.
Local Open Scope N_scope.

Notation M32 := (2 ^ 32).
Definition ok (l : list N) : Prop := Forall (fun x => x < M32) l.
Lemma m32 : M32 <> 0.
Proof. discriminate. Qed.
Lemma mod32 x : x mod M32 < M32.
Proof. apply N.mod_lt, m32. Qed.
Lemma ok_nth l i : ok l -> nth i l 0 < M32.
Proof. intros H. destruct (nth_in_or_default i l 0) as [I|E]; [|rewrite E; reflexivity]. unfold ok in H. rewrite Forall_forall in H. now apply H. Qed.

(** * Stirring *)
Definition spin (r x y : N) : N := rotr 32 r (N.lxor x y).
Lemma xor_small x y : x < M32 -> y < M32 -> N.lxor x y < M32.
Proof. intros X Y. apply small_bits. intros i L. rewrite N.lxor_spec, !(high 32) by assumption. reflexivity. Qed.
Lemma rotr_small r x : x < M32 -> r < 32 -> rotr 32 r x < M32.
Proof. intros X R. apply small_bits. intros i L. rewrite rotr_bit by assumption. now rewrite (proj2 (N.ltb_ge i 32)). Qed.
Lemma spin_small r x y : x < M32 -> y < M32 -> r < 32 -> spin r x y < M32.
Proof. intros X Y R. apply rotr_small; [now apply xor_small|exact R]. Qed.
Lemma turned_iff r x y z : x < M32 -> y < M32 -> r < 32 -> (turned r x y z <-> z = spin r x y).
Proof.
  intros X Y R. assert (T : forall i, i < 32 -> N.testbit (spin r x y) i = xorb (N.testbit x ((i + r) mod 32)) (N.testbit y ((i + r) mod 32))).
  { intros i L. unfold spin. rewrite rotr_bit by (try apply xor_small; assumption). rewrite N.lxor_spec, (proj2 (N.ltb_lt i 32)) by exact L. reflexivity. }
  pose proof (spin_small r x y X Y R) as S. unfold turned. split.
  - intros [Z H]. apply (eq_bits 32); [exact Z|exact S|]. intros i L. now rewrite T, H.
  - intros ->. split; [exact S|exact T].
Qed.
Definition rots_ok (rot : N * N * N * N) : Prop := let '(r1, r2, r3, r4) := rot in r1 < 32 /\ r2 < 32 /\ r3 < 32 /\ r4 < 32.
Definition ok4 (q : N * N * N * N) : Prop := let '(a, b, c, d) := q in a < M32 /\ b < M32 /\ c < M32 /\ d < M32.
Definition stir (rot : N * N * N * N) (mx my : N) (q : N * N * N * N) : N * N * N * N :=
  let '(r1, r2, r3, r4) := rot in let '(a, b, c, d) := q in
  let a1 := (a + b + mx) mod M32 in let d1 := spin r1 d a1 in let c1 := (c + d1) mod M32 in let b1 := spin r2 b c1 in
  let a2 := (a1 + b1 + my) mod M32 in let d2 := spin r3 d1 a2 in let c2 := (c1 + d2) mod M32 in let b2 := spin r4 b1 c2 in
  (a2, b2, c2, d2).
Lemma stir_ok rot mx my q : rots_ok rot -> ok4 q -> ok4 (stir rot mx my q).
Proof.
  destruct rot as [[[r1 r2] r3] r4]. destruct q as [[[a b] c] d]. intros (R1 & R2 & R3 & R4) (A & B & C & D). cbn [stir ok4].
  repeat match goal with |- _ /\ _ => split end; repeat (apply mod32 || apply spin_small || assumption).
Qed.
Lemma stirred_iff rot mx my q q' : rots_ok rot -> ok4 q -> (stirred rot mx my q q' <-> q' = stir rot mx my q).
Proof.
  destruct rot as [[[r1 r2] r3] r4]. destruct q as [[[a b] c] d]. destruct q' as [[[a' b'] c'] d'].
  intros (R1 & R2 & R3 & R4) (A & B & C & D). cbn [stir stirred]. split.
  - intros (a1 & b1 & c1 & d1 & E1 & E2 & E3 & E4 & E5 & E6 & E7 & E8).
    apply turned_iff in E2; [|assumption|subst a1; apply mod32|assumption].
    apply turned_iff in E4; [|assumption|subst c1; apply mod32|assumption].
    assert (D1 : d1 < M32) by (subst d1; apply spin_small; [assumption|subst a1; apply mod32|assumption]).
    assert (B1 : b1 < M32) by (subst b1; apply spin_small; [assumption|subst c1; apply mod32|assumption]).
    apply turned_iff in E6; [|assumption|subst a'; apply mod32|assumption].
    apply turned_iff in E8; [|assumption|subst c'; apply mod32|assumption].
    subst. reflexivity.
  - intros E. injection E as -> -> -> ->. eexists _, _, _, _. split; [reflexivity|].
    split; [apply turned_iff; [assumption|apply mod32|assumption|reflexivity]|]. split; [reflexivity|].
    split; [apply turned_iff; [assumption|apply mod32|assumption|reflexivity]|]. split; [reflexivity|].
    split; [apply turned_iff; [apply spin_small; [assumption|apply mod32|assumption]|apply mod32|assumption|reflexivity]|]. split; [reflexivity|].
    apply turned_iff; [apply spin_small; [assumption|apply mod32|assumption]|apply mod32|assumption|reflexivity].
Qed.

(** * Half rounds *)
Definition p0 (q : N * N * N * N) : N := let '(a, _, _, _) := q in a.
Definition p1 (q : N * N * N * N) : N := let '(_, b, _, _) := q in b.
Definition p2 (q : N * N * N * N) : N := let '(_, _, c, _) := q in c.
Definition p3 (q : N * N * N * N) : N := let '(_, _, _, d) := q in d.
Lemma p_eta q : (p0 q, p1 q, p2 q, p3 q) = q.
Proof. now destruct q as [[[a b] c] d]. Qed.
Definition spread0 (q : nat -> N * N * N * N) : list N :=
  [p0 (q 0%nat); p0 (q 1%nat); p0 (q 2%nat); p0 (q 3%nat); p1 (q 0%nat); p1 (q 1%nat); p1 (q 2%nat); p1 (q 3%nat);
   p2 (q 0%nat); p2 (q 1%nat); p2 (q 2%nat); p2 (q 3%nat); p3 (q 0%nat); p3 (q 1%nat); p3 (q 2%nat); p3 (q 3%nat)].
Definition spread1 (q : nat -> N * N * N * N) : list N :=
  [p0 (q 0%nat); p0 (q 1%nat); p0 (q 2%nat); p0 (q 3%nat); p1 (q 3%nat); p1 (q 0%nat); p1 (q 1%nat); p1 (q 2%nat);
   p2 (q 2%nat); p2 (q 3%nat); p2 (q 0%nat); p2 (q 1%nat); p3 (q 1%nat); p3 (q 2%nat); p3 (q 3%nat); p3 (q 0%nat)].
Definition stirs (rot : N * N * N * N) (s : nat) (m v : list N) (j : nat) : N * N * N * N :=
  stir rot (nth (8 * s + 2 * j) m 0) (nth (8 * s + 2 * j + 1) m 0) (line s j v).
Lemma four (P : nat -> Prop) : P 0%nat -> P 1%nat -> P 2%nat -> P 3%nat -> forall j, (j < 4)%nat -> P j.
Proof. intros A B C D j L. do 4 (destruct j as [|j]; [assumption|]). lia. Qed.
Lemma sixteen (v : list N) : length v = 16%nat -> exists x0 x1 x2 x3 x4 x5 x6 x7 x8 x9 x10 x11 x12 x13 x14 x15, v = [x0; x1; x2; x3; x4; x5; x6; x7; x8; x9; x10; x11; x12; x13; x14; x15].
Proof. do 17 (destruct v as [|? v]; [try discriminate|]); try discriminate. intros _. repeat eexists. Qed.
Lemma line_spread0 q j : (j < 4)%nat -> line 0 j (spread0 q) = q j.
Proof. intros L. rewrite <- (p_eta (q j)). revert j L. apply four; reflexivity. Qed.
Lemma line_spread1 q j : (j < 4)%nat -> line 1 j (spread1 q) = q j.
Proof. intros L. rewrite <- (p_eta (q j)). revert j L. apply four; reflexivity. Qed.
Lemma spread0_line v q : length v = 16%nat -> (forall j, (j < 4)%nat -> line 0 j v = q j) -> v = spread0 q.
Proof.
  intros L H. unfold spread0. rewrite <- (H 0%nat), <- (H 1%nat), <- (H 2%nat), <- (H 3%nat) by lia. destruct (sixteen v L) as (x0 & x1 & x2 & x3 & x4 & x5 & x6 & x7 & x8 & x9 & x10 & x11 & x12 & x13 & x14 & x15 & ->). reflexivity.
Qed.
Lemma spread1_line v q : length v = 16%nat -> (forall j, (j < 4)%nat -> line 1 j v = q j) -> v = spread1 q.
Proof.
  intros L H. unfold spread1. rewrite <- (H 0%nat), <- (H 1%nat), <- (H 2%nat), <- (H 3%nat) by lia. destruct (sixteen v L) as (x0 & x1 & x2 & x3 & x4 & x5 & x6 & x7 & x8 & x9 & x10 & x11 & x12 & x13 & x14 & x15 & ->). reflexivity.
Qed.
Lemma line_ok s j v : ok v -> ok4 (line s j v).
Proof. intros H. cbn [line ok4]. repeat split; now apply ok_nth. Qed.
Section Half.
  Variable rot : N * N * N * N.
  Hypothesis RO : rots_ok rot.
  Lemma half0_iff m v v' : ok v -> (half_round rot 0 m v v' <-> v' = spread0 (stirs rot 0 m v)).
  Proof.
    intros O. unfold half_round. split.
    - intros [L H]. apply spread0_line; [exact L|]. intros j J. apply stirred_iff; [exact RO|now apply line_ok|now apply H].
    - intros ->. split; [reflexivity|]. intros j J. apply stirred_iff; [exact RO|now apply line_ok|now apply line_spread0].
  Qed.
  Lemma half1_iff m v v' : ok v -> (half_round rot 1 m v v' <-> v' = spread1 (stirs rot 1 m v)).
  Proof.
    intros O. unfold half_round. split.
    - intros [L H]. apply spread1_line; [exact L|]. intros j J. apply stirred_iff; [exact RO|now apply line_ok|now apply H].
    - intros ->. split; [reflexivity|]. intros j J. apply stirred_iff; [exact RO|now apply line_ok|now apply line_spread1].
  Qed.
  Lemma stirs_ok s m v j : ok v -> ok4 (stirs rot s m v j).
  Proof. intros O. apply stir_ok; [exact RO|now apply line_ok]. Qed.
  Lemma p_ok q : ok4 q -> p0 q < M32 /\ p1 q < M32 /\ p2 q < M32 /\ p3 q < M32.
  Proof. now destruct q as [[[a b] c] d]. Qed.
  Lemma spread_ok q : (forall j, ok4 (q j)) -> ok (spread0 q) /\ ok (spread1 q).
  Proof. intros H. split; repeat constructor; apply p_ok, H. Qed.
  Definition round_fun (m v : list N) : list N := spread1 (stirs rot 1 m (spread0 (stirs rot 0 m v))).
  Lemma full_iff m v v' : ok v -> (full_round rot m v v' <-> v' = round_fun m v).
  Proof.
    intros O. assert (O1 : ok (spread0 (stirs rot 0 m v))) by (apply spread_ok; intros j; now apply stirs_ok). unfold full_round. split.
    - intros (v1 & H1 & H2). apply half0_iff in H1; [|exact O]. subst v1. now apply half1_iff in H2.
    - intros ->. eexists. split; [now apply half0_iff|now apply half1_iff].
  Qed.
  Lemma round_ok m v : ok v -> ok (round_fun m v).
  Proof. intros O. apply spread_ok. intros j. apply stirs_ok. apply spread_ok. intros i. now apply stirs_ok. Qed.
End Half.

(** * The rounds of the model *)
Lemma chacha_rots : rots_ok chacha_rot.
Proof. repeat split. Qed.
Lemma blake_rots : rots_ok blake_rot.
Proof. repeat split. Qed.
Lemma wadd2 a b c : wadd 32 (wadd 32 a b) c = (a + b + c) mod M32.
Proof. rewrite !wadd_mod. apply N.add_mod_idemp_l. exact m32. Qed.
Lemma rotl_rotr r x : r <= 32 -> rotl32 r x = rotr 32 (32 - r) x.
Proof. intros R. unfold rotl32, rotr. rewrite N.lor_comm. do 3 f_equal. lia. Qed.
Lemma quarter_stir a b c d : quarter a b c d = stir chacha_rot 0 0 (a, b, c, d).
Proof. unfold quarter, stir, chacha_rot, spin. rewrite !wadd_mod, !rotl_rotr, !N.add_0_r by discriminate. reflexivity. Qed.
Definition g_words (mx my a b c d : N) : N * N * N * N :=
  let a1 := wadd 32 (wadd 32 a b) mx in let d1 := rotr 32 16 (N.lxor d a1) in let c1 := wadd 32 c d1 in let b1 := rotr 32 12 (N.lxor b c1) in
  let a2 := wadd 32 (wadd 32 a1 b1) my in let d2 := rotr 32 8 (N.lxor d1 a2) in let c2 := wadd 32 c1 d2 in let b2 := rotr 32 7 (N.lxor b1 c2) in
  (a2, b2, c2, d2).
Lemma g_stir mx my a b c d : g_words mx my a b c d = stir blake_rot mx my (a, b, c, d).
Proof.
  unfold g_words, stir, blake_rot, spin. rewrite (wadd2 a b mx). rewrite (wadd_mod 32 c). match goal with |- context [wadd 32 (wadd 32 ?a ?b) my] => rewrite (wadd2 a b my) end.
  rewrite !wadd_mod. reflexivity.
Qed.
Lemma quarter_list v i j k l : quarter_at v i j k l = let q := stir chacha_rot 0 0 (nth i v 0, nth j v 0, nth k v 0, nth l v 0) in
  set_nth i (p0 q) (set_nth j (p1 q) (set_nth k (p2 q) (set_nth l (p3 q) v))).
Proof. unfold quarter_at. rewrite quarter_stir. cbv zeta. destruct (stir _ _ _ _) as [[[a b] c] d]. reflexivity. Qed.
Opaque stir wadd rotr N.lxor.
Ltac g_tac := rewrite <- g_stir; reflexivity.
Section Explicit.
  Variables x0 x1 x2 x3 x4 x5 x6 x7 x8 x9 x10 x11 x12 x13 x14 x15 : N.
  Lemma g_0 mx my : b3_g [x0; x1; x2; x3; x4; x5; x6; x7; x8; x9; x10; x11; x12; x13; x14; x15] 0 4 8 12 mx my = let q := stir blake_rot mx my (x0, x4, x8, x12) in [p0 q; x1; x2; x3; p1 q; x5; x6; x7; p2 q; x9; x10; x11; p3 q; x13; x14; x15].
  Proof. g_tac. Qed.
  Lemma quarter_0 : quarter_at [x0; x1; x2; x3; x4; x5; x6; x7; x8; x9; x10; x11; x12; x13; x14; x15] 0 4 8 12 = let q := stir chacha_rot 0 0 (x0, x4, x8, x12) in [p0 q; x1; x2; x3; p1 q; x5; x6; x7; p2 q; x9; x10; x11; p3 q; x13; x14; x15].
  Proof. rewrite quarter_list. reflexivity. Qed.
  Lemma g_1 mx my : b3_g [x0; x1; x2; x3; x4; x5; x6; x7; x8; x9; x10; x11; x12; x13; x14; x15] 1 5 9 13 mx my = let q := stir blake_rot mx my (x1, x5, x9, x13) in [x0; p0 q; x2; x3; x4; p1 q; x6; x7; x8; p2 q; x10; x11; x12; p3 q; x14; x15].
  Proof. g_tac. Qed.
  Lemma quarter_1 : quarter_at [x0; x1; x2; x3; x4; x5; x6; x7; x8; x9; x10; x11; x12; x13; x14; x15] 1 5 9 13 = let q := stir chacha_rot 0 0 (x1, x5, x9, x13) in [x0; p0 q; x2; x3; x4; p1 q; x6; x7; x8; p2 q; x10; x11; x12; p3 q; x14; x15].
  Proof. rewrite quarter_list. reflexivity. Qed.
  Lemma g_2 mx my : b3_g [x0; x1; x2; x3; x4; x5; x6; x7; x8; x9; x10; x11; x12; x13; x14; x15] 2 6 10 14 mx my = let q := stir blake_rot mx my (x2, x6, x10, x14) in [x0; x1; p0 q; x3; x4; x5; p1 q; x7; x8; x9; p2 q; x11; x12; x13; p3 q; x15].
  Proof. g_tac. Qed.
  Lemma quarter_2 : quarter_at [x0; x1; x2; x3; x4; x5; x6; x7; x8; x9; x10; x11; x12; x13; x14; x15] 2 6 10 14 = let q := stir chacha_rot 0 0 (x2, x6, x10, x14) in [x0; x1; p0 q; x3; x4; x5; p1 q; x7; x8; x9; p2 q; x11; x12; x13; p3 q; x15].
  Proof. rewrite quarter_list. reflexivity. Qed.
  Lemma g_3 mx my : b3_g [x0; x1; x2; x3; x4; x5; x6; x7; x8; x9; x10; x11; x12; x13; x14; x15] 3 7 11 15 mx my = let q := stir blake_rot mx my (x3, x7, x11, x15) in [x0; x1; x2; p0 q; x4; x5; x6; p1 q; x8; x9; x10; p2 q; x12; x13; x14; p3 q].
  Proof. g_tac. Qed.
  Lemma quarter_3 : quarter_at [x0; x1; x2; x3; x4; x5; x6; x7; x8; x9; x10; x11; x12; x13; x14; x15] 3 7 11 15 = let q := stir chacha_rot 0 0 (x3, x7, x11, x15) in [x0; x1; x2; p0 q; x4; x5; x6; p1 q; x8; x9; x10; p2 q; x12; x13; x14; p3 q].
  Proof. rewrite quarter_list. reflexivity. Qed.
  Lemma g_4 mx my : b3_g [x0; x1; x2; x3; x4; x5; x6; x7; x8; x9; x10; x11; x12; x13; x14; x15] 0 5 10 15 mx my = let q := stir blake_rot mx my (x0, x5, x10, x15) in [p0 q; x1; x2; x3; x4; p1 q; x6; x7; x8; x9; p2 q; x11; x12; x13; x14; p3 q].
  Proof. g_tac. Qed.
  Lemma quarter_4 : quarter_at [x0; x1; x2; x3; x4; x5; x6; x7; x8; x9; x10; x11; x12; x13; x14; x15] 0 5 10 15 = let q := stir chacha_rot 0 0 (x0, x5, x10, x15) in [p0 q; x1; x2; x3; x4; p1 q; x6; x7; x8; x9; p2 q; x11; x12; x13; x14; p3 q].
  Proof. rewrite quarter_list. reflexivity. Qed.
  Lemma g_5 mx my : b3_g [x0; x1; x2; x3; x4; x5; x6; x7; x8; x9; x10; x11; x12; x13; x14; x15] 1 6 11 12 mx my = let q := stir blake_rot mx my (x1, x6, x11, x12) in [x0; p0 q; x2; x3; x4; x5; p1 q; x7; x8; x9; x10; p2 q; p3 q; x13; x14; x15].
  Proof. g_tac. Qed.
  Lemma quarter_5 : quarter_at [x0; x1; x2; x3; x4; x5; x6; x7; x8; x9; x10; x11; x12; x13; x14; x15] 1 6 11 12 = let q := stir chacha_rot 0 0 (x1, x6, x11, x12) in [x0; p0 q; x2; x3; x4; x5; p1 q; x7; x8; x9; x10; p2 q; p3 q; x13; x14; x15].
  Proof. rewrite quarter_list. reflexivity. Qed.
  Lemma g_6 mx my : b3_g [x0; x1; x2; x3; x4; x5; x6; x7; x8; x9; x10; x11; x12; x13; x14; x15] 2 7 8 13 mx my = let q := stir blake_rot mx my (x2, x7, x8, x13) in [x0; x1; p0 q; x3; x4; x5; x6; p1 q; p2 q; x9; x10; x11; x12; p3 q; x14; x15].
  Proof. g_tac. Qed.
  Lemma quarter_6 : quarter_at [x0; x1; x2; x3; x4; x5; x6; x7; x8; x9; x10; x11; x12; x13; x14; x15] 2 7 8 13 = let q := stir chacha_rot 0 0 (x2, x7, x8, x13) in [x0; x1; p0 q; x3; x4; x5; x6; p1 q; p2 q; x9; x10; x11; x12; p3 q; x14; x15].
  Proof. rewrite quarter_list. reflexivity. Qed.
  Lemma g_7 mx my : b3_g [x0; x1; x2; x3; x4; x5; x6; x7; x8; x9; x10; x11; x12; x13; x14; x15] 3 4 9 14 mx my = let q := stir blake_rot mx my (x3, x4, x9, x14) in [x0; x1; x2; p0 q; p1 q; x5; x6; x7; x8; p2 q; x10; x11; x12; x13; p3 q; x15].
  Proof. g_tac. Qed.
  Lemma quarter_7 : quarter_at [x0; x1; x2; x3; x4; x5; x6; x7; x8; x9; x10; x11; x12; x13; x14; x15] 3 4 9 14 = let q := stir chacha_rot 0 0 (x3, x4, x9, x14) in [x0; x1; x2; p0 q; p1 q; x5; x6; x7; x8; p2 q; x10; x11; x12; x13; p3 q; x15].
  Proof. rewrite quarter_list. reflexivity. Qed.
End Explicit.

Lemma b3_round_eq v m : length v = 16%nat -> b3_round v m = round_fun blake_rot m v.
Proof.
  intros L. destruct (sixteen v L) as (x0 & x1 & x2 & x3 & x4 & x5 & x6 & x7 & x8 & x9 & x10 & x11 & x12 & x13 & x14 & x15 & ->). unfold b3_round.
  rewrite g_0. cbv zeta. rewrite g_1. cbv zeta. rewrite g_2. cbv zeta. rewrite g_3. cbv zeta.
  rewrite g_4. cbv zeta. rewrite g_5. cbv zeta. rewrite g_6. cbv zeta. rewrite g_7. reflexivity.
Qed.
Lemma nth_nil i : nth i ([] : list N) 0 = 0.
Proof. now destruct i. Qed.
Lemma double_round_eq v : length v = 16%nat -> double_round v = round_fun chacha_rot [] v.
Proof.
  intros L. destruct (sixteen v L) as (x0 & x1 & x2 & x3 & x4 & x5 & x6 & x7 & x8 & x9 & x10 & x11 & x12 & x13 & x14 & x15 & ->). unfold double_round.
  rewrite quarter_0. cbv zeta. rewrite quarter_1. cbv zeta. rewrite quarter_2. cbv zeta. rewrite quarter_3. cbv zeta.
  rewrite quarter_4. cbv zeta. rewrite quarter_5. cbv zeta. rewrite quarter_6. cbv zeta. rewrite quarter_7. reflexivity.
Qed.
Transparent stir wadd rotr N.lxor.

(** * Texts as words *)
Lemma little_word b : little b = le_word b.
Proof. induction b as [|x b IH]; [reflexivity|]. cbn [little le_word fold_right]. rewrite IH. reflexivity. Qed.
Lemma little_bound b : little b < 256 ^ N.of_nat (length b).
Proof.
  induction b as [|x b IH]; [reflexivity|]. cbn [little length]. rewrite Nat2N.inj_succ, N.pow_succ_r'. pose proof (Byte.to_N_bounded x). nia.
Qed.
Lemma word_small i b : word i b < M32.
Proof.
  unfold word. eapply N.lt_le_trans; [apply little_bound|]. change M32 with (256 ^ 4). apply N.pow_le_mono_r; [discriminate|]. rewrite firstn_length. lia.
Qed.
Lemma little_bytes k : forall x, little (le_bytes k x) = x mod 256 ^ N.of_nat k.
Proof.
  induction k as [|k IH]; intros x; [cbn [le_bytes little]; now rewrite N.mod_1_r|]. cbn [le_bytes little]. rewrite IH, to_N_byte_of_N by (apply N.mod_lt; discriminate).
  rewrite Nat2N.inj_succ, N.pow_succ_r', N.mod_mul_r by (try discriminate; apply N.pow_nonzero; discriminate). lia.
Qed.
Lemma le_bytes_len k : forall x, length (le_bytes k x) = k.
Proof. induction k as [|k IH]; intros x; [reflexivity|]. cbn [le_bytes length]. now rewrite IH. Qed.
Lemma little_inj a : forall b, length a = length b -> little a = little b -> a = b.
Proof.
  induction a as [|x a IH]; intros [|y b] L E; try discriminate; [reflexivity|]. injection L as L. cbn [little] in E.
  pose proof (Byte.to_N_bounded x). pose proof (Byte.to_N_bounded y).
  assert (Q : little a = little b /\ Byte.to_N x = Byte.to_N y) by (apply (N.div_mod_unique 256); lia).
  destruct Q as [Q1 Q2]. apply to_N_inj in Q2. subst y. f_equal. now apply IH.
Qed.
(** A text is determined by its words. *)
Lemma words_text n : forall (d : bytes) (f : nat -> N), length d = (n * 4)%nat -> (forall i, (i < n)%nat -> f i < M32) ->
  ((forall i, (i < n)%nat -> word i d = f i) <-> d = flat_map (le_bytes 4) (map f (seq 0 n))).
Proof.
  induction n as [|n IH]; intros d f L F.
  - split; [intros _; destruct d; [reflexivity|discriminate]|intros _ i I; lia].
  - assert (L1 : length (firstn 4 d) = 4%nat) by (rewrite firstn_length; lia). assert (L2 : length (skipn 4 d) = (n * 4)%nat) by (rewrite skipn_length; lia).
    assert (W : forall i, word (S i) d = word i (skipn 4 d)) by (intros i; unfold word; rewrite skipn_skipn; do 3 f_equal; lia).
    specialize (IH (skipn 4 d) (fun i => f (S i)) L2). cbn [seq map flat_map]. rewrite <- seq_shift, map_map.
    pose proof (eq_sym (firstn_skipn 4 d)) as Ed. split.
    + intros H. transitivity (firstn 4 d ++ skipn 4 d); [exact Ed|]. f_equal.
      * apply little_inj; [now rewrite le_bytes_len|]. rewrite little_bytes. specialize (H 0%nat ltac:(lia)). unfold word in H. cbn [Nat.mul] in H. rewrite skipn_O in H. rewrite H.
        symmetry. apply N.mod_small. apply F. lia.
      * apply IH; [intros i I; apply F; lia|]. intros i I. rewrite <- W. apply H. lia.
    + intros E. rewrite Ed in E. apply app_eq_length in E as [E1 E2]; [|rewrite L1, le_bytes_len; reflexivity]. intros [|i] I.
      * unfold word. cbn [Nat.mul]. rewrite skipn_O, E1, little_bytes. apply N.mod_small. apply F. lia.
      * rewrite W. apply IH; [intros k K; apply F; lia|exact E2|lia].
Qed.
Lemma words_map n (b : bytes) : length b = (n * 4)%nat -> words b = map (fun i => word i b) (seq 0 n).
Proof.
  intros L. unfold words. apply (nth_ext _ _ 0 0).
  - rewrite !map_length, seq_length. apply (chunks_fuel_count 4%nat ltac:(lia)); [exact L|reflexivity].
  - intros i I. rewrite map_length in I. unfold chunks in I. rewrite (chunks_fuel_count 4%nat ltac:(lia) _ n) in I by (try exact L; reflexivity).
    change 0 with (le_word []) at 1. rewrite map_nth. unfold chunks. rewrite (chunks_fuel_nth 4%nat ltac:(lia) _ _ _ (le_n _)).
    rewrite (nth_indep _ 0 (word 0%nat b)) by (rewrite map_length, seq_length; exact I). rewrite (map_nth (fun i => word i b)), seq_nth by exact I.
    unfold word. rewrite <- little_word. do 3 f_equal. lia.
Qed.
Lemma nth_map_seq (f : nat -> N) n i : (i < n)%nat -> nth i (map f (seq 0 n)) 0 = f i.
Proof.
  intros I. rewrite (nth_indep _ 0 (f 0%nat)) by (rewrite map_length, seq_length; exact I). rewrite map_nth, seq_nth by exact I. reflexivity.
Qed.
Lemma list_map_seq (l : list N) n : length l = n -> l = map (fun i => nth i l 0) (seq 0 n).
Proof.
  intros L. apply (nth_ext _ _ 0 0); [now rewrite map_length, seq_length|]. intros i I. now rewrite nth_map_seq by lia.
Qed.

(** * ChaCha20 *)
Lemma round_len rot m v : length (round_fun rot m v) = 16%nat.
Proof. reflexivity. Qed.
Lemma iter_ok n v : length v = 16%nat -> ok v -> length (Nat.iter n double_round v) = 16%nat /\ ok (Nat.iter n double_round v).
Proof.
  intros L O. induction n as [|n [I1 I2]]; [auto|]. cbn [Nat.iter nat_rect]. fold (Nat.iter n double_round v). rewrite double_round_eq by exact I1.
  split; [apply round_len|apply round_ok; [exact chacha_rots|exact I2]].
Qed.
Lemma chacha_rounds_iff n : forall v v', length v = 16%nat -> ok v -> (chacha_rounds n v v' <-> v' = Nat.iter n double_round v).
Proof.
  induction n as [|n IH]; intros v v' L O.
  - split; [intros H; inversion H; reflexivity|intros ->; constructor].
  - destruct (iter_ok n v L O) as [I1 I2]. cbn [Nat.iter nat_rect]. fold (Nat.iter n double_round v). rewrite double_round_eq by exact I1. split.
    + intros H. inversion H as [|? ? v1 ? H1 H2]; subst. apply IH in H1; [|exact L|exact O]. subst v1. now apply full_iff in H2; [|exact chacha_rots|exact I2].
    + intros ->. apply chacha_more with (v1 := Nat.iter n double_round v); [now apply IH|]. now apply full_iff; [exact chacha_rots|exact I2|].
Qed.
Lemma matrix_iff text v : length text = 64%nat -> (matrix text v <-> v = words text).
Proof.
  intros L. rewrite (words_map 16) by exact L. unfold matrix. split.
  - intros (_ & Lv & H). rewrite (list_map_seq v 16 Lv). apply map_ext_in. intros i I. apply in_seq in I. apply H. lia.
  - intros ->. split; [exact L|]. split; [now rewrite map_length, seq_length|]. intros i I. now rewrite nth_map_seq.
Qed.
Lemma words_ok (b : bytes) n : length b = (n * 4)%nat -> ok (words b).
Proof. intros L. rewrite (words_map n) by exact L. apply Forall_forall. intros x X. apply in_map_iff in X as (i & <- & _). apply word_small. Qed.
Lemma words_len (b : bytes) n : length b = (n * 4)%nat -> length (words b) = n.
Proof. intros L. rewrite (words_map n) by exact L. now rewrite map_length, seq_length. Qed.
Lemma words_app (a b : bytes) q : length a = (q * 4)%nat -> words (a ++ b) = words a ++ words b.
Proof. intros L. unfold words. rewrite (chunks_app 4 a b q) by (lia || exact L). apply map_app. Qed.
Lemma words_one (c : bytes) : length c = 4%nat -> words c = [little c].
Proof. intros L. rewrite (words_map 1) by exact L. cbn [seq map]. unfold word. cbn [Nat.mul]. rewrite skipn_O, firstn_all2 by lia. reflexivity. Qed.
Definition start_words (key : bytes) (counter : N) (nonce : bytes) : list N := chacha_constants ++ words key ++ [wmask 32 counter] ++ words nonce.
Lemma start_matrix key counter nonce ctr v : length key = 32%nat -> length nonce = 12%nat -> length ctr = 4%nat -> little ctr = counter mod M32 ->
  (matrix (B "expand 32-byte k" ++ key ++ ctr ++ nonce) v <-> v = start_words key counter nonce).
Proof.
  intros K Nn C E. rewrite matrix_iff by (rewrite !app_length, K, Nn, C; reflexivity).
  rewrite (words_app (B "expand 32-byte k") _ 4) by reflexivity. rewrite (words_app key _ 8) by exact K. rewrite (words_app ctr _ 1) by exact C.
  rewrite (words_one ctr C), E. unfold start_words. rewrite wmask_mod. reflexivity.
Qed.
Lemma start_ok key counter nonce : length key = 32%nat -> length nonce = 12%nat -> length (start_words key counter nonce) = 16%nat /\ ok (start_words key counter nonce).
Proof.
  intros K Nn. unfold start_words. split.
  - rewrite !app_length, (words_len key 8), (words_len nonce 3) by assumption. reflexivity.
  - unfold ok. repeat (apply Forall_app; split); [repeat constructor|now apply (words_ok key 8)| |now apply (words_ok nonce 3)]. repeat constructor. rewrite wmask_mod. apply mod32.
Qed.
Lemma flat_len (l : list N) : length (flat_map (le_bytes 4) l) = (length l * 4)%nat.
Proof. induction l as [|x l IH]; [reflexivity|]. cbn [flat_map length]. rewrite app_length, le_bytes_len, IH. lia. Qed.
Theorem stream_block_iff key counter nonce out : length key = 32%nat -> length nonce = 12%nat ->
  (stream_block key counter nonce out <-> out = chacha_block key counter nonce).
Proof.
  intros K Nn. destruct (start_ok key counter nonce K Nn) as [L O]. destruct (iter_ok 10 _ L O) as [L' O'].
  unfold stream_block, chacha_block. fold (start_words key counter nonce). unfold twenty_rounds. cbv zeta. set (st := start_words key counter nonce) in *. set (v' := Nat.iter 10 double_round st) in *.
  assert (E : map (fun '(x, y) => wadd 32 x y) (combine v' st) = map (fun i => (nth i v' 0 + nth i st 0) mod M32) (seq 0 16)).
  { rewrite (list_map_seq (map _ (combine v' st)) 16) by (rewrite map_length, combine_length; lia). apply map_ext_in. intros i I. apply in_seq in I.
    change 0 with ((fun '(x, y) => wadd 32 x y) (0, 0)) at 1. rewrite map_nth, combine_nth by lia. apply wadd_mod. }
  rewrite E. split.
  - intros (ctr & v & v1 & C1 & C2 & H1 & H2 & H3 & H4). apply (start_matrix _ counter) in H1; [|assumption..]. fold st in H1. subst v.
    apply chacha_rounds_iff in H2; [|exact L|exact O]. fold v' in H2. subst v1. apply words_text; [exact H3|intros; apply mod32|exact H4].
  - intros H. assert (Lo : length out = 64%nat) by (rewrite H, flat_len, map_length, seq_length; reflexivity).
    exists (le_bytes 4 counter), st, v'. split; [apply le_bytes_len|]. split; [apply little_bytes|].
    split; [exact (proj2 (start_matrix key counter nonce _ st K Nn (le_bytes_len 4 counter) (little_bytes 4 counter)) eq_refl)|]. split; [now apply chacha_rounds_iff|]. split; [exact Lo|].
    apply words_text; [exact Lo|intros; apply mod32|exact H].
Qed.
Theorem derived_key_iff key nonce out : length key = 32%nat -> length nonce = 16%nat ->
  (derived_key key nonce out <-> out = hchacha key nonce).
Proof.
  intros K Nn. unfold derived_key, hchacha. cbv zeta. set (st := chacha_constants ++ words key ++ words nonce).
  assert (L : length st = 16%nat) by (unfold st; rewrite !app_length, (words_len key 8), (words_len nonce 4) by assumption; reflexivity).
  assert (O : ok st) by (unfold st, ok; repeat (apply Forall_app; split); [repeat constructor|now apply (words_ok key 8)|now apply (words_ok nonce 4)]).
  assert (M : forall v, matrix (B "expand 32-byte k" ++ key ++ nonce) v <-> v = st).
  { intros v. rewrite matrix_iff by (rewrite !app_length, K, Nn; reflexivity). rewrite (words_app (B "expand 32-byte k") _ 4) by reflexivity. now rewrite (words_app key _ 8) by exact K. }
  destruct (iter_ok 10 _ L O) as [L' O']. unfold twenty_rounds. set (v' := Nat.iter 10 double_round st) in *.
  assert (E : firstn 4 v' ++ skipn 12 v' = map (fun i => nth (if Nat.ltb i 4 then i else 8 + i) v' 0) (seq 0 8)).
  { clearbody v'. destruct (sixteen v' L') as (a0 & a1 & a2 & a3 & a4 & a5 & a6 & a7 & a8 & a9 & a10 & a11 & a12 & a13 & a14 & a15 & ->). reflexivity. }
  rewrite E. split.
  - intros (v & v1 & H1 & H2 & H3 & H4). apply M in H1. subst v. apply chacha_rounds_iff in H2; [|exact L|exact O]. fold v' in H2. subst v1.
    apply words_text; [exact H3|intros; now apply ok_nth|]. intros i I. destruct (Nat.ltb_spec i 4) as [Q|Q]; [now apply H4|].
    destruct (H4 (i - 4)%nat ltac:(lia)) as [_ H]. replace (4 + (i - 4))%nat with i in H by lia. replace (12 + (i - 4))%nat with (8 + i)%nat in H by lia. exact H.
  - intros H. assert (Lo : length out = 32%nat) by (rewrite H, flat_len, map_length, seq_length; reflexivity).
    exists st, v'. split; [now apply M|]. split; [now apply chacha_rounds_iff|]. split; [exact Lo|].
    pose proof (proj2 (words_text 8 out _ Lo ltac:(intros; apply ok_nth; exact O')) H) as W. intros i I. split.
    + rewrite W by lia. now rewrite (proj2 (Nat.ltb_lt i 4)).
    + rewrite W by lia. rewrite (proj2 (Nat.ltb_ge (4 + i) 4)) by lia. reflexivity.
Qed.

(** * BLAKE3's compression *)
Lemma reordered_iff m m' : reordered m m' <-> m' = map (fun i => nth i m 0) b3_perm.
Proof.
  unfold reordered. change b3_perm with blake_order.
  assert (E : forall i, (i < 16)%nat -> nth i (map (fun i => nth i m 0) blake_order) 0 = nth (nth i blake_order 0%nat) m 0).
  { intros i I. rewrite (nth_indep _ 0 ((fun i => nth i m 0) 0%nat)) by exact I. apply (map_nth (fun i => nth i m 0)). }
  split.
  - intros [L H]. apply (nth_ext _ _ 0 0); [exact L|]. intros i I. rewrite E by lia. apply H. lia.
  - intros ->. split; [reflexivity|exact E].
Qed.
Lemma b3_rounds_ok n : forall v m, length v = 16%nat -> ok v -> length (b3_rounds n v m) = 16%nat /\ ok (b3_rounds n v m).
Proof.
  induction n as [|n IH]; intros v m L O; [auto|]. cbn [b3_rounds]. rewrite b3_round_eq by exact L. apply IH; [apply round_len|apply round_ok; [exact blake_rots|exact O]].
Qed.
Lemma blake_rounds_iff n : forall m v v', length v = 16%nat -> ok v -> (blake_rounds n m v v' <-> v' = b3_rounds n v m).
Proof.
  induction n as [|n IH]; intros m v v' L O; [split; [intros H; inversion H; reflexivity|intros ->; constructor]|]. cbn [b3_rounds]. rewrite b3_round_eq by exact L. split.
  - intros H. inversion H as [|? ? m' ? v1 ? H1 H2 H3]; subst. apply full_iff in H1; [|exact blake_rots|exact O]. subst v1. apply reordered_iff in H2. subst m'.
    now apply IH in H3; [|apply round_len|apply round_ok; [exact blake_rots|exact O]].
  - intros ->. eapply blake_more; [apply full_iff; [exact blake_rots|exact O|reflexivity]|apply reordered_iff; reflexivity|].
    apply IH; [apply round_len|apply round_ok; [exact blake_rots|exact O]|reflexivity].
Qed.
Definition value_ok (cv : list N) : Prop := length cv = 8%nat /\ ok cv.
Lemma iv_ok : value_ok b3_iv.
Proof. split; [reflexivity|repeat constructor]. Qed.
Section Compress.
  Variables (cv : list N) (counter len flags : N).
  Hypothesis CV : value_ok cv.
  Hypothesis HC : counter < 2 ^ 64.
  Hypothesis HL : len < M32.
  Hypothesis HF : flags < M32.
  Let v : list N := cv ++ firstn 4 b3_iv ++ [wmask 32 counter; N.shiftr counter 32; len; flags].
  Lemma v_ok : length v = 16%nat /\ ok v.
  Proof.
    destruct CV as [L O]. unfold v. split; [rewrite app_length, L; reflexivity|]. unfold ok. repeat (apply Forall_app; split); [exact O|repeat constructor|].
    repeat constructor; [rewrite wmask_mod; apply mod32| |exact HL|exact HF]. rewrite N.shiftr_div_pow2. apply N.div_lt_upper_bound; [discriminate|]. change (M32 * M32) with (2 ^ 64). exact HC.
  Qed.
  Lemma compress_out m : b3_compress cv m counter len flags = map (fun i => N.lxor (nth i (b3_rounds 7 v m) 0) (nth (8 + i) (b3_rounds 7 v m) 0)) (seq 0 8).
  Proof. unfold b3_compress. fold v. cbv zeta. generalize (b3_rounds 7 v m). intros r. reflexivity. Qed.
  Lemma compress_ok m : value_ok (b3_compress cv m counter len flags).
  Proof.
    destruct v_ok as [L O]. destruct (b3_rounds_ok 7 v m L O) as [L' O']. rewrite compress_out. split; [reflexivity|]. apply Forall_forall. intros x X.
    apply in_map_iff in X as (i & <- & _). apply xor_small; now apply ok_nth.
  Qed.
  Lemma compressed_iff m out : compressed iv256 cv m counter len flags out <-> out = b3_compress cv m counter len flags.
  Proof.
    destruct v_ok as [L O]. rewrite compress_out. assert (V : cv ++ firstn 4 iv256 ++ [counter mod M32; counter / M32; len; flags] = v).
    { unfold v. rewrite wmask_mod, N.shiftr_div_pow2. reflexivity. }
    unfold compressed. rewrite V. split.
    - intros (v0 & v' & -> & H1 & H2 & H3). apply blake_rounds_iff in H1; [|exact L|exact O]. subst v'. rewrite (list_map_seq out 8 H2). apply map_ext_in. intros i I. apply in_seq in I. apply H3. lia.
    - intros ->. exists v, (b3_rounds 7 v m). split; [reflexivity|]. split; [now apply blake_rounds_iff|]. split; [reflexivity|]. intros i I. now rewrite nth_map_seq.
  Qed.
End Compress.

(** * Blocks *)
Lemma little_zeros b n : little (b ++ repeat x00 n) = little b.
Proof.
  induction b as [|x b IH]; cbn [app little]; [|now rewrite IH]. induction n as [|n IH]; [reflexivity|]. cbn [repeat little]. rewrite IH. reflexivity.
Qed.
Lemma skipn_zeros : forall n k, skipn k (repeat x00 n) = repeat x00 (n - k).
Proof. induction n as [|n IH]; intros k; [now rewrite skipn_nil|]. destruct k as [|k]; [reflexivity|]. cbn [repeat skipn Nat.sub]. apply IH. Qed.
Lemma firstn_zeros : forall n k, firstn k (repeat x00 n) = repeat x00 (Nat.min k n).
Proof. induction n as [|n IH]; intros k; [rewrite firstn_nil, Nat.min_0_r; reflexivity|]. destruct k as [|k]; [reflexivity|]. cbn [repeat firstn Nat.min]. now rewrite IH. Qed.
Lemma word_zeros i b n : word i (b ++ repeat x00 n) = word i b.
Proof. unfold word. rewrite skipn_app, skipn_zeros, firstn_app, firstn_zeros. apply little_zeros. Qed.
Lemma message_iff b m : (length b <= 64)%nat -> (message b m <-> m = b3_words b).
Proof.
  intros L. change (b3_words b) with (words (b ++ repeat x00 (64 - length b))). rewrite (words_map 16) by (rewrite app_length, repeat_length; lia). unfold message. split.
  - intros [Lm H]. rewrite (list_map_seq m 16 Lm). apply map_ext_in. intros i I. apply in_seq in I. rewrite word_zeros. apply H. lia.
  - intros ->. split; [now rewrite map_length, seq_length|]. intros i I. rewrite nth_map_seq by exact I. apply word_zeros.
Qed.
Definition blocks_of (data : bytes) : list bytes := match data with [] => [[]] | _ => chunks 64 data end.
Lemma chunks_one k (l : bytes) : l <> [] -> (length l <= k)%nat -> chunks k l = [l].
Proof.
  intros E L. unfold chunks. destruct l as [|x l]; [congruence|]. cbn [length] in *. change (chunks_fuel (S (length l)) k (x :: l)) with (firstn k (x :: l) :: chunks_fuel (length l) k (skipn k (x :: l))).
  rewrite firstn_all2, skipn_all2 by (cbn [length]; lia). now destruct (length l).
Qed.
Lemma blocks_last b : (length b <= 64)%nat -> blocks_of b = [b].
Proof. destruct b as [|x b]; [reflexivity|]. intros L. apply chunks_one; [discriminate|exact L]. Qed.
Lemma blocks_next b rest : length b = 64%nat -> rest <> [] -> exists x y, blocks_of (b ++ rest) = b :: x :: y /\ blocks_of rest = x :: y.
Proof.
  intros L R. assert (E : blocks_of (b ++ rest) = b :: chunks 64 rest).
  { unfold blocks_of. destruct (b ++ rest) as [|z t] eqn:Q; [destruct b; discriminate|]. rewrite <- Q. apply chunks_next; [lia|exact L]. }
  destruct rest as [|z t]; [congruence|]. rewrite E. change (blocks_of (z :: t)) with (chunks 64 (z :: t)). unfold chunks. eexists _, _. split; reflexivity.
Qed.
Lemma flags_small start root : start <= 1 -> start + chunk_end + root_flag root < M32.
Proof. intros S. unfold chunk_end, root_flag. change M32 with 4294967296. destruct root; lia. Qed.
Lemma len_small (b : bytes) : (length b <= 64)%nat -> N.of_nat (length b) < M32.
Proof. intros L. change M32 with 4294967296. lia. Qed.
Lemma small_start start : start <= 1 -> start < M32.
Proof. intros L. change M32 with 4294967296. lia. Qed.
Lemma absorbed_iff root counter n : counter < 2 ^ 64 -> forall data start cv cv', (length data <= n)%nat -> start <= 1 -> value_ok cv ->
  (absorbed iv256 root counter start cv data cv' <-> cv' = b3_blocks cv counter start (root_flag root) (blocks_of data)) /\
  value_ok (b3_blocks cv counter start (root_flag root) (blocks_of data)).
Proof.
  intros HC. induction n as [n IH] using (well_founded_induction lt_wf). intros data start cv cv' L S O. destruct (le_lt_dec (length data) 64) as [D|D].
  - rewrite blocks_last by exact D. cbn [b3_blocks]. pose proof (flags_small start root S) as F. pose proof (len_small data D) as Q.
    assert (CI := compressed_iff cv counter (N.of_nat (length data)) (start + chunk_end + root_flag root) O HC Q F).
    split; [|apply compress_ok; assumption]. split.
    + intros A. inversion A as [? ? ? m ? D1 M C|? ? b rest m cv1 ? D1 R M C A1]; subst; [|rewrite app_length in D; destruct rest; [congruence|cbn [length] in D; lia]].
      apply message_iff in M; [|exact D]. subst m. now apply CI in C.
    + intros ->. eapply absorbed_last; [exact D|apply message_iff; [exact D|reflexivity]|]. now apply CI.
  - assert (L1 : length (firstn 64 data) = 64%nat) by (rewrite firstn_length; lia). assert (R1 : skipn 64 data <> []).
    { intros E. apply (f_equal (@length byte)) in E. rewrite skipn_length in E. cbn [length] in E. lia. }
    pose proof (firstn_skipn 64 data) as Ed. revert Ed. generalize dependent (skipn 64 data). generalize dependent (firstn 64 data). intros b Lb rest R1 <-. clear D.
    destruct (blocks_next b rest Lb R1) as (x & y & E1 & E2). rewrite E1. change (b3_blocks cv counter start (root_flag root) (b :: x :: y)) with
      (b3_blocks (b3_compress cv (b3_words b) counter (N.of_nat (length b)) start) counter 0 (root_flag root) (x :: y)). rewrite <- E2.
    assert (Q64 : (length b <= 64)%nat) by lia. pose proof (len_small b Q64) as Q. pose proof (small_start start S) as F.
    pose proof (compress_ok cv counter (N.of_nat (length b)) start O HC Q F (b3_words b)) as O1. assert (CI := compressed_iff cv counter (N.of_nat (length b)) start O HC Q F).
    assert (Lr : (length rest < n)%nat) by (rewrite app_length in L; lia).
    destruct (IH _ Lr rest 0 _ cv' (le_n _) ltac:(lia) O1) as [I1 I2]. split; [|exact I2]. rewrite <- I1. split.
    + intros A. inversion A as [? ? ? m ? D1 M C|? ? b' rest' m cv1 ? D1 R M C A1 Eq1 Eq2]; subst.
      * exfalso. rewrite app_length in D1. destruct rest; [congruence|cbn [length] in D1; lia].
      * match goal with H : _ ++ _ = _ ++ _ |- _ => apply app_eq_length in H as [-> ->]; [|congruence] end. apply message_iff in M; [|exact Q64]. subst m.
        replace 64 with (N.of_nat (length b)) in C by (rewrite Lb; reflexivity). apply CI in C. subst cv1. exact A1.
    + intros A. eapply absorbed_next; [exact Lb|exact R1|apply message_iff; [exact Q64|reflexivity]| |exact A].
      replace 64 with (N.of_nat (length b)) by (rewrite Lb; reflexivity). now apply CI.
Qed.

(** * The tree *)
Lemma chunks_count C : (0 < C)%nat -> forall n (l : bytes), (length l <= n)%nat -> l <> [] ->
  (C * (length (chunks C l) - 1) < length l <= C * length (chunks C l))%nat.
Proof.
  intros P. induction n as [|n IH]; intros l L E; [destruct l; [congruence|cbn in L; lia]|].
  destruct (le_lt_dec (length l) C) as [D|D].
  - rewrite chunks_one by assumption. cbn [length]. destruct l; [congruence|cbn [length] in *; lia].
  - assert (L1 : length (firstn C l) = C) by (rewrite firstn_length; lia). assert (L2 : length (skipn C l) = (length l - C)%nat) by apply skipn_length.
    rewrite <- (firstn_skipn C l) at 1 4. rewrite chunks_next by assumption. cbn [length].
    assert (E2 : skipn C l <> []) by (intros Z; rewrite Z in L2; cbn in L2; lia). specialize (IH (skipn C l) ltac:(lia) E2).
    assert (0 < length (chunks C (skipn C l)))%nat by (destruct (chunks C (skipn C l)); cbn [length] in *; lia). nia.
Qed.
Lemma left_len_eq k n : 2 ^ k < n -> n <= 2 * 2 ^ k -> left_len n = 2 ^ k.
Proof. intros A B. unfold left_len. f_equal. apply N.log2_unique; [lia|]. rewrite N.pow_succ_r'. lia. Qed.
Lemma b3_tree_two f counter extra (cs : list bytes) k : (2 <= length cs)%nat -> left_len (N.of_nat (length cs)) = k ->
  b3_tree (S f) counter extra cs = b3_parent extra (b3_tree f counter 0 (firstn (N.to_nat k) cs)) (b3_tree f (counter + k) 0 (skipn (N.to_nat k) cs)).
Proof. intros L <-. destruct cs as [|a [|b cs]]; [cbn in L; lia|cbn in L; lia|]. reflexivity. Qed.
Lemma parent_flags root : parent + root_flag root < M32.
Proof. now destruct root. Qed.
Lemma node_iff f : forall root counter (data : bytes) cv, (length (chunks 1024 data) < f)%nat -> counter + N.of_nat (length (chunks 1024 data)) < 2 ^ 64 ->
  (node iv256 root counter data cv <-> cv = b3_tree f counter (root_flag root) (chunks 1024 data)) /\
  value_ok (b3_tree f counter (root_flag root) (chunks 1024 data)).
Proof.
  assert (CN : N.of_nat 1024 = 1024) by reflexivity. assert (CP : (0 < 1024)%nat) by (apply Nat.ltb_lt; reflexivity).
  assert (LEAF : forall root counter (data : bytes) cv, node iv256 root counter data cv ->
    ((length data <= 1024)%nat /\ absorbed iv256 root counter chunk_start iv256 data cv) \/
    exists k l r cl cr, data = l ++ r /\ N.of_nat (length l) = N.of_nat 1024 * 2 ^ k /\ (0 < length r <= length l)%nat /\ node iv256 false counter l cl /\
      node iv256 false (counter + 2 ^ k) r cr /\ compressed iv256 iv256 (cl ++ cr) 0 64 (parent + root_flag root) cv).
  { intros root counter data cv H. destruct H as [root counter data cv H A|root counter k l r cl cr cv H1 H2 H3 H4 H5]; [left; auto|]. right. exists k, l, r, cl, cr. split; [reflexivity|]. split; [rewrite CN; exact H1|]. split; [exact H2|]. split; [exact H3|]. split; [exact H4|exact H5]. }
  assert (CHUNK : forall root counter (data : bytes) cv, (length data <= 1024)%nat -> absorbed iv256 root counter chunk_start iv256 data cv -> node iv256 root counter data cv)
    by (intros; now apply node_chunk).
  assert (PARENT : forall root counter k (l r : bytes) cl cr cv, N.of_nat (length l) = N.of_nat 1024 * 2 ^ k -> (0 < length r <= length l)%nat -> node iv256 false counter l cl ->
    node iv256 false (counter + 2 ^ k) r cr -> compressed iv256 iv256 (cl ++ cr) 0 64 (parent + root_flag root) cv -> node iv256 root counter (l ++ r) cv)
    by (intros root counter k l r cl cr cv H1 H2 H3 H4 H5; rewrite CN in H1; exact (node_parent _ _ _ _ _ _ _ _ _ H1 H2 H3 H4 H5)).
  clear CN. revert CP LEAF CHUNK PARENT. generalize 1024%nat. intros C CP LEAF CHUNK PARENT.
  induction f as [|f IH]; intros root counter data cv F HC; [lia|]. destruct (le_lt_dec (length data) C) as [D|D].
  - assert (H0 : counter < 2 ^ 64) by lia.
    assert (T : b3_tree (S f) counter (root_flag root) (chunks C data) = b3_blocks b3_iv counter 1 (root_flag root) (blocks_of data)).
    { destruct data as [|x data]; [reflexivity|]. rewrite chunks_one by (discriminate || exact D). reflexivity. }
    rewrite T. destruct (absorbed_iff root counter (length data) H0 data 1 b3_iv cv (le_n _) ltac:(lia) iv_ok) as [A1 A2]. split; [|exact A2]. rewrite <- A1. split.
    + intros H. apply LEAF in H as [[_ H]|(k & l & r & cl & cr & -> & H1 & H2 & _)]; [exact H|]. exfalso. rewrite app_length in D.
      pose proof (N.pow_nonzero 2 k ltac:(discriminate)). nia.
    + now apply CHUNK.
  - set (n := N.of_nat (length (chunks C data))) in *. assert (DN : data <> []) by (intros ->; cbn in D; lia).
    pose proof (chunks_count C CP _ data (le_n _) DN) as CC.
    (* every way to split the data as a parent *)
    assert (SPLIT : forall k (l r : bytes), data = l ++ r -> N.of_nat (length l) = N.of_nat C * 2 ^ k -> (0 < length r <= length l)%nat ->
      b3_tree (S f) counter (root_flag root) (chunks C data) =
        b3_parent (root_flag root) (b3_tree f counter 0 (chunks C l)) (b3_tree f (counter + 2 ^ k) 0 (chunks C r)) /\
      (length (chunks C l) < f)%nat /\ (length (chunks C r) < f)%nat /\ counter + N.of_nat (length (chunks C l)) < 2 ^ 64 /\ counter + 2 ^ k + N.of_nat (length (chunks C r)) < 2 ^ 64).
    { intros k l r E H1 H2. assert (LL : length l = (N.to_nat (2 ^ k) * C)%nat) by nia.
      assert (EA : chunks C data = chunks C l ++ chunks C r) by (rewrite E; now apply (chunks_app C l r (N.to_nat (2 ^ k)))).
      assert (CL : length (chunks C l) = N.to_nat (2 ^ k)) by (unfold chunks; apply chunks_fuel_count; [exact CP|exact LL|reflexivity]).
      assert (RN : r <> []) by (intros ->; cbn in H2; lia). pose proof (chunks_count C CP _ r (le_n _) RN) as CR.
      assert (R1 : (0 < length (chunks C r))%nat) by (destruct (chunks C r); cbn [length] in *; lia).
      assert (R2 : (length (chunks C r) <= N.to_nat (2 ^ k))%nat) by nia.
      assert (P2 : 0 < 2 ^ k) by (pose proof (N.pow_nonzero 2 k ltac:(discriminate)); lia).
      assert (NN : length (chunks C data) = (N.to_nat (2 ^ k) + length (chunks C r))%nat) by (rewrite EA, app_length, CL; reflexivity).
      assert (LL2 : left_len (N.of_nat (length (chunks C data))) = 2 ^ k) by (apply left_len_eq; lia).
      assert (TT : b3_tree (S f) counter (root_flag root) (chunks C data) = b3_parent (root_flag root)
        (b3_tree f counter 0 (firstn (N.to_nat (2 ^ k)) (chunks C data))) (b3_tree f (counter + 2 ^ k) 0 (skipn (N.to_nat (2 ^ k)) (chunks C data)))).
      { apply b3_tree_two; [change (2 <= length (chunks C data))%nat; rewrite NN; lia|exact LL2]. }
      rewrite TT. split; [|lia]. rewrite EA, firstn_app, skipn_app, CL, Nat.sub_diag, firstn_O, app_nil_r, skipn_O, (firstn_all2 (n := N.to_nat (2 ^ k))), (skipn_all2 (n := N.to_nat (2 ^ k))) by lia.
      reflexivity. }
    assert (CI := compressed_iff b3_iv 0 64 (parent + root_flag root) iv_ok ltac:(reflexivity) ltac:(reflexivity) (parent_flags root)).
    assert (N2 : 2 <= n) by nia.
    set (k := N.log2 (n - 1)). pose proof (N.log2_spec (n - 1) ltac:(lia)) as LS. fold k in LS. rewrite N.pow_succ_r' in LS.
    set (sz := (N.to_nat (2 ^ k) * C)%nat). assert (SZ : (sz < length data)%nat) by (unfold sz; nia).
    pose proof (eq_sym (firstn_skipn sz data)) as Ed. assert (S1 : length (firstn sz data) = sz) by (rewrite firstn_length; lia).
    assert (S2 : length (skipn sz data) = (length data - sz)%nat) by apply skipn_length.
    assert (H1 : N.of_nat (length (firstn sz data)) = N.of_nat C * 2 ^ k) by (rewrite S1; unfold sz; lia).
    assert (H2 : (0 < length (skipn sz data) <= length (firstn sz data))%nat) by (rewrite S1, S2; unfold sz in *; nia).
    split.
    + split.
      * intros H. apply LEAF in H as [[H _]|(k' & l & r & cl & cr & E & G1 & G2 & Hl & Hr & Hc)]; [lia|].
        destruct (SPLIT k' l r E G1 G2) as (T & F1 & F2 & F3 & F4). rewrite T.
        apply (proj1 (IH false counter l cl F1 F3)) in Hl. apply (proj1 (IH false _ r cr F2 F4)) in Hr. subst cl cr. now apply CI in Hc.
      * intros ->. destruct (SPLIT k _ _ Ed H1 H2) as (T & F1 & F2 & F3 & F4). rewrite Ed at 1.
        eapply (PARENT root counter k _ _ _ _ _ H1 H2).
        -- apply (IH false counter _ _ F1 F3). reflexivity.
        -- apply (IH false _ _ _ F2 F4). reflexivity.
        -- rewrite T. now apply CI.
    + destruct (SPLIT k _ _ Ed H1 H2) as (T & _). rewrite T. exact (compress_ok b3_iv 0 64 (parent + root_flag root) iv_ok eq_refl eq_refl (parent_flags root) _).
Qed.
Lemma chunks_fewer C (l : bytes) : (0 < C)%nat -> (length (chunks C l) <= length l)%nat.
Proof.
  intros P. destruct l as [|x l]; [reflexivity|]. pose proof (chunks_count C P _ (x :: l) (le_n _) ltac:(discriminate)) as CC. revert CC. generalize (length (chunks C (x :: l))). intros n CC. nia.
Qed.
Theorem blake3_iff m d : N.of_nat (length m) < 2 ^ 64 -> (blake3_digest m d <-> d = real_blake3 m).
Proof.
  intros LM. assert (CN : 0 + N.of_nat (length (chunks 1024 m)) < 2 ^ 64).
  { pose proof (chunks_fewer 1024 m ltac:(apply Nat.ltb_lt; reflexivity)). lia. }
  unfold blake3_digest, real_blake3. cbv zeta. set (f := S (length (chunks 1024 m))).
  assert (NI : forall cv, (node iv256 true 0 m cv <-> cv = b3_tree f 0 8 (chunks 1024 m)) /\ value_ok (b3_tree f 0 8 (chunks 1024 m)))
    by (intros cv; exact (node_iff f true 0 m cv (le_n _) CN)).
  revert NI. generalize (b3_tree f 0 8 (chunks 1024 m)). intros t NI. destruct (proj2 (NI [])) as [Lt Ot]. rewrite (list_map_seq t 8 Lt). split.
  - intros (IV & cv & L & R & H & Ld & W). rewrite (roots_only 2 32 0 iv256 iv256_roots IV L R) in H. apply NI in H. subst cv. apply words_text; [exact Ld|intros; now apply ok_nth|exact W].
  - intros E. assert (Ld : length d = 32%nat) by (rewrite E, flat_len, map_length, seq_length; reflexivity).
    exists iv256, t. split; [reflexivity|]. split; [exact iv256_roots|]. split; [now apply NI|]. split; [exact Ld|]. apply words_text; [exact Ld|intros; now apply ok_nth|exact E].
Qed.
