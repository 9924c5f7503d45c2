(** Argon2id in terms of [Blake2Spec] is that of the model. *)
From Coq Require Import Arith Lia.
From Verif Require Import Base BaseFacts Codec Hash HashFacts AeadFacts DigestFacts Deps ArxSpec ArxFacts Argon2 Argon2Spec Argon2Facts Argon2World Blake2Spec Blake2Facts.
Require Import ZifyBool ZifyNat ZifyN.
Local Open Scope nat_scope.

Lemma no_block_proper : proper no_block.
Proof. split; [reflexivity|]. repeat constructor. Qed.
Local Opaque compress.
Section Same.
  Variables (g : block -> block -> block) (lanes seg passes : nat) (first : nat -> nat -> block).
  Notation q := (4 * seg).
  Hypothesis G : forall x y, proper x -> proper y -> g x y = compress x y.
  Hypotheses (L1 : 1 <= lanes) (S2 : 2 <= seg).
  Hypothesis LM : (N.of_nat (lanes * q) < 2 ^ 64)%N.
  Hypothesis LP : (N.of_nat passes < 2 ^ 64)%N.
  Hypothesis FP : forall lane i, lane < lanes -> i < 2 -> proper (first lane i).
  Lemma input_proper lane s k : lane < lanes -> s < 2 -> k < seg ->
    proper (map N.of_nat [0; lane; s; (lanes * q); passes; 2; S (k / 128)] ++ repeat 0%N 121).
  Proof.
    intros Hl Hs Hk. split; [reflexivity|]. apply Forall_app. split; [|repeat constructor]. cbn [map].
    assert (K : k / 128 <= k) by (apply Nat.div_le_upper_bound; lia). assert (Q : seg <= lanes * q) by nia. assert (Q' : lanes <= lanes * q) by nia.
    repeat (apply Forall_cons; [cbv beta; try exact LM; try exact LP; try reflexivity; (eapply N.le_lt_trans; [|exact LM]); lia|]). constructor.
  Qed.
  Lemma fixed_same lane s k : lane < lanes -> s < 2 -> k < seg -> fixed_word g lanes seg passes lane s k = fixed_word compress lanes seg passes lane s k.
  Proof.
    intros Hl Hs Hk. unfold fixed_word. pose proof (input_proper lane s k Hl Hs Hk) as I. rewrite (G no_block _ no_block_proper I).
    rewrite (G no_block _ no_block_proper (compress_proper _ _ no_block_proper I)). reflexivity.
  Qed.
  Lemma random_same f lane n : lane < lanes -> random g lanes seg passes f lane n = random compress lanes seg passes f lane n.
  Proof.
    intros Hl. unfold random. destruct (Nat.ltb_spec n (2 * seg)) as [H|H]; [|reflexivity]. apply fixed_same; [exact Hl|apply Nat.div_lt_upper_bound; lia|apply Nat.mod_upper_bound; lia].
  Qed.
  Lemma its_lane_same f lane n : lane < lanes -> its_lane g lanes seg passes f lane n = its_lane compress lanes seg passes f lane n.
  Proof. intros Hl. unfold its_lane. now rewrite (random_same f lane n Hl). Qed.
  Lemma chosen_same f lane n : lane < lanes -> chosen g lanes seg passes f lane n = chosen compress lanes seg passes f lane n.
  Proof. intros Hl. unfold chosen, choices. now rewrite (random_same f lane n Hl), (its_lane_same f lane n Hl). Qed.
  Lemma its_lane_lt f lane n : lane < lanes -> its_lane g lanes seg passes f lane n < lanes.
  Proof.
    intros Hl. unfold its_lane. destruct (Nat.ltb n seg); [exact Hl|]. generalize (random g lanes seg passes f lane n / 2 ^ 32)%N. intros x.
    pose proof (N.mod_lt x (N.of_nat lanes) ltac:(lia)). lia.
  Qed.
  Lemma blocks_proper f : filled g lanes seg passes first f -> forall n lane, lane < lanes -> n < passes * q -> proper (f lane n).
  Proof.
    intros F. induction n as [n IH] using (well_founded_induction lt_wf). intros lane Hl Hn. rewrite (F lane n Hl Hn).
    destruct (Nat.ltb_spec n 2) as [H|H]; [now apply FP|]. cbv zeta.
    pose proof (chosen_lt g lanes seg passes first L1 S2 f lane n ltac:(lia)) as C. pose proof (its_lane_lt f lane n Hl) as I.
    pose proof (IH (n - 1) ltac:(lia) lane Hl ltac:(lia)) as P1. pose proof (IH _ C _ I (Nat.lt_trans _ _ _ C Hn)) as P2. rewrite (G _ _ P1 P2). pose proof (compress_proper _ _ P1 P2) as P.
    destruct (Nat.ltb_spec n q) as [H2|H2]; [exact P|]. apply zip_proper; [|exact P]. apply IH; [lia|exact Hl|lia].
  Qed.
  Lemma filled_same f : filled g lanes seg passes first f -> filled compress lanes seg passes first f.
  Proof.
    intros F lane n Hl Hn. rewrite (F lane n Hl Hn). destruct (Nat.ltb_spec n 2) as [H|H]; [reflexivity|]. cbv zeta.
    pose proof (chosen_lt g lanes seg passes first L1 S2 f lane n ltac:(lia)) as C. pose proof (its_lane_lt f lane n Hl) as I.
    pose proof (blocks_proper f F (n - 1) lane Hl ltac:(lia)) as P1. pose proof (blocks_proper f F _ _ I (Nat.lt_trans _ _ _ C Hn)) as P2. pose proof (G _ _ P1 P2) as E.
    rewrite (its_lane_same f lane n Hl), (chosen_same f lane n Hl) in E. rewrite (its_lane_same f lane n Hl), (chosen_same f lane n Hl), E. reflexivity.
  Qed.
  Lemma final_proper f : 1 <= passes -> filled g lanes seg passes first f -> proper (final_block lanes seg passes f).
  Proof.
    intros P F. unfold final_block. assert (B0 : forall lane, lane < lanes -> proper (f lane (passes * q - 1))) by (intros lane Hl; apply (blocks_proper f F); [exact Hl|nia]).
    assert (X : forall k a acc, proper acc -> a + k <= lanes -> proper (fold_left zip_xor (map (fun lane => f lane (passes * q - 1)) (seq a k)) acc)).
    { induction k as [|k IH]; intros a acc A H; [exact A|]. cbn [seq map fold_left]. apply IH; [|lia]. apply zip_proper; [exact A|apply B0; lia]. }
    apply X; [apply B0; lia|lia].
  Qed.
End Same.

Lemma its_words_iff text b : length text = 1024 -> (its_words text b <-> b = to_block text).
Proof.
  intros L. unfold to_block. rewrite (words64_map 128) by exact L. unfold its_words. split.
  - intros [Lb H]. rewrite (list_map_seq b 128 Lb). apply map_ext_in. intros i I. apply in_seq in I. apply H. lia.
  - intros ->. split; [now rewrite map_length, seq_length|]. intros k K. exact (nth_map_seq (fun i => word64 i text) 128 k K).
Qed.
Lemma to_block_proper text : length text = 1024 -> proper (to_block text).
Proof.
  intros L. unfold to_block. rewrite (words64_map 128) by exact L. split; [now rewrite map_length, seq_length|]. generalize (seq 0 128). intros l. induction l as [|i l IH]; constructor; [apply word64_fit|exact IH].
Qed.
Lemma block_text text b : proper b -> (length text = 1024 /\ its_words text b <-> text = block_bytes b).
Proof.
  intros [L F]. unfold block_bytes, its_words. assert (E : b = map (fun i => nth i b 0%N) (seq 0 128)) by (apply list_map_seq; exact L). split.
  - intros [Lt [_ H]]. rewrite E. apply (words64_text 128); [exact Lt|intros; now apply fit_nth|]. intros i I. symmetry. now apply H.
  - intros H. assert (Lt : length text = 1024) by (rewrite H, (@flat_map_length _ _ _ 8) by apply le_bytes_length; rewrite L; reflexivity).
    split; [exact Lt|]. split; [exact L|]. intros k K. symmetry. rewrite E in H.
    exact (proj2 (words64_text 128 text (fun i => nth i b 0%N) Lt ltac:(intros; now apply fit_nth)) H k K).
Qed.
Lemma hashed_len lanes memory passes size pw salt : (N.of_nat (length pw) < 2 ^ 32 -> N.of_nat (length salt) < 2 ^ 32 ->
  N.of_nat (length (hashed_first lanes memory passes size pw salt)) < 2 ^ 128)%N.
Proof.
  intros A C. unfold hashed_first. rewrite !app_length, !le_bytes_length, (@flat_map_length _ _ _ 4) by apply le_bytes_length. cbn [length]. rewrite repeat_length.
  change (2 ^ 32)%N with 4294967296%N in *. change (2 ^ 128)%N with 340282366920938463463374607431768211456%N. lia.
Qed.
Local Opaque blake2b blake2b_long to_block block_bytes final_block.
Theorem standard_iff lanes memory passes size pw salt tag : (1 <= lanes -> 8 * lanes <= memory < 2 ^ 32 -> 1 <= passes < 2 ^ 32 -> N.of_nat size < 2 ^ 32 ->
  N.of_nat (length pw) < 2 ^ 32 -> N.of_nat (length salt) < 2 ^ 32 ->
  argon2id_standard lanes memory passes size pw salt tag <-> tag = argon2id_tag lanes memory passes size pw salt)%N.
Proof.
  intros HL [HM HM'] [HP HP'] HS HW HT. rewrite <- (argon2id_iff lanes memory passes size pw salt tag HL HM HP).
  assert (S2 : 2 <= N.to_nat (memory / (4 * lanes))) by (assert (2 <= memory / (4 * lanes))%N by (apply N.div_le_lower_bound; lia); lia).
  assert (LM : (N.of_nat (N.to_nat lanes * (4 * N.to_nat (memory / (4 * lanes)))) < 2 ^ 64)%N).
  { pose proof (N.mul_div_le memory (4 * lanes) ltac:(lia)) as Q. apply N.le_lt_trans with memory; [lia|]. apply N.lt_trans with (2 ^ 32)%N; [exact HM'|reflexivity]. }
  assert (LP : (N.of_nat (N.to_nat passes) < 2 ^ 64)%N) by (rewrite N2Nat.id; apply N.lt_trans with (2 ^ 32)%N; [exact HP'|reflexivity]).
  unfold argon2id_standard, argon2id. cbv zeta. set (seg := N.to_nat (memory / (4 * lanes))) in *. set (p := N.to_nat lanes) in *. set (t := N.to_nat passes) in *.
  assert (L1 : 1 <= p) by (unfold p; lia). assert (T1 : 1 <= t) by (unfold t; lia).
  set (h := blake2b 64 (hashed_first lanes memory passes size pw salt)). assert (Lh : length h = 64) by (apply blake2b_len; apply le_n).
  pose proof (hashed_len lanes memory passes size pw salt HW HT) as HH.
  set (text i lane := h ++ le_bytes 4 (N.of_nat i) ++ le_bytes 4 (N.of_nat lane)).
  assert (Ltext : forall i lane, (N.of_nat (length (text i lane)) < 2 ^ 64)%N) by (intros i lane; unfold text; rewrite !app_length, Lh, !le_bytes_length; reflexivity).
  assert (S1024 : (N.of_nat 1024 < 2 ^ 32)%N) by reflexivity.
  set (first0 := fun lane i => to_block (blake2b_long 1024 (text i lane))).
  assert (FP : forall lane i, lane < p -> i < 2 -> proper (first0 lane i)) by (intros; apply to_block_proper; apply blake2b_long_len).
  split.
  - intros (g & h0 & first & f & out & HG & H0 & HF & F & Lo & W & D). apply (proj1 (blake2b_iff 64 _ _ (le_n _) HH)) in H0. fold h in H0. subst h0.
    assert (G : forall x y, proper x -> proper y -> g x y = compress x y) by (intros x y X Y; exact (proj1 (compress_iff x y _ X Y) (HG x y X Y))).
    assert (E : forall lane i, lane < p -> i < 2 -> first lane i = first0 lane i).
    { intros lane i A C. destruct (HF lane i A C) as (o & O1 & O2). apply (proj1 (long_iff 1024 (text i lane) o S1024 (Ltext i lane))) in O1. subst o.
      exact (proj1 (its_words_iff _ _ (blake2b_long_len 1024 (text i lane))) O2). }
    assert (F0 : filled g p seg t first0 f).
    { intros lane n A C. rewrite (F lane n A C). destruct (Nat.ltb_spec n 2) as [H|H]; [now apply E|reflexivity]. }
    exists f. split; [exact (filled_same g p seg t first0 G L1 S2 LM LP FP f F0)|].
    pose proof (final_proper g p seg t first0 G L1 S2 LM LP FP f T1 F0) as P. pose proof (proj1 (block_text out _ P) (conj Lo W)) as Et. subst out.
    apply (proj1 (long_iff size _ tag HS ltac:(rewrite Lo; reflexivity))). exact D.
  - intros (f & F & ->). assert (G : forall x y, proper x -> proper y -> compress x y = compress x y) by reflexivity.
    pose proof (final_proper compress p seg t first0 G L1 S2 LM LP FP f T1 F) as P. destruct (proj2 (block_text _ _ P) eq_refl) as [Lo W].
    exists compress, h, first0, f, (block_bytes (final_block p seg t f)).
    split; [intros x y X Y; exact (proj2 (compress_iff x y _ X Y) eq_refl)|]. split; [exact (proj2 (blake2b_iff 64 _ _ (le_n _) HH) eq_refl)|].
    split; [intros lane i A C; exists (blake2b_long 1024 (text i lane)); split; [exact (proj2 (long_iff 1024 _ _ S1024 (Ltext i lane)) eq_refl)|exact (proj2 (its_words_iff _ _ (blake2b_long_len 1024 (text i lane))) eq_refl)]|].
    split; [exact F|]. split; [exact Lo|]. split; [exact W|]. exact (proj2 (long_iff size _ _ HS ltac:(rewrite Lo; reflexivity)) eq_refl).
Qed.
Lemma costs_standard p pw salt key : costs_ok p pw salt ->
  (argon2id_standard (p_cost p) (m_cost p) (t_cost p) 32 pw salt key <-> argon2id (p_cost p) (m_cost p) (t_cost p) 32 pw salt key).
Proof.
  intros ([P _] & [M M'] & [T T'] & _ & [_ Sa] & Pw). rewrite (standard_iff (p_cost p) (m_cost p) (t_cost p) 32 pw salt key P (conj M M') (conj T T') ltac:(reflexivity) Pw Sa).
  symmetry. exact (argon2id_iff _ _ _ 32 pw salt key P M T).
Qed.
Theorem standard_key D p pw salt key : argon2 D ->
  (kdf D p pw salt = Ok key <-> costs_ok p pw salt /\ argon2id_standard (p_cost p) (m_cost p) (t_cost p) 32 pw salt key).
Proof.
  intros A. rewrite (proj1 (argon2_key D p pw salt key A)). split; intros [C H]; split; try exact C; now apply (costs_standard p pw salt key C).
Qed.
