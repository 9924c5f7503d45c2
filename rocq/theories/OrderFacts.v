(** Proofs of C71: comparing the UTF-16 forms of two texts by their UTF-8 bytes. *)
From Coq Require Import Permutation.
From Coq Require Import Sorted.
From Verif Require Import Base BaseFacts Codec Json Deps Types Proof Vc JsonFacts MiscSpec MiscFacts JsonSpec VcSpec VcFacts SuiteSpec CanonSpec.
Set Implicit Arguments.
Local Open Scope N_scope.
Ltac Zify.zify_post_hook ::= Z.div_mod_to_equations.

(** Bytes 0xEE and 0xEF, the first of the characters from U+E000 to U+FFFF, come after all others. *)
Definition weight (n : N) : N := if (n =? 238) || (n =? 239) then n + 256 else n.
Fixpoint lex_cmp (a b : list N) : comparison :=
  match a, b with
  | [], [] => Eq
  | [], _ => Lt
  | _, [] => Gt
  | x :: a', y :: b' => match N.compare x y with Eq => lex_cmp a' b' | c => c end
  end.
Definition weights (s : bytes) : list N := map (fun c => weight (Byte.to_N c)) s.
Definition utf16_leb (a b : bytes) : bool := match lex_cmp (weights a) (weights b) with Gt => false | _ => true end.

Lemma weight_inj a b : a < 256 -> b < 256 -> weight a = weight b -> a = b.
Proof.
  unfold weight. intros Ha Hb. destruct ((a =? 238) || (a =? 239)) eqn:E, ((b =? 238) || (b =? 239)) eqn:F; lia.
Qed.
Lemma byte_lt c : Byte.to_N c < 256. Proof. pose proof (Byte.to_N_bounded c). lia. Qed.
Lemma lex_refl a : lex_cmp a a = Eq.
Proof. induction a as [|x a IH]; [reflexivity|]. cbn. rewrite N.compare_refl. exact IH. Qed.
Lemma lex_eq a b : lex_cmp a b = Eq -> a = b.
Proof.
  revert b. induction a as [|x a IH]; intros [|y b]; cbn; try congruence. destruct (N.compare_spec x y); try discriminate.
  intros E. subst. f_equal. auto.
Qed.
Lemma lex_opp a b : lex_cmp b a = CompOpp (lex_cmp a b).
Proof.
  revert b. induction a as [|x a IH]; intros [|y b]; cbn; try reflexivity. rewrite (N.compare_antisym x y).
  destruct (N.compare x y); cbn; auto.
Qed.
Lemma lex_iff a b : lex_cmp a b <> Gt <-> lex_le a b.
Proof.
  revert b. induction a as [|x a IH]; intros [|y b]; cbn; try (split; [auto|discriminate]); try (split; [congruence|tauto]).
  rewrite <- IH. destruct (N.compare_spec x y); split; try (intros [?|[? ?]]; congruence || lia); auto; try congruence; try discriminate.
Qed.
Lemma lex_trans a : forall b c, lex_le a b -> lex_le b c -> lex_le a c.
Proof.
  induction a as [|x a IH]; intros [|y b] [|z c]; cbn; auto; try tauto. intros [H|[-> H]] [H'|[-> H']]; try (left; lia). right. eauto.
Qed.
Lemma weights_inj a : forall b, weights a = weights b -> a = b.
Proof.
  induction a as [|x a IH]; intros [|y b]; cbn; try discriminate; [reflexivity|]. intros E. injection E as E1 E2.
  apply weight_inj in E1; try apply byte_lt. apply to_N_inj in E1. subst. f_equal. auto.
Qed.
Lemma utf16_leb_iff a b : utf16_leb a b = true <-> lex_cmp (weights a) (weights b) <> Gt.
Proof. unfold utf16_leb. destruct (lex_cmp _ _); split; congruence. Qed.
Theorem utf16_total : total_order utf16_leb.
Proof.
  split; [|split].
  - intros a b. rewrite !utf16_leb_iff, (lex_opp (weights a)). destruct (lex_cmp (weights a) (weights b)); cbn; [left|left|right]; discriminate.
  - intros a b H1 H2. apply utf16_leb_iff in H1, H2. rewrite (lex_opp (weights a)) in H2. apply weights_inj, lex_eq.
    destruct (lex_cmp (weights a) (weights b)); cbn in *; congruence.
  - intros a b c. rewrite !utf16_leb_iff, !lex_iff. apply lex_trans.
Qed.

(** ** Characters *)
(** The common order: surrogates are below U+E000. *)
Definition rank (c : N) : N := if (57344 <=? c) && (c <? 65536) then c + 1114112 else c.
Lemma rank_inj a b : scalar a -> scalar b -> rank a = rank b -> a = b.
Proof. unfold scalar, rank. intros Ha Hb. destruct ((57344 <=? a) && (a <? 65536)) eqn:E, ((57344 <=? b) && (b <? 65536)) eqn:F; lia. Qed.
Lemma lex_lt_here x y a b : x < y -> lex_cmp (x :: a) (y :: b) = Lt.
Proof. intros H. cbn. rewrite (proj2 (N.compare_lt_iff x y) H). reflexivity. Qed.
Lemma lex_eq_here x y a b : x = y -> lex_cmp (x :: a) (y :: b) = lex_cmp a b.
Proof. intros ->. cbn. rewrite N.compare_refl. reflexivity. Qed.
Ltac lex_lt := repeat (match goal with |- lex_cmp (?x :: _) (?y :: _) = Lt =>
   destruct (N.lt_trichotomy x y) as [?|[?|?]]; [apply lex_lt_here; assumption|rewrite lex_eq_here by assumption|exfalso; lia] end); try (exfalso; lia).
Lemma units_lt a b r s : scalar a -> scalar b -> rank a < rank b -> lex_cmp (code_units a ++ r) (code_units b ++ s) = Lt.
Proof.
  unfold scalar, rank, code_units. intros Ha Hb H. destruct (a <? 65536) eqn:La, (b <? 65536) eqn:Lb; cbn [app].
  - assert (a < b) by (destruct ((57344 <=? a) && true) eqn:E, ((57344 <=? b) && true) eqn:F; lia). apply lex_lt_here. assumption.
  - assert (a < 55296) by (destruct ((57344 <=? a) && true) eqn:E; destruct ((57344 <=? b) && false) eqn:F; lia). apply lex_lt_here. lia.
  - assert (57344 <= b) by (destruct ((57344 <=? a) && false) eqn:E; destruct ((57344 <=? b) && true) eqn:F; lia). apply lex_lt_here. lia.
  - assert (a < b) by (destruct ((57344 <=? a) && false) eqn:E; destruct ((57344 <=? b) && false) eqn:F; lia). lex_lt.
Qed.
Lemma weight_low n : n < 238 -> weight n = n. Proof. unfold weight. intros. replace (n =? 238) with false by lia. replace (n =? 239) with false by lia. reflexivity. Qed.
Lemma weight_high n : 240 <= n -> weight n = n. Proof. unfold weight. intros. replace (n =? 238) with false by lia. replace (n =? 239) with false by lia. reflexivity. Qed.
Lemma weight_mid n : n = 238 \/ n = 239 -> weight n = n + 256. Proof. unfold weight. intros [->| ->]; reflexivity. Qed.
Definition class (n : N) : N := if n <? 128 then 1 else if n <? 2048 then 2 else if n <? 65536 then if n <? 57344 then 3 else 5 else 4.
Definition char_weights (n : N) : list N :=
  if n <? 128 then [n]
  else if n <? 2048 then [192 + n / 64; 128 + n mod 64]
  else if n <? 65536 then [224 + n / 4096 + (if n <? 57344 then 0 else 256); 128 + n / 64 mod 64; 128 + n mod 64]
  else [240 + n / 262144; 128 + n / 4096 mod 64; 128 + n / 64 mod 64; 128 + n mod 64].
Lemma char_weights_eq n : scalar n -> map weight (char_bytes n) = char_weights n.
Proof.
  unfold scalar, char_bytes, char_weights. intros H. destruct (n <? 128) eqn:E1; [cbn [map]; rewrite weight_low by lia; reflexivity|].
  destruct (n <? 2048) eqn:E2; [cbn [map]; rewrite !weight_low by lia; reflexivity|].
  destruct (n <? 65536) eqn:E3.
  - destruct (n <? 57344) eqn:E4; cbn [map].
    + rewrite !weight_low by lia. rewrite N.add_0_r. reflexivity.
    + rewrite (@weight_mid (224 + n / 4096)) by lia. rewrite !weight_low by lia. reflexivity.
  - cbn [map]. rewrite (@weight_high (240 + _)) by lia. rewrite !weight_low by lia. reflexivity.
Qed.
Lemma chars_lt a b r s : scalar a -> scalar b -> rank a < rank b -> lex_cmp (char_weights a ++ r) (char_weights b ++ s) = Lt.
Proof.
  unfold scalar, rank, char_weights. intros Ha Hb H.
  assert (H' : (a < b /\ (a < 57344 \/ 65536 <= a \/ b < 65536)) \/ (57344 <= b < 65536 /\ (a < 57344 \/ 65536 <= a))).
  { destruct ((57344 <=? a) && (a <? 65536)) eqn:E, ((57344 <=? b) && (b <? 65536)) eqn:F; lia. }
  clear H.
  destruct (a <? 128) eqn:A1; [|destruct (a <? 2048) eqn:A2; [|destruct (a <? 65536) eqn:A3; [destruct (a <? 57344) eqn:A4|]]];
  (destruct (b <? 128) eqn:B1; [|destruct (b <? 2048) eqn:B2; [|destruct (b <? 65536) eqn:B3; [destruct (b <? 57344) eqn:B4|]]]);
  cbn [app]; try (exfalso; lia); try (apply lex_lt_here; lia); lex_lt.
Qed.

(** ** Texts *)
Lemma bytes_first n : exists x l, char_bytes n = x :: l.
Proof. unfold char_bytes. destruct (n <? 128), (n <? 2048), (n <? 65536); eauto. Qed.
Lemma units_first n : exists x l, code_units n = x :: l.
Proof. unfold code_units. destruct (n <? 65536); eauto. Qed.
Theorem texts_cmp ca : forall cb, Forall scalar ca -> Forall scalar cb ->
  lex_cmp (map weight (flat_map char_bytes ca)) (map weight (flat_map char_bytes cb)) = lex_cmp (flat_map code_units ca) (flat_map code_units cb).
Proof.
  induction ca as [|a ca IH]; intros [|b cb] Ha Hb.
  - reflexivity.
  - cbn [flat_map]. destruct (bytes_first b) as (x & l & ->), (units_first b) as (y & k & ->). reflexivity.
  - cbn [flat_map]. destruct (bytes_first a) as (x & l & ->), (units_first a) as (y & k & ->). reflexivity.
  - inversion Ha; inversion Hb; subst. cbn [flat_map]. rewrite !map_app, !char_weights_eq by assumption.
    destruct (N.lt_trichotomy (rank a) (rank b)) as [L|[E|L]].
    + rewrite chars_lt, units_lt by assumption. reflexivity.
    + apply rank_inj in E; [|assumption..]. subst b.
      assert (X : forall p x y, lex_cmp (p ++ x) (p ++ y) = lex_cmp x y) by (induction p; intros; cbn; [reflexivity|rewrite N.compare_refl; auto]).
      rewrite !X. auto.
    + rewrite (lex_opp (char_weights b ++ _)), (lex_opp (code_units b ++ _)), chars_lt, units_lt by assumption. reflexivity.
Qed.
Theorem utf16_leb_texts a b ua ub : utf16 a ua -> utf16 b ub -> (utf16_leb a b = true <-> lex_le ua ub).
Proof.
  intros (ca & Sa & Ea & ->) (cb & Sb & Eb & ->). rewrite utf16_leb_iff, <- lex_iff.
  unfold weights. rewrite <- (map_map Byte.to_N weight a), <- (map_map Byte.to_N weight b), Ea, Eb, texts_cmp by assumption. reflexivity.
Qed.
Lemma utf16_exists s : utf8 s -> exists u, utf16 s u.
Proof. intros H. apply utf8_valid_iff in H as (cs & S & E). exists (flat_map code_units cs), cs. auto. Qed.
Theorem utf16_leb_names a b : utf8 a -> utf8 b -> (utf16_leb a b = true <-> name_le a b).
Proof.
  intros Ha Hb. split.
  - intros H. destruct (utf16_exists Ha) as [ua Ua], (utf16_exists Hb) as [ub Ub]. exists ua, ub. split; [exact Ua|]. split; [exact Ub|].
    apply (utf16_leb_texts Ua Ub). exact H.
  - intros (ua & ub & Ua & Ub & H). apply (utf16_leb_texts Ua Ub). exact H.
Qed.

(** ** Canonical objects *)
Theorem utf16_order D parse num : jcs_order (with_texts D parse num utf16_leb) /\ jcs_utf16 (with_texts D parse num utf16_leb).
Proof. split; [exact utf16_total|exact utf16_leb_names]. Qed.
Lemma sort_ext {A} (leb leb' : bytes -> bytes -> bool) (m : list (bytes * A)) : (forall a b, utf8 a -> utf8 b -> leb a b = leb' a b) ->
  Forall (fun kv => utf8 (fst kv)) m -> sort_by leb m = sort_by leb' m.
Proof.
  intros H F. induction F as [|x m Hx F IH]; [reflexivity|]. cbn. rewrite IH.
  assert (G : Forall (fun kv => utf8 (fst kv)) (sort_by leb' m)) by (eapply Permutation_Forall; [symmetry; apply sort_perm|exact F]).
  clear IH. induction G as [|y l Hy G IH]; [reflexivity|]. cbn. rewrite H, IH by assumption. reflexivity.
Qed.
Lemma sorted_strong {A} (l : list (bytes * A)) : Forall (fun kv => utf8 (fst kv)) l -> sorted utf16_leb l ->
  StronglySorted (fun a b => name_le (fst a) (fst b)) l.
Proof.
  induction 1 as [|x l Hx F IH]; cbn; [constructor|]. intros [S1 S2]. constructor; [auto|].
  rewrite Forall_forall in *. intros y I. apply utf16_leb_names; auto.
Qed.
Section Layout.
  Variable D : deps.
  Hypothesis H16 : jcs_utf16 D.
  Notation canon := (canonical D).
  Lemma leb_16 a b : utf8 a -> utf8 b -> jcs_leb D a b = utf16_leb a b.
  Proof.
    intros Ha Hb. pose proof (H16 Ha Hb) as H. rewrite <- (utf16_leb_names Ha Hb) in H.
    destruct (jcs_leb D a b), (utf16_leb a b); try reflexivity; [symmetry|]; apply H; reflexivity.
  Qed.
  Lemma canon_obj m : Forall (fun kv => utf8 (fst kv)) m ->
    canon (JObj m) = B "{" ++ join (B ",") (map member_text (map (fun kv => (fst kv, canon (snd kv))) (sort_by utf16_leb m))) ++ B "}".
  Proof. intros F. unfold canonical. rewrite jcs_obj, (@sort_ext _ _ utf16_leb _ leb_16 F). reflexivity. Qed.
  Theorem members_in_order m : Forall utf8 (map fst m) ->
    exists m', Permutation m m' /\ StronglySorted (fun a b => name_le (fst a) (fst b)) m' /\
      canon (JObj m) = B "{" ++ join (B ",") (map (fun kv => quote (fst kv) ++ B ":" ++ canon (snd kv)) m') ++ B "}".
  Proof.
    intros F. assert (F0 : Forall (fun kv => utf8 (fst kv)) m) by (apply -> Forall_map; exact F). clear F; rename F0 into F. exists (sort_by utf16_leb m). split; [symmetry; apply sort_perm|]. split.
    - apply sorted_strong; [eapply Permutation_Forall; [symmetry; apply sort_perm|exact F]|apply sort_sorted; apply utf16_total].
    - rewrite (canon_obj F), map_map. reflexivity.
  Qed.
  Lemma canon_strings l : canon (strings l) = array_text (map quote l).
  Proof. unfold canonical, strings, array_text. cbn [jcs_text]. rewrite map_map. reflexivity. Qed.
  Lemma members_utf8 (m : list (bytes * json)) : forallb (fun kv => utf8_valid (fst kv)) m = true -> Forall (fun kv => utf8 (fst kv)) m.
  Proof. intros H. apply Forall_forall. intros kv I. rewrite forallb_forall in H. exact (H kv I). Qed.
  Lemma proof_layout p : canon (proof_json p) = proof_canonical_text p.
  Proof.
    unfold proof_json. rewrite canon_obj by (apply members_utf8; destruct (p_created p), (p_expires p), (p_cryptosuite p); reflexivity).
    unfold proof_canonical_text. destruct (p_created p), (p_expires p), (p_cryptosuite p); reflexivity.
  Qed.
  Lemma vc_layout v : canon (vc_json v) = vc_canonical_text D v.
  Proof.
    unfold vc_json, vc_canonical_text. rewrite <- !canon_strings. destruct (vc_proof v) as [p|]; cbn [option_map opt_member maybe];
      rewrite canon_obj by (apply members_utf8; reflexivity); [rewrite <- proof_layout|]; reflexivity.
  Qed.
  Lemma canon_array l : canon (JArr l) = array_text (map canon l).
  Proof. unfold canonical, array_text. cbn [jcs_text]. reflexivity. Qed.
  Lemma vp_layout v : canon (vp_json v) = vp_canonical_text D v.
  Proof.
    unfold vp_json, vp_canonical_text. rewrite <- !canon_strings.
    replace (map (vc_canonical_text D) (vp_credentials v)) with (map canon (map vc_json (vp_credentials v)))
      by (rewrite map_map; apply map_ext; exact vc_layout).
    rewrite <- canon_array.
    destruct (vp_proof v) as [p|], (vp_holder v) as [h|]; cbn [option_map opt_member maybe];
      rewrite canon_obj by (apply members_utf8; reflexivity); rewrite <- ?proof_layout; reflexivity.
  Qed.
  Theorem vc_jcs_layout v t : vc_to_jcs D v = Ok t <-> vc_complete v /\ t = vc_canonical_text D v.
  Proof. rewrite <- vc_layout. apply vc_to_jcs_spec. Qed.
  Theorem vp_jcs_layout v t : vp_to_jcs D v = Ok t <-> vp_complete v /\ t = vp_canonical_text D v.
  Proof. rewrite <- vp_layout. apply vp_to_jcs_spec. Qed.
  Theorem proof_jcs_layout p : proof_to_jcs D p = Ok (proof_canonical_text p).
  Proof. rewrite <- proof_layout. apply proof_jcs_text. Qed.
End Layout.
