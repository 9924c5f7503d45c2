(** Proofs of C87. *)
From Verif Require Import Base BaseFacts Codec CodecFacts Json JsonFacts JsonParseFacts ParseFacts MiscSpec Grammar GrammarFacts Deps Float FloatFacts JsonParse Time TimeSpec.
Set Implicit Arguments.
Local Open Scope Z_scope.

(** ** The calendar *)
Lemma leap_iff y : leap y = true <-> leap_year y.
Proof.
  unfold leap, leap_year. assert (E : forall k, 0 < k -> (y mod k =? 0) = true <-> (k | y)).
  { intros k Hk. rewrite Z.eqb_eq. apply Z.mod_divide. lia. }
  pose proof (E 4 eq_refl). pose proof (E 100 eq_refl). pose proof (E 400 eq_refl).
  destruct (y mod 4 =? 0), (y mod 100 =? 0), (y mod 400 =? 0); cbn; intuition (try discriminate).
Qed.
Lemma real_date_iff y m d : real_date y m d <-> 1 <= m <= 12 /\ 1 <= d <= month_days y m.
Proof.
  unfold real_date, month_days. rewrite <- leap_iff. cbn [In].
  destruct (m =? 2) eqn:E2; [destruct (leap y); lia|]. destruct ((m =? 4) || (m =? 6) || (m =? 9) || (m =? 11))%bool eqn:E4; lia.
Qed.
Lemma div_step y k : 0 < k -> y / k = (y - 1) / k + (if y mod k =? 0 then 1 else 0).
Proof. intros H. destruct (y mod k =? 0) eqn:E; Z.to_euclidean_division_equations; nia. Qed.
Lemma year_length y : day_number (y + 1) 1 1 = day_number y 1 1 + 365 + (if leap y then 1 else 0).
Proof.
  unfold day_number. change (before_month (y + 1) 1) with 0. change (before_month y 1) with 0. replace (y + 1 - 1) with y by ring.
  rewrite (@div_step y 4), (@div_step y 100), (@div_step y 400) by reflexivity. unfold leap.
  assert (H1 : y mod 100 = 0 -> y mod 4 = 0) by (intros H; Z.to_euclidean_division_equations; lia).
  assert (H2 : y mod 400 = 0 -> y mod 100 = 0) by (intros H; Z.to_euclidean_division_equations; lia).
  destruct (y mod 4 =? 0) eqn:E1, (y mod 100 =? 0) eqn:E2, (y mod 400 =? 0) eqn:E3; cbn [andb negb orb]; lia.
Qed.
Lemma month_length y m : 1 <= m < 12 -> before_month y (m + 1) = before_month y m + month_days y m.
Proof.
  intros H. assert (C : m = 1 \/ m = 2 \/ m = 3 \/ m = 4 \/ m = 5 \/ m = 6 \/ m = 7 \/ m = 8 \/ m = 9 \/ m = 10 \/ m = 11) by lia.
  unfold before_month, month_days. repeat destruct C as [->|C]; try subst m; cbn; destruct (leap y); reflexivity.
Qed.
Theorem next_number y m d y' m' d' : next_day y m d y' m' d' -> day_number y' m' d' = day_number y m d + 1.
Proof.
  intros (R & R' & [(-> & -> & ->)|(N & -> & C)]); [unfold day_number; lia|]. rewrite real_date_iff in R, R', N.
  assert (E : d = month_days y m) by lia. destruct C as [(L & -> & ->)|(-> & -> & ->)].
  - unfold day_number. rewrite (month_length y) by lia. lia.
  - rewrite year_length. subst d. unfold day_number. change (before_month y 1) with 0. change (month_days y 12) with 31.
    change (before_month y 12) with (334 + (if leap y then 1 else 0)). lia.
Qed.
(** Dates in order. *)
Lemma year_mono a b : a <= b -> day_number a 1 1 <= day_number b 1 1.
Proof.
  intros H. replace b with (a + Z.of_nat (Z.to_nat (b - a))) by lia. induction (Z.to_nat (b - a)) as [|n IH]; [replace (a + Z.of_nat 0) with a by lia; lia|].
  replace (a + Z.of_nat (S n)) with (a + Z.of_nat n + 1) by lia. rewrite year_length. destruct (leap _); lia.
Qed.
Lemma in_year y m d : real_date y m d -> day_number y 1 1 <= day_number y m d < day_number (y + 1) 1 1.
Proof.
  rewrite real_date_iff, year_length. intros [H D]. assert (B : 0 <= before_month y m /\ before_month y m + month_days y m <= 365 + (if leap y then 1 else 0)).
  { assert (C : m = 1 \/ m = 2 \/ m = 3 \/ m = 4 \/ m = 5 \/ m = 6 \/ m = 7 \/ m = 8 \/ m = 9 \/ m = 10 \/ m = 11 \/ m = 12) by lia.
    unfold before_month, month_days. destruct (leap y); repeat destruct C as [->|C]; try subst m; vm_compute; split; discriminate. }
  unfold day_number in *. change (before_month y 1) with 0. lia.
Qed.

(** ** White space *)
Lemma white_trim b c r : white c -> trim_start b (code_point c ++ r) = trim_start b r.
Proof.
  intros H. assert (C : In c [9; 10; 11; 12; 13; 8192; 8193; 8194; 8195; 8196; 8197; 8198; 8199; 8200; 8201; 8202; 32; 133; 160; 5760; 8232; 8233; 8239; 8287; 12288]%N).
  { destruct H as [H|[H|H]]; [|..|cbn [In] in *; tauto]; cbn [In]; lia. }
  clear H. cbn [In] in C. destruct b; repeat destruct C as [<-|C]; try reflexivity; contradiction.
Qed.
Lemma spaces_trim w r : spaces w -> trim_start false (w ++ r) = trim_start false r.
Proof. intros (cs & F & ->). induction F as [|c cs H F IH]; [reflexivity|]. cbn [flat_map]. rewrite <- app_assoc, white_trim by exact H. exact IH. Qed.
Lemma colons_trim w r : colons w -> trim_start true (w ++ r) = trim_start true r.
Proof.
  intros (cs & F & ->). induction F as [|c cs H F IH]; [reflexivity|]. cbn [flat_map]. rewrite <- app_assoc.
  destruct H as [->|H]; [exact IH|]. rewrite white_trim by exact H. exact IH.
Qed.
Lemma trim_solid b a r : (Byte.to_N a < 128)%N -> white1 a = false -> (b = true -> a <> ":"%byte) -> trim_start b (a :: r) = a :: r.
Proof.
  intros L W C. cbn [trim_start]. rewrite W. replace (b && beq a ":"%byte)%bool with false.
  2: { destruct b; [|reflexivity]. symmetry. cbn [andb]. destruct (beq a ":"%byte) eqn:E; [|reflexivity]. apply beq_eq in E. destruct (C eq_refl E). }
  cbn [orb]. destruct r as [|c r]; [reflexivity|]. assert (W2 : white2 a c = false) by (unfold white2, inr; lia). rewrite W2.
  destruct r as [|d r]; [reflexivity|]. assert (W3 : white3 a c d = false) by (unfold white3, inr; lia). rewrite W3. reflexivity.
Qed.
Lemma white1_code a : white1 a = true -> exists c, white c /\ code_point c = [a].
Proof.
  intros H. exists (Byte.to_N a). split; [unfold white1, inr in H; unfold white; cbn [In]; lia|]. revert H. destruct a; try discriminate; reflexivity.
Qed.
Lemma white2_code a b : white2 a b = true -> exists c, white c /\ code_point c = [a; b].
Proof.
  intros H. exists (Byte.to_N b). split; [unfold white2, inr in H; unfold white; cbn [In]; lia|]. unfold white2 in H. apply andb_prop in H as [H1 H2].
  assert (a = xc2) as -> by (revert H1; destruct a; try discriminate; reflexivity). revert H2. destruct b; try discriminate; reflexivity.
Qed.
Lemma white3_code a b c : white3 a b c = true -> exists n, white n /\ code_point n = [a; b; c].
Proof.
  intros H. unfold white3 in H. repeat apply orb_prop in H as [H|H]; apply andb_prop in H as [H1 H2]; apply andb_prop in H1 as [H0 H1].
  - exists 5760%N. split; [unfold white; cbn [In]; lia|]. revert H0 H1 H2. destruct a; try discriminate; destruct b; try discriminate; destruct c; try discriminate; reflexivity.
  - assert (a = xe2) as -> by (revert H0; destruct a; try discriminate; reflexivity). assert (b = x80) as -> by (revert H1; destruct b; try discriminate; reflexivity).
    exists (8064 + Byte.to_N c)%N. split; [unfold inr in H2; unfold white; cbn [In]; lia|]. revert H2. destruct c; try discriminate; reflexivity.
  - exists 8287%N. split; [unfold white; cbn [In]; lia|]. revert H0 H1 H2. destruct a; try discriminate; destruct b; try discriminate; destruct c; try discriminate; reflexivity.
  - exists 12288%N. split; [unfold white; cbn [In]; lia|]. revert H0 H1 H2. destruct a; try discriminate; destruct b; try discriminate; destruct c; try discriminate; reflexivity.
Qed.
Lemma trim_split b : forall n s, (length s <= n)%nat -> exists cs, Forall (fun c => b = true /\ c = 58%N \/ white c) cs /\ s = flat_map code_point cs ++ trim_start b s.
Proof.
  induction n as [|n IH]; intros s L; [destruct s; [exists []; split; [constructor|reflexivity]|cbn in L; lia]|].
  destruct s as [|a s]; [exists []; split; [constructor|reflexivity]|]. cbn [trim_start].
  destruct (white1 a || (b && beq a ":"%byte))%bool eqn:W.
  { cbn [length] in L. destruct (IH s ltac:(lia)) as (cs & F & E). apply orb_prop in W as [W|W].
    - destruct (white1_code _ W) as (c & Hc & Ec). exists (c :: cs). split; [constructor; auto|]. cbn [flat_map]. rewrite Ec. cbn [app]. f_equal. exact E.
    - apply andb_prop in W as [-> W]. apply beq_eq in W. subst a. exists (58%N :: cs). split; [constructor; auto|]. cbn [flat_map]. change (code_point 58) with [":"%byte]. cbn [app]. f_equal. exact E. }
  destruct s as [|c s]; [exists []; split; [constructor|reflexivity]|]. destruct (white2 a c) eqn:W2.
  { cbn [length] in L. destruct (IH s ltac:(lia)) as (cs & F & E). destruct (white2_code _ _ W2) as (n2 & Hc & Ec). exists (n2 :: cs). split; [constructor; auto|]. cbn [flat_map]. rewrite Ec. cbn [app]. do 2 f_equal. exact E. }
  destruct s as [|d s]; [exists []; split; [constructor|reflexivity]|]. destruct (white3 a c d) eqn:W3.
  { cbn [length] in L. destruct (IH s ltac:(lia)) as (cs & F & E). destruct (white3_code _ _ _ W3) as (n2 & Hc & Ec). exists (n2 :: cs). split; [constructor; auto|]. cbn [flat_map]. rewrite Ec. cbn [app]. do 3 f_equal. exact E. }
  exists []. split; [constructor|reflexivity].
Qed.
Lemma trim_spaces s : exists w, spaces w /\ s = w ++ trim_start false s.
Proof.
  destruct (@trim_split false (length s) s (le_n _)) as (cs & F & E). exists (flat_map code_point cs). split; [|exact E]. exists cs. split; [|reflexivity].
  eapply Forall_impl; [|exact F]. intros c [[X _]|H]; [discriminate|exact H].
Qed.
Lemma trim_colons s : exists w, colons w /\ s = w ++ trim_start true s.
Proof.
  destruct (@trim_split true (length s) s (le_n _)) as (cs & F & E). exists (flat_map code_point cs). split; [|exact E]. exists cs. split; [|reflexivity].
  eapply Forall_impl; [|exact F]. intros c [[_ X]|H]; auto.
Qed.

(** ** Numbers *)
Definition no_digit (r : bytes) : Prop := match r with c :: _ => is_digit c = false | [] => True end.
Lemma digits_split max : forall s d r, take_digits max s = (d, r) -> s = d ++ r /\ Forall digit d /\ (length d <= max)%nat /\ (length d = max \/ no_digit r).
Proof.
  induction max as [|max IH]; intros s d r H; [destruct s; cbn in H; injection H as <- <-; repeat split; auto|].
  destruct s as [|c s]; cbn [take_digits] in H; [injection H as <- <-; repeat split; cbn; auto; lia|].
  destruct (is_digit c) eqn:E; [|injection H as <- <-; repeat split; cbn; auto; lia].
  destruct (take_digits max s) as [d' r'] eqn:T. injection H as <- <-. destruct (IH _ _ _ T) as (-> & F & L & M). repeat split; cbn [length]; [|lia|destruct M; [left; lia|auto]].
  constructor; [apply digit_iff; exact E|exact F].
Qed.
Lemma take_app max d r : Forall digit d -> (length d <= max)%nat -> length d = max \/ no_digit r -> take_digits max (d ++ r) = (d, r).
Proof.
  revert max. induction d as [|c d IH]; intros max F L M.
  - destruct max as [|max], r as [|c r]; try reflexivity. cbn [app take_digits]. destruct M as [M|M]; [discriminate|]. cbn in M. rewrite M. reflexivity.
  - destruct max as [|max]; [cbn in L; lia|]. inversion F as [|? ? F1 F2]; subst. apply digit_iff in F1. cbn [app take_digits]. rewrite F1, IH; [reflexivity|exact F2|cbn in L; lia|cbn in M; destruct M; [left; lia|auto]].
Qed.
Lemma span_app d r : Forall digit d -> no_digit r -> span_digits (d ++ r) = (d, r).
Proof. intros F M. apply span_digits_app; [apply digits_iff; exact F|exact M]. Qed.
Lemma span_split s : forall d r, span_digits s = (d, r) -> s = d ++ r /\ Forall digit d /\ no_digit r.
Proof.
  induction s as [|c s IH]; intros d r H; cbn [span_digits] in H; [injection H as <- <-; repeat split; constructor|].
  destruct (is_digit c) eqn:E; [|injection H as <- <-; repeat split; [constructor|exact E]]. destruct (span_digits s) as [d' r']. injection H as <- <-.
  destruct (IH _ _ eq_refl) as (-> & F & M). repeat split; [constructor; [apply digit_iff; exact E|exact F]|exact M].
Qed.
Lemma number_iff max s n r : number max s = Some (n, r) <->
  exists d, s = d ++ r /\ short_number max n d /\ (length d = max \/ no_digit r).
Proof.
  unfold number, short_number, digits1. split.
  - destruct (take_digits max s) as [d r'] eqn:T. destruct (digits_split _ _ T) as (-> & F & L & M). destruct d as [|c d]; [discriminate|]. cbn [is_empty]. intros H. injection H as <- <-.
    exists (c :: d). repeat split; auto. discriminate.
  - intros (d & -> & ((Nd & F) & L & ->) & M). rewrite take_app by assumption. destruct d; [destruct (Nd eq_refl)|]. reflexivity.
Qed.
Lemma long_number_iff s n r : long_number s = Some (n, r) <-> exists d, s = d ++ r /\ digits1 d /\ n = value d /\ no_digit r.
Proof.
  unfold long_number, digits1. split.
  - destruct (span_digits s) as [d r'] eqn:T. destruct (span_split _ T) as (-> & F & M). destruct d as [|c d]; [discriminate|]. cbn [is_empty]. intros H. injection H as <- <-.
    exists (c :: d). repeat split; auto. discriminate.
  - intros (d & -> & (Nd & F) & -> & M). rewrite span_app by assumption. destruct d; [destruct (Nd eq_refl)|]. reflexivity.
Qed.
(** ASCII characters that stop blanks. *)
Definition solid (r : bytes) : Prop := trim_start false r = r.
Lemma solid_ascii a r : (Byte.to_N a < 128)%N -> white1 a = false -> solid (a :: r).
Proof. intros L W. apply trim_solid; [exact L|exact W|discriminate]. Qed.
Lemma digit_solid b c r : digit c -> trim_start b (c :: r) = c :: r.
Proof.
  intros H. unfold digit in H. apply trim_solid; [lia|unfold white1, inr; lia|]. intros _ ->. vm_compute in H. destruct H as [_ H]. apply H. reflexivity.
Qed.
Lemma digits_solid b d r : digits1 d -> trim_start b (d ++ r) = d ++ r.
Proof. intros [N F]. destruct F as [|c d H F]; [destruct (N eq_refl)|]. apply digit_solid. exact H. Qed.
Lemma field_iff lo hi s n r : field lo hi s = Some (n, r) <->
  exists w d, s = w ++ d ++ r /\ spaces w /\ short_number 2 n d /\ lo <= n <= hi /\ (length d = 2%nat \/ no_digit r).
Proof.
  unfold field. split.
  - intros H. destruct (trim_spaces s) as (w & Hw & E). set (s' := trim_start false s) in *. destruct (number 2 s') as [[n' r']|] eqn:Nn; [|discriminate].
    destruct ((lo <=? n') && (n' <=? hi))%bool eqn:R; [|discriminate]. injection H as -> ->. apply number_iff in Nn as (d & Ed & Sd & M). exists w, d. rewrite Ed in E. repeat (split; [assumption|]). split; [lia|exact M].
  - intros (w & d & -> & Hw & Sd & R & M). rewrite spaces_trim by exact Hw. rewrite digits_solid by exact (proj1 Sd). rewrite (proj2 (number_iff 2 (d ++ r) n r)) by (exists d; auto).
    replace ((lo <=? n) && (n <=? hi))%bool with true by lia. reflexivity.
Qed.
Lemma literal_iff c s r : (Byte.to_N c < 128)%N -> white1 c = false -> (literal c s = Some r <-> exists w, s = w ++ [c] ++ r /\ spaces w).
Proof.
  intros L W. unfold literal. split.
  - intros H. destruct (trim_spaces s) as (w & Hw & E). destruct (trim_start false s) as [|a s']; [discriminate|]. destruct (beq a c) eqn:Q; [|discriminate]. apply beq_eq in Q. subst a. injection H as ->. exists w. auto.
  - intros (w & -> & Hw). rewrite spaces_trim by exact Hw. cbn [app]. rewrite (@solid_ascii c r) by assumption. rewrite beq_refl. reflexivity.
Qed.
Lemma first_digit_cases c : digit c -> beq c "-"%byte = false /\ beq c "+"%byte = false /\ beq c "."%byte = false.
Proof. unfold digit. intros H. repeat split; apply beq_neq; intros ->; vm_compute in H; destruct H as [H _]; apply H; reflexivity. Qed.
Lemma year_iff s y r : year_field s = Some (y, r) <->
  exists w u, s = w ++ u ++ r /\ spaces w /\ year_text y u /\ (short_number 4 y u /\ length u = 4%nat \/ no_digit r).
Proof.
  unfold year_field. split.
  - intros H. destruct (trim_spaces s) as (w & Hw & E). destruct (trim_start false s) as [|a s']; [discriminate|].
    destruct (beq a "-"%byte) eqn:Q1; [|destruct (beq a "+"%byte) eqn:Q2].
    + apply beq_eq in Q1. subst a. destruct (long_number s') as [[n r']|] eqn:Nn; [|discriminate]. injection H as <- <-. apply long_number_iff in Nn as (d & -> & Hd & -> & M).
      exists w, ("-"%byte :: d). split; [exact E|]. split; [exact Hw|]. split; [|right; exact M]. right. exists d. split; [exact Hd|]. right. split; reflexivity.
    + apply beq_eq in Q2. subst a. apply long_number_iff in H as (d & -> & Hd & -> & M).
      exists w, ("+"%byte :: d). split; [exact E|]. split; [exact Hw|]. split; [|right; exact M]. right. exists d. split; [exact Hd|]. left. split; reflexivity.
    + apply number_iff in H as (d & Ed & Hd & M). exists w, d. rewrite Ed in E. split; [exact E|]. split; [exact Hw|]. split; [left; exact Hd|]. destruct M; auto.
  - intros (w & u & -> & Hw & Hu & M). rewrite spaces_trim by exact Hw. destruct Hu as [Hu|(d & Hd & [[-> ->]|[-> ->]])].
    + rewrite digits_solid by exact (proj1 Hu). assert (Hu' := Hu). destruct Hu' as ((Nu & F) & L & _). destruct F as [|c u Hc F]; [destruct (Nu eq_refl)|]. destruct (first_digit_cases Hc) as (Q1 & Q2 & _).
      cbn [app]. rewrite Q1, Q2. apply number_iff. exists (c :: u). split; [reflexivity|]. split; [exact Hu|]. destruct M as [[_ M]|M]; auto.
    + change (trim_start false ((B "+" ++ d) ++ r)) with (trim_start false ("+"%byte :: d ++ r)). rewrite (@solid_ascii "+"%byte) by reflexivity. cbn [beq Byte.eqb]. change (beq "+"%byte "-"%byte) with false. change (beq "+"%byte "+"%byte) with true. cbn iota.
      apply long_number_iff. exists d. split; [reflexivity|]. split; [exact Hd|]. split; [reflexivity|]. destruct M as [[[[_ F] _] _]|M]; [|exact M]. inversion F as [|? ? X]. destruct X as [X _]. vm_compute in X. destruct (X eq_refl).
    + change (trim_start false ((B "-" ++ d) ++ r)) with (trim_start false ("-"%byte :: d ++ r)). rewrite (@solid_ascii "-"%byte) by reflexivity. change (beq "-"%byte "-"%byte) with true. cbn iota.
      rewrite (proj2 (long_number_iff (d ++ r) (value d) r)); [reflexivity|]. exists d. split; [reflexivity|]. split; [exact Hd|]. split; [reflexivity|]. destruct M as [[[[_ F] _] _]|M]; [|exact M]. inversion F as [|? ? X]. destruct X as [X _]. vm_compute in X. destruct (X eq_refl).
Qed.

(** ** Fractions and offsets *)
Lemma pad_value d : value (pad9 d) = value (firstn 9 d) * 10 ^ (9 - Z.of_nat (length (firstn 9 d))).
Proof.
  unfold pad9, value. rewrite firstn_app. assert (L : (length (firstn 9 d) <= 9)%nat) by (rewrite firstn_length; lia).
  assert (E : firstn (9 - length d) (repeat "0"%byte 9) = zeros (9 - Z.of_nat (length (firstn 9 d)))).
  { unfold zeros. rewrite firstn_length in *. replace (Z.to_nat (9 - Z.of_nat (Nat.min 9 (length d)))) with (9 - length d)%nat by lia.
    assert (X : (9 - length d <= 9)%nat) by lia. revert X. generalize (9 - length d)%nat as k. intros k Hk. do 10 (destruct k as [|k]; [reflexivity|]). lia. }
  rewrite E, dec_app, dec_zeros. unfold zeros at 1. rewrite repeat_length. rewrite N.add_0_r, N2Z.inj_mul, N2Z.inj_pow. f_equal. f_equal. lia.
Qed.
Lemma fraction_iff s ns r : (fraction s = Some (ns, r) <->
  exists u, s = u ++ r /\ fraction_text ns u /\ (u = [] -> match r with c :: _ => c <> "."%byte | [] => True end) /\ (u <> [] -> no_digit r)).
Proof.
  unfold fraction, fraction_text. split.
  - destruct s as [|c s]; [intros H; injection H as <- <-; exists []; repeat split; auto; intros H; destruct (H eq_refl)|]. destruct (beq c "."%byte) eqn:E.
    + apply beq_eq in E. subst c. destruct (span_digits s) as [d r'] eqn:T. destruct (span_split _ T) as (-> & F & M). destruct d as [|x d]; [discriminate|]. cbn [is_empty]. intros H. injection H as <- <-.
      exists ("."%byte :: x :: d). split; [reflexivity|]. split; [right; exists (x :: d); split; [split; [discriminate|exact F]|]; split; [reflexivity|exact (pad_value (x :: d))]|]. split; [discriminate|intros _; exact M].
    + intros H. injection H as <- <-. exists []. split; [reflexivity|]. split; [left; auto|]. split; [intros _; apply beq_neq; exact E|intros H; destruct (H eq_refl)].
  - intros (u & -> & [[-> ->]|(d & Hd & -> & ->)] & N & M).
    + cbn [app]. destruct r as [|c r]; [reflexivity|]. rewrite (proj2 (beq_neq c "."%byte) (N eq_refl)). reflexivity.
    + change ((B "." ++ d) ++ r) with ("."%byte :: d ++ r). cbv beta iota. rewrite beq_refl, span_app; [|exact (proj2 Hd)|apply M; discriminate].
      destruct d as [|x d]; [destruct (proj1 Hd eq_refl)|]. cbn [is_empty]. do 2 f_equal. exact (pad_value (x :: d)).
Qed.
Lemma value_two a b : value [a; b] = Z.of_N ((Byte.to_N a - 48) * 10 + (Byte.to_N b - 48)).
Proof. reflexivity. Qed.
Lemma two_digits_9 s n r : two_digits "9"%byte s = Some (n, r) <-> exists d, s = d ++ r /\ length d = 2%nat /\ Forall digit d /\ n = value d.
Proof.
  unfold two_digits. split.
  - destruct s as [|a [|b s]]; try discriminate. destruct (inr 48 (Byte.to_N "9"%byte) a && is_digit b)%bool eqn:E; [|discriminate]. intros H. injection H as <- <-. exists [a; b].
    apply andb_prop in E as [E1 E2]. repeat split. constructor; [apply digit_iff; exact E1|constructor; [apply digit_iff; exact E2|constructor]].
  - intros (d & -> & L & F & ->). destruct d as [|a [|b [|c d]]]; try discriminate. inversion F as [|? ? F1 F']; subst. inversion F' as [|? ? F2 _]; subst. apply digit_iff in F1, F2. cbn [app].
    change (inr 48 (Byte.to_N "9"%byte) a) with (is_digit a). rewrite F1, F2. reflexivity.
Qed.
Lemma two_digits_5 s n r : two_digits "5"%byte s = Some (n, r) <-> exists d, s = d ++ r /\ length d = 2%nat /\ Forall digit d /\ value d < 60 /\ n = value d.
Proof.
  unfold two_digits. change (Byte.to_N "5"%byte) with 53%N. split.
  - destruct s as [|a [|b s]]; try discriminate. destruct (inr 48 53 a && is_digit b)%bool eqn:E; [|discriminate]. intros H. injection H as <- <-. exists [a; b].
    assert (D : digit a /\ digit b /\ (Byte.to_N a <= 53)%N) by (unfold digit, is_digit, inr in *; lia). destruct D as (D1 & D2 & D3).
    repeat split; [constructor; [exact D1|constructor; [exact D2|constructor]]|]. rewrite value_two. unfold digit in *. lia.
  - intros (d & -> & L & F & V & ->). destruct d as [|a [|b [|c d]]]; try discriminate. inversion F as [|? ? F1 F']; subst. inversion F' as [|? ? F2 _]; subst. cbn [app]. rewrite value_two in V. unfold digit in *.
    replace (inr 48 53 a && is_digit b)%bool with true by (unfold is_digit, inr; lia). reflexivity.
Qed.
Definition signs : list (bytes * Z) := [(B "+", 1); (B "-", -1); (code_point 8722, -1)].
Lemma sign_iff s sg r : offset_sign s = Some (sg, r) <-> exists sign, s = sign ++ r /\ In (sign, sg) signs.
Proof.
  unfold offset_sign, signs. split.
  - destruct s as [|a s]; [discriminate|]. destruct (beq a "+"%byte) eqn:Q1; [apply beq_eq in Q1; subst a; intros H; injection H as <- <-; exists (B "+"); split; [reflexivity|left; reflexivity]|].
    destruct (beq a "-"%byte) eqn:Q2; [apply beq_eq in Q2; subst a; intros H; injection H as <- <-; exists (B "-"); split; [reflexivity|right; left; reflexivity]|].
    destruct s as [|b [|c s]]; try discriminate. destruct (inr 226 226 a && inr 136 136 b && inr 146 146 c)%bool eqn:E; [|discriminate]. intros H. injection H as <- <-.
    apply andb_prop in E as [E E3]. apply andb_prop in E as [E1 E2]. exists (code_point 8722). split; [|right; right; left; reflexivity].
    revert E1 E2 E3. clear. destruct a; try discriminate; destruct b; try discriminate; destruct c; try discriminate; reflexivity.
  - intros (sign & -> & [H|[H|[H|[]]]]); injection H as <- <-; reflexivity.
Qed.
Lemma numeric_iff s off r : numeric_offset s = Some (off, r) <->
  exists sign sg hh sep mm, In (sign, sg) signs /\ s = (sign ++ hh ++ sep ++ mm) ++ r /\ Forall digit (hh ++ mm) /\ length hh = 2%nat /\ length mm = 2%nat /\ value mm < 60 /\ colons sep /\
    off = sg * (value hh * 3600 + value mm * 60).
Proof.
  unfold numeric_offset. split.
  - destruct (offset_sign s) as [[sg r1]|] eqn:S; [|discriminate]. apply sign_iff in S as (sign & -> & I). destruct (two_digits "9"%byte r1) as [[h r2]|] eqn:T; [|discriminate]. apply two_digits_9 in T as (hh & -> & Lh & Fh & ->).
    destruct (trim_colons r2) as (sep & Cs & E). destruct (two_digits "5"%byte (trim_start true r2)) as [[m r3]|] eqn:T; [|discriminate]. apply two_digits_5 in T as (mm & Em & Lm & Fm & V & ->).
    intros H. injection H as <- <-. exists sign, sg, hh, sep, mm. split; [exact I|]. split; [rewrite E, Em, <- !app_assoc; reflexivity|]. split; [apply Forall_app; auto|]. auto.
  - intros (sign & sg & hh & sep & mm & I & -> & F & Lh & Lm & V & Cs & ->). apply Forall_app in F as [Fh Fm]. rewrite <- !app_assoc.
    rewrite (proj2 (sign_iff (sign ++ hh ++ sep ++ mm ++ r) sg (hh ++ sep ++ mm ++ r))) by (exists sign; auto).
    rewrite (proj2 (two_digits_9 (hh ++ sep ++ mm ++ r) (value hh) (sep ++ mm ++ r))) by (exists hh; auto).
    rewrite colons_trim by exact Cs. rewrite digits_solid by (split; [destruct mm; discriminate|exact Fm]).
    rewrite (proj2 (two_digits_5 (mm ++ r) (value mm) r)) by (exists mm; auto). reflexivity.
Qed.
Lemma letter_iff l c : (65 <= Byte.to_N l <= 90)%N -> (is_letter l c = true <-> In c [l; byte_of_N (Byte.to_N l + 32)]).
Proof.
  intros H. assert (E : Byte.to_N (byte_of_N (Byte.to_N l + 32)) = (Byte.to_N l + 32)%N).
  { revert H. destruct l; vm_compute; try reflexivity; intros [H1 H2]; exfalso; first [exact (H1 eq_refl)|exact (H2 eq_refl)]. }
  assert (J : forall a b, Byte.to_N a = Byte.to_N b -> a = b).
  { intros a b X. pose proof (Byte.of_to_N a) as A. pose proof (Byte.of_to_N b) as A'. rewrite X in A. congruence. }
  unfold is_letter, inr. cbn [In]. split.
  - intros X. assert (Byte.to_N c = Byte.to_N l \/ Byte.to_N c = Byte.to_N l + 32)%N as [Y|Y] by lia; [left; symmetry; apply J; exact Y|right; left; apply J; congruence].
  - intros [<-|[<-|[]]]; lia.
Qed.
Lemma is_Z c : is_letter "Z"%byte c = true <-> In c (B "Zz"). Proof. apply letter_iff. vm_compute. split; discriminate. Qed.
Lemma is_U c : is_letter "U"%byte c = true <-> In c (B "Uu"). Proof. apply letter_iff. vm_compute. split; discriminate. Qed.
Lemma is_T c : is_letter "T"%byte c = true <-> In c (B "Tt"). Proof. apply letter_iff. vm_compute. split; discriminate. Qed.
Lemma is_C c : is_letter "C"%byte c = true <-> In c (B "Cc"). Proof. apply letter_iff. vm_compute. split; discriminate. Qed.
Lemma offset_iff s off r : offset s = Some (off, r) <-> exists u, s = u ++ r /\ offset_text off u.
Proof.
  unfold offset, offset_text. fold signs. split.
  - destruct s as [|a s]; [discriminate|]. destruct (is_letter "Z"%byte a) eqn:Z1.
    { intros H. injection H as <- <-. exists [a]. split; [reflexivity|]. left. split; [reflexivity|]. exists a. split; [reflexivity|apply is_Z; exact Z1]. }
    destruct s as [|b [|c s]]; try discriminate. destruct (is_letter "U"%byte a && is_letter "T"%byte b && is_letter "C"%byte c)%bool eqn:E.
    { intros H. injection H as <- <-. apply andb_prop in E as [E E3]. apply andb_prop in E as [E1 E2]. exists [a; b; c]. split; [reflexivity|]. right. left. split; [reflexivity|].
      exists a, b, c. split; [reflexivity|]. split; [apply is_U; exact E1|]. split; [apply is_T; exact E2|apply is_C; exact E3]. }
    intros H. apply numeric_iff in H as (sign & sg & hh & sep & mm & I & E' & H). exists (sign ++ hh ++ sep ++ mm). split; [exact E'|]. right. right. exists sign, sg, hh, sep, mm. split; [exact I|]. split; [reflexivity|exact H].
  - intros (u & -> & [[-> (z & -> & I)]|[[-> (a & b & c & -> & I1 & I2 & I3)]|(sign & sg & hh & sep & mm & I & -> & H)]]).
    + apply is_Z in I. cbn [app]. rewrite I. reflexivity.
    + assert (Z1 : is_letter "Z"%byte a = false) by (cbn in I1; destruct I1 as [<-|[<-|[]]]; reflexivity). apply is_U in I1. apply is_T in I2. apply is_C in I3. cbn [app]. rewrite Z1, I1, I2, I3. reflexivity.
    + assert (Nu : numeric_offset ((sign ++ hh ++ sep ++ mm) ++ r) = Some (off, r)).
      { apply numeric_iff. exists sign, sg, hh, sep, mm. split; [exact I|]. split; [reflexivity|exact H]. }
      destruct H as (_ & Lh & _). destruct hh as [|h1 [|h2 [|h3 hh]]]; try discriminate. destruct I as [I|[I|[I|[]]]]; injection I as <- <-; exact Nu.
Qed.

(** ** Timestamps *)
(** What follows a number neither goes on with it nor starts a fraction. *)
Definition stops (r : bytes) : Prop := match r with c :: _ => is_digit c = false /\ c <> "."%byte | [] => True end.
Lemma stops_digit r : stops r -> no_digit r.
Proof. destruct r as [|c r]; [auto|intros [H _]; exact H]. Qed.
Lemma code_stops c r : white c -> stops (code_point c ++ r).
Proof.
  intros H. assert (C : In c [9; 10; 11; 12; 13; 8192; 8193; 8194; 8195; 8196; 8197; 8198; 8199; 8200; 8201; 8202; 32; 133; 160; 5760; 8232; 8233; 8239; 8287; 12288]%N).
  { destruct H as [H|[H|H]]; [|..|cbn [In] in *; tauto]; cbn [In]; lia. }
  clear H. cbn [In] in C. repeat destruct C as [<-|C]; try (split; [reflexivity|discriminate]). contradiction.
Qed.
Lemma spaces_stops w r : spaces w -> stops r -> stops (w ++ r).
Proof. intros (cs & F & ->) H. destruct F as [|c cs Hc F]; [exact H|]. cbn [flat_map]. rewrite <- app_assoc. apply code_stops. exact Hc. Qed.
Lemma offset_stops off u r : offset_text off u -> stops (u ++ r) /\ solid (u ++ r).
Proof.
  intros [[_ (z & -> & I)]|[[_ (a & b & c & -> & I & _)]|(sign & sg & hh & sep & mm & I & -> & _)]].
  - cbn in I. destruct I as [<-|[<-|[]]]; (split; [split; [reflexivity|discriminate]|apply solid_ascii; reflexivity]).
  - cbn in I. destruct I as [<-|[<-|[]]]; (split; [split; [reflexivity|discriminate]|apply solid_ascii; reflexivity]).
  - rewrite <- app_assoc. destruct I as [I|[I|[I|[]]]]; injection I as <- _; [split; [split; [reflexivity|discriminate]|apply solid_ascii; reflexivity]..|].
    split; [split; [reflexivity|discriminate]|reflexivity].
Qed.
Lemma no_digit_literal w c r : spaces w -> is_digit c = false -> no_digit (w ++ [c] ++ r).
Proof. intros (cs & F & ->) H. destruct F as [|x cs Hc F]; [exact H|]. cbn [flat_map]. rewrite <- app_assoc. apply stops_digit, code_stops. exact Hc. Qed.
Lemma spaces_end w : spaces w -> trim_start false w = [].
Proof. intros H. rewrite <- (app_nil_r w), spaces_trim by exact H. reflexivity. Qed.
Lemma trim_end s : is_empty (trim_start false s) = true -> spaces s.
Proof. intros H. destruct (trim_spaces s) as (w & Hw & E). destruct (trim_start false s); [|discriminate]. rewrite app_nil_r in E. subst s. exact Hw. Qed.
Lemma separator_iff s r : match s with c :: r => if (is_letter "T"%byte c || beq c " "%byte)%bool then Some r else None | [] => None end = Some r <->
  exists sep, s = [sep] ++ r /\ In sep (B "Tt ").
Proof.
  assert (E : forall c, (is_letter "T"%byte c || beq c " "%byte)%bool = true <-> In c (B "Tt ")).
  { intros c. rewrite orb_true_iff, is_T, beq_eq. cbn [In]. change (B "Tt") with ["T"; "t"]%byte. change (B "Tt ") with ["T"; "t"; " "]%byte. cbn [In]. intuition auto. }
  split.
  - destruct s as [|c s]; [discriminate|]. destruct (is_letter "T"%byte c || beq c " "%byte)%bool eqn:Q; [|discriminate]. intros H. apply some_inj in H. subst r. exists c. split; [reflexivity|apply E; exact Q].
  - intros (sep & -> & I). apply E in I. cbn [app]. rewrite I. reflexivity.
Qed.
Lemma bind_iff {A C} (x : option A) (f : A -> option C) z : option_bind x f = Some z <-> exists a, x = Some a /\ f a = Some z.
Proof. destruct x as [a|]; cbn [option_bind]; split; [eauto|intros (b & E & H); apply some_inj in E; subst b; exact H|discriminate|intros (b & E & _); discriminate]. Qed.
Lemma is_date lo hi y mo d : (lo <= mo <= hi -> 1 <= mo <= 12) -> lo <= mo <= hi -> 1 <= d -> (d <=? month_days y mo) = true -> real_date y mo d.
Proof. intros H R D L. apply real_date_iff. split; [auto|lia]. Qed.
Theorem read_time_iff lo hi t z : read_time lo hi t = Some z <-> is_time lo hi t z.
Proof.
  unfold read_time, is_time. split.
  - intros H. apply bind_iff in H as ((y & s1) & E1 & H). apply year_iff in E1 as (w1 & yt & -> & W1 & Y & _).
    apply bind_iff in H as (s2 & E2 & H). apply literal_iff in E2 as (w2 & -> & W2); [|reflexivity..].
    apply bind_iff in H as ((mo & s3) & E3 & H). apply field_iff in E3 as (w3 & mot & -> & W3 & Mo & Rmo & _).
    apply bind_iff in H as (s4 & E4 & H). apply literal_iff in E4 as (w4 & -> & W4); [|reflexivity..].
    apply bind_iff in H as ((d & s5) & E5 & H). apply field_iff in E5 as (w5 & dt & -> & W5 & Dd & Rd & _).
    apply bind_iff in H as (s6 & E6 & H). apply separator_iff in E6 as (sep & -> & Sp).
    apply bind_iff in H as ((h & s7) & E7 & H). apply field_iff in E7 as (w6 & ht & -> & W6 & Hh & Rh & _).
    apply bind_iff in H as (s8 & E8 & H). apply literal_iff in E8 as (w7 & -> & W7); [|reflexivity..].
    apply bind_iff in H as ((mi & s9) & E9 & H). apply field_iff in E9 as (w8 & mit & -> & W8 & Mi & Rmi & _).
    apply bind_iff in H as (s10 & E10 & H). apply literal_iff in E10 as (w9 & -> & W9); [|reflexivity..].
    apply bind_iff in H as ((se & s11) & E11 & H). apply field_iff in E11 as (w10 & st & -> & W10 & Se & Rse & _).
    apply bind_iff in H as ((ns & s12) & E12 & H). apply fraction_iff in E12 as (ft & -> & Fr & _).
    apply bind_iff in H as ((off & s13) & E13 & H). destruct (trim_spaces s12) as (w11 & W11 & E). apply offset_iff in E13 as (ot & E' & Of). rewrite E' in E. subst s12. clear E'.
    match type of H with (if ?c then _ else _) = _ => destruct c eqn:C1; [|discriminate] end. match type of H with (if ?c then _ else _) = _ => destruct c eqn:C2; [|discriminate] end. apply some_inj in H. subst z.
    repeat match type of C1 with (_ && _)%bool = true => apply andb_prop in C1 as [C1 ?C] end. apply trim_end in C1.
    exists y, mo, d, h, mi, se, ns, off. split; [|split; [|reflexivity]].
    + exists w1, yt, w2, w3, mot, w4, w5, dt, sep, w6, ht, w7, w8, mit, w9, w10, st, ft, w11, ot, s13. split; [reflexivity|]. split; [repeat (constructor; [assumption|]); constructor|]. repeat (split; [assumption|]). assumption.
    + assert (Rt : real_date y mo d) by (apply real_date_iff; lia). split; [exact Rt|]. repeat (split; [lia|]).
      replace (day_number y mo d * 86400 + h * 3600 + mi * 60 + Z.min se 59 - off) with (day_number y mo d * 86400 + h * 3600 + mi * 60 + se - off - se + Z.min se 59) by ring. lia.
  - intros (y & mo & d & h & mi & se & ns & off & (w1 & yt & w2 & w3 & mot & w4 & w5 & dt & sep & w6 & ht & w7 & w8 & mit & w9 & w10 & st & ft & w11 & ot & w12 & -> & W & Y & Mo & Dd & Sp & Hh & Mi & Se & Fr & Of) & R & ->).
    repeat match type of W with Forall _ (_ :: _) => let X := fresh "W" in inversion W as [|? ? X W']; subst; clear W; rename W' into W end.
    destruct R as (Rt & Ry & Rh & Rmi & Rse & Ro & Rb). apply real_date_iff in Rt as [Rmo Rd].
    assert (Md : month_days y mo <= 31) by (unfold month_days; repeat match goal with |- context [if ?c then _ else _] => destruct c end; lia).
    destruct (@offset_stops off ot w12 Of) as [St So]. assert (St' := @spaces_stops w11 _ ltac:(assumption) St).
    apply bind_iff. eexists (y, _). split; [apply year_iff; exists w1, yt; split; [reflexivity|]; split; [assumption|]; split; [exact Y|]; right; apply no_digit_literal; [assumption|reflexivity]|]. cbv beta iota.
    apply bind_iff. eexists. split; [apply literal_iff; [reflexivity..|]; exists w2; split; [reflexivity|assumption]|]. cbv beta iota.
    apply bind_iff. eexists (mo, _). split; [apply field_iff; exists w3, mot; split; [reflexivity|]; split; [assumption|]; split; [exact Mo|]; split; [lia|]; right; apply no_digit_literal; [assumption|reflexivity]|]. cbv beta iota.
    apply bind_iff. eexists. split; [apply literal_iff; [reflexivity..|]; exists w4; split; [reflexivity|assumption]|]. cbv beta iota.
    apply bind_iff. eexists (d, _). split; [apply field_iff; exists w5, dt; split; [reflexivity|]; split; [assumption|]; split; [exact Dd|]; split; [lia|]; right; change (no_digit ([] ++ [sep] ++ w6 ++ ht ++ w7 ++ B ":" ++ w8 ++ mit ++ w9 ++ B ":" ++ w10 ++ st ++ ft ++ w11 ++ ot ++ w12)); apply no_digit_literal; [exists []; auto|cbn in Sp; destruct Sp as [<-|[<-|[<-|[]]]]; reflexivity]|]. cbv beta iota.
    apply bind_iff. eexists. split; [apply separator_iff; exists sep; split; [reflexivity|assumption]|]. cbv beta iota.
    apply bind_iff. eexists (h, _). split; [apply field_iff; exists w6, ht; split; [reflexivity|]; split; [assumption|]; split; [exact Hh|]; split; [lia|]; right; apply no_digit_literal; [assumption|reflexivity]|]. cbv beta iota.
    apply bind_iff. eexists. split; [apply literal_iff; [reflexivity..|]; exists w7; split; [reflexivity|assumption]|]. cbv beta iota.
    apply bind_iff. eexists (mi, _). split; [apply field_iff; exists w8, mit; split; [reflexivity|]; split; [assumption|]; split; [exact Mi|]; split; [lia|]; right; apply no_digit_literal; [assumption|reflexivity]|]. cbv beta iota.
    apply bind_iff. eexists. split; [apply literal_iff; [reflexivity..|]; exists w9; split; [reflexivity|assumption]|]. cbv beta iota.
    apply bind_iff. eexists (se, _). split; [apply field_iff; exists w10, st; split; [reflexivity|]; split; [assumption|]; split; [exact Se|]; split; [lia|]; right|].
    { destruct Fr as [[-> _]|(ds & _ & -> & _)]; [apply stops_digit; exact St'|reflexivity]. }
    cbv beta iota. apply bind_iff. eexists (ns, _). split; [apply fraction_iff; exists ft; split; [reflexivity|]; split; [exact Fr|]; split|].
    { intros _. destruct (w11 ++ ot ++ w12); [exact I|exact (proj2 St')]. }
    { intros _. apply stops_digit. exact St'. }
    cbv beta iota. apply bind_iff. eexists (off, _). split; [rewrite spaces_trim by assumption; rewrite So; apply offset_iff; exists ot; split; [reflexivity|exact Of]|]. cbv beta iota.
    rewrite (@spaces_end w12) by assumption. cbn [is_empty].
    match goal with |- (if ?c then _ else _) = _ => replace c with true by lia end.
    match goal with |- (if ?c then _ else _) = _ => replace c with true end; [unfold instant; reflexivity|].
    replace (day_number y mo d * 86400 + h * 3600 + mi * 60 + se - off - se + Z.min se 59) with (day_number y mo d * 86400 + h * 3600 + mi * 60 + Z.min se 59 - off) by ring. lia.
Qed.

(** ** RFC 3339 *)
Lemma ten_value n : 0 <= n <= 9 -> Byte.to_N (ten n) = (48 + Z.to_N n)%N.
Proof. intros H. assert (C : n = 0 \/ n = 1 \/ n = 2 \/ n = 3 \/ n = 4 \/ n = 5 \/ n = 6 \/ n = 7 \/ n = 8 \/ n = 9) by lia. repeat destruct C as [->|C]; try subst n; reflexivity. Qed.
Lemma ten_digit n : 0 <= n <= 9 -> digit (ten n).
Proof. intros H. unfold digit. rewrite ten_value by exact H. lia. Qed.
Lemma two_value n : 0 <= n <= 99 -> value (two n) = n /\ Forall digit (two n).
Proof.
  intros H. assert (0 <= n / 10 <= 9 /\ 0 <= n mod 10 <= 9 /\ n = n / 10 * 10 + n mod 10) as (A & C & E) by (Z.to_euclidean_division_equations; lia).
  unfold two. rewrite value_two, !ten_value by assumption. split; [lia|]. repeat constructor; apply ten_digit; assumption.
Qed.
Lemma two_short n : 0 <= n <= 99 -> short_number 2 n (two n).
Proof. intros H. destruct (two_value H) as [V F]. split; [split; [discriminate|exact F]|]. split; [cbn; lia|symmetry; exact V]. Qed.
Lemma four_short n : 0 <= n <= 9999 -> short_number 4 n (four n).
Proof.
  intros H. assert (0 <= n / 100 <= 99 /\ 0 <= n mod 100 <= 99 /\ n = n / 100 * 100 + n mod 100) as (A & C & E) by (Z.to_euclidean_division_equations; lia).
  destruct (two_value A) as [V1 F1]. destruct (two_value C) as [V2 F2]. split; [split; [discriminate|apply Forall_app; auto]|]. split; [cbn; lia|].
  unfold four, value in *. rewrite dec_app. cbn [length two]. change (10 ^ N.of_nat 2)%N with 100%N. lia.
Qed.
Lemma no_spaces : spaces []. Proof. exists []. split; [constructor|reflexivity]. Qed.
Lemma rfc_offset_text off u : rfc_offset off u -> offset_text off u /\ -86400 < off < 86400.
Proof.
  intros [[-> [<-|[<-|[]]]]|(hh & mm & Hh & Hm & C)].
  - split; [|lia]. left. split; [reflexivity|]. eexists. split; [reflexivity|]. left. reflexivity.
  - split; [|lia]. left. split; [reflexivity|]. eexists. split; [reflexivity|]. right. left. reflexivity.
  - destruct (@two_value hh ltac:(lia)) as [Vh Fh]. destruct (@two_value mm ltac:(lia)) as [Vm Fm].
    destruct C as [[-> ->]|[-> ->]]; (split; [|lia]); right; right; [exists (B "+"), 1|exists (B "-"), (-1)]; exists (two hh), (B ":"), (two mm).
    + split; [left; reflexivity|]. split; [reflexivity|]. split; [apply Forall_app; auto|]. split; [reflexivity|]. split; [reflexivity|]. split; [lia|]. split; [exists [58%N]; split; [constructor; auto|reflexivity]|]. lia.
    + split; [right; left; reflexivity|]. split; [reflexivity|]. split; [apply Forall_app; auto|]. split; [reflexivity|]. split; [reflexivity|]. split; [lia|]. split; [exists [58%N]; split; [constructor; auto|reflexivity]|]. lia.
Qed.
Theorem rfc3339_time lo hi t y mo d h mi s ns off : lo < 0 -> 9999 < hi -> rfc3339 t y mo d h mi s ns off -> is_time lo hi t (instant y mo d h mi s ns off).
Proof.
  intros Lo Hi (sep & ft & ot & Sp & Fr & Of & Ry & Rd & Rh & Rmi & Rs & ->). destruct (rfc_offset_text Of) as [Of' Ro]. assert (Rd' := Rd). apply real_date_iff in Rd' as [Rmo Rd'].
  assert (Md : month_days y mo <= 31) by (unfold month_days; repeat match goal with |- context [if ?c then _ else _] => destruct c end; lia).
  exists y, mo, d, h, mi, s, ns, off. split; [|split; [|reflexivity]].
  - exists [], (four y), [], [], (two mo), [], [], (two d), sep, [], (two h), [], [], (two mi), [], [], (two s), ft, [], ot, []. split; [cbn [app]; rewrite !app_nil_r; reflexivity|].
    split; [repeat constructor; apply no_spaces|]. split; [left; apply four_short; lia|]. split; [apply two_short; lia|]. split; [apply two_short; lia|]. split; [exact Sp|].
    split; [apply two_short; lia|]. split; [apply two_short; lia|]. split; [apply two_short; lia|]. split; [exact Fr|exact Of'].
  - split; [exact Rd|]. repeat (split; [lia|]). pose proof (in_year Rd) as B. pose proof (@year_mono lo (-1) ltac:(lia)) as M1. pose proof (@year_mono 10000 hi ltac:(lia)) as M2.
    pose proof (@year_mono 0 y ltac:(lia)) as M3. pose proof (@year_mono (y + 1) 10000 ltac:(lia)) as M4. change (day_number 0 1 1) with (day_number (-1) 1 1 + 365) in M3.
    assert (E : day_number hi 12 31 = day_number hi 1 1 + 364 + (if leap hi then 1 else 0)). { unfold day_number. change (before_month hi 1) with 0. change (before_month hi 12) with (334 + (if leap hi then 1 else 0)). lia. }
    rewrite E. set (x := day_number y mo d) in *. clearbody x. assert (F : forall a b, -86400 < b < 172800 -> a - 1 <= (a * 86400 + b) / 86400 <= a + 1) by (intros; Z.to_euclidean_division_equations; lia).
    specialize (F x (h * 3600 + mi * 60 + Z.min s 59 - off) ltac:(lia)). replace (x * 86400 + h * 3600 + mi * 60 + Z.min s 59 - off) with (x * 86400 + (h * 3600 + mi * 60 + Z.min s 59 - off)) by ring. destruct (leap hi); lia.
Qed.
