(** Proofs of C84: the laws of numbers, from what IEEE 754 and ECMAScript say about their texts. *)
From Verif Require Import Base BaseFacts Codec CodecFacts Json JsonParse JsonFacts JsonParseFacts ParseFacts Deps Types Proof Vc Suite JsonSpec VcSpec Spec VcFacts MiscSpec SuiteSpec SuiteFacts ReadFacts FlowSpec FlowFacts Grammar GrammarFacts TextSpec TextFacts ShortFacts CanonSpec CanonFacts ConnSpec Float FloatFacts FloatText FloatSpec JsonParse.
Require Import ZifyBool ZifyNat ZifyN.
Set Implicit Arguments.
Local Open Scope N_scope.

(** ** Nearest *)
Theorem rounds_nearest p q m : 0 < q -> (rounds p q m <-> is_nearest p q m).
Proof.
  intros Q. unfold rounds, is_nearest, gap. generalize (p * 2 ^ 1074). intros X.
  assert (Mo : forall a b, a < b -> units a * q < units b * q) by (intros a b H; apply N.mul_lt_mono_pos_r; [exact Q|apply units_mono; exact H]).
  assert (Le : forall a b, a <= b -> units a * q <= units b * q).
  { intros a b H. destruct (N.eq_dec a b) as [->|]; [lia|]. apply N.lt_le_incl, Mo. lia. }
  rewrite !N.mul_add_distr_r. split.
  - intros (L & A & C). split; [exact L|]. intros m' L'. destruct (N.lt_trichotomy m' m) as [H|[->|H]]; [|split; [lia|left; reflexivity]|].
    + assert (H1 := Le m' (m - 1) ltac:(lia)). assert (H2 := Mo _ _ H).
      generalize dependent (units m' * q). generalize dependent (units (m - 1) * q). generalize dependent (units m * q). generalize dependent (units (m + 1) * q). intros. split.
      * destruct A as [A|[A|[A _]]]; lia.
      * intros E. right. destruct A as [A|[A|[A Ev]]]; [lia|lia|exact Ev].
    + assert (H1 := Le (m + 1) m' ltac:(lia)). assert (H2 := Mo _ _ H).
      generalize dependent (units m' * q). generalize dependent (units (m - 1) * q). generalize dependent (units m * q). generalize dependent (units (m + 1) * q). intros. split.
      * destruct C as [C|[C _]]; lia.
      * intros E. right. destruct C as [C|[C Ev]]; [lia|exact Ev].
  - intros (L & H). split; [exact L|]. split.
    + destruct (N.eq_dec m 0) as [Z|Z]; [left; exact Z|right]. destruct (H (m - 1) ltac:(lia)) as [H1 H2]. assert (H3 := Mo (m - 1) m ltac:(lia)).
      destruct (N.eq_dec (units (m - 1) * q + units m * q) (2 * X)) as [E|E].
      * right. split; [exact E|]. destruct H2 as [?|Ev]; [lia|lia|exact Ev].
      * left. lia.
    + destruct (H (m + 1) ltac:(lia)) as [H1 H2]. assert (H3 := Mo m (m + 1) ltac:(lia)).
      destruct (N.eq_dec (2 * X) (units m * q + units (m + 1) * q)) as [E|E].
      * right. split; [exact E|]. destruct H2 as [?|Ev]; [lia|lia|exact Ev].
      * left. lia.
Qed.
Lemma sign_parts (neg : bool) m : m < infinity ->
  let b := if neg then 2 ^ 63 + m else m in finite b = true /\ negative b = neg /\ magnitude b = m.
Proof.
  intros L b. assert (I : infinity < 2 ^ 63) by reflexivity. assert (M : magnitude b = m).
  { unfold b, magnitude. destruct neg; [|apply N.mod_small; lia]. symmetry. apply (N.mod_unique _ _ 1); lia. }
  split; [|split; [|exact M]].
  - unfold finite. rewrite M. apply andb_true_iff. split; apply N.ltb_lt; [|exact L]. unfold b. change (2 ^ 64) with (2 * 2 ^ 63). generalize dependent (2 ^ 63). intros. destruct neg; lia.
  - unfold b, negative. destruct neg; [apply N.leb_le; lia|apply N.leb_gt; lia].
Qed.
Theorem read_nearest neg i f e b : int_ok i -> frac_ok f -> exp_ok e ->
  (read_float (number_text neg i f e) = Some b <-> finite b = true /\ negative b = neg /\ is_nearest (numerator i f e) (denominator f e) (magnitude b)).
Proof.
  intros Hi Hf He. rewrite read_float_text by assumption. fold (power f e). split.
  - destruct (round (dec_value (i ++ tl f)) (power f e)) as [m|] eqn:R; [|discriminate]. cbn [option_map]. intros H. apply some_inj in H. subst b.
    apply round_iff in R. destruct (sign_parts neg (proj1 R)) as (F & N & M). split; [exact F|]. split; [exact N|]. rewrite M. apply rounds_nearest; [apply ten_pos|exact R].
  - intros (F & N & H). apply rounds_nearest in H; [|apply ten_pos]. apply round_iff in H. rewrite H. cbn [option_map]. destruct (finite_parts b F) as [_ E]. rewrite N in E. congruence.
Qed.

(** ** Texts *)
Lemma num_digit c : digit c -> is_num_char c = true.
Proof. intros H. apply digit_iff in H. unfold is_num_char. unfold is_digit in H. rewrite H. reflexivity. Qed.
Lemma num_digits ds : Forall digit ds -> forallb is_num_char ds = true.
Proof. intros H. apply forallb_forall. intros c I. apply num_digit. rewrite Forall_forall in H. auto. Qed.
Lemma number_token neg i f e : int_ok i -> frac_ok f -> exp_ok e -> num_token (number_text neg i f e) = true.
Proof.
  intros ((Hn & Fi) & Hz) Hf He. unfold num_token, number_text. apply andb_true_iff. split.
  - destruct neg; [reflexivity|]. destruct i; [congruence|reflexivity].
  - rewrite !forallb_app. rewrite (num_digits Fi). replace (forallb is_num_char (if neg then B "-" else [])) with true by (destruct neg; reflexivity).
    assert (F : forallb is_num_char f = true) by (destruct Hf as [->|(ds & -> & _ & Fd)]; [reflexivity|cbn [forallb]; rewrite (num_digits Fd); reflexivity]).
    rewrite F. cbn [andb]. destruct He as [->|(l & sg & ds & -> & Hl & Hs & _ & Fd)]; [reflexivity|]. cbn [forallb]. rewrite forallb_app, (num_digits Fd).
    destruct Hl as [<-|[<-|[]]]; destruct Hs as [<-|[<-|[<-|[]]]]; reflexivity.
Qed.
Definition is_int (n : number) : Prop := match n with Float _ => False | _ => True end.
(** What ECMAScript's text of a float reads as. *)
Lemma es_number b : exists neg i f e n, int_ok i /\ frac_ok f /\ exp_ok e /\ es_text b = number_text neg i f e /\
  number_of read_float neg i f e = Some n /\ real n /\ es_text (float_of n) = es_text b /\
  (is_int n -> forall g, serde_number g n = es_text b) /\
  (finite b = true -> float_of n = b \/ magnitude b = 0 /\ n = PosInt 0).
Proof.
  destruct (finite b && negb (magnitude b =? 0)) eqn:C.
  - apply andb_true_iff in C as [F M]. apply negb_true_iff, N.eqb_neq in M. destruct (es_reads b F M) as (i & f & e & Hi & Hf & He & T & R).
    destruct (finite_parts b F) as [L E].
    assert (I : f = [] -> e = [] -> nearest_int (dec_value i) = magnitude b).
    { intros -> ->. cbn in R. rewrite app_nil_r in R. unfold nearest_int. rewrite R. reflexivity. }
    exists (negative b), i, f, e. unfold number_of.
    destruct (is_empty f && is_empty e && negb (negative b) && (dec_value i <? 2 ^ 64)) eqn:C1.
    + rewrite !andb_true_iff in C1. destruct C1 as (((C1 & C2) & C3) & C4). destruct f; [|discriminate]. destruct e; [|discriminate]. apply negb_true_iff in C3. apply N.ltb_lt in C4.
      specialize (I eq_refl eq_refl). rewrite C3 in E. exists (PosInt (dec_value i)). do 5 (split; [assumption || reflexivity|]).
      assert (X : float_of (PosInt (dec_value i)) = b) by (cbn [float_of]; congruence).
      split; [split; [exact C4|exact Logic.I]|]. split; [rewrite X; reflexivity|]. split; [|intros _; left; exact X].
      intros _ g. cbn [serde_number]. rewrite dec_unique by exact Hi. rewrite T, C3. unfold number_text. cbn [app]. rewrite !app_nil_r. reflexivity.
    + destruct (is_empty f && is_empty e && negative b && (0 <? dec_value i) && (dec_value i <=? 2 ^ 63)) eqn:C2.
      * rewrite !andb_true_iff in C2. destruct C2 as ((((C2 & C3) & C4) & C5) & C6). destruct f; [|discriminate]. destruct e; [|discriminate]. apply N.ltb_lt in C5. apply N.leb_le in C6.
        specialize (I eq_refl eq_refl). rewrite C4 in E. exists (NegInt (dec_value i)). do 5 (split; [assumption || reflexivity|]).
        assert (X : float_of (NegInt (dec_value i)) = b) by (cbn [float_of]; congruence).
        split; [split; [split; [lia|exact C6]|exact Logic.I]|]. split; [rewrite X; reflexivity|]. split; [|intros _; left; exact X].
        intros _ g. cbn [serde_number]. rewrite dec_unique by exact Hi. rewrite T, C4. unfold number_text. rewrite !app_nil_r. reflexivity.
      * exists (Float b). do 4 (split; [assumption || reflexivity|]). split.
        { rewrite read_float_text by assumption. rewrite R. cbn [option_map]. do 2 f_equal. symmetry. exact E. }
        split; [split; [exact Logic.I|exact F]|]. split; [reflexivity|]. split; [intros []|]. intros _. left. reflexivity.
  - assert (T : es_text b = B "0").
    { unfold es_text. destruct (finite b); [|reflexivity]. cbn [andb negb] in C. apply negb_false_iff in C. rewrite C. reflexivity. }
    destruct zero_text as (Zi & _ & Zf & Ze). exists false, (B "0"), [], [], (PosInt 0). do 3 (split; [assumption|]). split; [exact T|]. split; [reflexivity|].
    split; [split; [reflexivity|exact I]|]. split; [rewrite T; reflexivity|]. split; [intros _ g; rewrite T; reflexivity|]. intros F. right. split; [|reflexivity].
    rewrite F in C. cbn [andb] in C. apply negb_false_iff, N.eqb_eq in C. exact C.
Qed.

Section Laws.
  Variable D : deps.
  Hypothesis W : ieee_written D.
  Lemma int_jcs n : jcs_number D n = es_text (float_of n) \/ is_int n /\ jcs_number D n = serde_number (f64_text D) n.
  Proof. destruct W as (_ & W2 & W3). destruct n as [k|k|b]; [destruct (W3 (PosInt k)); [left|right; split]; auto|destruct (W3 (NegInt k)); [left|right; split]; auto|left; apply W2]; exact I. Qed.
  Lemma int_text n : is_int n -> exists neg i, int_ok i /\ serde_number (f64_text D) n = number_text neg i [] [].
  Proof.
    destruct n as [k|k|b]; intros H; [exists false, (dec k)|exists true, (dec k)|destruct H]; (split; [apply dec_int|]); cbn [serde_number number_text app]; rewrite ?app_nil_r; reflexivity.
  Qed.
  Theorem ieee_numbers : jcs_numbers D.
  Proof.
    intros n. destruct (int_jcs n) as [->|[H ->]].
    - destruct (es_number (float_of n)) as (g & i & f & e & n' & Hi & Hf & He & T & _). rewrite T. apply number_token; assumption.
    - destruct (int_text n H) as (g & i & Hi & ->). apply number_token; [exact Hi|left; reflexivity|left; reflexivity].
  Qed.
  Hypothesis P : forall t, f64_parse D t = read_float t.
  Lemma number_of_ext f g neg i fr ex : (forall t, f t = g t) -> number_of f neg i fr ex = number_of g neg i fr ex.
  Proof. intros E. unfold number_of. rewrite E. reflexivity. Qed.
  Theorem float_reread b : finite b = true -> json_reads D (Float b) (Float b).
  Proof.
    intros F. destruct (ryu_reads b F) as (g & i & f & e & Hi & Hf & He & T & Nz & R). exists g, i, f, e. do 3 (split; [assumption|]).
    split; [cbn [serde_number]; rewrite (proj1 W), T; reflexivity|]. rewrite (number_of_ext _ _ _ _ _ _ P). unfold number_of.
    destruct f as [|c f]; [destruct e as [|c e]; [exfalso; auto|]|]; cbn [is_empty andb]; rewrite R; reflexivity.
  Qed.
  Theorem ieee_floats : floats_written D.
  Proof.
    intros b. destruct (finite b) eqn:F; [exists (Float b); apply float_reread; exact F|]. exists (Float 0). destruct zero_text as (Zi & Zf & _ & Ze).
    exists false, (B "0"), (B ".0"), []. do 3 (split; [assumption|]). split; [cbn [serde_number]; rewrite (proj1 W); unfold ryu_text; rewrite F; reflexivity|].
    rewrite (number_of_ext _ _ _ _ _ _ P). reflexivity.
  Qed.
  Theorem real_rereads n : real n -> json_reads D n n.
  Proof. intros [R F]. destruct n as [k|k|b]; [apply json_reads_int; [exact R|exact I]..|apply float_reread; exact F]. Qed.
  (** The canonical text of a number reads as a number with the same canonical text and, unless it was written exactly, the same nearest float. *)
  Theorem jcs_reread n : in_range n -> exists n', jcs_reads D n n' /\ real n' /\ jcs_number D n' = jcs_number D n /\
    (finite (float_of n) = true -> float_of n' = float_of n \/ magnitude (float_of n) = 0 /\ n' = PosInt 0).
  Proof.
    intros H. destruct (int_jcs n) as [E|[Hi E]].
    - destruct (es_number (float_of n)) as (g & i & f & e & n' & Hi & Hf & He & T & No & Re & Es & In & Fl). exists n'. split.
      + exists g, i, f, e. do 3 (split; [assumption|]). split; [congruence|]. rewrite (number_of_ext _ _ _ _ _ _ P). exact No.
      + split; [exact Re|]. split; [|exact Fl]. destruct (int_jcs n') as [E'|[Hi' E']]; [congruence|]. rewrite E', E. apply In. exact Hi'.
    - exists n. split; [|split; [split; [exact H|destruct n; auto; destruct Hi]|split; [reflexivity|intros _; left; reflexivity]]].
      assert (J := real_rereads (n := n)). destruct (J ltac:(split; [exact H|destruct n; auto; destruct Hi])) as (g & i & f & e & J1 & J2 & J3 & J4 & J5).
      exists g, i, f, e. do 3 (split; [assumption|]). split; [rewrite E; exact J4|exact J5].
  Qed.
  Theorem ieee_stable : jcs_stable D.
  Proof. intros n H. destruct (jcs_reread n H) as (n' & R & _ & E & _). exists n'. auto. Qed.
End Laws.

(** ** Documents *)
Lemma val_ok_impl (P Q : number -> Prop) : (forall n, P n -> Q n) -> forall j, val_ok P j -> val_ok Q j.
Proof.
  intros H. induction j as [|b|n|s|l IH|m IH] using json_ind'; intros V; auto; [exact (H n V)| |].
  - apply val_ok_arr in V. apply val_ok_arr. induction V; inversion IH; subst; constructor; auto.
  - apply val_ok_obj in V as [I V]. apply val_ok_obj. split; [exact I|]. clear I. induction V as [|? ? [? ?]]; inversion IH; subst; constructor; auto.
Qed.
Lemma vc_shape_impl (P Q : number -> Prop) v : (forall n, P n -> Q n) -> vc_shape P v -> vc_shape Q v.
Proof. intros H (H1 & H2 & H3 & H4). split; [exact H1|]. split; [exact H2|]. split; [exact (val_ok_impl _ _ H _ H3)|exact H4]. Qed.
Lemma vp_shape_impl (P Q : number -> Prop) v : (forall n, P n -> Q n) -> vp_shape P v -> vp_shape Q v.
Proof. intros H (H1 & H2 & H3 & H4). split; [exact H1|]. split; [exact H2|]. split; [|exact H4]. eapply Forall_impl; [|exact H3]. intros c. apply vc_shape_impl. exact H. Qed.
Lemma val_ok_numbers (P : number -> Prop) j : val_ok P j -> all_numbers P j.
Proof.
  induction j as [|b|n|s|l IH|m IH] using json_ind'; intros V; try exact I; [exact V| |].
  - apply val_ok_arr in V. cbn [all_numbers]. induction V; inversion IH; subst; cbn; [exact I|]. split; auto.
  - apply val_ok_obj in V as [_ V]. cbn [all_numbers]. induction V as [|? ? [? ?]]; inversion IH; subst; cbn; [exact I|]. split; auto.
Qed.
Lemma real_range n : real n -> in_range n. Proof. intros [H _]. exact H. Qed.
Lemma read_finite t b : read_float t = Some b -> finite b = true.
Proof.
  unfold read_float. destruct (read_sign t) as [neg r]. destruct (span_digits r) as [i s]. destruct (read_frac s) as [f e]. match goal with |- option_map _ ?o = _ -> _ => destruct o as [m|] eqn:R; [|discriminate] end.
  apply round_iff in R. cbn [option_map]. intros H. apply some_inj in H. subst b. exact (proj1 (sign_parts neg (proj1 R))).
Qed.
Lemma nearest_finite k : nearest_int k < infinity.
Proof. unfold nearest_int. destruct (round k 0) as [m|] eqn:R; [|reflexivity]. apply round_iff in R. exact (proj1 R). Qed.
Lemma real_finite n : real n -> finite (float_of n) = true.
Proof. intros [_ F]. destruct n as [k|k|b]; [exact (proj1 (sign_parts false (nearest_finite k)))|exact (proj1 (sign_parts true (nearest_finite k)))|exact F]. Qed.
Section Documents.
  Variable D : deps.
  Hypothesis W : ieee D.
  Let W1 := proj1 W.
  Let W2 := proj2 W.
  Lemma real_reread n : real n -> rereads D n.
  Proof. intros H. apply rereads_iff; [exact (real_range H)|]. apply (real_rereads W1 W2). exact H. Qed.
  Lemma real_floats : floats_ok real (f64_parse D).
  Proof. intros t b H. rewrite W2 in H. split; [exact I|exact (read_finite _ H)]. Qed.
  Lemma real_ints : ints_ok real.
  Proof. split; [intros n H; split; [exact H|exact I]|intros m H0 H; split; [split; [exact H0|exact H]|exact I]]. Qed.
  Lemma vc_real v : vc_shape real v -> vc_wf D v.
  Proof.
    intros H. apply vc_shape_wf.
    - revert H. apply vc_shape_impl. intros [k|k|b] [R F]; [exact R|exact R|exact I].
    - destruct H as (_ & _ & V & _). unfold vc_rereads. apply val_ok_numbers. revert V. apply val_ok_impl. exact real_reread.
  Qed.
  Lemma vp_real v : vp_shape real v -> vp_wf D v.
  Proof. intros (H1 & H2 & H3 & H4). split; [exact H1|]. split; [exact H2|]. split; [|exact H4]. eapply Forall_impl; [|exact H3]. exact vc_real. Qed.
  Theorem vc_relay s v : vc_parse_json_bytes D s = Ok v -> vc_complete v -> vc_shape real v /\
    exists t, vc_to_json D v = Ok (JSONValue t) /\ vc_parse_json_bytes D t = Ok v /\
      forall pk e, verify_proof D (vc_proofable D) pk t e = verify_proof D (vc_proofable D) pk s e.
  Proof.
    intros P C. destruct (vc_parsed real_floats real_ints P) as [S _]. split; [exact S|]. apply vc_reserialised; [exact P|exact C|].
    destruct S as (_ & _ & V & _). unfold vc_rereads. apply val_ok_numbers. revert V. apply val_ok_impl. exact real_reread.
  Qed.
  Theorem vp_relay s v : vp_parse_json_bytes D s = Ok v -> vp_complete v -> vp_shape real v /\
    exists t, vp_to_json D v = Ok (JSONValue t) /\ vp_parse_json_bytes D t = Ok v /\
      forall pk e, verify_proof D (vp_proofable D) pk t e = verify_proof D (vp_proofable D) pk s e.
  Proof.
    intros P C. destruct (vp_parsed real_floats real_ints P) as [S _]. split; [exact S|]. apply vp_reserialised; [exact P|exact C|].
    destruct S as (_ & _ & V & _). unfold vp_rereads. eapply Forall_impl; [|exact V]. intros c (_ & _ & Vc & _). apply val_ok_numbers. revert Vc. apply val_ok_impl. exact real_reread.
  Qed.
  (** Numbers with one canonical text have one nearest float. *)
  Theorem equal_same n n' : real n -> real n' -> equal_canonical D n n' -> same_float n n'.
  Proof.
    intros H H' E. destruct (jcs_reread W1 W2 n (real_range H)) as (a & R & Ra & _ & F). destruct (jcs_reread W1 W2 n' (real_range H')) as (a' & R' & Ra' & _ & F').
    assert (X : a = a'). { apply (reads_token (jcs_number D)) in R, R'. unfold equal_canonical in E. rewrite E in R. congruence. } subst a'.
    specialize (F (real_finite H)). specialize (F' (real_finite H')). unfold same_float.
    destruct F as [F|[F F0]], F' as [F'|[F' F0']]; [left; congruence|right..].
    - subst a. change (float_of (PosInt 0)) with 0 in F. rewrite <- F. split; [reflexivity|exact F'].
    - subst a. change (float_of (PosInt 0)) with 0 in F'. rewrite <- F'. split; [exact F|reflexivity].
    - split; assumption.
  Qed.
  Lemma renumbered_real (R : number -> number -> Prop) (P P' : number -> Prop) : forall j j', renumbered R j j' -> val_ok P j -> val_ok P' j' ->
    renumbered (fun n n' => R n n' /\ P n /\ P' n') j j'.
  Proof.
    induction j as [|b|n|s|l IH|m IH] using json_ind'; intros j' H V V'; inversion H; subst; try constructor; auto.
    - apply val_ok_arr in V, V'. clear H. match goal with F : Forall2 _ _ _ |- _ => induction F; inversion IH; subst; inversion V; subst; inversion V'; subst; constructor; auto end.
    - apply val_ok_obj in V as [_ V], V' as [_ V']. clear H.
      match goal with F : Forall2 _ _ _ |- _ => induction F as [|? ? ? ? [? ?] ? IHF]; inversion IH; subst; inversion V as [|? ? [? ?]]; subst; inversion V' as [|? ? [? ?]]; subst; constructor; auto end.
  Qed.
  Theorem vc_same v w : vc_shape real v -> vc_shape real w -> vc_renumbered (equal_canonical D) v w -> vc_renumbered same_float v w.
  Proof.
    intros (_ & _ & V & _) (_ & _ & V' & _) (j & R & ->). exists j. split; [|reflexivity]. cbn [with_subject vc_subject] in V'.
    eapply renumbered_weaken; [|exact (@renumbered_real _ _ _ _ _ R V V')]. intros n n' (E & H & H'). apply equal_same; assumption.
  Qed.
  Theorem vp_same v w : vp_shape real v -> vp_shape real w -> vp_renumbered (equal_canonical D) v w -> vp_renumbered same_float v w.
  Proof.
    intros (_ & _ & V & _) (_ & _ & V' & _) (cs & R & ->). exists cs. split; [|reflexivity]. cbn [vp_credentials] in V'.
    induction R; inversion V; subst; inversion V'; subst; constructor; auto. apply vc_same; assumption.
  Qed.
End Documents.
Theorem ieee_nearest D neg i f e b : ieee D -> int_ok i -> frac_ok f -> exp_ok e ->
  (f64_parse D (number_text neg i f e) = Some b <->
   finite b = true /\ negative b = neg /\ is_nearest (numerator i f e) (denominator f e) (magnitude b)).
Proof. intros [_ P] Hi Hf He. rewrite P. apply read_nearest; assumption. Qed.
Theorem ieee_laws D : ieee D -> jcs_numbers D /\ jcs_stable D /\ floats_written D.
Proof. intros [W P]. split; [exact (ieee_numbers W)|]. split; [exact (ieee_stable W P)|exact (ieee_floats W P)]. Qed.
Theorem ieee_read_back D n : ieee D -> real n ->
  json_reads D n n /\ exists n', jcs_reads D n n' /\ real n' /\ same_float n n' /\ jcs_number D n' = jcs_number D n.
Proof.
  intros [W P] H. split; [exact (real_rereads W P H)|]. destruct (jcs_reread W P n (real_range H)) as (n' & R & Re & E & F). exists n'.
  split; [exact R|]. split; [exact Re|]. split; [|exact E]. destruct (F (real_finite H)) as [F'|[F' ->]]; [left; symmetry; exact F'|right]. split; [exact F'|reflexivity].
Qed.
Theorem ieee_refused D neg i f e : ieee D -> int_ok i -> frac_ok f -> exp_ok e ->
  (f64_parse D (number_text neg i f e) = None <->
   (units (infinity - 1) + units infinity) * denominator f e <= 2 * (numerator i f e * 2 ^ 1074)).
Proof.
  intros [_ P] Hi Hf He. rewrite P, read_float_text by assumption. fold (power f e). unfold denominator, numerator. rewrite <- round_none.
  destruct (round (dec_value (i ++ tl f)) (power f e)); cbn [option_map]; split; intros; congruence.
Qed.
