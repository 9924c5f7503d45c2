(** Dependencies meeting the hypotheses of C69-C71: one with a float parser that loses the lowest bit, one writing
    canonical numbers and ordering canonical members as RFC 8785 does. *)
From Verif Require Import FlowSpec Base BaseFacts Codec CodecFacts Json JsonParse Deps Types Proof Vc Suite JsonFacts JsonSpec VcSpec Spec VcFacts ReadFacts Grammar GrammarFacts MiscSpec SuiteSpec SuiteFacts
  JsonParseFacts CanonSpec CanonFacts OrderFacts Demo DemoFacts PropsVc.
Set Implicit Arguments.

Definition even_parse (t : bytes) : option N := option_map (fun n => 2 * (n / 2))%N (demo_f64_parse t).
Definition lossy : deps := with_texts demo even_parse (jcs_number demo) (jcs_leb demo).
(** A float whose value is an integer below 2^64 is written like that integer. *)
Definition rfc_number (n : number) : bytes :=
  match n with Float b => if (b <? 2 ^ 64)%N then dec b else demo_f64_text b | _ => serde_number demo_f64_text n end.
Definition rfc : deps := with_texts demo demo_f64_parse rfc_number utf16_leb.

Lemma dec_ok n : int_ok (dec n).
Proof.
  destruct (dec_shape n) as (c & ds & E & H & Hd). split.
  - split; [rewrite E; discriminate|]. apply digits_iff, dec_digits.
  - rewrite E. cbn. intros ->. destruct (H eq_refl) as [_ ->]. reflexivity.
Qed.
Lemma float_text parse b x : parse (demo_f64_text b) = Some x ->
  reads_as (serde_number demo_f64_text) parse (Float b) (Float x).
Proof.
  intros H. exists false, (dec b), [], (B "e0"). split; [apply dec_ok|]. split; [left; reflexivity|].
  split; [right; exists "e"%byte, [], (B "0"); split; [reflexivity|]; split; [cbn; auto|]; split; [cbn; auto|]; split; [discriminate|apply digits_iff; reflexivity]|]. split; [reflexivity|].
  unfold number_of. cbn [is_empty andb]. change (number_text false (dec b) [] (B "e0")) with (demo_f64_text b). rewrite H. reflexivity.
Qed.
Lemma demo_parse_text b : demo_f64_parse (demo_f64_text b) = Some b.
Proof.
  unfold demo_f64_parse, demo_f64_text. rewrite app_length. cbn [length].
  change (length (B "e0")) with 2%nat. replace (length (dec b) + 2 - 2)%nat with (length (dec b)) by lia.
  rewrite firstn_app, firstn_all, Nat.sub_diag, app_nil_r. f_equal. rewrite <- (dec_value_dec b) at 2. unfold dec_value.
  generalize 0%N. pose proof (dec_digits b) as F. induction (dec b) as [|c s IH]; intros n; [reflexivity|].
  cbn [forallb] in F. cbn [fold_left]. apply andb_prop in F as [F1 F2]. unfold is_digit in F1. rewrite F1, IH by exact F2. f_equal. rewrite N.mul_comm. reflexivity.
Qed.
Lemma demo_reads b : json_reads demo (Float b) (Float b). Proof. apply float_text, demo_parse_text. Qed.
Theorem demo_floats : floats_written demo. Proof. intros b. exists (Float b). apply demo_reads. Qed.
Lemma lossy_reads b : json_reads lossy (Float b) (Float (2 * (b / 2))).
Proof.
  apply (@float_text even_parse). unfold even_parse. rewrite demo_parse_text. reflexivity.
Qed.
Theorem lossy_floats : floats_written lossy. Proof. intros b. eexists. apply lossy_reads. Qed.
Lemma int_reads parse n : (n < 2 ^ 64)%N -> forall num k, num k = dec n -> reads_as num parse k (PosInt n).
Proof.
  intros H num k E. exists false, (dec n), [], []. split; [apply dec_ok|]. split; [left; reflexivity|]. split; [left; reflexivity|].
  split; [rewrite E; unfold number_text; cbn; rewrite !app_nil_r; reflexivity|]. unfold number_of. rewrite dec_value_dec. cbn [is_empty andb negb].
  destruct (N.ltb_spec n (2 ^ 64)); [reflexivity|lia].
Qed.
Lemma neg_reads parse n : n <> 0%N -> (n <= 2 ^ 63)%N -> forall num k, num k = B "-" ++ dec n -> reads_as num parse k (NegInt n).
Proof.
  intros H0 H num k E. exists true, (dec n), [], []. split; [apply dec_ok|]. split; [left; reflexivity|]. split; [left; reflexivity|].
  split; [rewrite E; unfold number_text; rewrite !app_nil_r; reflexivity|]. unfold number_of. rewrite dec_value_dec. cbn [is_empty andb negb].
  destruct (N.leb_spec n (2 ^ 63)); [|lia]. destruct (N.ltb_spec 0 n); [reflexivity|lia].
Qed.
Theorem demo_stable : jcs_stable demo.
Proof.
  intros [n|m|b] H; cbn in H.
  - exists (PosInt n). split; [|reflexivity]. apply int_reads; [exact H|reflexivity].
  - exists (NegInt m). split; [|reflexivity]. apply neg_reads; [tauto|tauto|reflexivity].
  - exists (Float b). split; [|reflexivity]. apply demo_reads.
Qed.
Theorem rfc_stable : jcs_stable rfc.
Proof.
  intros [n|m|b] H; cbn in H.
  - exists (PosInt n). split; [|reflexivity]. apply int_reads; [exact H|reflexivity].
  - exists (NegInt m). split; [|reflexivity]. apply neg_reads; [tauto|tauto|reflexivity].
  - destruct (N.ltb_spec b (2 ^ 64)) as [L|L]; [exists (PosInt b)|exists (Float b)].
    + assert (E : rfc_number (Float b) = dec b) by (cbn [rfc_number]; apply N.ltb_lt in L; rewrite L; reflexivity).
      split; [apply int_reads; [exact L|exact E]|]. change (dec b = rfc_number (Float b)). symmetry. exact E.
    + split; [|reflexivity]. assert (E : rfc_number (Float b) = demo_f64_text b) by (cbn [rfc_number]; apply N.ltb_ge in L; rewrite L; reflexivity).
      destruct (demo_reads b) as (g & i & f & e & H1 & H2 & H3 & H4 & H5). exists g, i, f, e. repeat split; try assumption; try apply H1. change (rfc_number (Float b) = number_text g i f e). rewrite <- H4, E. reflexivity.
Qed.
Theorem rfc_numbers : jcs_numbers rfc.
Proof.
  intros [n|n|b]; [exact (demo_jcs_numbers (PosInt n))|exact (demo_jcs_numbers (NegInt n))|].
  change (num_token (rfc_number (Float b)) = true). cbn [rfc_number].
  destruct (b <? 2 ^ 64)%N; [exact (demo_jcs_numbers (PosInt b))|exact (demo_jcs_numbers (Float b))].
Qed.
Theorem lossy_numbers : jcs_numbers lossy. Proof. exact demo_jcs_numbers. Qed.
Theorem lossy_order : jcs_order lossy. Proof. exact demo_jcs_order. Qed.
Theorem lossy_correct : ed_correct lossy. Proof. exact demo_ed_correct. Qed.
Theorem lossy_size : sha256_size lossy. Proof. exact demo_sha256_size. Qed.
Theorem rfc_correct : ed_correct rfc. Proof. exact demo_ed_correct. Qed.
Theorem rfc_order : jcs_order rfc /\ jcs_utf16 rfc. Proof. apply utf16_order. Qed.

(** A signed credential that does not verify after transport: its float is read as another one. *)
Definition float_vc : vc := vc_set_credential demo_vc (JObj [(B "rate", JNum (Float 7)); (B "sum", JNum (PosInt 5))]).
Definition lossy_key : ed_pair lossy := B "key one".
Definition lossy_signed : result vc proof_error := add_proof lossy (vc_proofable lossy) lossy_key float_vc demo_proof.
Definition lossy_text : bytes :=
  match lossy_signed with Ok v => match vc_to_json lossy v with Ok (JSONValue t) => t | Err _ => [] end | Err _ => [] end.
Lemma lossy_answer : match verify_proof lossy (vc_proofable lossy) (ed_pub_key lossy lossy_key) lossy_text AssertionMethod with
  | Ok r => negb (verified r) | Err _ => false end = true.
Proof. vm_compute. reflexivity. Qed.
Lemma float_shape : vc_shape in_range float_vc.
Proof. repeat split; try (repeat constructor); vm_compute; auto. Qed.
Theorem lossy_transport : exists D kp v o v' t r,
  ed_correct D /\ sha256_size D /\ jcs_order D /\ jcs_numbers D /\ floats_written D /\
  vc_shape in_range v /\ (depth (vc_subject v) <= 126)%nat /\ vc_proof v = None /\ proof_wf o /\ p_value o = [] /\
  add_proof D (vc_proofable D) kp v o = Ok v' /\ vc_to_json D v' = Ok (JSONValue t) /\
  verify_proof D (vc_proofable D) (ed_pub_key D kp) t (p_purpose o) = Ok r /\ verified r = false.
Proof.
  pose proof lossy_answer as A.
  assert (S : is_ok lossy_signed = true) by (vm_compute; reflexivity).
  unfold lossy_text in A. destruct lossy_signed as [v'|] eqn:E; [|discriminate].
  assert (C : vc_complete float_vc) by (repeat split; discriminate).
  assert (T : vc_to_json lossy v' = Ok (JSONValue (json_text (serde_number (f64_text lossy)) (vc_json v')))).
  { apply vc_to_json_spec. split; [|reflexivity]. pose proof E as E'. unfold lossy_signed in E'.
    apply (doc_add_proof (vc_doc_laws lossy)) in E' as (_ & _ & _ & ->). exact C. }
  rewrite T in A.
  destruct (verify_proof _ _ _ _ _) as [r|] eqn:V in A; [|discriminate].
  exists lossy, lossy_key, float_vc, demo_proof, v', (json_text (serde_number (f64_text lossy)) (vc_json v')), r.
  split; [exact lossy_correct|]. split; [exact lossy_size|]. split; [exact lossy_order|]. split; [exact lossy_numbers|]. split; [exact lossy_floats|].
  split; [exact float_shape|]. split; [cbn; lia|]. split; [reflexivity|]. split; [repeat split; reflexivity|]. split; [reflexivity|].
  split; [exact E|]. split; [exact T|]. split; [exact V|]. destruct (verified r); [discriminate|reflexivity].
Qed.

(** The facts used in the examples. *)
Definition even_subject : json := JObj [(B "rate", JNum (Float 8))].
Lemma even_shape : vc_shape in_range (vc_set_credential demo_vc even_subject).
Proof. repeat split; try (repeat constructor); vm_compute; auto. Qed.
Lemma lossy_five : json_reads lossy (PosInt 5) (PosInt 5). Proof. apply int_reads; reflexivity. Qed.
Lemma float_read : renumbered (json_reads lossy) (vc_subject float_vc) (JObj [(B "rate", JNum (Float 6)); (B "sum", JNum (PosInt 5))]).
Proof.
  apply RObj. constructor; [split; [reflexivity|]|constructor; [split; [reflexivity|]|constructor]]; apply RNum; [exact (lossy_reads 7)|exact lossy_five].
Qed.
Lemma even_read : renumbered (json_reads lossy) even_subject even_subject.
Proof. apply RObj. constructor; [split; [reflexivity|]|constructor]. apply RNum. exact (lossy_reads 8). Qed.
Lemma even_rereads : vc_rereads lossy (vc_set_credential demo_vc even_subject).
Proof. vm_compute. auto. Qed.
Lemma float_lost : ~ vc_rereads lossy float_vc.
Proof. vm_compute. intros [H _]. discriminate H. Qed.
Lemma float_changed : ~ same_vc lossy float_vc (with_subject float_vc (JObj [(B "rate", JNum (Float 6)); (B "sum", JNum (PosInt 5))])).
Proof.
  intros (_ & _ & H & _). apply same_obj in H as [_ H]. inversion_clear H as [|? ? (v2 & [I|[I|[]]] & H2) _].
  - apply (f_equal snd) in I. cbn in I. rewrite <- I in H2. revert H2. vm_compute. discriminate.
  - apply (f_equal fst) in I. revert I. vm_compute. discriminate.
Qed.
