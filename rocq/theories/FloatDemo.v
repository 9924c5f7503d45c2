(** Concrete dependencies with IEEE 754 numbers, and documents with floats. *)
From Verif Require Import Base BaseFacts Codec Json JsonParse Deps Types Proof Vc Suite JsonFacts JsonParseFacts ParseFacts JsonSpec MiscSpec SuiteSpec ReadFacts FlowSpec Grammar CanonSpec CanonFacts CanonDemo ConnSpec Demo DemoFacts PropsVc Float FloatFacts FloatText FloatSpec FloatLaws.
Set Implicit Arguments.
Local Open Scope N_scope.

(** Canonical integers written exactly, or as floats. *)
Definition exact_number (n : number) : bytes := match n with Float b => es_text b | _ => serde_number ryu_text n end.
Definition ieee_ints : deps := with_numbers rfc ryu_text read_float exact_number.
Definition ieee_floats_only : deps := with_numbers rfc ryu_text read_float (fun n => es_text (float_of n)).
Theorem ints_ieee : ieee ieee_ints.
Proof. split; [|reflexivity]. split; [reflexivity|]. split; [reflexivity|]. intros [k|k|b]; [right|right|left]; reflexivity. Qed.
Theorem floats_ieee : ieee ieee_floats_only.
Proof. split; [|reflexivity]. split; [reflexivity|]. split; [reflexivity|]. intros n. left. reflexivity. Qed.
Theorem ints_correct : ed_correct ieee_ints. Proof. exact demo_ed_correct. Qed.
Theorem floats_correct : ed_correct ieee_floats_only. Proof. exact demo_ed_correct. Qed.
Theorem ints_sha256 : sha256_size ieee_ints. Proof. exact demo_sha256_size. Qed.

(** 0.1, the least positive float, and minus zero. *)
Definition tenth : N := 4591870180066957722.
Definition minus_zero : N := 9223372036854775808.
Definition decimal_vc : vc :=
  vc_set_credential demo_vc (JObj [(B "rate", JNum (Float tenth)); (B "tiny", JArr [JNum (Float 1); JNum (Float minus_zero)])]).
Lemma decimal_shape : vc_shape real decimal_vc.
Proof. repeat split; try (repeat constructor); vm_compute; auto. Qed.
Definition ints_key : ed_pair ieee_ints := B "key one".
Definition decimal_signed : result vc proof_error := add_proof ieee_ints (vc_proofable ieee_ints) ints_key decimal_vc demo_proof.
Definition decimal_text : bytes :=
  match decimal_signed with Ok v => match vc_to_json ieee_ints v with Ok (JSONValue t) => t | Err _ => [] end | Err _ => [] end.
(** The credential signed with the float 2^63, and another number put in its place in the signed text. *)
Definition two_63 : N := 4890909195324358656.
Definition amount_vc (n : number) : vc := vc_set_credential demo_vc (JObj [(B "amount", JNum n)]).
Definition swapped_text (D : deps) (kp : ed_pair D) : bytes :=
  match add_proof D (vc_proofable D) kp (amount_vc (Float two_63)) demo_proof with
  | Ok v => match vc_to_json D (with_subject v (vc_subject (amount_vc (PosInt 9223372036854776000)))) with Ok (JSONValue t) => t | Err _ => [] end
  | Err _ => []
  end.
Definition accepts (D : deps) (pk : ed_pub D) (t : bytes) (e : purpose) : option vc :=
  match verify_proof D (vc_proofable D) pk t e with Ok r => if verified r then document r else None | Err _ => None end.
Lemma swapped_answer : accepts ieee_ints (ed_pub_key ieee_ints ints_key) (swapped_text ieee_ints ints_key) AssertionMethod = Some (amount_vc (PosInt 9223372036854776000)).
Proof. vm_compute. reflexivity. Qed.
Lemma swapped_answer_floats : accepts ieee_floats_only (ed_pub_key ieee_floats_only (B "key one")) (swapped_text ieee_floats_only (B "key one")) AssertionMethod = Some (amount_vc (PosInt 9223372036854776000)).
Proof. vm_compute. reflexivity. Qed.
Lemma amount_shape n : real n -> vc_shape real (amount_vc n).
Proof. intros H. destruct decimal_shape as (H1 & H2 & _ & H4). split; [exact H1|]. split; [exact H2|]. split; [|exact H4]. apply val_ok_obj. split; [repeat constructor|]. constructor; [|constructor]. split; [reflexivity|exact H]. Qed.
(** Both have the canonical text 9223372036854776000. *)
Lemma two_63_text : es_text two_63 = B "9223372036854776000" /\ es_text (nearest_int 9223372036854776000) = B "9223372036854776000" /\
  dec 9223372036854776000 = B "9223372036854776000".
Proof. vm_compute. auto. Qed.
Theorem two_63_equal D : ieee D -> equal_canonical D (Float two_63) (PosInt 9223372036854776000).
Proof.
  intros [(_ & W2 & W3) _]. destruct two_63_text as (T1 & T2 & T3). unfold equal_canonical. rewrite W2, T1.
  destruct (W3 (PosInt 9223372036854776000)) as [E|E]; rewrite E; symmetry; [exact T2|exact T3].
Qed.
Theorem two_63_differ D : ieee D ->
  real (Float two_63) /\ real (PosInt 9223372036854776000) /\ units (magnitude two_63) = 9223372036854775808 * 2 ^ 1074 /\
  equal_canonical D (Float two_63) (PosInt 9223372036854776000).
Proof.
  intros W. split; [split; [exact I|vm_compute; reflexivity]|]. split; [split; [vm_compute; reflexivity|exact I]|]. split; [vm_compute; reflexivity|]. exact (two_63_equal W).
Qed.
Lemma accepts_ok D pk t e w : accepts D pk t e = Some w -> verify_proof D (vc_proofable D) pk t e = Ok {| verified := true; document := Some w |}.
Proof. unfold accepts. destruct (verify_proof D (vc_proofable D) pk t e) as [[[|] d]|]; cbn [verified document]; try discriminate. intros ->. reflexivity. Qed.
Theorem swapped_accepted : exists D kp v o v' w t, ieee D /\ ed_correct D /\ vc_shape real v /\ vc_proof v = None /\ p_value o = [] /\
  add_proof D (vc_proofable D) kp v o = Ok v' /\ vc_to_json D (with_subject v' (vc_subject w)) = Ok (JSONValue t) /\
  verify_proof D (vc_proofable D) (ed_pub_key D kp) t (p_purpose o) = Ok {| verified := true; document := Some w |} /\
  vc_subject v = JObj [(B "amount", JNum (Float two_63))] /\ vc_subject w = JObj [(B "amount", JNum (PosInt 9223372036854776000))].
Proof.
  assert (A := accepts_ok _ _ _ _ swapped_answer).
  exists ieee_ints, ints_key, (amount_vc (Float two_63)), demo_proof. unfold swapped_text in A.
  destruct (add_proof ieee_ints (vc_proofable ieee_ints) ints_key (amount_vc (Float two_63)) demo_proof) as [v'|] eqn:S; [|discriminate (A : Err _ = Ok _)].
  exists v', (amount_vc (PosInt 9223372036854776000)).
  destruct (vc_to_json ieee_ints (with_subject v' (vc_subject (amount_vc (PosInt 9223372036854776000))))) as [[t]|] eqn:T; [|discriminate (A : Err _ = Ok _)].
  exists t. split; [exact ints_ieee|]. split; [exact ints_correct|]. split; [exact (@amount_shape (Float two_63) (conj I eq_refl))|]. split; [reflexivity|]. split; [reflexivity|].
  split; [reflexivity|]. split; [reflexivity|]. split; [exact A|]. split; reflexivity.
Qed.
