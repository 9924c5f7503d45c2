(** Texts of DID documents, parameters and user connections (C51). *)
From Verif Require Import Base BaseFacts Codec CodecFacts Json JsonParse Deps Types Did Doc UserConnection
  JsonFacts JsonParseFacts SchemaFacts JsonSpec ShapeFacts Grammar GrammarFacts TextSpec TextFacts FlowSpec.
Set Implicit Arguments.
Unset Strict Implicit.
Local Open Scope nat_scope.

Ltac find_in := first [left; reflexivity | right; find_in].
Ltac range O vv dec := let a := fresh "a" in let E := fresh "E" in
  edestruct in_range with (x := vv) as (a & E); [exact O | unfold specs; cbn [combine map fst snd In]; find_in | exact dec | first [discriminate | apply opt_none] |]; subst vv.

Section Decodes.
  Variable f64 : bytes -> option N.
  Notation decodes := (decodes f64).
  Notation specs := (specs f64).
  Lemma list_nonnull A (P : A -> tree -> Prop) l : ~ is_list P l TNull. Proof. intros (w & x & E & _). discriminate. Qed.

  Lemma primary_specs d p :
    Forall2 spec_eq (specs d [(B "id", false, SString); (B "controller", false, SString);
           (B "type", false, SString); (B "publicKeyMultibase", false, SString)]
      [DStr (pr_id p); DStr (pr_controller p); DStr (pr_type p); DStr (pr_multibase p)])
     [required (B "id") (is_string (pr_id p)); required (B "controller") (is_string (pr_controller p));
             required (B "type") (is_string (pr_type p)); required (B "publicKeyMultibase") (is_string (pr_multibase p))].
  Proof.
    unfold TextFacts.specs. cbn [combine map fst snd].
    repeat (apply Forall2_cons || apply Forall2_nil); (apply spec_required with (dat := DStr); [reflexivity|apply dec_string|exact str_inj]).
  Qed.
  Lemma dec_primary d : decodes primary_schema (S d) primary_data is_primary.
  Proof.
    intros t x. unfold primary_schema. rewrite dec_struct. split.
    - intros (xs & -> & Ln & O). destruct xs as [|x1 [|x2 [|x3 [|x4 [|]]]]]; try discriminate.
      range O x1 (@dec_string f64 d). range O x2 (@dec_string f64 d). range O x3 (@dec_string f64 d). range O x4 (@dec_string f64 d).
      set (v := {| pr_id := a; pr_controller := a0; pr_type := a1; pr_multibase := a2 |}).
      exists v. split; [reflexivity|]. unfold is_primary. eapply is_object_eq; [exact (primary_specs d v)|exact O].
    - intros (p & -> & O). unfold primary_data. eexists. split; [reflexivity|]. split; [reflexivity|].
      eapply is_object_eq; [apply specs_eq_sym; apply primary_specs|exact O].
  Qed.
  Lemma primary_inj a b : primary_data a = primary_data b -> a = b. Proof. apply (inv_inj data_primary_inv). Qed.
  Lemma dec_primaries d : decodes (SVec primary_schema) (S (S d)) (vec_data primary_data) (is_list is_primary).
  Proof. apply dec_list. apply dec_primary. Qed.
  Lemma dec_opt_primaries d : decodes (SOption (SVec primary_schema)) (S (S d)) (opt_data (vec_data primary_data)) (is_maybe (is_list is_primary)).
  Proof. apply dec_maybe; [intros p; apply list_nonnull|apply dec_primaries]. Qed.
  Lemma doc_specs d v :
    Forall2 spec_eq (specs (S (S d)) [(B "@context", false, SVec SString); (B "id", false, SString);
           (B "authentication", true, SOption (SVec primary_schema));
           (B "capabilityInvocation", true, SOption (SVec primary_schema));
           (B "capabilityDelegation", true, SOption (SVec primary_schema));
           (B "assertionMethod", true, SOption (SVec primary_schema))]
      [vec_data DStr (doc_context v); DStr (doc_id v);
           opt_data (vec_data primary_data) (doc_authentication v);
           opt_data (vec_data primary_data) (doc_cap_invoke v);
           opt_data (vec_data primary_data) (doc_cap_delegate v);
           opt_data (vec_data primary_data) (doc_assertion v)])
     [required (B "@context") (is_list is_string (doc_context v)); required (B "id") (is_string (doc_id v));
             optional (B "authentication") (is_list is_primary) (doc_authentication v);
             optional (B "capabilityInvocation") (is_list is_primary) (doc_cap_invoke v);
             optional (B "capabilityDelegation") (is_list is_primary) (doc_cap_delegate v);
             optional (B "assertionMethod") (is_list is_primary) (doc_assertion v)].
  Proof.
    unfold TextFacts.specs. cbn [combine map fst snd].
    repeat (apply Forall2_cons || apply Forall2_nil);
      first [apply spec_required with (dat := DStr); [reflexivity|apply dec_string|exact str_inj]
            |apply spec_required with (dat := vec_data DStr); [reflexivity|apply dec_strings|apply vec_inj; exact str_inj]
            |apply spec_optional with (dat := vec_data primary_data); [apply dec_opt_primaries|apply vec_inj; exact primary_inj]].
  Qed.
  Lemma dec_doc d : decodes doc_schema (S (S (S d))) doc_data is_doc.
  Proof.
    intros t x. unfold doc_schema. rewrite dec_struct. split.
    - intros (xs & -> & Ln & O). destruct xs as [|x1 [|x2 [|x3 [|x4 [|x5 [|x6 [|]]]]]]]; try discriminate.
      range O x1 (@dec_strings f64 (S d)). range O x2 (@dec_string f64 (S (S d))).
      range O x3 (@dec_opt_primaries d). range O x4 (@dec_opt_primaries d). range O x5 (@dec_opt_primaries d). range O x6 (@dec_opt_primaries d).
      set (v := {| doc_context := a; doc_id := a0; doc_authentication := a1; doc_cap_invoke := a2; doc_cap_delegate := a3; doc_assertion := a4 |}).
      exists v. split; [reflexivity|]. unfold is_doc. eapply is_object_eq; [exact (doc_specs d v)|exact O].
    - intros (p & -> & O). unfold doc_data. eexists. split; [reflexivity|]. split; [reflexivity|].
      eapply is_object_eq; [apply specs_eq_sym; apply doc_specs|exact O].
  Qed.

  Lemma params_specs d v :
    Forall2 spec_eq (specs d [(B "address", false, SOption SString); (B "hl", false, SOption SString)]
      [opt_data DStr (address v); opt_data DStr (hl v)])
     [optional (B "address") is_string (address v); optional (B "hl") is_string (hl v)].
  Proof.
    unfold TextFacts.specs. cbn [combine map fst snd].
    repeat (apply Forall2_cons || apply Forall2_nil); (apply spec_optional with (dat := DStr); [apply dec_opt_string|exact str_inj]).
  Qed.
  Lemma dec_params d : decodes params_schema (S d) params_data is_params.
  Proof.
    intros t x. unfold params_schema. rewrite dec_struct. split.
    - intros (xs & -> & Ln & O). destruct xs as [|x1 [|x2 [|]]]; try discriminate.
      range O x1 (@dec_opt_string f64 d). range O x2 (@dec_opt_string f64 d).
      set (v := {| address := a; hl := a0 |}).
      exists v. split; [reflexivity|]. unfold is_params. eapply is_object_eq; [exact (params_specs d v)|exact O].
    - intros (p & -> & O). unfold params_data. eexists. split; [reflexivity|]. split; [reflexivity|].
      eapply is_object_eq; [apply specs_eq_sym; apply params_specs|exact O].
  Qed.

  (** User connections: three nested objects. *)
  Definition props_data (p : bytes * bytes) : data := DStruct [DStr (fst p); DStr (snd p)].
  Definition is_props (p : bytes * bytes) : tree -> Prop :=
    is_object [required (B "userAgentAddress") (is_string (fst p)); required (B "userDid") (is_string (snd p))].
  Lemma props_inj a b : props_data a = props_data b -> a = b.
  Proof. destruct a as [a1 a2], b as [b1 b2]. unfold props_data. cbn [fst snd]. intros E. injection E as -> ->. reflexivity. Qed.
  Lemma dec_props d : decodes uc_properties_schema (S d) props_data is_props.
  Proof.
    assert (S2 : forall v, Forall2 spec_eq (specs d [(B "userAgentAddress", false, SString); (B "userDid", false, SString)] [DStr (fst v); DStr (snd v)])
       [required (B "userAgentAddress") (is_string (fst v)); required (B "userDid") (is_string (snd v))]).
    { intros v. unfold TextFacts.specs. cbn [combine map fst snd].
      repeat (apply Forall2_cons || apply Forall2_nil); (apply spec_required with (dat := DStr); [reflexivity|apply dec_string|exact str_inj]). }
    intros t x. unfold uc_properties_schema. rewrite dec_struct. split.
    - intros (xs & -> & Ln & O). destruct xs as [|x1 [|x2 [|]]]; try discriminate.
      range O x1 (@dec_string f64 d). range O x2 (@dec_string f64 d).
      exists (a, a0). split; [reflexivity|]. unfold is_props. eapply is_object_eq; [exact (S2 (a, a0))|exact O].
    - intros (p & -> & O). unfold props_data. eexists. split; [reflexivity|]. split; [reflexivity|].
      eapply is_object_eq; [apply specs_eq_sym; apply S2|exact O].
  Qed.
  (** A struct with one required field. *)
  Lemma dec_wrap A n sc d (dat : A -> data) P : is_option sc = false -> decodes sc d dat P -> (forall a b, dat a = dat b -> a = b) ->
    decodes (SStruct [(n, false, sc)]) (S d) (fun a => DStruct [dat a]) (fun a => is_object [required n (P a)]).
  Proof.
    intros No H I.
    assert (S1 : forall a, Forall2 spec_eq (specs d [(n, false, sc)] [dat a]) [required n (P a)]).
    { intros a. unfold TextFacts.specs. cbn [combine map fst snd]. constructor; [apply spec_required; assumption | constructor]. }
    intros t x. rewrite dec_struct. split.
    - intros (xs & -> & Ln & O). destruct xs as [|x1 [|]]; try discriminate.
      edestruct in_range with (x := x1) as (a & E); [exact O | unfold TextFacts.specs; cbn [combine map fst snd In]; left; reflexivity | exact H | cbn [snd]; congruence |]. subst x1.
      exists a. split; [reflexivity|]. eapply is_object_eq; [exact (S1 a)|exact O].
    - intros (a & -> & O). eexists. split; [reflexivity|]. split; [reflexivity|].
      eapply is_object_eq; [apply specs_eq_sym; apply S1|exact O].
  Qed.
  Definition uc_of (p : bytes * bytes) : uc_credential :=
    {| user_connection_credential := {| uc_ctx := {| user_agent_address := fst p; user_did := snd p |} |} |}.
  Lemma dec_uc d : decodes uc_schema (S (S (S d))) (fun p => uc_data (uc_of p)) (fun p => is_uc (fst p) (snd p)).
  Proof.
    apply (@dec_wrap _ (B "UserConnectionCredential") uc_context_schema (S (S d)) (fun p => DStruct [props_data p]) (fun p => is_object [required (B "@context") (is_props p)])); [reflexivity | | intros a b E; inversion E as [[E1 E2]]; apply props_inj; unfold props_data; rewrite E1, E2; reflexivity].
    apply (@dec_wrap _ (B "@context") uc_properties_schema (S d) props_data is_props); [reflexivity | apply dec_props | exact props_inj].
  Qed.
End Decodes.

(** Reading a whole text. *)
Lemma slice_decodes A f64 sc (dat : A -> data) P s : schema_ok sc = true -> decodes f64 sc 127 dat P ->
  forall x, from_slice f64 sc s = Some x <-> exists a, x = dat a /\ text_of (P a) s.
Proof.
  intros Sc H x. split.
  - intros E. apply from_slice_iff in E; [|exact Sc]. destruct E as (w & t & w' & Bw & T & Bw' & -> & E). apply H in E. destruct E as (a & -> & Pa).
    exists a. split; [reflexivity|]. exists w, t, w'. auto.
  - intros (a & -> & w & t & w' & Bw & T & Bw' & -> & Pa). rewrite (from_slice_tree f64 Sc T Bw Bw'). apply H. eauto.
Qed.
Theorem doc_text_iff D s d : doc_from_slice D s = Some d <-> text_of (is_doc d) s.
Proof.
  unfold doc_from_slice. pose proof (slice_decodes s (proj1 schemas_ok) (@dec_doc (f64_parse D) 124)) as H. split.
  - destruct (from_slice (f64_parse D) doc_schema s) as [x|]; [|discriminate]. intros E. destruct (proj1 (H x) eq_refl) as (d' & -> & T).
    rewrite data_doc_inv in E. injection E as ->. exact T.
  - intros T. rewrite (proj2 (H (doc_data d))) by eauto. apply data_doc_inv.
Qed.
Theorem params_text_iff D s p : params_from_slice D s = Some p <-> text_of (is_params p) s.
Proof.
  unfold params_from_slice. pose proof (slice_decodes s (sc := params_schema) eq_refl (@dec_params (f64_parse D) 126)) as H. split.
  - destruct (from_slice (f64_parse D) params_schema s) as [x|]; [|discriminate]. intros E. destruct (proj1 (H x) eq_refl) as (d' & -> & T).
    rewrite data_params_inv in E. injection E as ->. exact T.
  - intros T. rewrite (proj2 (H (params_data p))) by eauto. apply data_params_inv.
Qed.
Theorem uc_text_iff D s a d : uc_from_slice D s = Some {| user_connection_credential := {| uc_ctx := {| user_agent_address := a; user_did := d |} |} |} <->
  text_of (is_uc a d) s.
Proof.
  unfold uc_from_slice. pose proof (slice_decodes s (sc := uc_schema) eq_refl (@dec_uc (f64_parse D) 124)) as H. split.
  - destruct (from_slice (f64_parse D) uc_schema s) as [x|]; [|discriminate]. intros E. destruct (proj1 (H x) eq_refl) as (p & -> & T).
    rewrite data_uc_inv in E. destruct p as [p1 p2]. unfold uc_of in E. cbn [fst snd] in *. injection E as -> ->. exact T.
  - intros T. rewrite (proj2 (H (uc_data (uc_of (a, d))))) by (exists (a, d); auto). apply data_uc_inv.
Qed.
