(** Credentials, presentations and proofs: validation, JSON, canonical form, builders (C22-C28). *)
From Coq Require Import Permutation.
From Verif Require Import Base BaseFacts Codec CodecFacts Json JsonParse Deps Types Did Keys Doc Identity
  UserConnection Proof Vc JsonFacts JsonParseFacts SchemaFacts Spec JsonSpec VcSpec IdentitySpec DidFacts IdentityFacts ShapeFacts DocFacts.
Set Implicit Arguments.
Unset Strict Implicit.

Lemma jv_inj a b : JSONValue a = JSONValue b -> a = b.
Proof. congruence. Qed.
(** ** C22, C23 *)
Theorem vc_valid_iff v : vc_validate v = Ok tt <-> vc_contexts v <> [] /\ vc_types v <> [] /\ vc_subject v <> JNull.
Proof.
  unfold vc_validate. destruct (vc_contexts v), (vc_types v), (vc_subject v); cbn [is_empty is_null];
    (split; [intros H; try discriminate H; repeat split; discriminate | intros (H1 & H2 & H3); try reflexivity; exfalso; auto]).
Qed.
Theorem vc_invalid v e : vc_validate v = Err e <->
  (vc_contexts v = [] /\ e = GenerateVCError (B "vc_error: empty context")) \/
  (vc_contexts v <> [] /\ vc_types v = [] /\ e = GenerateVCError (B "vc_error: empty types")) \/
  (vc_contexts v <> [] /\ vc_types v <> [] /\ vc_subject v = JNull /\
   e = GenerateVCError (B "vc_error: credential should not be null")).
Proof.
  unfold vc_validate. destruct (vc_contexts v); cbn [is_empty].
  { split; [intros H; apply err_inj in H; auto | intros [[_ ->]|[[H _]|[H _]]]; [reflexivity | congruence..]]. }
  destruct (vc_types v); cbn [is_empty].
  { split; [intros H; apply err_inj in H; right; left; repeat split; auto; discriminate
           | intros [[H _]|[(_ & _ & ->)|(_ & H & _)]]; [discriminate | reflexivity | congruence]]. }
  destruct (vc_subject v); cbn [is_null];
    (split; [intros H; try discriminate H; apply err_inj in H; right; right; repeat split; auto; discriminate
            | intros [[H _]|[(_ & H & _)|(_ & _ & H & ->)]]; try discriminate; reflexivity]).
Qed.
Theorem vp_valid_iff v : vp_validate v = Ok tt <-> vp_contexts v <> [] /\ vp_types v <> [] /\ vp_credentials v <> [].
Proof.
  unfold vp_validate. destruct (vp_contexts v), (vp_types v), (vp_credentials v); cbn [is_empty];
    (split; [intros H; try discriminate H; repeat split; discriminate | intros (H1 & H2 & H3); try reflexivity; exfalso; auto]).
Qed.
Theorem vp_invalid v e : vp_validate v = Err e <->
  (vp_contexts v = [] /\ e = GenerateJSONError (B "vp: empty context")) \/
  (vp_contexts v <> [] /\ vp_types v = [] /\ e = GenerateJSONError (B "vp: empty types")) \/
  (vp_contexts v <> [] /\ vp_types v <> [] /\ vp_credentials v = [] /\ e = GenerateJSONError (B "vp: empty credentials")).
Proof.
  unfold vp_validate. destruct (vp_contexts v); cbn [is_empty].
  { split; [intros H; apply err_inj in H; auto | intros [[_ ->]|[[H _]|[H _]]]; [reflexivity | congruence..]]. }
  destruct (vp_types v); cbn [is_empty].
  { split; [intros H; apply err_inj in H; right; left; repeat split; auto; discriminate
           | intros [[H _]|[(_ & _ & ->)|(_ & H & _)]]; [discriminate | reflexivity | congruence]]. }
  destruct (vp_credentials v); cbn [is_empty];
    (split; [intros H; try discriminate H; apply err_inj in H; right; right; repeat split; auto; discriminate
            | intros [[H _]|[(_ & H & _)|(_ & _ & H & ->)]]; try discriminate; reflexivity]).
Qed.

Section Text.
  Variable D : deps.
  Notation text := (json_text (serde_number (f64_text D))).
  Notation canon := (jcs_text (jcs_leb D) (jcs_number D)).

  Theorem vc_json_gate v : vc_to_json D v =
    match vc_validate v with Ok _ => Ok (JSONValue (text (vc_json v))) | Err e => Err e end.
  Proof. unfold vc_to_json, to_json_text, jv_from. rewrite ser_vc. reflexivity. Qed.
  Theorem vc_jcs_gate v : vc_to_jcs D v =
    match vc_validate v with Ok _ => Ok (canon (vc_json v)) | Err e => Err e end.
  Proof. unfold vc_to_jcs, to_jcs_text. rewrite ser_vc. reflexivity. Qed.
  Theorem vp_json_gate v : vp_to_json D v =
    match vp_validate v with Ok _ => Ok (JSONValue (text (vp_json v))) | Err e => Err e end.
  Proof. unfold vp_to_json, to_json_text, jv_from. rewrite ser_vp. reflexivity. Qed.
  Theorem vp_jcs_gate v : vp_to_jcs D v =
    match vp_validate v with Ok _ => Ok (canon (vp_json v)) | Err e => Err e end.
  Proof. unfold vp_to_jcs, to_jcs_text. rewrite ser_vp. reflexivity. Qed.
  Theorem proof_jcs_text p : proof_to_jcs D p = Ok (canon (proof_json p)).
  Proof. unfold proof_to_jcs, to_jcs_text. rewrite ser_proof. reflexivity. Qed.

  Lemma gate {X Y} (r : result unit did_error) (a : X) (b : Y) (mk : X -> Y) (complete : Prop) (missing : did_error -> Prop) :
    (r = Ok tt <-> complete) -> (forall e, r = Err e <-> missing e) -> mk a = b ->
    forall o, o = match r with Ok _ => Ok b | Err e => Err e end ->
    (forall t, o = Ok t <-> complete /\ t = mk a) /\ (forall e, o = Err e <-> missing e).
  Proof.
    intros H1 H2 <- o ->. destruct r as [[]|e0].
    - split; intros; [|rewrite <- H2; split; discriminate].
      rewrite <- H1. split; [intros E; apply ok_inj in E; auto | intros [_ ->]; reflexivity].
    - split; intros; [rewrite <- H1; split; [discriminate | intros [? _]; discriminate]|].
      rewrite <- H2. split; intros E; apply err_inj in E; subst; reflexivity.
  Qed.
  Theorem vc_to_json_spec v : (forall t, vc_to_json D v = Ok t <-> vc_complete v /\ t = JSONValue (text (vc_json v))) /\
    (forall e, vc_to_json D v = Err e <-> vc_missing v e).
  Proof. exact (@gate _ _ (vc_validate v) (text (vc_json v)) _ JSONValue _ _ (vc_valid_iff v) (vc_invalid v) eq_refl _ (vc_json_gate v)). Qed.
  Theorem vc_to_jcs_spec v : (forall t, vc_to_jcs D v = Ok t <-> vc_complete v /\ t = canon (vc_json v)) /\
    (forall e, vc_to_jcs D v = Err e <-> vc_missing v e).
  Proof. exact (@gate _ _ (vc_validate v) (canon (vc_json v)) _ (fun x => x) _ _ (vc_valid_iff v) (vc_invalid v) eq_refl _ (vc_jcs_gate v)). Qed.
  Theorem vp_to_json_spec v : (forall t, vp_to_json D v = Ok t <-> vp_complete v /\ t = JSONValue (text (vp_json v))) /\
    (forall e, vp_to_json D v = Err e <-> vp_missing v e).
  Proof. exact (@gate _ _ (vp_validate v) (text (vp_json v)) _ JSONValue _ _ (vp_valid_iff v) (vp_invalid v) eq_refl _ (vp_json_gate v)). Qed.
  Theorem vp_to_jcs_spec v : (forall t, vp_to_jcs D v = Ok t <-> vp_complete v /\ t = canon (vp_json v)) /\
    (forall e, vp_to_jcs D v = Err e <-> vp_missing v e).
  Proof. exact (@gate _ _ (vp_validate v) (canon (vp_json v)) _ (fun x => x) _ _ (vp_valid_iff v) (vp_invalid v) eq_refl _ (vp_jcs_gate v)). Qed.
  Theorem vp_credentials_unchecked v c : vp_contexts v <> [] -> vp_types v <> [] -> exists t, vp_to_json D (vp_add_credential v c) = Ok t.
  Proof.
    intros H1 H2. eexists. apply (proj1 (vp_to_json_spec _)). split; [|reflexivity]. repeat split; auto.
    cbn [vp_credentials vp_add_credential]. destruct (vp_credentials v); discriminate.
  Qed.

  (** ** C24 *)
  Theorem vc_reads v : vc_wf D v ->
    vc_parse_json_bytes D (text (vc_json v)) =
    if (depth (vc_subject v) <=? 126)%nat then Ok v else Err (ProofGenerationError (json_error D vc_schema (text (vc_json v)))).
  Proof.
    intros W. unfold vc_parse_json_bytes. rewrite <- ser_vc.
    rewrite (@from_slice_ser _ _ _ _ (proj1 (proj2 (proj2 schemas_ok))) (ok_vc W)). rewrite ser_vc, depth_vc.
    destruct (Nat.leb_spec (depth (vc_subject v)) 126).
    - replace (_ <=? 127)%nat with true by (symmetry; apply Nat.leb_le; lia). rewrite data_vc_inv. reflexivity.
    - replace (_ <=? 127)%nat with false by (symmetry; apply Nat.leb_gt; lia). reflexivity.
  Qed.
  Theorem vp_reads v : vp_wf D v ->
    (Forall (fun c => (depth (vc_subject c) <= 124)%nat) (vp_credentials v) ->
     vp_parse_json_bytes D (text (vp_json v)) = Ok v) /\
    (Exists (fun c => (124 < depth (vc_subject c))%nat) (vp_credentials v) ->
     vp_parse_json_bytes D (text (vp_json v)) = Err (ProofGenerationError (json_error D vp_schema (text (vp_json v))))).
  Proof.
    intros W. unfold vp_parse_json_bytes. rewrite <- ser_vp.
    rewrite (@from_slice_ser _ _ _ _ (proj1 (proj2 (proj2 (proj2 schemas_ok)))) (ok_vp W)). rewrite ser_vp. split; intros H.
    - apply depth_vp_iff in H. replace (_ <=? 127)%nat with true by (symmetry; apply Nat.leb_le; exact H). rewrite data_vp_inv. reflexivity.
    - replace (_ <=? 127)%nat with false; [reflexivity|]. symmetry. apply Nat.leb_gt.
      apply Exists_exists in H as (c & Hc & Hd). pose proof (depth_vp_ge Hc). lia.
  Qed.
  Theorem vc_round_trip v t : vc_wf D v -> vc_to_json D v = Ok (JSONValue t) ->
    ((depth (vc_subject v) <= 126)%nat -> vc_parse_json_bytes D t = Ok v) /\
    ((126 < depth (vc_subject v))%nat -> exists e, vc_parse_json_bytes D t = Err e).
  Proof.
    intros W H. apply (proj1 (vc_to_json_spec _)) in H as [_ H]. apply jv_inj in H. subst t. rewrite vc_reads by assumption. split; intros Hd.
    - apply Nat.leb_le in Hd. rewrite Hd. reflexivity.
    - apply Nat.leb_gt in Hd. rewrite Hd. eauto.
  Qed.
  Theorem vp_round_trip v t : vp_wf D v -> vp_to_json D v = Ok (JSONValue t) ->
    (Forall (fun c => (depth (vc_subject c) <= 124)%nat) (vp_credentials v) -> vp_parse_json_bytes D t = Ok v) /\
    (Exists (fun c => (124 < depth (vc_subject c))%nat) (vp_credentials v) -> exists e, vp_parse_json_bytes D t = Err e).
  Proof.
    intros W H. apply (proj1 (vp_to_json_spec _)) in H as [_ H]. apply jv_inj in H. subst t. destruct (vp_reads W) as [H1 H2]. eauto.
  Qed.
End Text.

(** ** C25 *)
Theorem vc_builder id issuer cs : vc_run (vc_new id issuer) cs =
  {| vc_contexts := added vc_ctx cs; vc_types := added vc_typ cs; vc_subject := last_set vc_sub JNull cs;
     vc_proof := last_set vc_prf None cs; vc_id := id; vc_issuer := issuer |}.
Proof.
  induction cs as [|c cs IH] using rev_ind; [reflexivity|].
  unfold vc_run in *. rewrite fold_left_app. cbn [fold_left]. rewrite IH, !added_app, !last_set_app.
  destruct c; cbn [vc_step vc_ctx vc_typ vc_sub vc_prf];
    unfold vc_add_context, vc_add_type, vc_set_credential, vc_set_proof, vc_remove_proof;
    cbn [vc_contexts vc_types vc_subject vc_proof vc_id vc_issuer]; rewrite ?app_nil_r; reflexivity.
Qed.
Theorem vc_builder_from v cs : vc_run v cs =
  {| vc_contexts := vc_contexts v ++ added vc_ctx cs; vc_types := vc_types v ++ added vc_typ cs;
     vc_subject := last_set vc_sub (vc_subject v) cs; vc_proof := last_set vc_prf (vc_proof v) cs;
     vc_id := vc_id v; vc_issuer := vc_issuer v |}.
Proof.
  induction cs as [|c cs IH] using rev_ind; [destruct v; cbn; rewrite !app_nil_r; reflexivity|].
  unfold vc_run in *. rewrite fold_left_app. cbn [fold_left]. rewrite IH, !added_app, !last_set_app.
  destruct c; cbn [vc_step vc_ctx vc_typ vc_sub vc_prf];
    unfold vc_add_context, vc_add_type, vc_set_credential, vc_set_proof, vc_remove_proof;
    cbn [vc_contexts vc_types vc_subject vc_proof vc_id vc_issuer]; rewrite ?app_nil_r, ?app_assoc; reflexivity.
Qed.
Theorem vp_builder_from v cs : vp_run v cs =
  {| vp_contexts := vp_contexts v ++ added vp_ctx cs; vp_types := vp_types v ++ added vp_typ cs;
     vp_credentials := vp_credentials v ++ added vp_crd cs; vp_proof := last_set vp_prf (vp_proof v) cs;
     vp_holder := last_set vp_hld (vp_holder v) cs |}.
Proof.
  induction cs as [|c cs IH] using rev_ind; [destruct v; cbn; rewrite !app_nil_r; reflexivity|].
  unfold vp_run in *. rewrite fold_left_app. cbn [fold_left]. rewrite IH, !added_app, !last_set_app.
  destruct c; cbn [vp_step vp_ctx vp_typ vp_crd vp_prf vp_hld];
    unfold vp_add_context, vp_add_type, vp_add_credential, vp_add_proof, vp_set_holder, vp_remove_proof;
    cbn [vp_contexts vp_types vp_credentials vp_proof vp_holder]; rewrite ?app_nil_r, ?app_assoc; reflexivity.
Qed.
Theorem vp_builder cs : vp_run vp_new cs =
  {| vp_contexts := added vp_ctx cs; vp_types := added vp_typ cs; vp_credentials := added vp_crd cs;
     vp_proof := last_set vp_prf None cs; vp_holder := last_set vp_hld None cs |}.
Proof. rewrite vp_builder_from. reflexivity. Qed.
Theorem proof_builder_from p cs : proof_run p cs =
  {| p_id := p_id p; p_typ := last_set pf_typ (p_typ p) cs; p_purpose := last_set pf_pur (p_purpose p) cs;
     p_value := last_set pf_val (p_value p) cs; p_method := last_set pf_met (p_method p) cs;
     p_created := last_set pf_cre (p_created p) cs; p_expires := last_set pf_exp (p_expires p) cs;
     p_cryptosuite := last_set pf_sui (p_cryptosuite p) cs |}.
Proof.
  induction cs as [|c cs IH] using rev_ind; [destruct p; reflexivity|].
  unfold proof_run in *. rewrite fold_left_app. cbn [fold_left]. rewrite IH, !last_set_app.
  destruct c; reflexivity.
Qed.
Theorem proof_builder id cs : proof_run (proof_new id) cs =
  {| p_id := id; p_typ := last_set pf_typ (B "DataIntegrityProof") cs; p_purpose := last_set pf_pur Unknown cs;
     p_value := last_set pf_val [] cs; p_method := last_set pf_met [] cs;
     p_created := last_set pf_cre None cs; p_expires := last_set pf_exp None cs;
     p_cryptosuite := last_set pf_sui (Some (B "eddsa-jcs-2022")) cs |}.
Proof. rewrite proof_builder_from. reflexivity. Qed.

(** ** C28 *)
Theorem purpose_from_text p : purpose_from (purpose_text p) = p. Proof. destruct p; reflexivity. Qed.
Theorem purpose_from_spec s p : purpose_from s = p <-> named_purpose s p.
Proof.
  unfold named_purpose, purpose_from. split.
  - intros <-.
    destruct (bytes_eqb s (B "assertionMethod")) eqn:E1; [left; symmetry; apply bytes_eqb_eq; exact E1|].
    destruct (bytes_eqb s (B "authentication")) eqn:E2; [left; symmetry; apply bytes_eqb_eq; exact E2|].
    destruct (bytes_eqb s (B "keyAgreement")) eqn:E3; [left; symmetry; apply bytes_eqb_eq; exact E3|].
    destruct (bytes_eqb s (B "capabilityDelegation")) eqn:E4; [left; symmetry; apply bytes_eqb_eq; exact E4|].
    destruct (bytes_eqb s (B "capabilityInvocation")) eqn:E5; [left; symmetry; apply bytes_eqb_eq; exact E5|].
    right. split; [reflexivity|]. intros q Hq <-. destruct q; first [discriminate E1 | discriminate E2 | discriminate E3 | discriminate E4 | discriminate E5 | congruence].
  - intros [<-|[-> H]]; [destruct p; reflexivity|].
    assert (G : forall q, q <> Unknown -> bytes_eqb s (purpose_name q) = false).
    { intros q Hq. destruct (bytes_eqb s (purpose_name q)) eqn:E; auto. apply bytes_eqb_eq in E. symmetry in E. destruct (H q Hq E). }
    assert (G1 := G AssertionMethod). assert (G2 := G Authentication). assert (G3 := G KeyAgreement).
    assert (G4 := G CapabilityDelegation). assert (G5 := G CapabilityInvocation). cbn [purpose_name] in *.
    rewrite G1, G2, G3, G4, G5 by discriminate. reflexivity.
Qed.
Theorem purpose_spellings p : purpose_text p = purpose_name p /\ purpose_serde p = purpose_name p.
Proof. destruct p; split; reflexivity. Qed.

(** ** C26, C27 *)
Section Canon.
  Variable D : deps.
  Notation num := (jcs_number D).
  Notation canon := (jcs_text (jcs_leb D) num).

  Lemma same_refl j : same num j j.
  Proof.
    induction j using json_ind'; cbn; auto.
    - apply same_arr. induction H; constructor; auto.
    - apply same_obj. split; auto. apply Forall_forall. intros [k v] Hin. rewrite Forall_forall in H.
      exists v. split; auto. apply (H _ Hin).
  Qed.
  Lemma same_pointwise m1 m2 : Forall2 (fun a b => fst a = fst b /\ same num (snd a) (snd b)) m1 m2 -> same num (JObj m1) (JObj m2).
  Proof.
    intros F. apply same_obj. split; [induction F; cbn; auto|]. apply Forall_forall. intros [k v] Hin.
    induction F as [|[k1 v1] [k2 v2] m1 m2 [Hk Hv] F IH]; [destruct Hin|]. cbn in *. subst.
    destruct Hin as [[= -> ->]|Hin]; [exists v2; auto|]. destruct (IH Hin) as (v3 & ? & ?). exists v3. auto.
  Qed.
  Fixpoint lookup (k : bytes) (m : list (bytes * json)) : option json :=
    match m with [] => None | (k', v) :: m' => if bytes_eqb k' k then Some v else lookup k m' end.
  Lemma lookup_in k v m : lookup k m = Some v -> In (k, v) m.
  Proof. induction m as [|[k' v'] m IH]; cbn; [discriminate|]. destruct (bytes_eqb k' k) eqn:E; auto. apply bytes_eqb_eq in E. intros [= <-]. subst. auto. Qed.
  Lemma in_lookup k v m : NoDup (map fst m) -> In (k, v) m -> lookup k m = Some v.
  Proof.
    induction m as [|[k' v'] m IH]; cbn; [tauto|]. intros H1 H2. inversion H1; subst. destruct H2 as [[= -> ->]|H2].
    - rewrite bytes_eqb_refl. reflexivity.
    - destruct (bytes_eqb k' k) eqn:E; auto. apply bytes_eqb_eq in E. subst. destruct H3. change k with (fst (k, v)). apply in_map. exact H2.
  Qed.
  Lemma same_lookup m1 m2 k v1 : NoDup (map fst m2) -> same num (JObj m1) (JObj m2) -> lookup k m1 = Some v1 ->
    exists v2, lookup k m2 = Some v2 /\ same num v1 v2.
  Proof.
    intros Hn H L. apply same_obj in H as [_ H]. apply lookup_in in L. rewrite Forall_forall in H.
    destruct (H _ L) as (v2 & Hin & Hs). exists v2. split; auto. apply in_lookup; auto.
  Qed.
  Lemma same_strings l1 l2 : same num (strings l1) (strings l2) <-> l1 = l2.
  Proof.
    unfold strings. rewrite same_arr. split; [|intros ->; induction l2; cbn; constructor; cbn; auto].
    revert l2. induction l1; intros [|x l2] H; inversion H; subst; auto. f_equal; auto.
  Qed.

  Lemma proof_json_names p : NoDup (map fst (match proof_json p with JObj m => m | _ => [] end)).
  Proof.
    destruct p as [i t pu v m [c|] [e|] [s|]]; cbn [proof_json app opt_member option_map p_id p_typ p_purpose p_value p_method p_created p_expires p_cryptosuite map fst];
      repeat (constructor; [cbn; intuition discriminate|]); constructor.
  Qed.
  Lemma vc_json_names v : NoDup (map fst (match vc_json v with JObj m => m | _ => [] end)).
  Proof.
    destruct v as [c t j [p|] i s]; cbn [vc_json app opt_member option_map vc_contexts vc_types vc_subject vc_proof vc_id vc_issuer map fst];
      repeat (constructor; [cbn; intuition discriminate|]); constructor.
  Qed.
  Lemma vp_json_names v : NoDup (map fst (match vp_json v with JObj m => m | _ => [] end)).
  Proof.
    destruct v as [c t j [p|] [h|]]; cbn [vp_json app opt_member option_map vp_contexts vp_types vp_credentials vp_proof vp_holder map fst];
      repeat (constructor; [cbn; intuition discriminate|]); constructor.
  Qed.
  Lemma purpose_name_inj p q : purpose_name p = purpose_name q -> p = q.
  Proof. destruct p, q; reflexivity || discriminate. Qed.

  (** The member [k] of an object. *)
  Definition member_of (k : string) (j : json) : option json := match j with JObj m => lookup (B k) m | _ => None end.
  Definition size (j : json) : nat := match j with JObj m => length m | _ => O end.
  Lemma same_member a b m1 m2 k v1 : a = JObj m1 -> b = JObj m2 -> NoDup (map fst m2) -> same num a b -> member_of k a = Some v1 ->
    exists v2, member_of k b = Some v2 /\ same num v1 v2.
  Proof. intros -> ->. cbn [member_of]. intros Hn Hs Hl. eapply same_lookup; eassumption. Qed.
  Lemma same_size m1 m2 : same num (JObj m1) (JObj m2) -> length m1 = length m2.
  Proof. intros H. apply same_obj in H. tauto. Qed.
  Lemma opt_str_same o1 o2 : (forall s, o1 = Some s -> o2 = Some s) -> (o1 = None -> o2 = None) -> o1 = o2 :> option bytes.
  Proof. destruct o1; intros H1 H2; [symmetry; auto | symmetry; auto]. Qed.

  Lemma pf_lookup p :
    member_of "id" (proof_json p) = Some (JStr (p_id p)) /\ member_of "type" (proof_json p) = Some (JStr (p_typ p)) /\
    member_of "proofPurpose" (proof_json p) = Some (JStr (purpose_name (p_purpose p))) /\
    member_of "proofValue" (proof_json p) = Some (JStr (p_value p)) /\
    member_of "verificationMethod" (proof_json p) = Some (JStr (p_method p)) /\
    member_of "created" (proof_json p) = option_map JStr (p_created p) /\
    member_of "expires" (proof_json p) = option_map JStr (p_expires p) /\
    member_of "cryptosuite" (proof_json p) = option_map JStr (p_cryptosuite p).
  Proof. destruct p as [i t pu v m [c|] [e|] [s|]]; repeat split. Qed.
  Lemma vc_lookup v :
    member_of "@context" (vc_json v) = Some (strings (vc_contexts v)) /\ member_of "type" (vc_json v) = Some (strings (vc_types v)) /\
    member_of "credentialSubject" (vc_json v) = Some (vc_subject v) /\ member_of "proof" (vc_json v) = option_map proof_json (vc_proof v) /\
    member_of "id" (vc_json v) = Some (JStr (vc_id v)) /\ member_of "issuer" (vc_json v) = Some (JStr (vc_issuer v)).
  Proof. destruct v as [c t j [p|] i s]; repeat split. Qed.
  Lemma vp_lookup v :
    member_of "@context" (vp_json v) = Some (strings (vp_contexts v)) /\ member_of "type" (vp_json v) = Some (strings (vp_types v)) /\
    member_of "verifiableCredential" (vp_json v) = Some (JArr (map vc_json (vp_credentials v))) /\
    member_of "proof" (vp_json v) = option_map proof_json (vp_proof v) /\
    member_of "holder" (vp_json v) = option_map JStr (vp_holder v).
  Proof. destruct v as [c t j [p|] [h|]]; repeat split. Qed.

  Lemma same_proof_json p q : same num (proof_json p) (proof_json q) -> p = q.
  Proof.
    intros H.
    assert (M : forall k v1, member_of k (proof_json p) = Some v1 -> exists v2, member_of k (proof_json q) = Some v2 /\ same num v1 v2).
    { intros k v1. eapply same_member; [reflexivity | reflexivity | apply (proof_json_names q) | exact H]. }
    destruct (pf_lookup p) as (A1 & A2 & A3 & A4 & A5 & A6 & A7 & A8).
    destruct (pf_lookup q) as (B1 & B2 & B3 & B4 & B5 & B6 & B7 & B8).
    apply M in A1 as (x1 & C1 & D1). apply M in A2 as (x2 & C2 & D2). apply M in A3 as (x3 & C3 & D3).
    apply M in A4 as (x4 & C4 & D4). apply M in A5 as (x5 & C5 & D5).
    assert (E1 := eq_trans (eq_sym C1) B1). assert (E2 := eq_trans (eq_sym C2) B2). assert (E3 := eq_trans (eq_sym C3) B3).
    assert (E4 := eq_trans (eq_sym C4) B4). assert (E5 := eq_trans (eq_sym C5) B5).
    apply some_inj in E1, E2, E3, E4, E5. subst x1 x2 x3 x4 x5. cbn [same] in *. apply purpose_name_inj in D3.
    assert (O : forall k o1 o2, member_of k (proof_json p) = option_map JStr o1 -> member_of k (proof_json q) = option_map JStr o2 ->
                forall s, o1 = Some s -> o2 = Some s).
    { intros k o1 o2 P1 P2 s ->. destruct (M _ _ P1) as (x & Q1 & Q2). rewrite P2 in Q1. destruct o2; [|discriminate].
      apply some_inj in Q1. subst x. cbn in Q2. congruence. }
    pose proof (O _ _ _ A6 B6) as O6. pose proof (O _ _ _ A7 B7) as O7. pose proof (O _ _ _ A8 B8) as O8.
    assert (L := same_size H). destruct p as [i t pu v m c e s], q as [i' t' pu' v' m' c' e' s'].
    cbn [p_id p_typ p_purpose p_value p_method p_created p_expires p_cryptosuite] in *. subst.
    clear -O6 O7 O8 L.
    assert (c = c' /\ e = e' /\ s = s') as (-> & -> & ->); [|reflexivity].
    destruct c as [c|], e as [e|], s as [s|], c' as [c'|], e' as [e'|], s' as [s'|];
      try (discriminate (O6 _ eq_refl)); try (discriminate (O7 _ eq_refl)); try (discriminate (O8 _ eq_refl));
      try discriminate L; repeat split; auto;
      symmetry; (apply O6 || apply O7 || apply O8); reflexivity.
  Qed.
  Lemma same_opt_proof j1 j2 (p q : option proof) :
    (forall v1, j1 = Some v1 -> exists v2, j2 = Some v2 /\ same num v1 v2) -> (j1 = None -> j2 = None) ->
    j1 = option_map proof_json p -> j2 = option_map proof_json q -> p = q.
  Proof.
    intros H1 H2 -> ->. destruct p, q; cbn in *; auto.
    - destruct (H1 _ eq_refl) as (v2 & E & S). apply some_inj in E. subst. f_equal. apply same_proof_json. exact S.
    - destruct (H1 _ eq_refl) as (v2 & E & S). discriminate.
    - discriminate H2. reflexivity.
  Qed.
  Lemma same_vc_json a b : same num (vc_json a) (vc_json b) <-> same_vc D a b.
  Proof.
    split.
    - intros H.
      assert (M : forall k v1, member_of k (vc_json a) = Some v1 -> exists v2, member_of k (vc_json b) = Some v2 /\ same num v1 v2).
      { intros k v1. eapply same_member; [reflexivity | reflexivity | apply (vc_json_names b) | exact H]. }
      destruct (vc_lookup a) as (A1 & A2 & A3 & A4 & A5 & A6). destruct (vc_lookup b) as (B1 & B2 & B3 & B4 & B5 & B6).
      apply M in A1 as (x1 & C1 & D1). apply M in A2 as (x2 & C2 & D2). apply M in A3 as (x3 & C3 & D3).
      apply M in A5 as (x5 & C5 & D5). apply M in A6 as (x6 & C6 & D6).
      assert (E1 := eq_trans (eq_sym C1) B1). assert (E2 := eq_trans (eq_sym C2) B2). assert (E3 := eq_trans (eq_sym C3) B3).
      assert (E5 := eq_trans (eq_sym C5) B5). assert (E6 := eq_trans (eq_sym C6) B6).
      apply some_inj in E1, E2, E3, E5, E6. subst x1 x2 x3 x5 x6. apply same_strings in D1, D2. cbn [same] in D5, D6.
      unfold same_vc. repeat split; auto. 
      apply (same_opt_proof (M "proof"%string)) with (3 := B4); auto.
      rewrite A4, B4. assert (L := same_size H). clear -L. destruct (vc_proof a), (vc_proof b); cbn in *; auto; discriminate.
    - intros (H1 & H2 & H3 & H4 & H5 & H6). unfold vc_json. rewrite H1, H2, H4, H5, H6.
      apply same_pointwise. cbn [app]. do 2 (apply Forall2_cons; [split; [reflexivity | apply same_refl]|]).
      apply Forall2_cons; [split; [reflexivity | exact H3]|].
      induction (opt_member "proof"%string (option_map proof_json (vc_proof b)) ++ _); constructor; auto. split; [reflexivity | apply same_refl].
  Qed.
  Lemma same_vp_json a b : same num (vp_json a) (vp_json b) <-> same_vp D a b.
  Proof.
    split.
    - intros H.
      assert (M : forall k v1, member_of k (vp_json a) = Some v1 -> exists v2, member_of k (vp_json b) = Some v2 /\ same num v1 v2).
      { intros k v1. eapply same_member; [reflexivity | reflexivity | apply (vp_json_names b) | exact H]. }
      destruct (vp_lookup a) as (A1 & A2 & A3 & A4 & A5). destruct (vp_lookup b) as (B1 & B2 & B3 & B4 & B5).
      assert (H5 : forall s, vp_holder a = Some s -> vp_holder b = Some s).
      { intros s Es. rewrite Es in A5. destruct (M _ _ A5) as (x & Q1 & Q2). rewrite B5 in Q1. destruct (vp_holder b); [|discriminate].
        apply some_inj in Q1. subst x. cbn in Q2. congruence. }
      assert (H4 : forall p, vp_proof a = Some p -> vp_proof b = Some p).
      { intros p Ep. rewrite Ep in A4. destruct (M _ _ A4) as (x & Q1 & Q2). rewrite B4 in Q1. destruct (vp_proof b); [|discriminate].
        apply some_inj in Q1. subst x. f_equal. symmetry. apply same_proof_json. exact Q2. }
      apply M in A1 as (x1 & C1 & D1). apply M in A2 as (x2 & C2 & D2). apply M in A3 as (x3 & C3 & D3).
      assert (E1 := eq_trans (eq_sym C1) B1). assert (E2 := eq_trans (eq_sym C2) B2). assert (E3 := eq_trans (eq_sym C3) B3).
      apply some_inj in E1, E2, E3. subst x1 x2 x3. apply same_strings in D1, D2. apply same_arr in D3.
      assert (L := same_size H). unfold same_vp. repeat split; auto.
      + clear -D3. remember (vp_credentials a) as l1. remember (vp_credentials b) as l2. clear Heql1 Heql2. revert l2 D3.
        induction l1; intros [|y l2] F; inversion F; subst; constructor; auto. apply same_vc_json; auto.
      + clear -L H4 H5. destruct (vp_proof a) as [p|]; [symmetry; auto|]. destruct (vp_proof b) as [q|]; auto.
        exfalso. destruct (vp_holder a) as [h|]; [rewrite (H5 _ eq_refl) in L; discriminate | destruct (vp_holder b); discriminate].
      + clear -L H4 H5. destruct (vp_holder a) as [p|]; [symmetry; auto|]. destruct (vp_holder b) as [q|]; auto.
        exfalso. destruct (vp_proof a) as [h|]; [rewrite (H4 _ eq_refl) in L; discriminate | destruct (vp_proof b); discriminate].
    - intros (H1 & H2 & H3 & H4 & H5). unfold vp_json. rewrite H1, H2, H4, H5.
      apply same_pointwise. cbn [app]. do 2 (apply Forall2_cons; [split; [reflexivity | apply same_refl]|]).
      apply Forall2_cons; [split; [reflexivity|]|].
      + cbn [snd]. apply same_arr. clear -H3. induction H3; cbn; constructor; auto. apply same_vc_json. auto.
      + induction (opt_member "proof"%string (option_map proof_json (vp_proof b)) ++ _); constructor; auto. split; [reflexivity | apply same_refl].
  Qed.

  (** ** Unique member names *)
  Lemma nodup_strings l : nodup_keys (strings l).
  Proof. unfold strings. apply nodup_arr. induction l; cbn; constructor; cbn; auto. Qed.
  Lemma nodup_proof p : nodup_keys (proof_json p).
  Proof.
    apply nodup_obj. split; [apply (proof_json_names p)|].
    destruct p as [i t pu v m [c|] [e|] [s|]]; cbn [proof_json app opt_member option_map p_id p_typ p_purpose p_value p_method p_created p_expires p_cryptosuite]; repeat (apply Forall_cons; [exact I|]); constructor.
  Qed.
  Lemma nodup_vc v : vc_unique v -> nodup_keys (vc_json v).
  Proof.
    intros H. apply nodup_obj. split; [apply (vc_json_names v)|]. pose proof nodup_strings. pose proof nodup_proof.
    destruct v as [c t j [p|] i s]; cbn [vc_json app opt_member option_map vc_contexts vc_types vc_subject vc_proof vc_id vc_issuer];
      repeat (apply Forall_cons; cbn [snd]; [auto; exact I|]); constructor.
  Qed.
  Lemma nodup_vp v : vp_unique v -> nodup_keys (vp_json v).
  Proof.
    intros H. apply nodup_obj. split; [apply (vp_json_names v)|]. pose proof nodup_strings. pose proof nodup_proof.
    assert (Hc : nodup_keys (JArr (map vc_json (vp_credentials v)))).
    { apply nodup_arr. rewrite Forall_map. eapply Forall_impl; [|exact H]. intros c. apply nodup_vc. }
    destruct v as [c t j [p|] [h|]]; cbn [vp_json app opt_member option_map vp_contexts vp_types vp_credentials vp_proof vp_holder] in *;
      repeat (apply Forall_cons; cbn [snd]; [auto; exact I|]); constructor.
  Qed.

  (** ** Canonical texts *)
  Hypothesis Ho : jcs_order D.
  Hypothesis Hn : jcs_numbers D.
  Theorem proof_canonical p q : canon (proof_json p) = canon (proof_json q) <-> p = q.
  Proof.
    split; [|congruence]. intros H. apply same_proof_json. exact (@jcs_inj _ _ Hn _ _ H).
  Qed.
  Theorem vc_canonical a b : vc_unique a -> vc_unique b -> (canon (vc_json a) = canon (vc_json b) <-> same_vc D a b).
  Proof.
    intros Ua Ub. rewrite <- same_vc_json. split; [apply (@jcs_inj _ _ Hn) | apply (@jcs_same _ _ Ho); apply nodup_vc; auto].
  Qed.
  Theorem vp_canonical a b : vp_unique a -> vp_unique b -> (canon (vp_json a) = canon (vp_json b) <-> same_vp D a b).
  Proof.
    intros Ua Ub. rewrite <- same_vp_json. split; [apply (@jcs_inj _ _ Hn) | apply (@jcs_same _ _ Ho); apply nodup_vp; auto].
  Qed.

  Lemma reordered_same j1 : forall j2, reordered j1 j2 -> same num j1 j2.
  Proof.
    induction j1 using json_ind'; intros j2 R; inversion R; subst; try exact I; try reflexivity.
    - apply same_arr. match goal with F : Forall2 reordered _ _ |- _ => rename F into F2 end. clear R.
      revert l2 F2. induction H; intros l2 F2; inversion F2; subst; constructor; auto.
    - apply same_obj.
      match goal with F : Forall2 _ m ?x, P : Permutation ?x _ |- _ => rename F into F2, P into P2; rename x into mm end. clear R.
      split; [rewrite <- (Permutation_length P2); clear -F2; induction F2; cbn; auto|].
      assert (G : Forall (fun kv => exists v2, In (fst kv, v2) mm /\ same num (snd kv) v2) m).
      { clear P2. revert mm F2. induction H as [|[k v] m Hx HF IH]; intros mm F2; [constructor|].
        inversion F2 as [|? [k2 v2] ? mm' [Hk Hr] F2']; subst. cbn [fst snd] in *. subst k2. constructor; cbn [fst snd].
        - exists v2. split; [left; reflexivity | apply Hx; exact Hr].
        - eapply Forall_impl; [|apply IH; exact F2']. intros [k' v'] (v3 & ? & ?). exists v3. split; [right; assumption | assumption]. }
      eapply Forall_impl; [|exact G]. intros [k v] (v2 & Hin & Hs). exists v2. split; auto. eapply Permutation_in; eassumption.
  Qed.
  Lemma reordered_nodup j1 : forall j2, reordered j1 j2 -> nodup_keys j1 -> nodup_keys j2.
  Proof.
    induction j1 using json_ind'; intros j2 R; inversion R; subst; auto.
    - rewrite !nodup_arr. match goal with F : Forall2 reordered _ _ |- _ => rename F into F2 end. clear R.
      revert l2 F2. induction H; intros l2 F2 N; inversion F2; subst; constructor; inversion N; subst; auto.
    - rewrite !nodup_obj.
      match goal with F : Forall2 _ m ?x, P : Permutation ?x _ |- _ => rename F into F2, P into P2; rename x into mm end. clear R.
      intros [N1 N2]. split.
      + apply (Permutation_NoDup (l := map fst mm)); [apply Permutation_map; exact P2|].
        replace (map fst mm) with (map fst m); auto. clear -F2. induction F2 as [|a b m mm [? ?] F IH]; cbn; congruence.
      + eapply Permutation_Forall; [exact P2|]. clear -F2 H N2. revert mm F2. induction H; intros mm F2; inversion F2 as [|? ? ? ? [? ?] ?]; subst; constructor; inversion N2; subst; auto.
  Qed.
  Theorem reordered_canonical j1 j2 : unique_names j1 -> reordered j1 j2 -> canon j1 = canon j2.
  Proof. intros U R. apply (@jcs_same _ _ Ho); eauto using reordered_nodup, reordered_same. Qed.
  Theorem vc_reordered v j1 j2 : unique_names j1 -> reordered j1 j2 ->
    canon (vc_json (vc_set_credential v j1)) = canon (vc_json (vc_set_credential v j2)).
  Proof.
    intros U R. apply vc_canonical; [exact U | exact (reordered_nodup R U) |].
    repeat split. apply reordered_same. exact R.
  Qed.

  Theorem vc_to_jcs_canonical a b ta tb : vc_unique a -> vc_unique b -> vc_to_jcs D a = Ok ta -> vc_to_jcs D b = Ok tb ->
    (ta = tb <-> same_vc D a b).
  Proof. intros Ua Ub Ha Hb. apply (proj1 (vc_to_jcs_spec _ _)) in Ha as [_ ->], Hb as [_ ->]. apply vc_canonical; auto. Qed.
  Theorem vp_to_jcs_canonical a b ta tb : vp_unique a -> vp_unique b -> vp_to_jcs D a = Ok ta -> vp_to_jcs D b = Ok tb ->
    (ta = tb <-> same_vp D a b).
  Proof. intros Ua Ub Ha Hb. apply (proj1 (vp_to_jcs_spec _ _)) in Ha as [_ ->], Hb as [_ ->]. apply vp_canonical; auto. Qed.
  Theorem proof_to_jcs_canonical p q : proof_to_jcs D p = proof_to_jcs D q <-> p = q.
  Proof. rewrite !proof_jcs_text. split; [|congruence]. intros H. apply ok_inj in H. apply proof_canonical. exact H. Qed.
  Theorem vc_to_jcs_reordered v j1 j2 : unique_names j1 -> reordered j1 j2 ->
    vc_to_jcs D (vc_set_credential v j1) = vc_to_jcs D (vc_set_credential v j2).
  Proof.
    intros U R. rewrite !vc_jcs_gate, (vc_reordered v U R).
    replace (vc_validate (vc_set_credential v j1)) with (vc_validate (vc_set_credential v j2)); [reflexivity|].
    unfold vc_validate. cbn [vc_contexts vc_types vc_subject vc_set_credential]. inversion R; reflexivity.
  Qed.
End Canon.
(** Every value in memory has unique names. *)
Lemma value_ok_unique f64t f64p j : value_ok f64t f64p j -> nodup_keys j.
Proof.
  induction j using json_ind'; cbn [value_ok nodup_keys]; auto.
  - intros V. apply value_ok_arr in V. apply nodup_arr. induction V; inversion H; subst; constructor; auto.
  - intros V. apply value_ok_obj in V as [V1 V2]. apply nodup_obj. split.
    + clear -V1. induction (map fst m) as [|k l IH]; [constructor|]. destruct V1 as [F V1]. constructor; auto.
      intros Hin. rewrite Forall_forall in F. specialize (F _ Hin). rewrite bytes_compare_refl in F. discriminate.
    + clear V1. induction V2; inversion H; subst; constructor; auto. apply H3. tauto.
Qed.
Theorem vc_wf_unique D v : vc_wf D v -> vc_unique v.
Proof. intros (_ & _ & H & _). exact (value_ok_unique H). Qed.
Theorem vp_wf_unique D v : vp_wf D v -> vp_unique v.
Proof. intros (_ & _ & H & _). eapply Forall_impl; [|exact H]. apply vc_wf_unique. Qed.
