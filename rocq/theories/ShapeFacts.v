(** The shapes of the crate's types: round trips, JSON objects, depth (C17-C20, C22-C25, C42). *)
From Verif Require Import Base BaseFacts Codec CodecFacts Json JsonParse Deps Types Did Keys Doc Identity
  UserConnection Proof Vc JsonFacts JsonParseFacts SchemaFacts Spec JsonSpec IdentitySpec DidFacts IdentityFacts.
Set Implicit Arguments.
Unset Strict Implicit.

(** ** Conversions are inverse *)
Lemma data_opt_inv {A} (f : A -> data) g o : (forall x, g (f x) = Some x) -> data_opt g (opt_data f o) = Some o.
Proof. intros H. destruct o; cbn; [rewrite H|]; reflexivity. Qed.
Lemma data_vec_inv {A} (f : A -> data) g l : (forall x, g (f x) = Some x) -> data_vec g (vec_data f l) = Some l.
Proof. intros H. cbn. induction l; cbn; [reflexivity|]. rewrite H, IHl. reflexivity. Qed.
Lemma data_str_inv s : data_str (DStr s) = Some s. Proof. reflexivity. Qed.
Lemma data_primary_inv p : data_primary (primary_data p) = Some p. Proof. destruct p; reflexivity. Qed.
Lemma data_doc_inv d : data_doc (doc_data d) = Some d.
Proof.
  destruct d as [c i au ci cd ass]. unfold data_doc, doc_data. cbn [doc_context doc_id doc_authentication doc_cap_invoke doc_cap_delegate doc_assertion].
  rewrite data_vec_inv by reflexivity.
  rewrite !data_opt_inv by (intros; apply data_vec_inv, data_primary_inv). reflexivity.
Qed.
Lemma data_purpose_inv p : data_purpose (DEnum (purpose_serde p)) = Some p. Proof. destruct p; reflexivity. Qed.
Lemma data_proof_inv p : data_proof (proof_data p) = Some p.
Proof.
  destruct p as [i t pu v m c e s]. unfold data_proof, proof_data. cbn [p_id p_typ p_purpose p_value p_method p_created p_expires p_cryptosuite].
  rewrite data_purpose_inv, !data_opt_inv by reflexivity. reflexivity.
Qed.
Lemma data_vc_inv v : data_vc (vc_data v) = Some v.
Proof.
  destruct v as [c t j p i s]. unfold data_vc, vc_data. cbn [vc_contexts vc_types vc_subject vc_proof vc_id vc_issuer].
  rewrite !data_vec_inv by reflexivity. rewrite data_opt_inv by apply data_proof_inv. reflexivity.
Qed.
Lemma data_vp_inv v : data_vp (vp_data v) = Some v.
Proof.
  destruct v as [c t cr p h]. unfold data_vp, vp_data. cbn [vp_contexts vp_types vp_credentials vp_proof vp_holder].
  rewrite !data_vec_inv by (reflexivity || apply data_vc_inv).
  rewrite data_opt_inv by apply data_proof_inv. rewrite data_opt_inv by reflexivity. reflexivity.
Qed.
Lemma data_uc_inv c : data_uc (uc_data c) = Some c. Proof. destruct c as [[[? ?]]]; reflexivity. Qed.
Lemma data_params_inv p : data_params (params_data p) = Some p.
Proof. destruct p as [[?|] [?|]]; reflexivity. Qed.

(** ** Written objects *)
Lemma ser_strings l : ser (SVec SString) (vec_data DStr l) = strings l.
Proof. unfold strings, vec_data. cbn. f_equal. rewrite map_map. reflexivity. Qed.
Lemma ser_vec {A} sc (f : A -> data) (g : A -> json) l : (forall x, ser sc (f x) = g x) ->
  ser (SVec sc) (vec_data f l) = JArr (map g l).
Proof. intros H. cbn. f_equal. rewrite map_map. apply map_ext, H. Qed.
Lemma ser_some sc x : ser (SOption sc) (DSome x) = ser sc x. Proof. reflexivity. Qed.
Lemma ser_primary p : ser primary_schema (primary_data p) = primary_json p. Proof. reflexivity. Qed.
Lemma ser_doc d : ser doc_schema (doc_data d) = doc_json d.
Proof.
  destruct d as [c i [au|] [ci|] [cd|] [ass|]]; unfold doc_schema, doc_data; rewrite ser_struct;
    unfold members; cbn [skipped field_skip field_name fst snd andb opt_data doc_context doc_id doc_authentication doc_cap_invoke doc_cap_delegate doc_assertion];
    rewrite ?ser_some, ?ser_strings, ?(@ser_vec _ _ _ _ _ ser_primary); reflexivity.
Qed.
Lemma ser_proof p : ser proof_schema (proof_data p) = proof_json p.
Proof. destruct p as [i t pu v m [c|] [e|] [s|]]; destruct pu; reflexivity. Qed.
Lemma ser_vc v : ser vc_schema (vc_data v) = vc_json v.
Proof.
  destruct v as [c t j [p|] i s]; unfold vc_schema, vc_data; rewrite ser_struct;
    unfold members; cbn [skipped field_skip field_name fst snd andb opt_data vc_contexts vc_types vc_subject vc_proof vc_id vc_issuer];
    rewrite ?ser_strings; [|reflexivity].
  change (ser (SOption proof_schema) (DSome (proof_data p))) with (ser proof_schema (proof_data p)).
  rewrite ser_proof. reflexivity.
Qed.
Lemma ser_vp v : ser vp_schema (vp_data v) = vp_json v.
Proof.
  destruct v as [c t cr [p|] [h|]]; unfold vp_schema, vp_data; rewrite ser_struct;
    unfold members; cbn [skipped field_skip field_name fst snd andb opt_data vp_contexts vp_types vp_credentials vp_proof vp_holder];
    rewrite ?ser_strings, ?(@ser_vec _ _ _ _ _ ser_vc);
    try change (ser (SOption proof_schema) (DSome (proof_data p))) with (ser proof_schema (proof_data p));
    rewrite ?ser_proof; reflexivity.
Qed.
Lemma ser_uc c : ser uc_schema (uc_data c) =
  uc_json (user_agent_address (uc_ctx (user_connection_credential c))) (user_did (uc_ctx (user_connection_credential c))).
Proof. reflexivity. Qed.
Lemma ser_params p : ser params_schema (params_data p) = params_json p.
Proof. destruct p as [[?|] [?|]]; reflexivity. Qed.

(** ** Shapes are well formed *)
Lemma schemas_ok : schema_ok doc_schema = true /\ schema_ok proof_schema = true /\ schema_ok vc_schema = true /\
  schema_ok vp_schema = true /\ schema_ok uc_schema = true /\ schema_ok params_schema = true.
Proof. vm_compute. auto 10. Qed.

Section Ok.
  Variable D : deps.
  Notation dok := (data_ok (f64_text D) (f64_parse D)).

  Lemma ok_opt {A} sc (f : A -> data) (P : A -> Prop) o : (forall x, P x -> dok sc (f x)) ->
    opt_all P o -> dok (SOption sc) (opt_data f o).
  Proof. intros H. destruct o; cbn; auto. Qed.
  Lemma ok_vec {A} sc (f : A -> data) (P : A -> Prop) l : (forall x, P x -> dok sc (f x)) ->
    Forall P l -> dok (SVec sc) (vec_data f l).
  Proof. intros H F. unfold vec_data. apply data_ok_vec. induction F; cbn; auto. Qed.
  Lemma ok_str s : utf8 s -> dok SString (DStr s). Proof. auto. Qed.
  Lemma ok_strings l : all_utf8 l -> dok (SVec SString) (vec_data DStr l).
  Proof. apply ok_vec. exact ok_str. Qed.

  Lemma ok_primary p : primary_wf p -> dok primary_schema (primary_data p).
  Proof. intros (? & ? & ? & ?). apply data_ok_struct. cbn [fields_ok snd]. auto 10 using ok_str. Qed.
  Lemma ok_doc d : doc_wf d -> dok doc_schema (doc_data d).
  Proof.
    intros (Hc & Hi & H1 & H2 & H3 & H4). apply data_ok_struct. cbn [fields_ok snd].
    repeat split; auto using ok_strings; try (eapply ok_opt; [|eassumption]; intros; eapply ok_vec; [exact ok_primary | auto]).
  Qed.
  Lemma ok_proof p : proof_wf p -> dok proof_schema (proof_data p).
  Proof.
    intros (Hi & Ht & Hv & Hm & Hc & He & Hs). apply data_ok_struct. cbn [fields_ok snd].
    repeat split; auto; try (eapply ok_opt; [|eassumption]; exact ok_str). destruct p as [? ? pu ? ? ? ? ?]; destruct pu; reflexivity.
  Qed.
  Lemma ok_vc v : vc_wf D v -> dok vc_schema (vc_data v).
  Proof.
    intros (Hc & Ht & Hs & Hp & Hi & Hr). apply data_ok_struct. cbn [fields_ok snd].
    repeat split; auto using ok_strings. eapply ok_opt; [|eassumption]. exact ok_proof.
  Qed.
  Lemma ok_vp v : vp_wf D v -> dok vp_schema (vp_data v).
  Proof.
    intros (Hc & Ht & Hs & Hp & Hh). apply data_ok_struct. cbn [fields_ok snd].
    repeat split; auto using ok_strings; [eapply ok_vec; [exact ok_vc | auto] | eapply ok_opt; [exact ok_proof | auto] | eapply ok_opt; [exact ok_str | auto]].
  Qed.
  Lemma ok_uc c : utf8 (user_agent_address (uc_ctx (user_connection_credential c))) ->
    utf8 (user_did (uc_ctx (user_connection_credential c))) -> dok uc_schema (uc_data c).
  Proof. intros H1 H2. cbn. auto. Qed.
  Lemma ok_params p : params_wf p -> dok params_schema (params_data p).
  Proof. intros [H1 H2]. apply data_ok_struct. cbn [fields_ok snd]. repeat split; auto; eapply ok_opt; try eassumption; exact ok_str. Qed.
End Ok.

(** ** Depth *)
Lemma depth_list l n : Forall (fun x => (depth x <= n)%nat) l -> (depth (JArr l) <= S n)%nat.
Proof. intros F. cbn [depth]. apply le_n_S. induction F; cbn; lia. Qed.
Lemma depth_members m n : Forall (fun kv => (depth (snd kv) <= n)%nat) m -> (depth (JObj m) <= S n)%nat.
Proof. intros F. cbn [depth]. apply le_n_S. induction F; cbn; lia. Qed.
Lemma depth_strings l : (depth (strings l) <= 1)%nat.
Proof. apply depth_list. induction l; cbn; constructor; auto. Qed.
Lemma depth_primaries l : (depth (primaries l) <= 2)%nat.
Proof. apply depth_list. induction l; cbn; constructor; auto. Qed.
Lemma depth_doc d : (depth (doc_json d) <= 3)%nat.
Proof.
  apply depth_members. pose proof depth_strings. pose proof depth_primaries.
  destruct d as [c i [au|] [ci|] [cd|] [ass|]]; cbn [app opt_member option_map doc_context doc_id doc_authentication doc_cap_invoke doc_cap_delegate doc_assertion];
    repeat (apply Forall_cons || apply Forall_nil); cbn [snd]; auto; cbn [depth]; lia.
Qed.
Lemma depth_proof p : depth (proof_json p) = 1%nat.
Proof. destruct p as [i t pu v m [c|] [e|] [s|]]; reflexivity. Qed.
Lemma depth_ge_member k v m : In (k, v) m -> (S (depth v) <= depth (JObj m))%nat.
Proof. intros H. cbn [depth]. apply le_n_S. induction m as [|[k' v'] m IH]; cbn in *; [tauto|]. destruct H as [E|H]; [injection E as -> ->; lia | specialize (IH H); lia]. Qed.
Lemma depth_ge_elem v l : In v l -> (S (depth v) <= depth (JArr l))%nat.
Proof. intros H. cbn [depth]. apply le_n_S. induction l; cbn in *; [tauto|]. destruct H as [->|H]; [lia | specialize (IHl H); lia]. Qed.
(** A credential nests its subject one level deeper. *)
Lemma depth_vc v : depth (vc_json v) = S (Nat.max 1 (depth (vc_subject v))).
Proof.
  unfold vc_json. apply Nat.le_antisymm.
  - apply depth_members. pose proof depth_strings. pose proof depth_proof.
    destruct v as [c t j [p|] i s]; cbn [app opt_member option_map vc_contexts vc_types vc_subject vc_proof vc_id vc_issuer];
    repeat (apply Forall_cons || apply Forall_nil); cbn [snd]; rewrite ?depth_proof; try (cbn [depth]; lia); try (eapply Nat.le_trans; [apply depth_strings | lia]).
  - assert (H1 : (S (depth (strings (vc_contexts v))) <= depth (vc_json v))%nat) by (eapply depth_ge_member; cbn; eauto).
    assert (H2 : (S (depth (vc_subject v)) <= depth (vc_json v))%nat) by (eapply depth_ge_member; cbn; eauto).
    change (depth (strings (vc_contexts v))) with (S (fold_right (fun x n => Nat.max (depth x) n) 0%nat (map JStr (vc_contexts v)))) in H1.
    change (depth (vc_json v)) with (depth (vc_json v)) in *. unfold vc_json in *. lia.
Qed.
(** A presentation nests its credentials two levels deeper. *)
Lemma depth_vp_le v n : Forall (fun c => (depth (vc_subject c) <= n)%nat) (vp_credentials v) -> (1 <= n)%nat -> (depth (vp_json v) <= 3 + n)%nat.
Proof.
  intros F Hn. apply depth_members. pose proof depth_strings.
  assert (Hc : (depth (JArr (map vc_json (vp_credentials v))) <= 2 + n)%nat).
  { apply depth_list. rewrite Forall_map. eapply Forall_impl; [|exact F]. intros c Hc. cbv beta in *. rewrite depth_vc. lia. }
  destruct v as [c t cr [p|] [h|]]; cbn [app opt_member option_map vp_contexts vp_types vp_credentials vp_proof vp_holder] in *;
    repeat (apply Forall_cons || apply Forall_nil); cbn [snd]; rewrite ?depth_proof; auto; try (cbn [depth]; lia); try (eapply Nat.le_trans; [apply depth_strings | lia]).
Qed.
Lemma depth_vp_ge v c : In c (vp_credentials v) -> (3 + depth (vc_subject c) <= depth (vp_json v))%nat.
Proof.
  intros H. assert (H1 : (S (depth (JArr (map vc_json (vp_credentials v)))) <= depth (vp_json v))%nat) by (eapply depth_ge_member; cbn; eauto).
  assert (H2 := @depth_ge_elem (vc_json c) (map vc_json (vp_credentials v)) (in_map _ _ _ H)). rewrite depth_vc in H2. lia.
Qed.
Lemma depth_vp_iff v : (depth (vp_json v) <= 127)%nat <-> Forall (fun c => (depth (vc_subject c) <= 124)%nat) (vp_credentials v).
Proof.
  split.
  - intros H. apply Forall_forall. intros c Hc. pose proof (depth_vp_ge Hc). lia.
  - intros F. apply (@depth_vp_le v 124); auto. lia.
Qed.
