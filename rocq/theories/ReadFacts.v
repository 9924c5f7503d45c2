(** Everything the parser returns is a well-formed value of the Rust type. *)
From Verif Require Import Base BaseFacts Codec CodecFacts Json JsonParse Deps Types Did Keys Doc Identity
  UserConnection Proof Vc JsonFacts JsonParseFacts SchemaFacts ParseFacts Spec JsonSpec IdentitySpec DidFacts IdentityFacts ShapeFacts.
Set Implicit Arguments.
Unset Strict Implicit.

Section Read.
  Variable nok : number -> Prop.
  Notation dok := (dat_ok nok).

  Lemma rd_str x : dok SString x -> exists s, x = DStr s /\ utf8 s.
  Proof. destruct x; cbn; try tauto. eauto. Qed.
  Lemma rd_opt {A} sc (f : A -> data) (P : A -> Prop) x : (forall y, dok sc y -> exists a, y = f a /\ P a) ->
    dok (SOption sc) x -> exists o, x = opt_data f o /\ opt_all P o.
  Proof.
    intros H. destruct x; cbn; try tauto.
    - intros _. exists None. split; [reflexivity | exact I].
    - intros Hx. apply H in Hx as (a & -> & Ha). exists (Some a). auto.
  Qed.
  Lemma rd_vec {A} sc (f : A -> data) (P : A -> Prop) x : (forall y, dok sc y -> exists a, y = f a /\ P a) ->
    dok (SVec sc) x -> exists l, x = vec_data f l /\ Forall P l.
  Proof.
    intros H. destruct x as [| | | |l| |]; try (intros []). rewrite dat_ok_vec. intros F.
    assert (exists l', l = map f l' /\ Forall P l') as (l' & -> & Hl).
    { induction F as [|y l Hy F (l' & -> & Hl)]; [exists []; auto|]. apply H in Hy as (a & -> & Ha). exists (a :: l'). auto. }
    exists l'. auto.
  Qed.
  Lemma rd_struct fs x : dok (SStruct fs) x -> exists l, x = DStruct l /\ flds_ok nok fs l.
  Proof. destruct x as [| | | | | |l]; try (intros []). rewrite dat_ok_struct. eauto. Qed.
  Lemma rd_purpose x : dok purpose_schema x -> exists p, x = DEnum (purpose_serde p).
  Proof.
    intros H. destruct x; try (exfalso; exact H). change (existsb (bytes_eqb name) (map purpose_serde all_purposes) = true) in H. apply existsb_exists in H as (n & Hn & E).
    apply bytes_eqb_eq in E. subst n. apply in_map_iff in Hn as (p & <- & _). eauto.
  Qed.
  Definition rd_strs := @rd_opt bytes SString DStr utf8.

  Lemma rd_primary x : dok primary_schema x -> exists p, x = primary_data p /\ primary_wf p.
  Proof.
    intros H. apply rd_struct in H as (l & -> & H).
    destruct l as [|a [|b [|c [|d [|]]]]]; cbn [flds_ok snd] in H; try tauto. destruct H as (H1 & H2 & H3 & H4 & _).
    apply rd_str in H1 as (a' & -> & ?), H2 as (b' & -> & ?), H3 as (c' & -> & ?), H4 as (d' & -> & ?).
    exists {| pr_id := a'; pr_controller := b'; pr_type := c'; pr_multibase := d' |}. repeat split; auto.
  Qed.
  Lemma rd_doc x : dok doc_schema x -> exists d, x = doc_data d /\ doc_wf d.
  Proof.
    intros H. apply rd_struct in H as (l & -> & H).
    destruct l as [|a [|b [|c [|d [|e [|f [|]]]]]]]; cbn [flds_ok snd] in H; try tauto. destruct H as (H1 & H2 & H3 & H4 & H5 & H6 & _).
    apply (rd_vec (P := utf8) (f := DStr) rd_str) in H1 as (a' & -> & ?). apply rd_str in H2 as (b' & -> & ?).
    apply (rd_opt (fun y => rd_vec rd_primary)) in H3 as (c' & -> & ?), H4 as (d' & -> & ?), H5 as (e' & -> & ?), H6 as (f' & -> & ?).
    exists {| doc_context := a'; doc_id := b'; doc_authentication := c'; doc_cap_invoke := d'; doc_cap_delegate := e'; doc_assertion := f' |}.
    repeat split; auto.
  Qed.
  Lemma rd_proof x : dok proof_schema x -> exists p, x = proof_data p /\ proof_wf p.
  Proof.
    intros H. apply rd_struct in H as (l & -> & H).
    destruct l as [|a [|b [|c [|d [|e [|f [|g [|h [|]]]]]]]]]; cbn [flds_ok snd] in H; try tauto.
    destruct H as (H1 & H2 & H3 & H4 & H5 & H6 & H7 & H8 & _).
    apply rd_str in H1 as (a' & -> & ?), H2 as (b' & -> & ?), H4 as (d' & -> & ?), H5 as (e' & -> & ?).
    apply rd_purpose in H3 as (p & ->).
    apply (rd_strs rd_str) in H6 as (f' & -> & ?), H7 as (g' & -> & ?), H8 as (h' & -> & ?).
    exists {| p_id := a'; p_typ := b'; p_purpose := p; p_value := d'; p_method := e'; p_created := f'; p_expires := g'; p_cryptosuite := h' |}.
    repeat split; auto.
  Qed.
  Definition vc_shape (v : vc) : Prop :=
    all_utf8 (vc_contexts v) /\ all_utf8 (vc_types v) /\ val_ok nok (vc_subject v) /\
    opt_all proof_wf (vc_proof v) /\ utf8 (vc_id v) /\ utf8 (vc_issuer v).
  Definition vp_shape (v : vp) : Prop :=
    all_utf8 (vp_contexts v) /\ all_utf8 (vp_types v) /\ Forall vc_shape (vp_credentials v) /\
    opt_all proof_wf (vp_proof v) /\ opt_all utf8 (vp_holder v).
  Lemma rd_vc x : dok vc_schema x -> exists v, x = vc_data v /\ vc_shape v.
  Proof.
    intros H. apply rd_struct in H as (l & -> & H).
    destruct l as [|a [|b [|c [|d [|e [|f [|]]]]]]]; cbn [flds_ok snd] in H; try tauto. destruct H as (H1 & H2 & H3 & H4 & H5 & H6 & _).
    apply (rd_vec (P := utf8) (f := DStr) rd_str) in H1 as (a' & -> & ?), H2 as (b' & -> & ?).
    destruct c as [|j| | | | |]; try (destruct H3; fail). cbn in H3.
    apply (rd_opt rd_proof) in H4 as (d' & -> & ?). apply rd_str in H5 as (e' & -> & ?), H6 as (f' & -> & ?).
    exists {| vc_contexts := a'; vc_types := b'; vc_subject := j; vc_proof := d'; vc_id := e'; vc_issuer := f' |}. repeat split; auto.
  Qed.
  Lemma rd_vp x : dok vp_schema x -> exists v, x = vp_data v /\ vp_shape v.
  Proof.
    intros H. apply rd_struct in H as (l & -> & H).
    destruct l as [|a [|b [|c [|d [|e [|]]]]]]; cbn [flds_ok snd] in H; try tauto. destruct H as (H1 & H2 & H3 & H4 & H5 & _).
    apply (rd_vec (P := utf8) (f := DStr) rd_str) in H1 as (a' & -> & ?), H2 as (b' & -> & ?).
    apply (rd_vec rd_vc) in H3 as (c' & -> & ?). apply (rd_opt rd_proof) in H4 as (d' & -> & ?).
    apply (rd_strs rd_str) in H5 as (e' & -> & ?).
    exists {| vp_contexts := a'; vp_types := b'; vp_credentials := c'; vp_proof := d'; vp_holder := e' |}. repeat split; auto.
  Qed.
  Lemma rd_params x : dok params_schema x -> exists p, x = params_data p /\ params_wf p.
  Proof.
    intros H. apply rd_struct in H as (l & -> & H).
    destruct l as [|a [|b [|]]]; cbn [flds_ok snd] in H; try tauto. destruct H as (H1 & H2 & _).
    apply (rd_strs rd_str) in H1 as (a' & -> & ?), H2 as (b' & -> & ?). exists {| address := a'; hl := b' |}. split; [reflexivity | split; auto].
  Qed.

  Lemma val_ok_unique j : val_ok nok j -> nodup_keys j.
  Proof.
    induction j using json_ind'; cbn [val_ok nodup_keys]; auto.
    - intros V. apply val_ok_arr in V. apply nodup_arr. induction V; inversion H; subst; constructor; auto.
    - intros V. apply val_ok_obj in V as [V1 V2]. apply nodup_obj. split.
      + clear -V1. induction m as [|[k v] m IH]; cbn in *; constructor; destruct V1 as [V1 V2]; auto.
        intros Hin. rewrite Forall_forall in V1. specialize (V1 _ Hin). rewrite bytes_compare_refl in V1. discriminate.
      + clear V1. induction V2 as [|kv m [U V] V2 IH]; inversion H; subst; constructor; auto.
  Qed.
End Read.

Section Bytes.
  Variable D : deps.
  Section Nok.
    Variable nok : number -> Prop.
    Hypothesis Hf : floats_ok nok (f64_parse D).
    Hypothesis Hi : ints_ok nok.
    Lemma vc_parsed s v : vc_parse_json_bytes D s = Ok v -> vc_shape nok v /\ (depth (vc_subject v) <= 126)%nat.
    Proof.
      unfold vc_parse_json_bytes. destruct (from_slice (f64_parse D) vc_schema s) as [x|] eqn:E; [|discriminate].
      apply (from_slice_ok Hf Hi) in E as [H1 H2]. apply rd_vc in H1 as (v' & -> & Hv). rewrite data_vc_inv. cbn. intros [= <-].
      rewrite ser_vc, depth_vc in H2. split; [exact Hv | lia].
    Qed.
    Lemma vp_parsed s v : vp_parse_json_bytes D s = Ok v -> vp_shape nok v /\ Forall (fun c => (depth (vc_subject c) <= 124)%nat) (vp_credentials v).
    Proof.
      unfold vp_parse_json_bytes. destruct (from_slice (f64_parse D) vp_schema s) as [x|] eqn:E; [|discriminate].
      apply (from_slice_ok Hf Hi) in E as [H1 H2]. apply rd_vp in H1 as (v' & -> & Hv). rewrite data_vp_inv. cbn. intros [= <-].
      rewrite ser_vp in H2. apply depth_vp_iff in H2. auto.
    Qed.
  End Nok.
End Bytes.
