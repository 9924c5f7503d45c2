(** Proofs of C84 and C85 about signed documents. *)
From Verif Require Import Base BaseFacts Codec CodecFacts Json JsonFacts JsonParseFacts ParseFacts Deps Types Proof Vc Suite JsonSpec VcSpec Spec VcFacts MiscSpec SuiteSpec SuiteFacts ReadFacts FlowSpec FlowFacts Grammar CanonSpec CanonFacts ConnSpec WorldSpec WorldFacts Float FloatFacts FloatText FloatSpec FloatLaws.
Set Implicit Arguments.

Section World.
  Variable D : deps.
  Hypothesis W : ieee D.
  Let W1 := proj1 W.
  Let W2 := proj2 W.
  Theorem vc_sent kp v o v' : ed_correct D -> vc_shape real v -> proof_wf o -> (depth (vc_subject v) <= 126)%nat ->
    vc_proof v = None -> p_value o = [] -> add_proof D (vc_proofable D) kp v o = Ok v' ->
    exists t, vc_to_json D v' = Ok (JSONValue t) /\
      verify_proof D (vc_proofable D) (ed_pub_key D kp) t (p_purpose o) = Ok {| verified := true; document := Some v |}.
  Proof. intros C S. apply (doc_transport (vc_doc_laws D)); [exact C|exact (vc_real W S)]. Qed.
  Theorem vp_sent kp v o v' : ed_correct D -> vp_shape real v -> proof_wf o -> Forall (fun c => (depth (vc_subject c) <= 124)%nat) (vp_credentials v) ->
    vp_proof v = None -> p_value o = [] -> add_proof D (vp_proofable D) kp v o = Ok v' ->
    exists t, vp_to_json D v' = Ok (JSONValue t) /\
      verify_proof D (vp_proofable D) (ed_pub_key D kp) t (p_purpose o) = Ok {| verified := true; document := Some v |}.
  Proof. intros C S. apply (doc_transport (vp_doc_laws D)); [exact C|exact (vp_real W S)]. Qed.

  (** The canonical text keeps the nearest float. *)
  Lemma jcs_same n n' : real n -> jcs_reads D n n' -> same_float n n'.
  Proof.
    intros H R. destruct (jcs_reread W1 W2 n (real_range H)) as (a & Ra & _ & _ & F). rewrite (reads_fun R Ra). specialize (F (real_finite H)).
    destruct F as [F|[F ->]]; [left; symmetry; exact F|right]. split; [exact F|reflexivity].
  Qed.
  Lemma vc_jcs_same v w : vc_shape real v -> vc_renumbered (jcs_reads D) v w -> vc_renumbered same_float v w.
  Proof.
    intros (_ & _ & V & _) (j & R & ->). exists j. split; [|reflexivity].
    assert (V' : val_ok (fun _ => True) j) by (eapply renumbered_unique; [exact R|exact (val_ok_any _ _ V)]).
    eapply renumbered_weaken; [|exact (@renumbered_real _ _ _ _ _ R V V')]. intros n n' (E & H & _). apply jcs_same; assumption.
  Qed.
  Lemma vp_jcs_same v w : vp_shape real v -> vp_renumbered (jcs_reads D) v w -> vp_renumbered same_float v w.
  Proof.
    intros (_ & _ & V & _) (cs & R & ->). exists cs. split; [|reflexivity].
    induction R; inversion V; subst; constructor; auto. apply vc_jcs_same; assumption.
  Qed.
  Theorem vc_sent_canonical kp v o v' t : ed_correct D -> vc_shape real v -> (depth (vc_subject v) <= 126)%nat -> vc_proof v = None -> proof_wf o -> p_value o = [] ->
    add_proof D (vc_proofable D) kp v o = Ok v' -> vc_to_jcs D v' = Ok t ->
    exists w, vc_renumbered same_float v w /\
      verify_proof D (vc_proofable D) (ed_pub_key D kp) t (p_purpose o) = Ok {| verified := true; document := Some w |}.
  Proof.
    intros C S Hd Hp Ho Hv A T. destruct (@vc_canonical_transport D kp v o v' t C (ieee_stable W1 W2) (@vc_shape_impl _ _ _ real_range S) Hd Hp Ho Hv A T) as (w & c & R & _ & _ & V).
    exists w. split; [exact (vc_jcs_same S R)|exact V].
  Qed.
  Theorem vp_sent_canonical kp v o v' t : ed_correct D -> vp_shape real v -> Forall (fun c => (depth (vc_subject c) <= 124)%nat) (vp_credentials v) -> vp_proof v = None -> proof_wf o -> p_value o = [] ->
    add_proof D (vp_proofable D) kp v o = Ok v' -> vp_to_jcs D v' = Ok t ->
    exists w, vp_renumbered same_float v w /\
      verify_proof D (vp_proofable D) (ed_pub_key D kp) t (p_purpose o) = Ok {| verified := true; document := Some w |}.
  Proof.
    intros C S Hd Hp Ho Hv A T. destruct (@vp_canonical_transport D kp v o v' t C (ieee_stable W1 W2) (@vp_shape_impl _ _ _ real_range S) Hd Hp Ho Hv A T) as (w & c & R & _ & _ & V).
    exists w. split; [exact (vp_jcs_same S R)|exact V].
  Qed.

  (** Accepted numbers. *)
  Lemma real_wf run : Forall (@real_event D) run -> Forall (event_wf D) run.
  Proof. apply Forall_impl. intros [kp [v o|v o]| |] H; try exact I; [exact (vc_shape_any H)|exact (vp_shape_any H)]. Qed.
  Lemma vc_document pk s e r w : verify_proof D (vc_proofable D) pk s e = Ok r -> document r = Some w -> vc_shape real w.
  Proof.
    intros V E. apply (doc_verify (vc_doc_laws D)) in V as (v & p & b & sig & x & P & _ & _ & _ & _ & _ & _ & _ & ->). cbn [document] in E. destruct x; [|discriminate].
    apply some_inj in E. subst w. destruct (vc_parsed (real_floats W) (real_ints) P) as [(S1 & S2 & S3 & S4 & S5) _]. repeat (split; [assumption|]). split; [exact I|exact S5].
  Qed.
  Lemma vp_document pk s e r w : verify_proof D (vp_proofable D) pk s e = Ok r -> document r = Some w -> vp_shape real w.
  Proof.
    intros V E. apply (doc_verify (vp_doc_laws D)) in V as (v & p & b & sig & x & P & _ & _ & _ & _ & _ & _ & _ & ->). cbn [document] in E. destruct x; [|discriminate].
    apply some_inj in E. subst w. destruct (vp_parsed (real_floats W) (real_ints) P) as [(S1 & S2 & S3 & S4 & S5) _]. repeat (split; [assumption|]). split; [exact I|exact S5].
  Qed.
  Theorem accepted_vc run : Forall (@real_event D) run -> forall past pk s e future r, sha256_size D ->
    run = past ++ VerifiesVc D pk s e :: future ->
    verify_proof D (vc_proofable D) pk s e = Ok r -> verified r = true ->
    exists w o sig, document r = Some w /\ carried D (vc_proofable D) s o sig /\ p_purpose o = e /\
      ((exists kp v, In (Signs D kp (SignVc v o)) past /\ ed_pub_bytes D (ed_pub_key D kp) = ed_pub_bytes D pk /\
          signs_ok D kp (SignVc v o) = true /\ vc_renumbered same_float v w) \/
       attack D pk past o (vc_json w) sig).
  Proof.
    intros H past pk s e future r Hs E V Y. destruct (@run_vc D run (real_wf H) past pk s e future r Hs (ieee_numbers W1) E V Y) as (w & o & sig & Dw & Cw & Pu & [(kp & v & I & K & So & R & _)|A]);
      exists w, o, sig; do 3 (split; [assumption|]); [left|right; exact A]. exists kp, v. do 3 (split; [assumption|]). apply (vc_same W); [|exact (vc_document _ _ _ V Dw)|exact R].
    rewrite E in H. apply Forall_app in H as [H _]. rewrite Forall_forall in H. exact (H _ I).
  Qed.
  Theorem accepted_vp run : Forall (@real_event D) run -> forall past pk s e future r, sha256_size D ->
    run = past ++ VerifiesVp D pk s e :: future ->
    verify_proof D (vp_proofable D) pk s e = Ok r -> verified r = true ->
    exists w o sig, document r = Some w /\ carried D (vp_proofable D) s o sig /\ p_purpose o = e /\
      ((exists kp v, In (Signs D kp (SignVp v o)) past /\ ed_pub_bytes D (ed_pub_key D kp) = ed_pub_bytes D pk /\
          signs_ok D kp (SignVp v o) = true /\ vp_renumbered same_float v w) \/
       attack D pk past o (vp_json w) sig).
  Proof.
    intros H past pk s e future r Hs E V Y. destruct (@run_vp D run (real_wf H) past pk s e future r Hs (ieee_numbers W1) E V Y) as (w & o & sig & Dw & Cw & Pu & [(kp & v & I & K & So & R & _)|A]);
      exists w, o, sig; do 3 (split; [assumption|]); [left|right; exact A]. exists kp, v. do 3 (split; [assumption|]). apply (vp_same W); [|exact (vp_document _ _ _ V Dw)|exact R].
    rewrite E in H. apply Forall_app in H as [H _]. rewrite Forall_forall in H. exact (H _ I).
  Qed.
End World.
