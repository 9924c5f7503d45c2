(** Proofs of C82. *)
From Verif Require Import Base BaseFacts Codec CodecFacts Json Deps Types Proof Vc Suite JsonSpec Spec VcSpec SuiteSpec ReadFacts ConnSpec ConnFacts
  CanonSpec CanonSpec FlowSpec DidFacts SuiteFacts WorldSpec.
Set Implicit Arguments.
Unset Strict Implicit.

Section World.
  Variable D : deps.
  Lemma signed_in pk x : forall past : list (event D), In x (signed_by D pk past) <->
    exists kp, In (Signs D kp x) past /\ ed_pub_bytes D (ed_pub_key D kp) = ed_pub_bytes D pk /\ signs_ok D kp x = true.
  Proof.
    induction past as [|ev past IH]; cbn [signed_by].
    - split; [intros []|intros (kp & [] & _)].
    - destruct ev as [kp y|pk' s e|pk' s e].
      2,3: rewrite IH; split; intros (kp & I & H); exists kp; (split; [|exact H]); [right; exact I|destruct I as [I|I]; [discriminate|exact I]].
      destruct (same_key D (ed_pub_key D kp) pk && signs_ok D kp y) eqn:E.
      + apply andb_prop in E as [E1 E2]. apply bytes_eqb_eq in E1. cbn [In]. rewrite IH. split.
        * intros [->|(k & I & H)]; [exists kp; auto|exists k; auto].
        * intros (k & [I|I] & H); [injection I as _ ->; auto|right; eauto].
      + rewrite IH. split; intros (k & I & H); exists k; (split; [|exact H]); [right; exact I|].
        destruct I as [I|I]; [|exact I]. exfalso. injection I as -> ->. destruct H as [H1 H2]. apply bytes_eqb_eq in H1.
        unfold same_key in E. rewrite H1, H2 in E. discriminate.
  Qed.
  Lemma signed_wf pk past : Forall (event_wf D) past -> Forall signing_wf (signed_by D pk past).
  Proof.
    intros F. apply Forall_forall. intros x I. apply signed_in in I as (kp & I & _). exact (proj1 (Forall_forall _ _) F _ I).
  Qed.
  Theorem world_vc past pk s e r : sha256_size D -> jcs_numbers D -> Forall (event_wf D) past ->
    verify_proof D (vc_proofable D) pk s e = Ok r -> verified r = true ->
    exists w o sig, document r = Some w /\ carried D (vc_proofable D) s o sig /\ p_purpose o = e /\
      ((exists kp v, In (Signs D kp (SignVc v o)) past /\ ed_pub_bytes D (ed_pub_key D kp) = ed_pub_bytes D pk /\
          signs_ok D kp (SignVc v o) = true /\ vc_renumbered (equal_canonical D) v w /\
          (all_numbers (fun _ => False) (vc_subject v) -> w = v)) \/
       attack D pk past o (vc_json w) sig).
  Proof.
    intros Hs Hn F H Hr. destruct (@vc_accepted D pk _ s e r Hs Hn (signed_wf pk F) H Hr) as (w & o & sig & Ed & Ec & Ep & [(v & I & R)|X]); exists w, o, sig; do 3 (split; [assumption|]).
    - left. apply signed_in in I as (kp & I & K & S). exists kp, v. tauto.
    - right. exact X.
  Qed.
  Theorem world_vp past pk s e r : sha256_size D -> jcs_numbers D -> Forall (event_wf D) past ->
    verify_proof D (vp_proofable D) pk s e = Ok r -> verified r = true ->
    exists w o sig, document r = Some w /\ carried D (vp_proofable D) s o sig /\ p_purpose o = e /\
      ((exists kp v, In (Signs D kp (SignVp v o)) past /\ ed_pub_bytes D (ed_pub_key D kp) = ed_pub_bytes D pk /\
          signs_ok D kp (SignVp v o) = true /\ vp_renumbered (equal_canonical D) v w /\
          (Forall (fun c => all_numbers (fun _ => False) (vc_subject c)) (vp_credentials v) -> w = v)) \/
       attack D pk past o (vp_json w) sig).
  Proof.
    intros Hs Hn F H Hr. destruct (@vp_accepted D pk _ s e r Hs Hn (signed_wf pk F) H Hr) as (w & o & sig & Ed & Ec & Ep & [(v & I & R)|X]); exists w, o, sig; do 3 (split; [assumption|]).
    - left. apply signed_in in I as (kp & I & K & S). exists kp, v. tauto.
    - right. exact X.
  Qed.
End World.
Section Runs.
  Variable D : deps.
  Variable run : list (event D).
  Hypothesis Hwf : Forall (event_wf D) run.
  Lemma past_wf past ev future : run = past ++ ev :: future -> Forall (event_wf D) past.
  Proof. intros E. rewrite E in Hwf. apply Forall_app in Hwf. apply Hwf. Qed.
  Theorem run_vc past pk s e future r : sha256_size D -> jcs_numbers D -> run = past ++ VerifiesVc D pk s e :: future ->
    verify_proof D (vc_proofable D) pk s e = Ok r -> verified r = true ->
    exists w o sig, document r = Some w /\ carried D (vc_proofable D) s o sig /\ p_purpose o = e /\
      ((exists kp v, In (Signs D kp (SignVc v o)) past /\ ed_pub_bytes D (ed_pub_key D kp) = ed_pub_bytes D pk /\
          signs_ok D kp (SignVc v o) = true /\ vc_renumbered (equal_canonical D) v w /\
          (all_numbers (fun _ => False) (vc_subject v) -> w = v)) \/
       attack D pk past o (vc_json w) sig).
  Proof. intros Hs Hn E. apply world_vc; [exact Hs|exact Hn|exact (past_wf E)]. Qed.
  Theorem run_vp past pk s e future r : sha256_size D -> jcs_numbers D -> run = past ++ VerifiesVp D pk s e :: future ->
    verify_proof D (vp_proofable D) pk s e = Ok r -> verified r = true ->
    exists w o sig, document r = Some w /\ carried D (vp_proofable D) s o sig /\ p_purpose o = e /\
      ((exists kp v, In (Signs D kp (SignVp v o)) past /\ ed_pub_bytes D (ed_pub_key D kp) = ed_pub_bytes D pk /\
          signs_ok D kp (SignVp v o) = true /\ vp_renumbered (equal_canonical D) v w /\
          (Forall (fun c => all_numbers (fun _ => False) (vc_subject c)) (vp_credentials v) -> w = v)) \/
       attack D pk past o (vp_json w) sig).
  Proof. intros Hs Hn E. apply world_vp; [exact Hs|exact Hn|exact (past_wf E)]. Qed.
End Runs.
