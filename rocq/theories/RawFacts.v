(** Proofs of C104. *)
From Verif Require Import Base BaseFacts Codec CodecFacts Json Deps Types Proof Vc Keys Suite JsonSpec Spec VcSpec SuiteSpec FlowSpec CanonSpec ReadFacts ConnSpec
  DidFacts SuiteFacts WorldSpec WorldFacts RawSpec.
Set Implicit Arguments.
Unset Strict Implicit.

Section Raw.
  Variable D : deps.
  Lemma events_in (past : list (act D)) ev : In ev (events D past) <-> In (Event D ev) past.
  Proof.
    induction past as [|[e|a m] l IH]; cbn [events In]; [tauto| |].
    - rewrite IH. split; (intros [H|H]; [left; congruence|right; exact H]).
    - rewrite IH. split; [tauto|intros [H|H]; [discriminate|exact H]].
  Qed.
  Lemma events_wf (past : list (act D)) : Forall (act_wf D) past -> Forall (event_wf D) (events D past).
  Proof. intros F. apply Forall_forall. intros ev I. apply events_in in I. exact (proj1 (Forall_forall _ _) F _ I). Qed.
  Lemma raw_dec pk (past : list (act D)) m : signed_raw D pk past m \/ ~ signed_raw D pk past m.
  Proof.
    induction past as [|x l IH]; [right; intros (a & [] & _)|]. destruct IH as [(a & I & K)|IH]; [left; exists a; split; [right; exact I|exact K]|].
    destruct x as [ev|a n].
    - right. intros (a & [I|I] & K); [discriminate|apply IH; exists a; auto].
    - destruct (list_eq_dec Byte.byte_eq_dec n m) as [->|N1]; [destruct (list_eq_dec Byte.byte_eq_dec (ed_pub_bytes D (account_pubkey a)) (ed_pub_bytes D pk)) as [K|N2]|].
      + left. exists a. split; [left; reflexivity|exact K].
      + right. intros (b & [I|I] & K); [injection I as <-; contradiction|apply IH; exists b; auto].
      + right. intros (b & [I|I] & K); [injection I; intros; contradiction|apply IH; exists b; auto].
  Qed.
  Lemma message_hashes o j : sha256_size D -> two_hashes D o j (message D o j).
  Proof.
    intros S. unfold two_hashes, message. set (a := sha256 D (canonical D (proof_json o))). assert (L : length a = 32%nat) by apply S.
    split; [rewrite app_length, L, S; reflexivity|]. split; rewrite <- L; [rewrite firstn_app, Nat.sub_diag, firstn_all, app_nil_r|rewrite skipn_app, Nat.sub_diag, skipn_all]; reflexivity.
  Qed.
  Lemma attack_split pk (past : list (act D)) o j sig : sha256_size D -> attack D pk (events D past) o j sig ->
    (exists m, signed_raw D pk past m /\ two_hashes D o j m) \/ raw_attack D pk past o j sig.
  Proof.
    intros S [F|C]; [|right; right; exact C]. destruct (raw_dec pk past (message D o j)) as [R|R].
    - left. exists (message D o j). split; [exact R|apply message_hashes; exact S].
    - right. left. auto.
  Qed.
  Theorem raw_vc run past pk s e future r : Forall (act_wf D) run -> sha256_size D -> jcs_numbers D ->
    run = past ++ Event D (VerifiesVc D pk s e) :: future ->
    verify_proof D (vc_proofable D) pk s e = Ok r -> verified r = true ->
    exists w o sig, document r = Some w /\ carried D (vc_proofable D) s o sig /\ p_purpose o = e /\
      ((exists kp v, In (Event D (Signs D kp (SignVc v o))) past /\ ed_pub_bytes D (ed_pub_key D kp) = ed_pub_bytes D pk /\
          signs_ok D kp (SignVc v o) = true /\ vc_renumbered (equal_canonical D) v w /\
          (all_numbers (fun _ => False) (vc_subject v) -> w = v)) \/
       (exists m, signed_raw D pk past m /\ two_hashes D o (vc_json w) m) \/
       raw_attack D pk past o (vc_json w) sig).
  Proof.
    intros F S N -> V T. apply Forall_app in F as [F _].
    destruct (@world_vc D (events D past) pk s e r S N (events_wf F) V T) as (w & o & sig & Ed & Ec & Ep & H). exists w, o, sig. do 3 (split; [assumption|]).
    destruct H as [(kp & v & I & H)|H]; [left; exists kp, v; split; [apply events_in; exact I|exact H]|right]. apply attack_split; assumption.
  Qed.
  Theorem raw_vp run past pk s e future r : Forall (act_wf D) run -> sha256_size D -> jcs_numbers D ->
    run = past ++ Event D (VerifiesVp D pk s e) :: future ->
    verify_proof D (vp_proofable D) pk s e = Ok r -> verified r = true ->
    exists w o sig, document r = Some w /\ carried D (vp_proofable D) s o sig /\ p_purpose o = e /\
      ((exists kp v, In (Event D (Signs D kp (SignVp v o))) past /\ ed_pub_bytes D (ed_pub_key D kp) = ed_pub_bytes D pk /\
          signs_ok D kp (SignVp v o) = true /\ vp_renumbered (equal_canonical D) v w /\
          (Forall (fun c => all_numbers (fun _ => False) (vc_subject c)) (vp_credentials v) -> w = v)) \/
       (exists m, signed_raw D pk past m /\ two_hashes D o (vp_json w) m) \/
       raw_attack D pk past o (vp_json w) sig).
  Proof.
    intros F S N -> V T. apply Forall_app in F as [F _].
    destruct (@world_vp D (events D past) pk s e r S N (events_wf F) V T) as (w & o & sig & Ed & Ec & Ep & H). exists w, o, sig. do 3 (split; [assumption|]).
    destruct H as [(kp & v & I & H)|H]; [left; exists kp, v; split; [apply events_in; exact I|exact H]|right]. apply attack_split; assumption.
  Qed.

  Theorem raw_makes_vc (a : account D) v o : ed_correct D -> sha256_size D -> vc_wf D v -> proof_wf o -> (depth (vc_subject v) <= 126)%nat ->
    vc_proof v = None -> p_value o = [] -> options_ok D o -> p_purpose o <> Unknown -> vc_complete v ->
    exists m, two_hashes D o (vc_json v) m /\
    exists t, vc_to_json D (vc_with_proof v (Some (with_value o (mb_encode58 (account_sign a m))))) = Ok (JSONValue t) /\
    forall pk, pk = account_pubkey a -> signed_by D pk (events D [SignsRaw D a m; Event D (VerifiesVc D pk t (p_purpose o))]) = [] /\
      verify_proof D (vc_proofable D) pk t (p_purpose o) = Ok {| verified := true; document := Some v |}.
  Proof.
    intros E S W Wo Dp N Vo O U C. exists (message D o (vc_json v)). split; [apply message_hashes; exact S|].
    destruct (@doc_transport _ _ _ _ _ _ _ _ _ (vc_doc_laws D) (acc_pair a) v o _ E W Wo Dp N Vo
      (proj2 (@doc_add_proof _ _ _ _ _ _ _ _ _ (vc_doc_laws D) (acc_pair a) v o _) (conj O (conj U (conj C eq_refl))))) as (t & T & V).
    exists t. split; [exact T|]. intros pk ->. split; [reflexivity|exact V].
  Qed.
  Theorem raw_makes_vp (a : account D) v o : ed_correct D -> sha256_size D -> vp_wf D v -> proof_wf o -> Forall (fun c => (depth (vc_subject c) <= 124)%nat) (vp_credentials v) ->
    vp_proof v = None -> p_value o = [] -> options_ok D o -> p_purpose o <> Unknown -> vp_complete v ->
    exists m, two_hashes D o (vp_json v) m /\
    exists t, vp_to_json D (vp_with_proof v (Some (with_value o (mb_encode58 (account_sign a m))))) = Ok (JSONValue t) /\
    forall pk, pk = account_pubkey a -> signed_by D pk (events D [SignsRaw D a m; Event D (VerifiesVp D pk t (p_purpose o))]) = [] /\
      verify_proof D (vp_proofable D) pk t (p_purpose o) = Ok {| verified := true; document := Some v |}.
  Proof.
    intros E S W Wo Dp N Vo O U C. exists (message D o (vp_json v)). split; [apply message_hashes; exact S|].
    destruct (@doc_transport _ _ _ _ _ _ _ _ _ (vp_doc_laws D) (acc_pair a) v o _ E W Wo Dp N Vo
      (proj2 (@doc_add_proof _ _ _ _ _ _ _ _ _ (vp_doc_laws D) (acc_pair a) v o _) (conj O (conj U (conj C eq_refl))))) as (t & T & V).
    exists t. split; [exact T|]. intros pk ->. split; [reflexivity|exact V].
  Qed.
  Theorem proof_is_raw_vc (a : account D) v o v' : sha256_size D -> add_proof D (vc_proofable D) (acc_pair a) v o = Ok v' ->
    exists m p, two_hashes D o (vc_json v) m /\ vc_proof v' = Some p /\ mb_decode (mb_other D) (p_value p) = Some (Base58Btc, account_sign a m).
  Proof.
    intros S H. apply (@doc_add_proof _ _ _ _ _ _ _ _ _ (vc_doc_laws D)) in H as (_ & _ & _ & ->). exists (message D o (vc_json v)). eexists.
    split; [apply message_hashes; exact S|]. split; [reflexivity|]. apply mb_decode_encode58.
  Qed.
  Theorem proof_is_raw_vp (a : account D) v o v' : sha256_size D -> add_proof D (vp_proofable D) (acc_pair a) v o = Ok v' ->
    exists m p, two_hashes D o (vp_json v) m /\ vp_proof v' = Some p /\ mb_decode (mb_other D) (p_value p) = Some (Base58Btc, account_sign a m).
  Proof.
    intros S H. apply (@doc_add_proof _ _ _ _ _ _ _ _ _ (vp_doc_laws D)) in H as (_ & _ & _ & ->). exists (message D o (vp_json v)). eexists.
    split; [apply message_hashes; exact S|]. split; [reflexivity|]. apply mb_decode_encode58.
  Qed.
End Raw.
