(** Proofs of C72 and C73: an accepted document is the signed one but for numbers; connection credentials. *)
From Coq Require Import Permutation.
From Verif Require Import Base BaseFacts Codec CodecFacts DidFacts Json JsonParse Deps Types Proof Vc Suite UserConnection JsonFacts JsonParseFacts ParseFacts
  JsonSpec VcSpec Spec ReadFacts VcFacts SuiteSpec SuiteFacts MiscSpec MiscFacts FlowSpec CanonSpec ConnSpec CanonFacts.
Set Implicit Arguments.
Local Open Scope nat_scope.

Lemma increasing_perm l1 : forall l2, increasing l1 -> increasing l2 -> Permutation l1 l2 -> l1 = l2.
Proof.
  induction l1 as [|a l1 IH]; intros l2 I1 I2 P; [apply Permutation_nil in P; auto|].
  destruct l2 as [|b l2]; [symmetry in P; apply Permutation_nil in P; discriminate|].
  cbn in I1, I2. destruct I1 as [F1 I1], I2 as [F2 I2]. rewrite Forall_forall in F1, F2.
  assert (E : a = b).
  { assert (A : In a (b :: l2)) by (eapply Permutation_in; [exact P|left; reflexivity]).
    assert (C : In b (a :: l1)) by (eapply Permutation_in; [symmetry; exact P|left; reflexivity]).
    destruct A as [->|A]; [reflexivity|]. destruct C as [->|C]; [reflexivity|].
    specialize (F1 _ C). specialize (F2 _ A). rewrite bytes_compare_antisym, F2 in F1. discriminate. }
  subst b. f_equal. apply IH; auto. eapply Permutation_cons_inv. exact P.
Qed.
Lemma pair_members (Q : json -> json -> Prop) (m1 m2 : list (bytes * json)) : map fst m1 = map fst m2 -> NoDup (map fst m2) ->
  Forall (fun kv => exists v2, In (fst kv, v2) m2 /\ Q (snd kv) v2) m1 -> Forall2 (fun a b => fst a = fst b /\ Q (snd a) (snd b)) m1 m2.
Proof.
  revert m2. induction m1 as [|[k v] m1 IH]; intros [|[k2 v2] m2] E N F; try discriminate; constructor.
  - cbn in E. injection E as <- E. inversion F as [|? ? (v' & [X|X] & H) _]; subst; cbn in *.
    + injection X as <-. auto.
    + exfalso. inversion N as [|? ? Y _]; subst. apply Y. apply in_map_iff. exists (k, v'). auto.
  - cbn in E. injection E as <- E. inversion N as [|? ? Y N']; subst. apply IH; [exact E|exact N'|].
    inversion F as [|? ? _ F']; subst. rewrite Forall_forall in F' |- *. intros kv I. destruct (F' kv I) as (v' & [X|X] & H); [|eauto].
    exfalso. apply Y. rewrite <- E. injection X as X _. rewrite X. apply in_map. exact I.
Qed.
Section Same.
  Variables (num : number -> bytes) (P Q : number -> Prop).
  Theorem same_renumbered j1 : forall j2, val_ok P j1 -> val_ok Q j2 -> same num j1 j2 -> renumbered (fun a b => num a = num b) j1 j2.
  Proof.
    induction j1 as [|b|n|s|l IH|m IH] using json_ind'; intros [|b2|n2|s2|l2|m2] V1 V2 S; try contradiction; try (cbn in S; subst; constructor; auto; fail).
    - constructor. rewrite same_arr in S. apply val_ok_arr in V1, V2. revert V1 V2 IH. induction S; intros V1 V2 IH; constructor.
      + inversion V1; inversion V2; inversion IH; subst. auto.
      + inversion V1; inversion V2; inversion IH; subst. auto.
    - constructor. rewrite same_obj in S. destruct S as [L F]. apply val_ok_obj in V1 as [I1 V1], V2 as [I2 V2].
      pose proof (increasing_nodup _ I1) as N1. pose proof (increasing_nodup _ I2) as N2.
      apply pair_members; [|exact N2|].
      + apply increasing_perm; auto. apply NoDup_Permutation_bis; [exact N1|rewrite !map_length; lia|].
        intros k Hk. apply in_map_iff in Hk as (kv & <- & I). rewrite Forall_forall in F. destruct (F kv I) as (v2 & I' & _).
        apply in_map_iff. exists (fst kv, v2). auto.
      + rewrite Forall_forall in *. intros kv I. destruct (F kv I) as (v2 & I' & H). exists v2. split; [exact I'|].
        apply (IH kv I); [apply V1; exact I|apply (V2 _ I')|exact H].
  Qed.
End Same.

Lemma renumbered_none (R : number -> number -> Prop) j : forall j', all_numbers (fun _ => False) j -> renumbered R j j' -> j' = j.
Proof.
  induction j as [|b|n|s|l IH|m IH] using json_ind'; intros j' N H; inversion H; subst; try reflexivity.
  - destruct N.
  - f_equal. cbn [all_numbers] in N. match goal with X : Forall2 _ _ _ |- _ => clear H; revert N IH; induction X as [|x y ? ? E X IHX]; intros N IH; [reflexivity|] end.
    inversion IH; subst. destruct N as [N1 N2]. f_equal; [auto|]. apply IHX; assumption.
  - f_equal. cbn [all_numbers] in N. match goal with X : Forall2 _ _ _ |- _ => clear H; revert N IH; induction X as [|[k v] [k' v'] ? ? [E Y] X IHX]; intros N IH; [reflexivity|] end.
    inversion IH; subst. cbn in E, Y. subst k'. destruct N as [N1 N2]. f_equal; [f_equal; auto|]. apply IHX; assumption.
Qed.

(** ** Accepted documents (C72) *)
Section Accepted.
  Variable D : deps.
  Lemma any_floats : floats_ok (fun _ => True) (f64_parse D). Proof. repeat intro. exact I. Qed.
  Lemma any_ints : ints_ok (fun _ => True). Proof. repeat split. Qed.
  Lemma same_vc_renumbered v w : vc_shape (fun _ => True) v -> vc_shape (fun _ => True) w -> same_vc D v w -> vc_renumbered (equal_canonical D) v w.
  Proof.
    intros (_ & _ & V & _) (_ & _ & W & _) (H1 & H2 & H3 & H4 & H5 & H6). exists (vc_subject w).
    split; [exact (@same_renumbered _ _ _ _ _ V W H3)|]. destruct v, w; cbn in *. unfold with_subject; cbn. congruence.
  Qed.
  Lemma same_vp_renumbered v w : vp_shape (fun _ => True) v -> vp_shape (fun _ => True) w -> same_vp D v w -> vp_renumbered (equal_canonical D) v w.
  Proof.
    intros (_ & _ & V & _) (_ & _ & W & _) (H1 & H2 & H3 & H4 & H5). exists (vp_credentials w).
    split; [|destruct v, w; cbn in *; congruence]. revert V W. induction H3; intros V W; constructor; inversion V; inversion W; subst; auto using same_vc_renumbered.
  Qed.
  Lemma vc_with_none_shape v : vc_shape (fun _ => True) v -> vc_shape (fun _ => True) (vc_with_proof v None).
  Proof. intros (H1 & H2 & H3 & _ & H5 & H6). repeat split; assumption || exact I. Qed.
  Lemma vp_with_none_shape v : vp_shape (fun _ => True) v -> vp_shape (fun _ => True) (vp_with_proof v None).
  Proof. intros (H1 & H2 & H3 & _ & H5). repeat split; assumption || exact I. Qed.
  Theorem vc_accepted pk history s e r : sha256_size D -> jcs_numbers D -> Forall signing_wf history ->
    verify_proof D (vc_proofable D) pk s e = Ok r -> verified r = true ->
    exists w o sig, document r = Some w /\ carried D (vc_proofable D) s o sig /\ p_purpose o = e /\
      ((exists v, In (SignVc v o) history /\ vc_renumbered (equal_canonical D) v w /\
          (all_numbers (fun _ => False) (vc_subject v) -> w = v)) \/
       impersonated D pk history o (vc_json w) sig).
  Proof.
    intros Hs Hn F H Hr. destruct (vc_tamper Hs Hn history H Hr) as (v & p & b & sig & Pv & Pp & Pm & Ed & Pe & _ & [(v0 & I & Sm)|X]);
      exists (vc_with_proof v None), (with_value p []), sig; (split; [exact Ed|]); (split; [exists v, p, b; auto|]); (split; [exact Pe|]); [left|right; exact X].
    exists v0. split; [exact I|].
    pose proof (proj1 (Forall_forall _ _) F _ I) as W. cbn in W.
    pose proof (vc_with_none_shape (proj1 (vc_parsed (D := D) any_floats any_ints Pv))) as W'.
    pose proof (same_vc_renumbered W W' Sm) as R. split; [exact R|]. intros N. destruct R as (j & Hj & E).
    rewrite E. apply renumbered_none in Hj; [|exact N]. rewrite Hj. destruct v0; reflexivity.
  Qed.
  Theorem vp_accepted pk history s e r : sha256_size D -> jcs_numbers D -> Forall signing_wf history ->
    verify_proof D (vp_proofable D) pk s e = Ok r -> verified r = true ->
    exists w o sig, document r = Some w /\ carried D (vp_proofable D) s o sig /\ p_purpose o = e /\
      ((exists v, In (SignVp v o) history /\ vp_renumbered (equal_canonical D) v w /\
          (Forall (fun c => all_numbers (fun _ => False) (vc_subject c)) (vp_credentials v) -> w = v)) \/
       impersonated D pk history o (vp_json w) sig).
  Proof.
    intros Hs Hn F H Hr. destruct (vp_tamper Hs Hn history H Hr) as (v & p & b & sig & Pv & Pp & Pm & Ed & Pe & _ & [(v0 & I & Sm)|X]);
      exists (vp_with_proof v None), (with_value p []), sig; (split; [exact Ed|]); (split; [exists v, p, b; auto|]); (split; [exact Pe|]); [left|right; exact X].
    exists v0. split; [exact I|].
    pose proof (proj1 (Forall_forall _ _) F _ I) as W. cbn in W.
    pose proof (vp_with_none_shape (proj1 (vp_parsed (D := D) any_floats any_ints Pv))) as W'.
    pose proof (same_vp_renumbered W W' Sm) as R. split; [exact R|]. intros N. destruct R as (cs & Hc & E).
    rewrite E. assert (C : cs = vp_credentials v0).
    { clear -N Hc. induction Hc as [|c c' l l' (j & Hj & ->)]; [reflexivity|]. inversion N; subst. f_equal; [|auto].
      apply renumbered_none in Hj; [|assumption]. rewrite Hj. destruct c; reflexivity. }
    rewrite C. destruct v0; reflexivity.
  Qed.

  (** ** Connection credentials (C73) *)
  Lemma connection_reads a d : utf8 a -> utf8 d -> uc_from_slice D (json_text (serde_number (f64_text D)) (uc_json a d)) = Some (connection a d).
  Proof.
    intros Ha Hd. destruct (uc_round D (c := connection a d) Ha Hd) as (t & E & R). rewrite uc_text in E. apply ok_inj, jv_inj in E. cbn [user_agent_address user_did uc_ctx user_connection_credential connection] in E.
    rewrite E. exact R.
  Qed.
  Lemma connection_wf a d : utf8 a -> utf8 d -> subject_wf D (uc_json a d).
  Proof.
    intros Ha Hd. unfold subject_wf, uc_json. do 2 (rewrite value_ok_obj; split; [constructor; constructor|]; constructor; [|constructor]; split; [reflexivity|]; cbn [snd]).
    rewrite value_ok_obj. split; [repeat constructor|]. constructor; [split; [reflexivity|exact Ha]|]. constructor; [split; [reflexivity|exact Hd]|constructor].
  Qed.
  Theorem connection_sent kp v o a d : ed_correct D -> vc_wf D v -> utf8 a -> utf8 d -> vc_contexts v <> [] -> vc_types v <> [] -> vc_proof v = None ->
    proof_wf o -> p_value o = [] -> options_ok D o -> p_purpose o <> Unknown ->
    exists v' t w, add_proof D (vc_proofable D) kp (vc_set_credential v (uc_json a d)) o = Ok v' /\ vc_to_json D v' = Ok (JSONValue t) /\
      verify_proof D (vc_proofable D) (ed_pub_key D kp) t (p_purpose o) = Ok {| verified := true; document := Some w |} /\
      uc_from_slice D (json_text (serde_number (f64_text D)) (vc_subject w)) = Some (connection a d).
  Proof.
    intros Hed (W1 & W2 & W3 & W4 & W5 & W6) Ha Hd C1 C2 Hp Wo Hv O U.
    remember (vc_set_credential v (uc_json a d)) as c eqn:Ec.
    assert (Sc : vc_subject c = uc_json a d) by (rewrite Ec; reflexivity).
    assert (Cc : vc_complete c) by (rewrite Ec; split; [exact C1|]; split; [exact C2|discriminate]).
    assert (W : vc_wf D c).
    { rewrite Ec. split; [exact W1|]. split; [exact W2|]. split; [exact (connection_wf Ha Hd)|]. split; [exact W4|]. split; [exact W5|exact W6]. }
    assert (Pc : vc_proof c = None) by (rewrite Ec; exact Hp). clear Ec.
    assert (A : exists v', add_proof D (vc_proofable D) kp c o = Ok v') by (eexists; apply (doc_add_proof (vc_doc_laws D)); split; [exact O|]; split; [exact U|]; split; [exact Cc|reflexivity]).
    destruct A as (v' & A). assert (Hdp : depth (vc_subject c) <= 126) by (rewrite Sc; cbn; lia).
    destruct (doc_transport (vc_doc_laws D) Hed W Wo Hdp Pc Hv A) as (t & H2 & H3).
    exists v', t, c. repeat (split; [assumption|]). rewrite Sc. exact (connection_reads Ha Hd).
  Qed.
  Lemma connection_numbers a d : all_numbers (fun _ => False) (uc_json a d). Proof. cbn. tauto. Qed.
  Theorem connection_bound pk history s e r : sha256_size D -> jcs_numbers D ->
    Forall (fun x => exists v o a d, x = SignVc v o /\ vc_shape (fun _ => True) v /\ vc_subject v = uc_json a d) history ->
    verify_proof D (vc_proofable D) pk s e = Ok r -> verified r = true ->
    exists w o sig, document r = Some w /\ carried D (vc_proofable D) s o sig /\ p_purpose o = e /\
      ((exists a d, In (SignVc w o) history /\ vc_subject w = uc_json a d /\
         uc_from_slice D (json_text (serde_number (f64_text D)) (vc_subject w)) = Some (connection a d)) \/
      impersonated D pk history o (vc_json w) sig).
  Proof.
    intros Hs Hn F H Hr.
    destruct (@vc_accepted pk history s e r Hs Hn) as (w & o & sig & Ed & Ec & Ep & [(v & I & R & N)|X]); auto.
    - eapply Forall_impl; [|exact F]. intros x (v & o & a & d & -> & W & _). exact W.
    - exists w, o, sig. do 3 (split; [assumption|]). left. pose proof (proj1 (Forall_forall _ _) F _ I) as (v1 & o1 & a & d & E & W & Sj). inversion E; subst v1 o1.
      assert (Ew : w = v) by (apply N; rewrite Sj; apply connection_numbers). subst w.
      exists a, d. do 2 (split; [assumption|]). rewrite Sj. destruct W as (_ & _ & W & _). rewrite Sj in W. 
      apply connection_reads; cbn in W; tauto.
    - exists w, o, sig. auto.
  Qed.
End Accepted.
