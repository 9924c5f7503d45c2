(** Proofs of C76: options built by setters. *)
From Verif Require Import Base BaseFacts Codec Json Deps Types Proof Suite JsonSpec Spec DidFacts VcSpec VcFacts SuiteSpec SuiteFacts DocFacts
  GenericSpec GenericFacts BuiltSpec.
Set Implicit Arguments.

Section Last.
  Variables (A : Type) (mk : bytes -> proof_call) (pick : proof_call -> option A) (f : bytes -> A) (init : A).
  Hypotheses (Pm : forall x, pick (mk x) = Some (f x)) (Po : forall c, (forall x, c <> mk x) -> pick c = None)
             (Dec : forall c, (exists x, c = mk x) \/ (forall x, c <> mk x)).
  Lemma last_set_cases cs : (exists x, set_last mk cs x /\ last_set pick init cs = f x) \/ (never_set mk cs /\ last_set pick init cs = init).
  Proof.
    induction cs as [|c cs IH] using rev_ind; [right; split; [intros y []|reflexivity]|]. rewrite last_set_app.
    destruct (Dec c) as [[x ->]|N].
    - left. exists x. rewrite Pm. split; [|reflexivity]. exists cs, []. split; [reflexivity|intros y []].
    - rewrite (Po N). destruct IH as [(x & (a & b & -> & H) & E)|(H & E)]; [left|right].
      + exists x. split; [|exact E]. exists a, (b ++ [c]). rewrite <- app_assoc. split; [reflexivity|].
        intros y I. apply in_app_or in I as [I|[I|[]]]; [exact (H y I)|exact (N y I)].
      + split; [|exact E]. intros y I. apply in_app_or in I as [I|[I|[]]]; [exact (H y I)|exact (N y I)].
  Qed.
  Lemma set_last_fun : (forall x y, mk x = mk y -> x = y) -> forall cs x y, set_last mk cs x -> set_last mk cs y -> x = y.
  Proof.
    intros Inj cs. induction cs as [|c cs IH] using rev_ind; intros x y (a & b & E & H) (a' & b' & E' & H').
    { destruct a; discriminate. }
    destruct b as [|c1 b _] using rev_ind; destruct b' as [|c2 b' _] using rev_ind.
    - rewrite E in E'. apply app_inj_tail in E' as [_ E']. auto.
    - rewrite app_comm_cons, app_assoc in E'. apply app_inj_tail in E' as [_ <-]. apply app_inj_tail in E as [_ ->].
      exfalso. apply (H' x), in_or_app. right; left; reflexivity.
    - rewrite app_comm_cons, app_assoc in E. apply app_inj_tail in E as [_ <-]. apply app_inj_tail in E' as [_ ->].
      exfalso. apply (H y), in_or_app. right; left; reflexivity.
    - rewrite app_comm_cons, app_assoc in E, E'. apply app_inj_tail in E as [E _], E' as [E' _].
      apply IH; [exists a, b|exists a', b']; (split; [assumption|]); intros z I; [apply (H z)|apply (H' z)]; apply in_or_app; auto.
  Qed.
  Lemma set_never cs x : set_last mk cs x -> ~ never_set mk cs.
  Proof. intros (a & b & -> & _) N. apply (N x), in_or_app. right; left; reflexivity. Qed.
End Last.

Ltac setter := first [reflexivity | intros c N; destruct c; try reflexivity; exfalso; eapply N; reflexivity |
  intros c; destruct c; try (right; discriminate); left; eexists; reflexivity | let H := fresh in intros ? ? H; injection H; auto].
Lemma typ_set i cs : (exists x, set_last PfTyp cs x /\ last_set pf_typ i cs = x) \/ (never_set PfTyp cs /\ last_set pf_typ i cs = i).
Proof. apply (@last_set_cases _ _ _ (fun x => x)); setter. Qed.
Lemma sui_set i cs : (exists x, set_last PfCryptosuite cs x /\ last_set pf_sui i cs = Some x) \/ (never_set PfCryptosuite cs /\ last_set pf_sui i cs = i).
Proof. apply (@last_set_cases _ _ _ (Some)); setter. Qed.
Lemma cre_set i cs : (exists x, set_last PfCreated cs x /\ last_set pf_cre i cs = Some x) \/ (never_set PfCreated cs /\ last_set pf_cre i cs = i).
Proof. apply (@last_set_cases _ _ _ (Some)); setter. Qed.
Lemma pur_set i cs : (exists x, set_last PfPurpose cs x /\ last_set pf_pur i cs = purpose_from x) \/ (never_set PfPurpose cs /\ last_set pf_pur i cs = i).
Proof. apply (@last_set_cases _ _ _ (purpose_from)); setter. Qed.

Definition last_is mk cs x (d : Prop) : Prop := set_last mk cs x \/ (never_set mk cs /\ d).
Lemma typ_iff i cs t : last_set pf_typ i cs = t <-> last_is PfTyp cs t (i = t).
Proof.
  destruct (typ_set i cs) as [(x & S & E)|(N & E)]; rewrite E; unfold last_is; split.
  - intros <-. auto.
  - intros [S'|[N _]]; [|destruct (set_never S N)]. eapply set_last_fun; [|exact S|exact S']. setter.
  - auto.
  - intros [S|[_ H]]; [destruct (set_never S N)|exact H].
Qed.
Lemma sui_iff i cs t : last_set pf_sui i cs = Some t <-> last_is PfCryptosuite cs t (i = Some t).
Proof.
  destruct (sui_set i cs) as [(x & S & E)|(N & E)]; rewrite E; unfold last_is; split.
  - intros H. apply some_inj in H. subst. auto.
  - intros [S'|[N _]]; [|destruct (set_never S N)]. f_equal. eapply set_last_fun; [|exact S|exact S']. setter.
  - auto.
  - intros [S|[_ H]]; [destruct (set_never S N)|exact H].
Qed.
Lemma cre_iff cs t : last_set pf_cre None cs = Some t <-> set_last PfCreated cs t.
Proof.
  destruct (cre_set None cs) as [(x & S & E)|(N & E)]; rewrite E; split.
  - intros H. apply some_inj in H. subst. auto.
  - intros S'. f_equal. eapply set_last_fun; [|exact S|exact S']. setter.
  - discriminate.
  - intros S. destruct (set_never S N).
Qed.
Lemma pur_iff cs : last_set pf_pur Unknown cs <> Unknown <-> exists s u, set_last PfPurpose cs s /\ named_purpose s u /\ u <> Unknown.
Proof.
  destruct (pur_set Unknown cs) as [(x & S & E)|(N & E)]; rewrite E; split.
  - intros H. exists x, (purpose_from x). split; [exact S|]. split; [apply purpose_from_spec; reflexivity|exact H].
  - intros (s & u & S' & Nu & H). assert (x = s) as <- by (eapply set_last_fun; [|exact S|exact S']; setter).
    apply purpose_from_spec in Nu. congruence.
  - congruence.
  - intros (s & u & S & _). destruct (set_never S N).
Qed.

Theorem default_fields cs : proof_run proof_default cs =
  {| p_id := []; p_typ := last_set pf_typ [] cs; p_purpose := last_set pf_pur Unknown cs; p_value := last_set pf_val [] cs; p_method := last_set pf_met [] cs;
     p_created := last_set pf_cre None cs; p_expires := last_set pf_exp None cs; p_cryptosuite := last_set pf_sui None cs |}.
Proof. rewrite proof_builder_from. reflexivity. Qed.

Section Built.
  Variable D : deps.
  Lemma signs_iff T (P : proofable T) kp v o :
    (exists v', add_proof D P kp v o = Ok v') <-> options_ok D o /\ p_purpose o <> Unknown /\ exists t, pf_to_jcs P v = Ok t.
  Proof.
    split.
    - intros (v' & H). apply any_add in H as (H1 & H2 & t & H3 & _). eauto.
    - intros (H1 & H2 & t & H3). eexists. apply any_add. eauto 6.
  Qed.
  Theorem default_signs T (P : proofable T) kp v cs :
    (exists v', add_proof D P kp v (proof_run proof_default cs) = Ok v') <->
    set_last PfTyp cs (B "DataIntegrityProof") /\ set_last PfCryptosuite cs (B "eddsa-jcs-2022") /\
    (exists c z, set_last PfCreated cs c /\ datetime D c = Ok z) /\
    (exists s u, set_last PfPurpose cs s /\ named_purpose s u /\ u <> Unknown) /\ exists t, pf_to_jcs P v = Ok t.
  Proof.
    rewrite <- pur_iff. rewrite signs_iff, proof_builder_from. unfold options_ok, proof_default. cbn [p_typ p_purpose p_cryptosuite p_created].
    rewrite typ_iff, sui_iff. setoid_rewrite cre_iff. unfold last_is. split.
    - intros (([H1|[_ H1]] & [H2|[_ H2]] & H3) & H4 & H5); try discriminate. auto.
    - intros (H1 & H2 & H3 & H4 & H5). auto.
  Qed.
  Theorem new_signs T (P : proofable T) kp v id cs :
    (exists v', add_proof D P kp v (proof_run (proof_new id) cs) = Ok v') <->
    (never_set PfTyp cs \/ set_last PfTyp cs (B "DataIntegrityProof")) /\ (never_set PfCryptosuite cs \/ set_last PfCryptosuite cs (B "eddsa-jcs-2022")) /\
    (exists c z, set_last PfCreated cs c /\ datetime D c = Ok z) /\
    (exists s u, set_last PfPurpose cs s /\ named_purpose s u /\ u <> Unknown) /\ exists t, pf_to_jcs P v = Ok t.
  Proof.
    rewrite <- pur_iff. rewrite signs_iff, proof_builder_from. unfold options_ok, proof_new. cbn [p_typ p_purpose p_cryptosuite p_created].
    rewrite typ_iff, sui_iff. setoid_rewrite cre_iff. unfold last_is. split.
    - intros ((H1 & H2 & H3) & H4 & H5). split; [tauto|]. split; [tauto|]. auto.
    - intros (H1 & H2 & H3 & H4 & H5). split; [|auto].
      split; [|split; [|exact H3]]; [destruct H1|destruct H2]; auto.
  Qed.
  (** Options in which something was never set are never accepted either. *)
  Theorem unset_rejected T (P : proofable T) cs v s pk e : pf_parse_json_bytes P s = Ok v -> pf_get_proof P v = Some (proof_run proof_default cs) ->
    never_set PfTyp cs \/ never_set PfCryptosuite cs \/ never_set PfCreated cs \/ never_set PfPurpose cs ->
    exists m, verify_proof D P pk s e = Err m.
  Proof.
    intros Hp Hg N. destruct (verify_proof D P pk s e) as [r|m] eqn:V; [exfalso|eauto].
    apply any_verify in V as (v' & p & b & sig & t & x & E1 & E2 & O & E3 & E4 & _). rewrite Hp in E1. apply ok_inj in E1. subst v'.
    rewrite Hg in E2. apply some_inj in E2. subst p. unfold options_ok in O. rewrite proof_builder_from in O, E3. unfold proof_default in *.
    cbn [p_typ p_purpose p_cryptosuite p_created] in *. rewrite typ_iff, sui_iff in O. setoid_rewrite cre_iff in O. unfold last_is in O.
    destruct O as ([O1|[_ O1]] & [O2|[_ O2]] & c & z & O3 & _); try discriminate.
    assert (U : last_set pf_pur Unknown cs <> Unknown) by congruence. apply pur_iff in U as (w & u & U & _).
    destruct N as [N|[N|[N|N]]]; [exact (set_never O1 N)|exact (set_never O2 N)|exact (set_never O3 N)|exact (set_never U N)].
  Qed.
End Built.
