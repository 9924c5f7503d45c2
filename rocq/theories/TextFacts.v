(** Proofs for C43 and C44. *)
From Coq Require Import Permutation.
From Verif Require Import Base BaseFacts Codec Json JsonParse Deps Types Proof Vc Suite Grammar TextSpec JsonFacts JsonParseFacts SchemaFacts ShapeFacts ParseFacts GrammarFacts.
Set Implicit Arguments.
Unset Strict Implicit.
Local Open Scope nat_scope.

Lemma traverse_iff {A C} (g : A -> option C) l : forall ys, traverse g l = Some ys <-> Forall2 (fun x y => g x = Some y) l ys.
Proof.
  induction l as [|x l IH]; intros ys; cbn [traverse].
  - split; [intros H; injection H as <-; constructor|]. intros H. inversion H. reflexivity.
  - split.
    + destruct (g x) as [y|] eqn:E; [|discriminate]. destruct (traverse g l) as [ys'|] eqn:E'; [|discriminate].
      intros H. injection H as <-. constructor; [exact E|]. apply IH. reflexivity.
    + intros H. inversion H as [|? ? ? ? E F]; subst. rewrite E. apply IH in F. rewrite F. reflexivity.
Qed.
Lemma traverse_ext {A C} (g h : A -> option C) l : (forall x, In x l -> g x = h x) -> traverse g l = traverse h l.
Proof.
  induction l as [|x l IH]; intros H; [reflexivity|]. cbn [traverse]. rewrite (H x) by (left; reflexivity).
  rewrite IH; [reflexivity|]. intros y Hy. apply H. right. exact Hy.
Qed.

Lemma Forall2_len {A C} (R : A -> C -> Prop) l l' : Forall2 R l l' -> length l = length l'.
Proof. induction 1; cbn; congruence. Qed.

(** ** C44: the text of a value *)
Section Decodes.
  Variable f64 : bytes -> option N.
  (** [P] is the meaning of [sc] at depth [d]. *)
  Definition decodes {A} (sc : schema) (d : nat) (dat : A -> data) (P : A -> tree -> Prop) : Prop :=
    forall t x, decode f64 sc d t = Some x <-> exists a, x = dat a /\ P a t.
  Lemma dec_string d : decodes SString d DStr is_string.
  Proof.
    intros t x. cbn [decode]. split.
    - destruct t; try discriminate. intros H. apply option_map_some in H. destruct H as (s & H & E). exists s. split; [exact E|]. exists cs. auto.
    - intros (a & -> & cs & -> & ->). reflexivity.
  Qed.
  Lemma dec_value d : decodes SValue d DVal (is_value f64 d).
  Proof.
    intros t x. cbn [decode]. split.
    - destruct (tree_depth t <=? d) eqn:L; [|discriminate]. apply Nat.leb_le in L. intros H. apply option_map_some in H.
      destruct H as (j & H & E). exists j. repeat split; assumption.
    - intros (j & -> & H & L). apply Nat.leb_le in L. rewrite L, H. reflexivity.
  Qed.
  Lemma dec_maybe A sc d (dat : A -> data) P : (forall a, ~ P a TNull) -> decodes sc d dat P -> decodes (SOption sc) d (opt_data dat) (is_maybe P).
  Proof.
    intros N H t x. split.
    - cbn [decode]. intros E. assert (C : (t = TNull /\ x = DNone) \/ exists y, x = DSome y /\ decode f64 sc d t = Some y).
      { destruct t; try (right; apply option_map_some in E; destruct E as (y & E & ->); eauto). left. injection E as <-. auto. }
      destruct C as [(-> & ->)|(y & -> & E1)]; [exists None; split; reflexivity|]. apply H in E1. destruct E1 as (a & -> & Pa). exists (Some a). split; [reflexivity|exact Pa].
    - intros ([a|] & -> & Pa); cbn [is_maybe opt_data] in *.
      + assert (E : decode f64 sc d t = Some (dat a)) by (apply H; eauto). cbn [decode]. rewrite E. destruct t; try reflexivity. exfalso. exact (N _ Pa).
      + subst t. reflexivity.
  Qed.
  Lemma dec_list A sc d (dat : A -> data) P : decodes sc d dat P -> decodes (SVec sc) (S d) (vec_data dat) (is_list P).
  Proof.
    intros H t x. cbn [decode]. split.
    - destruct t as [| | | |w l|]; try discriminate. intros E. apply option_map_some in E. destruct E as (ys & E & ->). apply traverse_iff in E.
      assert (X : exists xs, ys = map dat xs /\ Forall2 (fun x i => P x (i_value i)) xs l).
      { induction E as [|i y l ys Hi E IH]; [exists []; split; [reflexivity|constructor]|]. destruct IH as (xs & -> & F).
        apply H in Hi. destruct Hi as (a & -> & Pa). exists (a :: xs). split; [reflexivity|]. constructor; assumption. }
      destruct X as (xs & -> & F). exists xs. split; [reflexivity|]. exists w, l. auto.
    - intros (xs & -> & w & l & -> & F). unfold vec_data.
      enough (E : traverse (fun x => decode f64 sc d (i_value x)) l = Some (map dat xs)) by (rewrite E; reflexivity).
      apply traverse_iff. induction F as [|a i xs l Pa F IH]; [constructor|]. cbn [map]. constructor; [|exact IH]. apply H. eauto.
  Qed.

  (** One field holding [x]. *)
  Definition field_spec (d : nat) (f : field) (x : data) : member_spec :=
    (field_name f, is_option (snd f) = true /\ x = DNone, fun t => decode f64 (snd f) d t = Some x).
  Lemma field_value_iff d l f x : field_value f64 d l f = Some x <-> has_member l (field_spec d f x).
  Proof.
    unfold field_value, has_member, field_spec. destruct (filter (named (field_name f)) l) as [|m [|m' l']].
    - split.
      + destruct (is_option (snd f)); [|discriminate]. intros H. injection H as <-. auto.
      + intros [(_ & -> & ->)|(m & E & _)]; [reflexivity|discriminate].
    - split; [intros H; right; eauto|]. intros [(E & _)|(m' & E & H)]; [discriminate|]. injection E as <-. exact H.
    - split; [discriminate|]. intros [(E & _)|(m2 & E & H)]; discriminate.
  Qed.
  Definition specs (d : nat) (fs : list field) (xs : list data) : list member_spec := map (fun p => field_spec d (fst p) (snd p)) (combine fs xs).
  Lemma dec_struct fs d t x : decode f64 (SStruct fs) (S d) t = Some x <->
    exists xs, x = DStruct xs /\ length xs = length fs /\ is_object (specs d fs xs) t.
  Proof.
    rewrite decode_struct. split.
    - destruct t as [| | | |w l|w l]; try discriminate.
      + intros E. apply option_map_some in E. destruct E as (xs & E & ->). exists xs. split; [reflexivity|].
        enough (X : length xs = length fs /\ Forall2 (fun f i => snd f (i_value i)) (specs d fs xs) l) by (split; [apply X|right; exists w, l; split; [reflexivity|apply X]]).
        revert l xs E. induction fs as [|f fs IH]; intros [|i l] xs E; cbn [array_fields] in E; try discriminate.
        * injection E as <-. split; [reflexivity|constructor].
        * destruct (decode f64 (snd f) d (i_value i)) as [y|] eqn:Ey; [|discriminate]. destruct (array_fields f64 d fs l) as [ys|] eqn:Es; [|discriminate].
          injection E as <-. apply IH in Es. destruct Es as (L & F). split; [cbn; lia|]. constructor; [exact Ey|exact F].
      + destruct (keys_ok l) eqn:K; [|discriminate]. intros E. apply option_map_some in E. destruct E as (xs & E & ->). exists xs. split; [reflexivity|].
        apply traverse_iff in E. split; [symmetry; exact (Forall2_len E)|]. left. exists w, l. split; [reflexivity|]. split.
        * unfold keys_ok in K. rewrite forallb_forall in K. intros m Hm. specialize (K m Hm). destruct (string_of (m_key m)); [eauto|discriminate].
        * clear K. induction E as [|f y fs ys Hf E IH]; [constructor|]. constructor; [|exact IH]. apply field_value_iff. exact Hf.
    - intros (xs & -> & L & [(w & l & -> & K & F)|(w & l & -> & F)]).
      + replace (keys_ok l) with true.
        * enough (E : traverse (field_value f64 d l) fs = Some xs) by (rewrite E; reflexivity). apply traverse_iff. clear K.
          revert xs L F. induction fs as [|f fs IH]; intros [|y ys] L F; try discriminate; [constructor|]. injection L as L.
          inversion F as [|? ? Hf F']; subst. constructor; [|apply IH; assumption]. apply field_value_iff. exact Hf.
        * symmetry. unfold keys_ok. apply forallb_forall. intros m Hm. destruct (K m Hm) as (k & ->). reflexivity.
      + enough (E : array_fields f64 d fs l = Some xs) by (rewrite E; reflexivity).
        revert xs l L F. induction fs as [|f fs IH]; intros [|y ys] l L F; try discriminate; inversion F as [|? i ? l' Hf F']; subst; [reflexivity|].
        injection L as L. cbn [array_fields]. cbn in Hf. rewrite Hf. rewrite (IH ys l') by assumption. reflexivity.
  Qed.

  (** Replacing the description of a field. *)
  Definition spec_eq (a b : member_spec) : Prop :=
    fst (fst a) = fst (fst b) /\ (snd (fst a) <-> snd (fst b)) /\ forall t, snd a t <-> snd b t.
  Lemma is_object_eq a b t : Forall2 spec_eq a b -> is_object a t -> is_object b t.
  Proof.
    intros F [(w & l & -> & K & H)|(w & l & -> & H)]; [left|right]; exists w, l; split; try reflexivity.
    - split; [exact K|]. clear K. induction F as [|x y a b E F IH]; [constructor|]. inversion H as [|? ? Hx H']; subst. constructor; [|apply IH; assumption].
      destruct x as [[n1 a1] p1], y as [[n2 a2] p2]. destruct E as (E1 & E2 & E3). cbn in E1, E2, E3. subst n2. unfold has_member in *.
      destruct Hx as [(E & Ha)|(m & E & Hp)]; [left|right; exists m]; split; auto; [apply E2; exact Ha|apply E3; exact Hp].
    - revert l H. induction F as [|x y a b E F IH]; intros l H; inversion H as [|? i ? l' Hx H']; subst; [constructor|].
      constructor; [|apply IH; assumption]. apply E. exact Hx.
  Qed.
  Lemma spec_eq_sym a b : spec_eq a b -> spec_eq b a.
  Proof. intros (E1 & E2 & E3). split; [auto|]. split; [tauto|]. intros t. specialize (E3 t). tauto. Qed.
  Lemma specs_eq_sym a b : Forall2 spec_eq a b -> Forall2 spec_eq b a.
  Proof. induction 1; constructor; auto using spec_eq_sym. Qed.

  (** A field described by [P]. *)
  Lemma spec_required A n sk sc d (dat : A -> data) P a : is_option sc = false -> decodes sc d dat P -> (forall a b, dat a = dat b -> a = b) ->
    spec_eq (field_spec d (n, sk, sc) (dat a)) (required n (P a)).
  Proof.
    intros O H I. split; [reflexivity|]. cbn. rewrite O. split; [split; [intros (H1 & _); discriminate|tauto]|].
    intros t. split; [|intros Pa; apply H; eauto]. intros E. apply H in E. destruct E as (b & E & Pb). apply I in E. subst b. exact Pb.
  Qed.
  Lemma spec_optional A n sk sc d (dat : A -> data) P o : decodes (SOption sc) d (opt_data dat) (is_maybe P) -> (forall a b, dat a = dat b -> a = b) ->
    spec_eq (field_spec d (n, sk, SOption sc) (opt_data dat o)) (optional n P o).
  Proof.
    intros H I. split; [reflexivity|]. cbn. split; [destruct o; cbn; split; try tauto; [intros (_ & E)|intros E]; discriminate|].
    intros t. split; [|intros Pa; apply H; eauto]. intros E. apply H in E. destruct E as (b & E & Pb).
    destruct o as [a|], b as [b|]; cbn in E; try discriminate; [|exact Pb]. injection E as E. apply I in E. subst b. exact Pb.
  Qed.
  (** The value of a field is in the range of its description. *)
  Lemma in_range d t fs f x A (dat : A -> data) P : is_object fs t -> In (field_spec d f x) fs -> decodes (snd f) d dat P ->
    (is_option (snd f) = true -> exists a, dat a = DNone) -> exists a, x = dat a.
  Proof.
    intros H Hin Hd Ho. assert (C : (is_option (snd f) = true /\ x = DNone) \/ exists t', decode f64 (snd f) d t' = Some x).
    { destruct H as [(w & l & -> & K & H)|(w & l & -> & H)].
      - rewrite Forall_forall in H. apply H in Hin. destruct Hin as [(_ & C)|(m & _ & E)]; eauto.
      - clear Hd Ho. induction H as [|y i fs l Hy H IH]; [destruct Hin|]. destruct Hin as [->|Hin]; [right; exists (i_value i); exact Hy|auto]. }
    destruct C as [(O & ->)|(t' & E)]; [destruct (Ho O) as (a & E); exists a; auto|]. apply Hd in E. destruct E as (a & E & _). eauto.
  Qed.

  Lemma str_inj (a b : bytes) : DStr a = DStr b -> a = b. Proof. congruence. Qed.
  Lemma val_inj (a b : json) : DVal a = DVal b -> a = b. Proof. congruence. Qed.
  Lemma vec_inj A (dat : A -> data) : (forall a b, dat a = dat b -> a = b) -> forall l l', vec_data dat l = vec_data dat l' -> l = l'.
  Proof.
    intros I l l' E. injection E as E. revert l' E. induction l as [|x l IH]; intros [|y l'] E; try discriminate; [reflexivity|].
    cbn in E. injection E as E1 E2. f_equal; auto.
  Qed.
  Lemma inv_inj A (dat : A -> data) g : (forall a, g (dat a) = Some a) -> forall a b, dat a = dat b -> a = b.
  Proof. intros G a b E. assert (X : Some a = Some b) by (rewrite <- !G, E; reflexivity). congruence. Qed.
  Definition purpose_data (p : purpose) : data := DEnum (purpose_serde p).
  Lemma purpose_inj a b : purpose_data a = purpose_data b -> a = b.
  Proof. destruct a, b; intros H; try reflexivity; exfalso; vm_compute in H; congruence. Qed.

  Lemma dec_purpose d : 1 <= d -> decodes purpose_schema d purpose_data is_purpose.
  Proof.
    intros L t x. destruct d as [|d]; [lia|]. clear L.
    assert (V : forall cs, match string_of cs with Some n => if known_name (map purpose_serde all_purposes) n then Some (DEnum n) else None | None => None end = Some x
                <-> exists p n, x = purpose_data p /\ string_of cs = Some n /\ In (p, n) purpose_names).
    { intros cs. split.
      - destruct (string_of cs) as [n|]; [|discriminate]. destruct (known_name (map purpose_serde all_purposes) n) eqn:K; [|discriminate]. intros E. injection E as <-.
        unfold known_name in K. apply existsb_exists in K. destruct K as (n' & Hn & E). apply bytes_eqb_eq in E. subst n'.
        cbn [map all_purposes purpose_serde] in Hn. unfold purpose_data.
        destruct Hn as [<-|[<-|[<-|[<-|[<-|[<-|[]]]]]]];
          [exists AssertionMethod|exists Authentication|exists KeyAgreement|exists CapabilityDelegation|exists CapabilityInvocation|exists Unknown];
          eexists; (split; [reflexivity|]); (split; [reflexivity|]); unfold purpose_names; cbn [In]; tauto.
      - intros (p & n & -> & -> & Hn). assert (E : n = purpose_serde p).
        { unfold purpose_names in Hn. cbn [In] in Hn. repeat (destruct Hn as [Hn|Hn]; [apply pair_equal_spec in Hn; destruct Hn as (<- & <-); reflexivity|]). destruct Hn. }
        subst n. destruct p; reflexivity. }
    unfold purpose_schema. cbn [decode]. split.
    - destruct t as [| | |cs| |w [|m [|m' l]]]; try discriminate.
      + intros E. apply V in E. destruct E as (p & n & -> & E & Hn). exists p. split; [reflexivity|]. exists cs, n. auto.
      + destruct m as [b cs m1 m2 v a]. cbn [m_value m_key]. destruct v; try discriminate. intros E. apply V in E.
        destruct E as (p & n & -> & E & Hn). exists p. split; [reflexivity|]. exists cs, n. split; [exact E|]. split; [exact Hn|]. right. exists w, b, m1, m2, a. reflexivity.
    - intros (p & E & cs & n & Es & Hn & C). assert (X : exists p n, x = purpose_data p /\ string_of cs = Some n /\ In (p, n) purpose_names) by eauto.
      apply V in X. destruct C as [->|(w & b & m1 & m2 & a & ->)]; exact X.
  Qed.
  Lemma str_nonnull s : ~ is_string s TNull. Proof. intros (cs & E & _). discriminate. Qed.
  Lemma obj_nonnull fs : ~ is_object fs TNull.
  Proof. intros [(w & l & E & _)|(w & l & E & _)]; discriminate. Qed.
  Lemma dec_opt_string d : decodes (SOption SString) d (opt_data DStr) (is_maybe is_string).
  Proof. apply dec_maybe; [exact str_nonnull|apply dec_string]. Qed.
  Lemma dec_strings d : decodes (SVec SString) (S d) (vec_data DStr) (is_list is_string).
  Proof. apply dec_list. apply dec_string. Qed.
  Lemma opt_none A (dat : A -> data) (b : bool) : b = true -> exists a, opt_data dat a = DNone.
  Proof. intros _. exists None. reflexivity. Qed.

  Ltac find_in := first [left; reflexivity | right; find_in].
  Ltac range O vv dec := let a := fresh "a" in let E := fresh "E" in
    edestruct in_range with (x := vv) as (a & E); [exact O | unfold specs; cbn [combine map fst snd In]; find_in | exact dec | first [discriminate | apply opt_none] |]; subst vv.

  Lemma five A (l : list A) n : length l = n -> match n with 5 => exists a b c d e, l = [a; b; c; d; e] | 6 => exists a b c d e f, l = [a; b; c; d; e; f] | 8 => exists a b c d e f g h, l = [a; b; c; d; e; f; g; h] | _ => True end.
  Proof. intros <-. do 9 (try destruct l as [|? l]; try exact I; repeat eexists). Qed.

  Lemma proof_specs d p : 1 <= d ->
    Forall2 spec_eq (specs d [(B "id", false, SString); (B "type", false, SString); (B "proofPurpose", false, purpose_schema);
           (B "proofValue", false, SString); (B "verificationMethod", false, SString);
           (B "created", true, SOption SString); (B "expires", true, SOption SString);
           (B "cryptosuite", true, SOption SString)]
      [DStr (p_id p); DStr (p_typ p); DEnum (purpose_serde (p_purpose p)); DStr (p_value p); DStr (p_method p);
           opt_data DStr (p_created p); opt_data DStr (p_expires p); opt_data DStr (p_cryptosuite p)])
     [required (B "id") (is_string (p_id p)); required (B "type") (is_string (p_typ p));
               required (B "proofPurpose") (is_purpose (p_purpose p)); required (B "proofValue") (is_string (p_value p));
               required (B "verificationMethod") (is_string (p_method p));
               optional (B "created") is_string (p_created p); optional (B "expires") is_string (p_expires p);
               optional (B "cryptosuite") is_string (p_cryptosuite p)].
  Proof.
    intros L. unfold specs. cbn [combine map fst snd].
    repeat (apply Forall2_cons || apply Forall2_nil);
      first [apply spec_required with (dat := DStr); [reflexivity|apply dec_string|exact str_inj]
            |apply spec_required with (dat := purpose_data); [reflexivity|apply dec_purpose; exact L|exact purpose_inj]
            |apply spec_optional with (dat := DStr); [apply dec_opt_string|exact str_inj]].
  Qed.
  Lemma dec_proof d : 2 <= d -> decodes proof_schema d proof_data is_proof.
  Proof.
    intros L. destruct d as [|d]; [lia|]. assert (L1 : 1 <= d) by lia. intros t x. unfold proof_schema. rewrite dec_struct. split.
    - intros (xs & -> & Ln & O). apply five in Ln. cbn in Ln. destruct Ln as (x1 & x2 & x3 & x4 & x5 & x6 & x7 & x8 & ->).
      range O x1 (@dec_string d). range O x2 (@dec_string d). range O x3 (dec_purpose L1). range O x4 (@dec_string d). range O x5 (@dec_string d).
      range O x6 (@dec_opt_string d). range O x7 (@dec_opt_string d). range O x8 (@dec_opt_string d).
      set (v := {| p_id := a; p_typ := a0; p_purpose := a1; p_value := a2; p_method := a3; p_created := a4; p_expires := a5; p_cryptosuite := a6 |}).
      exists v. split; [reflexivity|]. unfold is_proof. eapply is_object_eq; [exact (proof_specs v L1)|exact O].
    - intros (p & -> & O). unfold proof_data. eexists. split; [reflexivity|]. split; [reflexivity|].
      eapply is_object_eq; [apply specs_eq_sym; apply proof_specs; exact L1|exact O].
  Qed.
  Lemma dec_opt_proof d : 2 <= d -> decodes (SOption proof_schema) d (opt_data proof_data) (is_maybe is_proof).
  Proof. intros L. apply dec_maybe; [intros p; apply obj_nonnull|apply dec_proof; exact L]. Qed.
  Lemma proof_inj a b : proof_data a = proof_data b -> a = b. Proof. apply (inv_inj data_proof_inv). Qed.

  Lemma vc_specs d v : 2 <= d ->
    Forall2 spec_eq (specs d [(B "@context", false, SVec SString); (B "type", false, SVec SString);
           (B "credentialSubject", false, SValue); (B "proof", true, SOption proof_schema);
           (B "id", false, SString); (B "issuer", false, SString)]
      [vec_data DStr (vc_contexts v); vec_data DStr (vc_types v); DVal (vc_subject v);
           opt_data proof_data (vc_proof v); DStr (vc_id v); DStr (vc_issuer v)])
     [required (B "@context") (is_list is_string (vc_contexts v)); required (B "type") (is_list is_string (vc_types v));
               required (B "credentialSubject") (is_value f64 d (vc_subject v)); optional (B "proof") is_proof (vc_proof v);
               required (B "id") (is_string (vc_id v)); required (B "issuer") (is_string (vc_issuer v))].
  Proof.
    intros L. destruct d as [|d]; [lia|]. unfold specs. cbn [combine map fst snd].
    repeat (apply Forall2_cons || apply Forall2_nil);
      first [apply spec_required with (dat := DStr); [reflexivity|apply dec_string|exact str_inj]
            |apply spec_required with (dat := vec_data DStr); [reflexivity|apply dec_strings|apply vec_inj; exact str_inj]
            |apply spec_required with (dat := DVal); [reflexivity|apply dec_value|exact val_inj]
            |apply spec_optional with (dat := proof_data); [apply dec_opt_proof; exact L|exact proof_inj]].
  Qed.
  Lemma dec_vc d : 2 <= d -> decodes vc_schema (S d) vc_data (is_vc f64 d).
  Proof.
    intros L t x. unfold vc_schema. rewrite dec_struct. split.
    - intros (xs & -> & Ln & O). apply five in Ln. cbn in Ln. destruct Ln as (x1 & x2 & x3 & x4 & x5 & x6 & ->).
      destruct d as [|d]; [lia|]. range O x1 (@dec_strings d). range O x2 (@dec_strings d). range O x3 (@dec_value (S d)). range O x4 (dec_opt_proof L).
      range O x5 (@dec_string (S d)). range O x6 (@dec_string (S d)).
      set (v := {| vc_contexts := a; vc_types := a0; vc_subject := a1; vc_proof := a2; vc_id := a3; vc_issuer := a4 |}).
      exists v. split; [reflexivity|]. unfold is_vc. eapply is_object_eq; [exact (vc_specs v L)|exact O].
    - intros (p & -> & O). unfold vc_data. eexists. split; [reflexivity|]. split; [reflexivity|].
      eapply is_object_eq; [apply specs_eq_sym; apply vc_specs; exact L|exact O].
  Qed.
  Lemma vc_inj a b : vc_data a = vc_data b -> a = b. Proof. apply (inv_inj data_vc_inv). Qed.
  Lemma dec_vcs d : 2 <= d -> decodes (SVec vc_schema) (S (S d)) (vec_data vc_data) (is_list (is_vc f64 d)).
  Proof. intros L. apply dec_list. apply dec_vc. exact L. Qed.

  Lemma vp_specs d v : 2 <= d ->
    Forall2 spec_eq (specs (S (S d)) [(B "@context", false, SVec SString); (B "type", false, SVec SString);
           (B "verifiableCredential", false, SVec vc_schema); (B "proof", true, SOption proof_schema);
           (B "holder", true, SOption SString)]
      [vec_data DStr (vp_contexts v); vec_data DStr (vp_types v); vec_data vc_data (vp_credentials v);
           opt_data proof_data (vp_proof v); opt_data DStr (vp_holder v)])
     [required (B "@context") (is_list is_string (vp_contexts v)); required (B "type") (is_list is_string (vp_types v));
               required (B "verifiableCredential") (is_list (is_vc f64 d) (vp_credentials v));
               optional (B "proof") is_proof (vp_proof v); optional (B "holder") is_string (vp_holder v)].
  Proof.
    intros L. unfold specs. cbn [combine map fst snd].
    repeat (apply Forall2_cons || apply Forall2_nil);
      first [apply spec_required with (dat := vec_data DStr); [reflexivity|apply dec_strings|apply vec_inj; exact str_inj]
            |apply spec_required with (dat := vec_data vc_data); [reflexivity|apply dec_vcs; exact L|apply vec_inj; exact vc_inj]
            |apply spec_optional with (dat := DStr); [apply dec_opt_string|exact str_inj]
            |apply spec_optional with (dat := proof_data); [apply dec_opt_proof; lia|exact proof_inj]].
  Qed.
  Lemma dec_vp d : 2 <= d -> decodes vp_schema (S (S (S d))) vp_data (is_vp f64 d).
  Proof.
    intros L t x. unfold vp_schema. rewrite dec_struct. split.
    - intros (xs & -> & Ln & O). apply five in Ln. cbn in Ln. destruct Ln as (x1 & x2 & x3 & x4 & x5 & ->).
      range O x1 (@dec_strings (S d)). range O x2 (@dec_strings (S d)). range O x3 (dec_vcs L). range O x4 (dec_opt_proof (le_S _ _ (le_S _ _ L))).
      range O x5 (@dec_opt_string (S (S d))).
      set (v := {| vp_contexts := a; vp_types := a0; vp_credentials := a1; vp_proof := a2; vp_holder := a3 |}).
      exists v. split; [reflexivity|]. unfold is_vp. eapply is_object_eq; [exact (vp_specs v L)|exact O].
    - intros (p & -> & O). unfold vp_data. eexists. split; [reflexivity|]. split; [reflexivity|].
      eapply is_object_eq; [apply specs_eq_sym; apply vp_specs; exact L|exact O].
  Qed.
End Decodes.

Theorem vc_text_iff D s v : vc_parse_json_bytes D s = Ok v <-> text_of (is_vc (f64_parse D) 126 v) s.
Proof.
  unfold vc_parse_json_bytes, text_of. split.
  - destruct (from_slice (f64_parse D) vc_schema s) as [x|] eqn:E; [|discriminate]. apply from_slice_iff in E; [|reflexivity].
    destruct E as (w & t & w' & Bw & T & Bw' & -> & E). apply (dec_vc (f64_parse D) (d := 126)) in E; [|lia]. destruct E as (v' & -> & H).
    rewrite data_vc_inv. cbn [ok_or]. intros E. inversion E; subst v'. exists w, t, w'. auto.
  - intros (w & t & w' & Bw & T & Bw' & -> & H). rewrite (from_slice_tree (f64_parse D) (sc := vc_schema) eq_refl T Bw Bw').
    assert (E : decode (f64_parse D) vc_schema 127 t = Some (vc_data v)) by (apply (dec_vc (f64_parse D) (d := 126)); [lia|eauto]).
    rewrite E, data_vc_inv. reflexivity.
Qed.
Theorem vp_text_iff D s v : vp_parse_json_bytes D s = Ok v <-> text_of (is_vp (f64_parse D) 124 v) s.
Proof.
  unfold vp_parse_json_bytes, text_of. split.
  - destruct (from_slice (f64_parse D) vp_schema s) as [x|] eqn:E; [|discriminate]. apply from_slice_iff in E; [|reflexivity].
    destruct E as (w & t & w' & Bw & T & Bw' & -> & E). apply (dec_vp (f64_parse D) (d := 124)) in E; [|lia]. destruct E as (v' & -> & H).
    rewrite data_vp_inv. cbn [ok_or]. intros E. inversion E; subst v'. exists w, t, w'. auto.
  - intros (w & t & w' & Bw & T & Bw' & -> & H). rewrite (from_slice_tree (f64_parse D) (sc := vp_schema) eq_refl T Bw Bw').
    assert (E : decode (f64_parse D) vp_schema 127 t = Some (vp_data v)) by (apply (dec_vp (f64_parse D) (d := 124)); [lia|eauto]).
    rewrite E, data_vp_inv. reflexivity.
Qed.
Theorem vc_text_error D s e : vc_parse_json_bytes D s = Err e -> exists m, e = ProofGenerationError m.
Proof.
  unfold vc_parse_json_bytes. destruct (from_slice _ _ s) as [x|]; [destruct (data_vc x)|]; intros H; inversion H; eauto.
Qed.
Theorem vp_text_error D s e : vp_parse_json_bytes D s = Err e -> exists m, e = ProofGenerationError m.
Proof.
  unfold vp_parse_json_bytes. destruct (from_slice _ _ s) as [x|]; [destruct (data_vp x)|]; intros H; inversion H; eauto.
Qed.

(** Something after a struct. *)
Lemma struct_more f64 fs s x g : schema_ok (SStruct fs) = true -> from_slice f64 (SStruct fs) s = Some x ->
  from_slice f64 (SStruct fs) (s ++ g) = if is_empty (skip_ws g) then Some x else None.
Proof.
  intros Hok H. apply from_slice_iff in H; [|exact Hok]. destruct H as (w & t & w' & Bw & T & Bw' & -> & E).
  unfold from_slice. change 128 with (S 127). rewrite <- !app_assoc. rewrite (de_text f64 Hok T).
  - rewrite E. cbn [option_map]. rewrite skip_blank by exact Bw'. reflexivity.
  - exact Bw.
  - rewrite decode_struct in E. destruct t; try discriminate; exact I.
Qed.
Theorem vc_text_more D s v g : vc_parse_json_bytes D s = Ok v ->
  (blank g -> vc_parse_json_bytes D (s ++ g) = Ok v) /\ (~ blank g -> exists m, vc_parse_json_bytes D (s ++ g) = Err (ProofGenerationError m)).
Proof.
  unfold vc_parse_json_bytes. destruct (from_slice (f64_parse D) vc_schema s) as [x|] eqn:E; [|discriminate]. intros H.
  assert (X := struct_more g (fs := _) (eq_refl : schema_ok vc_schema = true) E). fold vc_schema in X. rewrite X. rewrite <- skip_all.
  destruct (skip_ws g); cbn [is_empty].
  - split; [intros _|tauto]. destruct (data_vc x); [exact H|discriminate].
  - split; [discriminate|]. eauto.
Qed.
Theorem vp_text_more D s v g : vp_parse_json_bytes D s = Ok v ->
  (blank g -> vp_parse_json_bytes D (s ++ g) = Ok v) /\ (~ blank g -> exists m, vp_parse_json_bytes D (s ++ g) = Err (ProofGenerationError m)).
Proof.
  unfold vp_parse_json_bytes. destruct (from_slice (f64_parse D) vp_schema s) as [x|] eqn:E; [|discriminate]. intros H.
  assert (X := struct_more g (fs := _) (eq_refl : schema_ok vp_schema = true) E). fold vp_schema in X. rewrite X. rewrite <- skip_all.
  destruct (skip_ws g); cbn [is_empty].
  - split; [intros _|tauto]. destruct (data_vp x); [exact H|discriminate].
  - split; [discriminate|]. eauto.
Qed.
(** Something not blank before the opening bracket. *)
Lemma text_starts f64 fs s x : schema_ok (SStruct fs) = true -> from_slice f64 (SStruct fs) s = Some x ->
  exists w c r, blank w /\ s = w ++ c :: r /\ (c = "{"%byte \/ c = "["%byte).
Proof.
  intros Hok H. apply from_slice_iff in H; [|exact Hok]. destruct H as (w & t & w' & Bw & T & Bw' & -> & E).
  rewrite decode_struct in E. destruct t as [| | | |w0 l|w0 l]; try discriminate; [rewrite arr_app|rewrite obj_app]; eauto 10.
Qed.

(** ** C43: irrelevant changes *)
Section Keeps.
  Variable f64 : bytes -> option N.
  Definition keeps (sc : schema) (d : nat) (k : change) : Prop := forall t t', k t t' -> decode f64 sc d t = decode f64 sc d t'.
  Definition as_str (o : option json) : option data := match o with Some (JStr s) => Some (DStr s) | _ => None end.
  Lemma dec_string_value d t : decode f64 SString d t = as_str (value_of f64 t).
  Proof.
    cbn [decode]. destruct t; try reflexivity; cbn [value_of].
    - destruct (number_of _ _ _ _ _); reflexivity.
    - destruct (string_of cs); reflexivity.
    - destruct (traverse _ l); reflexivity.
    - destruct (traverse _ l); reflexivity.
  Qed.
  Lemma keep_string d : keeps SString d same_value.
  Proof. intros t t' (_ & E). rewrite !dec_string_value. rewrite E. reflexivity. Qed.
  Lemma keep_value d : keeps SValue d same_value.
  Proof. intros t t' (E1 & E2). cbn [decode]. rewrite E1, E2. reflexivity. Qed.
  Lemma keep_opt_string d : keeps (SOption SString) d same_value.
  Proof.
    intros t t' (_ & E). specialize (E f64).
    assert (X : forall t, decode f64 (SOption SString) d t = match value_of f64 t with Some JNull => Some DNone | o => option_map DSome (as_str o) end).
    { clear. intros t. change (decode f64 (SOption SString) d t) with (match t with TNull => Some DNone | _ => option_map DSome (decode f64 SString d t) end).
      rewrite dec_string_value. destruct t; try reflexivity; cbn [value_of].
      - destruct (number_of _ _ _ _ _); reflexivity.
      - destruct (string_of cs); reflexivity.
      - destruct (traverse _ l); reflexivity.
      - destruct (traverse _ l); reflexivity. }
    rewrite !X, E. reflexivity.
  Qed.
  Lemma keep_strings d : keeps (SVec SString) d same_value.
  Proof.
    intros t t' (_ & E). specialize (E f64).
    assert (X : forall t, decode f64 (SVec SString) d t = match d, value_of f64 t with S _, Some (JArr l) => option_map DVec (traverse (fun j => as_str (Some j)) l) | _, _ => None end).
    { clear. intros t. destruct d as [|d]; [reflexivity|]. destruct t as [| |neg i f e|cs|w l|w l]; try reflexivity.
      - cbn [value_of decode]. destruct (number_of _ _ _ _ _); reflexivity.
      - cbn [value_of decode]. destruct (string_of cs); reflexivity.
      - change (decode f64 (SVec SString) (S d) (TArr w l)) with (option_map DVec (traverse (fun x => decode f64 SString d (i_value x)) l)). cbn [value_of].
        assert (Y : traverse (fun x => decode f64 SString d (i_value x)) l = match traverse (fun x => value_of f64 (i_value x)) l with Some vs => traverse (fun j => as_str (Some j)) vs | None => None end).
        { induction l as [|x l IH]; [reflexivity|]. cbn [traverse]. rewrite IH, dec_string_value. destruct (value_of f64 (i_value x)) as [j|]; [|reflexivity].
          destruct (traverse (fun x => value_of f64 (i_value x)) l) as [vs|]; [reflexivity|]. destruct (as_str (Some j)); reflexivity. }
        rewrite Y. destruct (traverse (fun x => value_of f64 (i_value x)) l); reflexivity.
      - cbn [value_of decode]. destruct (traverse _ l); reflexivity. }
    rewrite !X, E. reflexivity.
  Qed.
  Lemma keep_enum names d : keeps (SEnum names) d same_name.
  Proof. intros t t' [->|(cs & cs' & -> & -> & E)]; [reflexivity|]. destruct d; cbn [decode]; rewrite E; reflexivity. Qed.
  Lemma keep_list sc d k : keeps sc d k -> keeps (SVec sc) (S d) (same_list k).
  Proof.
    intros H t t' [->|(w & w' & l & l' & -> & -> & F)]; [reflexivity|]. cbn [decode]. f_equal.
    induction F as [|i i' l l' E F IH]; [reflexivity|]. cbn [traverse]. rewrite IH, (H _ _ E). reflexivity.
  Qed.
  Lemma keep_opt_object sc d ks : keeps sc d (same_object ks) -> keeps (SOption sc) d (same_object ks).
  Proof.
    intros H t t' R. assert (E := H _ _ R). destruct R as [->|(w & w' & l & l' & -> & -> & _)]; [reflexivity|].
    cbn [decode] in *. rewrite E. reflexivity.
  Qed.

  Lemma named_iff n m : named n m = true <-> string_of (m_key m) = Some n.
  Proof.
    unfold named. destruct (string_of (m_key m)) as [k|]; [|split; discriminate]. split; [intros E; apply bytes_eqb_eq in E; subst; reflexivity|].
    intros E. injection E as ->. apply bytes_eqb_eq. reflexivity.
  Qed.
  Lemma filter_perm A (g : A -> bool) l l' : Permutation l l' -> Permutation (filter g l) (filter g l').
  Proof.
    induction 1 as [|x l l' P IH|x y l|l l' l'' P1 IH1 P2 IH2]; cbn [filter].
    - constructor.
    - destruct (g x); [constructor|]; assumption.
    - destruct (g x), (g y); try apply Permutation_refl; constructor.
    - eapply Permutation_trans; eassumption.
  Qed.
  Lemma filter_unknown fs n l : In n (map fst fs) -> Forall (unknown fs) l -> filter (named n) l = [].
  Proof.
    intros Hn F. induction F as [|m l (k & E & Hk) F IH]; [reflexivity|]. cbn [filter].
    destruct (named n m) eqn:N; [|exact IH]. apply named_iff in N. rewrite N in E. injection E as <-. contradiction.
  Qed.
  Lemma members_perm ks n l l' known extra : In n (map fst ks) -> Permutation (known ++ extra) l -> Forall (unknown ks) extra -> l' = filter (named n) known ->
    Permutation l' (filter (named n) l).
  Proof.
    intros Hn P F ->. apply filter_perm with (g := named n) in P. rewrite filter_app, (filter_unknown Hn F), app_nil_r in P. exact P.
  Qed.
  Lemma member_same ks l l' f k d : NoDup (map fst ks) -> In (field_name f, k) ks -> keeps (snd f) d k -> same_members ks l l' ->
    field_value f64 d l f = field_value f64 d l' f.
  Proof.
    intros ND Hk Hkeep (known & known' & extra & extra' & P & P' & F & U & U').
    assert (Hn : In (field_name f) (map fst ks)) by (apply in_map_iff; exists (field_name f, k); auto).
    pose proof (members_perm Hn P U eq_refl) as Q. pose proof (members_perm Hn P' U' eq_refl) as Q'. unfold field_value.
    assert (R : Forall2 (fun m m' => k (m_value m) (m_value m')) (filter (named (field_name f)) known) (filter (named (field_name f)) known')).
    { clear - F ND Hk. induction F as [|m m' l l' (n & k' & Hin & E & E' & R) F IH]; [constructor|]. cbn [filter].
      assert (N1 : named (field_name f) m = bytes_eqb n (field_name f)) by (unfold named; rewrite E; reflexivity).
      assert (N2 : named (field_name f) m' = bytes_eqb n (field_name f)) by (unfold named; rewrite E'; reflexivity).
      rewrite N1, N2. clear N1 N2. destruct (bytes_eqb n (field_name f)) eqn:N; [|exact IH]. apply bytes_eqb_eq in N. subst n.
      constructor; [|exact IH]. assert (k' = k); [|subst; exact R]. clear - Hin Hk ND. induction ks as [|[n0 k0] ks IH]; [destruct Hk|].
      cbn [map fst] in ND. inversion ND as [|? ? N1 N2]; subst.
      destruct Hin as [Hin|Hin], Hk as [Hk|Hk]; [congruence| | |auto].
      - apply pair_equal_spec in Hin. destruct Hin as (-> & _). destruct N1. apply in_map_iff. eexists. split; [|exact Hk]. reflexivity.
      - apply pair_equal_spec in Hk. destruct Hk as (-> & _). destruct N1. apply in_map_iff. eexists. split; [|exact Hin]. reflexivity. }
    destruct R as [|m m' lk lk' R1 [|m2 m2' lk2 lk2' R2 R]].
    - apply Permutation_nil in Q. apply Permutation_nil in Q'. rewrite Q, Q'. reflexivity.
    - apply Permutation_length_1_inv in Q. apply Permutation_length_1_inv in Q'. rewrite Q, Q'. apply Hkeep. exact R1.
    - apply Permutation_length in Q. apply Permutation_length in Q'. cbn [length] in Q, Q'.
      destruct (filter _ l) as [|a [|b l0]]; [discriminate..|]. destruct (filter _ l') as [|a' [|b' l0']]; [discriminate..|]. reflexivity.
  Qed.
  Lemma keys_known ks l l' : same_members ks l l' -> keys_ok l = true /\ keys_ok l' = true.
  Proof.
    intros (known & known' & extra & extra' & P & P' & F & U & U'). unfold keys_ok. rewrite !forallb_forall. split; intros m Hm.
    - apply (Permutation_in _ (Permutation_sym P)) in Hm. apply in_app_or in Hm. destruct Hm as [Hm|Hm].
      + clear - F Hm. induction F as [|a b x y (n & k & _ & E & _) F IH]; [destruct Hm|]. destruct Hm as [->|Hm]; [rewrite E; reflexivity|auto].
      + rewrite Forall_forall in U. destruct (U m Hm) as (n & -> & _). reflexivity.
    - apply (Permutation_in _ (Permutation_sym P')) in Hm. apply in_app_or in Hm. destruct Hm as [Hm|Hm].
      + clear - F Hm. induction F as [|a b x y (n & k & _ & _ & E & _) F IH]; [destruct Hm|]. destruct Hm as [->|Hm]; [rewrite E; reflexivity|auto].
      + rewrite Forall_forall in U'. destruct (U' m Hm) as (n & -> & _). reflexivity.
  Qed.
  Lemma keep_object fs ks d : NoDup (map fst ks) -> Forall2 (fun (f : field) nk => field_name f = fst nk /\ keeps (snd f) d (snd nk)) fs ks ->
    keeps (SStruct fs) (S d) (same_object ks).
  Proof.
    intros ND F t t' [->|(w & w' & l & l' & -> & -> & R)]; [reflexivity|]. rewrite !decode_struct. destruct (keys_known R) as (-> & ->). f_equal.
    apply traverse_ext. intros f Hf. assert (X : exists k, In (field_name f, k) ks /\ keeps (snd f) d k).
    { clear - F Hf. induction F as [|g [n k] fs ks (E & K) F IH]; [destruct Hf|]. destruct Hf as [->|Hf].
      - exists k. cbn in E, K. split; [left; congruence|exact K].
      - destruct (IH Hf) as (k' & H1 & H2). exists k'. split; [right|]; assumption. }
    destruct X as (k & Hk & K). exact (member_same ND Hk K R).
  Qed.
  Ltac nodup := repeat (apply NoDup_cons; [let H := fresh in intros H; cbn [map fst In] in H; repeat (destruct H as [H|H]; [vm_compute in H; discriminate|]); exact H|]); apply NoDup_nil.
  Ltac keep := first [apply keep_opt_string | apply keep_strings | apply keep_value | apply keep_string | apply keep_enum].
  Lemma keep_proof d : keeps proof_schema d same_proof.
  Proof.
    destruct d as [|d].
    - intros t t' [->|(w & w' & l & l' & -> & -> & R)]; reflexivity.
    - apply keep_object; [nodup|]. repeat (apply Forall2_cons || apply Forall2_nil); (split; [reflexivity|cbn [snd]; keep]).
  Qed.
  Lemma keep_vc d : keeps vc_schema d same_vc_tree.
  Proof.
    destruct d as [|d].
    - intros t t' [->|(w & w' & l & l' & -> & -> & R)]; reflexivity.
    - apply keep_object; [nodup|]. repeat (apply Forall2_cons || apply Forall2_nil); (split; [reflexivity|cbn [snd]; first [keep | apply keep_opt_object; apply keep_proof]]).
  Qed.
  Lemma keep_vp d : keeps vp_schema (S (S d)) same_vp_tree.
  Proof.
    apply keep_object; [nodup|]. repeat (apply Forall2_cons || apply Forall2_nil); (split; [reflexivity|cbn [snd]; first [keep | apply keep_list; apply keep_vc | apply keep_opt_object; apply keep_proof]]).
  Qed.
  Lemma same_text_read sc k s s' : schema_ok sc = true -> keeps sc 127 k -> same_text k s s' -> from_slice f64 sc s = from_slice f64 sc s'.
  Proof.
    intros Hok K (w & t & w' & u & t' & u' & B1 & B2 & B3 & B4 & T & T' & -> & -> & R).
    rewrite (from_slice_tree f64 Hok T B1 B2), (from_slice_tree f64 Hok T' B3 B4). apply K. exact R.
  Qed.
End Keeps.

Theorem vc_same_parse D s s' : same_text same_vc_tree s s' -> same_outcome (vc_parse_json_bytes D s) (vc_parse_json_bytes D s').
Proof.
  intros H. unfold vc_parse_json_bytes. rewrite (same_text_read (sc := vc_schema) eq_refl (keep_vc (f64_parse D) 127) H).
  destruct (from_slice _ _ s') as [x|]; [destruct (data_vc x); [left; reflexivity|]|]; right; cbn [ok_or]; eauto.
Qed.
Theorem vp_same_parse D s s' : same_text same_vp_tree s s' -> same_outcome (vp_parse_json_bytes D s) (vp_parse_json_bytes D s').
Proof.
  intros H. unfold vp_parse_json_bytes. rewrite (same_text_read (sc := vp_schema) eq_refl (keep_vp (f64_parse D) 125) H).
  destruct (from_slice _ _ s') as [x|]; [destruct (data_vp x); [left; reflexivity|]|]; right; cbn [ok_or]; eauto.
Qed.
Theorem vc_same_verify D s s' pk p : same_text same_vc_tree s s' ->
  same_outcome (verify_proof D (vc_proofable D) pk s p) (verify_proof D (vc_proofable D) pk s' p).
Proof.
  intros H. apply (vc_same_parse D) in H. unfold verify_proof, integrity_verify_proof. cbn [pf_parse_json_bytes vc_proofable].
  destruct H as [->|(m & m' & -> & ->)]; [left; reflexivity|right; cbn [bind]; eauto].
Qed.
Theorem vp_same_verify D s s' pk p : same_text same_vp_tree s s' ->
  same_outcome (verify_proof D (vp_proofable D) pk s p) (verify_proof D (vp_proofable D) pk s' p).
Proof.
  intros H. apply (vp_same_parse D) in H. unfold verify_proof, integrity_verify_proof. cbn [pf_parse_json_bytes vp_proofable].
  destruct H as [->|(m & m' & -> & ->)]; [left; reflexivity|right; cbn [bind]; eauto].
Qed.

(** ** Objects as maps *)
Lemma insert_comm {A} k (v : A) k' v' m : k <> k' -> obj_insert k v (obj_insert k' v' m) = obj_insert k' v' (obj_insert k v m).
Proof.
  intros Hk. assert (C : (bytes_compare k k' = Lt /\ bytes_compare k' k = Gt) \/ (bytes_compare k k' = Gt /\ bytes_compare k' k = Lt)).
  { rewrite (bytes_compare_antisym k k'). destruct (bytes_compare k k') eqn:E; cbn; auto. apply bytes_compare_eq in E. contradiction. }
  induction m as [|[h x] m IH]; cbn [obj_insert].
  - destruct C as [(C1 & C2)|(C1 & C2)]; rewrite C1, C2; reflexivity.
  - destruct (bytes_compare k h) eqn:E, (bytes_compare k' h) eqn:E'; cbn [obj_insert]; rewrite ?E, ?E';
      try (apply bytes_compare_eq in E; subst h); try (apply bytes_compare_eq in E'; subst k');
      try contradiction; try congruence;
      destruct C as [(C1 & C2)|(C1 & C2)]; rewrite ?C1, ?C2; cbn [obj_insert]; rewrite ?E, ?E', ?bytes_compare_refl; try congruence; try reflexivity.
    all: try (exfalso; rewrite bytes_compare_antisym, E in E'; cbn in E'; congruence).
    all: try (exfalso; rewrite (@bytes_compare_trans _ _ _ C1 E') in E; congruence).
    all: try (exfalso; rewrite (@bytes_compare_trans _ _ _ C2 E) in E'; congruence).
Qed.
Lemma fold_insert_perm {A} (l l' : list (bytes * A)) : Permutation l l' -> NoDup (map fst l) -> forall m,
  fold_left (fun m kv => obj_insert (fst kv) (snd kv) m) l m = fold_left (fun m kv => obj_insert (fst kv) (snd kv) m) l' m.
Proof.
  induction 1 as [|x l l' P IH|x y l|l l' l'' P1 IH1 P2 IH2]; intros ND m; cbn [fold_left].
  - reflexivity.
  - apply IH. inversion ND; assumption.
  - rewrite insert_comm; [reflexivity|]. inversion ND as [|? ? N _]; subst. intros E. apply N. left. exact E.
  - rewrite IH1 by assumption. apply IH2. eapply Permutation_NoDup; [|exact ND]. apply Permutation_map. exact P1.
Qed.
Lemma traverse_perm {A C} (g : A -> option C) l l' : Permutation l l' ->
  match traverse g l, traverse g l' with Some a, Some b => Permutation a b | None, None => True | _, _ => False end.
Proof.
  induction 1 as [|x l l' P IH|x y l|l l' l'' P1 IH1 P2 IH2]; cbn [traverse].
  - constructor.
  - destruct (g x); [|exact I]. destruct (traverse g l), (traverse g l'); try exact IH. constructor. exact IH.
  - destruct (g x), (g y), (traverse g l); try exact I. constructor.
  - destruct (traverse g l), (traverse g l'), (traverse g l''); try tauto. eapply Permutation_trans; eassumption.
Qed.
Lemma max_perm {A} (g : A -> nat) l l' : Permutation l l' ->
  fold_right (fun x n => Nat.max (g x) n) 0 l = fold_right (fun x n => Nat.max (g x) n) 0 l'.
Proof. induction 1; cbn [fold_right]; lia. Qed.

Theorem reformatted_same t : forall t', reformatted t t' -> same_value t t'.
Proof.
  unfold same_value. induction t as [|b|neg i f e|cs|w0 l IH|w0 l IH] using tree_ind'; intros t' H;
    inversion H as [|?|? ? ? ?|? ? E|? w' ? l' F|? w' ? l0 l' F P ND]; subst; try (split; [reflexivity|]; intros f64; reflexivity).
  - split; [reflexivity|]. intros f64. cbn [value_of]. rewrite E. reflexivity.
  - enough (X : fold_right (fun x n => Nat.max (tree_depth (i_value x)) n) 0 l = fold_right (fun x n => Nat.max (tree_depth (i_value x)) n) 0 l' /\
                forall f64, traverse (fun x => value_of f64 (i_value x)) l = traverse (fun x => value_of f64 (i_value x)) l').
    { cbn [tree_depth value_of]. destruct X as (X1 & X2). rewrite X1. split; [reflexivity|]. intros f64. rewrite X2. reflexivity. }
    clear H. induction F as [|x x' l l' R F IHF]; [split; reflexivity|]. destruct (Forall_inv IH _ R) as (R1 & R2).
    destruct (IHF (Forall_inv_tail IH)) as (F1 & F2). cbn [fold_right traverse]. rewrite R1, F1. split; [reflexivity|].
    intros f64. rewrite R2, F2. reflexivity.
  - set (mem f64 := fun m => match string_of (m_key m), value_of f64 (m_value m) with Some k, Some v => Some (k, v) | _, _ => None end).
    assert (X : fold_right (fun x n => Nat.max (tree_depth (m_value x)) n) 0 l = fold_right (fun x n => Nat.max (tree_depth (m_value x)) n) 0 l0 /\
                forall f64, traverse (mem f64) l = traverse (mem f64) l0).
    { clear H P ND. induction F as [|x x' l1 l1' (R0 & R) F IHF]; [split; reflexivity|]. destruct (Forall_inv IH _ R) as (R1 & R2).
      destruct (IHF (Forall_inv_tail IH)) as (F1 & F2). cbn [fold_right traverse]. rewrite R1, F1. split; [reflexivity|].
      intros f64. rewrite F2. replace (mem f64 x) with (mem f64 x') by (unfold mem; rewrite R0, R2; reflexivity). reflexivity. }
    destruct X as (X1 & X2). cbn [tree_depth value_of]. split.
    + f_equal. rewrite X1. exact (max_perm (fun m => tree_depth (m_value m)) P).
    + intros f64. change (option_map (fun kvs => JObj (object_of kvs)) (traverse (mem f64) l) = option_map (fun kvs => JObj (object_of kvs)) (traverse (mem f64) l')).
      rewrite X2. pose proof (traverse_perm (mem f64) P) as Q.
      destruct (traverse (mem f64) l0) as [a|] eqn:Ea, (traverse (mem f64) l') as [b|]; try tauto; try reflexivity. cbn [option_map]. do 2 f_equal.
      unfold object_of. apply fold_insert_perm; [exact Q|]. apply traverse_iff in Ea.
      assert (Y : map (fun m => string_of (m_key m)) l0 = map Some (map fst a)).
      { clear - Ea. induction Ea as [|m kv l a E F IH]; [reflexivity|]. cbn [map]. rewrite IH. f_equal. unfold mem in E.
        destruct (string_of (m_key m)); [|discriminate]. destruct (value_of f64 (m_value m)); [|discriminate]. injection E as <-. reflexivity. }
      rewrite Y in ND. exact (NoDup_map_inv _ _ ND).
Qed.

(** Of several members with one name the last counts; the names come in order. *)
Lemma insert_in {A} k (v : A) m k0 v0 : increasing (map fst m) ->
  (In (k0, v0) (obj_insert k v m) <-> (k0 = k /\ v0 = v) \/ (k0 <> k /\ In (k0, v0) m)).
Proof.
  induction m as [|[h x] m IH]; intros Inc; cbn [obj_insert].
  - cbn. split; [intros [E|[]]; injection E as <- <-; auto|]. intros [(-> & ->)|(_ & [])]. auto.
  - cbn [map fst increasing] in Inc. destruct Inc as (Hh & Inc). destruct (bytes_compare k h) eqn:E.
    + apply bytes_compare_eq in E. subst h. cbn [In]. split.
      * intros [X|X]; [injection X as <- <-; auto|]. right. split; [|auto]. intros ->. rewrite Forall_forall in Hh.
        assert (Y : bytes_compare k k = Lt) by (apply Hh; apply in_map_iff; exists (k, v0); auto). rewrite bytes_compare_refl in Y. discriminate.
      * intros [(-> & ->)|(N & [X|X])]; auto. injection X as -> ->. contradiction.
    + cbn [In]. split.
      * intros [X|X]; [injection X as <- <-; auto|]. right. split; [|auto]. intros ->. destruct X as [X|X].
        -- injection X as -> ->. rewrite bytes_compare_refl in E. discriminate.
        -- rewrite Forall_forall in Hh. assert (Y : bytes_compare h k = Lt) by (apply Hh; apply in_map_iff; exists (k, v0); auto).
           rewrite bytes_compare_antisym, E in Y. discriminate.
      * intros [(-> & ->)|(N & X)]; auto.
    + cbn [In]. rewrite IH by exact Inc. split.
      * intros [X|[X|X]]; [|auto|tauto]. injection X as <- <-. right. split; [|auto]. intros ->. rewrite bytes_compare_refl in E. discriminate.
      * tauto.
Qed.
Theorem object_of_in kvs k v : In (k, v) (object_of kvs) <-> exists a b, kvs = a ++ (k, v) :: b /\ ~ In k (map fst b).
Proof.
  unfold object_of. revert k v. induction kvs as [|[k0 v0] kvs IH] using rev_ind; intros k v.
  - cbn. split; [tauto|]. intros (a & b & E & _). destruct a; discriminate.
  - assert (Inc : increasing (map fst (fold_left (fun m kv => obj_insert (fst kv) (snd kv) m) kvs []))).
    { clear. assert (X : forall l (m : list (bytes * json)), increasing (map fst m) -> increasing (map fst (fold_left (fun m kv => obj_insert (fst kv) (snd kv) m) l m))).
      { induction l as [|x l IH]; intros m H; [exact H|]. cbn [fold_left]. apply IH. apply insert_increasing. exact H. }
      apply X. exact I. }
    rewrite fold_left_app. cbn [fold_left fst snd]. rewrite (insert_in _ _ _ _ Inc). rewrite IH. split.
    + intros [(-> & ->)|(N & a & b & -> & H)]; [exists kvs, []; auto|]. exists a, (b ++ [(k0, v0)]). split; [rewrite <- app_assoc; reflexivity|].
      rewrite map_app, in_app_iff. cbn. intuition.
    + intros (a & b & E & H). destruct b as [|x b _] using rev_ind.
      * apply app_inj_tail in E. destruct E as (-> & E). injection E as -> ->. auto.
      * rewrite app_comm_cons, app_assoc in E. apply app_inj_tail in E. destruct E as (-> & <-). right.
        rewrite map_app, in_app_iff in H. cbn in H. split; [intuition|]. exists a, b. intuition.
Qed.
Theorem object_of_sorted kvs : increasing (map fst (object_of kvs)).
Proof.
  unfold object_of. assert (X : forall l (m : list (bytes * json)), increasing (map fst m) -> increasing (map fst (fold_left (fun m kv => obj_insert (fst kv) (snd kv) m) l m))).
  { induction l as [|x l IH]; intros m H; [exact H|]. cbn [fold_left]. apply IH. apply insert_increasing. exact H. }
  apply X. exact I.
Qed.

(** ** Consequences for one object *)
Lemma text_tree_vc D t w w' v : tree_ok t -> blank w -> blank w' -> vc_parse_json_bytes D (w ++ render t ++ w') = Ok v -> is_vc (f64_parse D) 126 v t.
Proof.
  intros T Bw Bw'. unfold vc_parse_json_bytes. rewrite (from_slice_tree (f64_parse D) (sc := vc_schema) eq_refl T Bw Bw').
  destruct (decode (f64_parse D) vc_schema 127 t) as [x|] eqn:E; [|discriminate]. apply (dec_vc (f64_parse D) (d := 126)) in E; [|lia].
  destruct E as (v' & -> & H). rewrite data_vc_inv. intros E. inversion E. subst v'. exact H.
Qed.
Lemma text_tree_vp D t w w' v : tree_ok t -> blank w -> blank w' -> vp_parse_json_bytes D (w ++ render t ++ w') = Ok v -> is_vp (f64_parse D) 124 v t.
Proof.
  intros T Bw Bw'. unfold vp_parse_json_bytes. rewrite (from_slice_tree (f64_parse D) (sc := vp_schema) eq_refl T Bw Bw').
  destruct (decode (f64_parse D) vp_schema 127 t) as [x|] eqn:E; [|discriminate]. apply (dec_vp (f64_parse D) (d := 124)) in E; [|lia].
  destruct E as (v' & -> & H). rewrite data_vp_inv. intros E. inversion E. subst v'. exact H.
Qed.
Lemma object_members fs w l : is_object fs (TObj w l) -> Forall (has_member l) fs.
Proof. intros [(w' & l' & E & _ & F)|(w' & l' & E & _)]; [injection E as -> ->; exact F|discriminate]. Qed.

Theorem vc_members D w0 l w w' v : tree_ok (TObj w0 l) -> blank w -> blank w' ->
  vc_parse_json_bytes D (w ++ render (TObj w0 l) ++ w') = Ok v ->
  (forall n, In n [B "@context"; B "type"; B "credentialSubject"; B "id"; B "issuer"] -> exists m, filter (named n) l = [m]) /\
  (filter (named (B "proof")) l = [] \/ exists m, filter (named (B "proof")) l = [m]) /\
  (vc_proof v = None <-> forall m, In m l -> named (B "proof") m = true -> m_value m = TNull).
Proof.
  intros T Bw Bw' H. apply (text_tree_vc T Bw Bw') in H. apply object_members in H. unfold required, optional in H.
  rewrite Forall_forall in H. split; [|].
  - intros n Hn.
    assert (X : exists P, In (n, False, P) [(B "@context", False, is_list is_string (vc_contexts v)); (B "type", False, is_list is_string (vc_types v));
       (B "credentialSubject", False, is_value (f64_parse D) 126 (vc_subject v)); (B "proof", vc_proof v = None, is_maybe is_proof (vc_proof v));
       (B "id", False, is_string (vc_id v)); (B "issuer", False, is_string (vc_issuer v))]).
    { cbn [In] in Hn. destruct Hn as [<-|[<-|[<-|[<-|[<-|[]]]]]]; eexists; cbn [In]; tauto. }
    destruct X as (P & X). apply H in X. destruct X as [(_ & [])|(m & E & _)]. eauto.
  - assert (X : has_member l (B "proof", vc_proof v = None, is_maybe is_proof (vc_proof v))) by (apply H; cbn [In]; tauto).
    clear H. destruct X as [(E & N)|(m & E & N)]; (split; [eauto|]).
    + split; [|auto]. intros _ m Hm Nm. exfalso. assert (X : In m (filter (named (B "proof")) l)) by (apply filter_In; auto). rewrite E in X. destruct X.
    + assert (Hm : In m l /\ named (B "proof") m = true) by (apply filter_In; rewrite E; left; reflexivity). destruct Hm as (Hm & Nm).
      split.
      * intros Ev m' Hm' Nm'. assert (X : In m' (filter (named (B "proof")) l)) by (apply filter_In; auto). rewrite E in X. destruct X as [<-|[]].
        rewrite Ev in N. exact N.
      * intros A. destruct (vc_proof v); [|reflexivity]. exfalso. cbn [is_maybe] in N. rewrite (A m Hm Nm) in N. exact (obj_nonnull N).
Qed.
Theorem vp_members D w0 l w w' v : tree_ok (TObj w0 l) -> blank w -> blank w' ->
  vp_parse_json_bytes D (w ++ render (TObj w0 l) ++ w') = Ok v ->
  (forall n, In n [B "@context"; B "type"; B "verifiableCredential"] -> exists m, filter (named n) l = [m]) /\
  (forall n, In n [B "proof"; B "holder"] -> filter (named n) l = [] \/ exists m, filter (named n) l = [m]) /\
  (vp_proof v = None <-> forall m, In m l -> named (B "proof") m = true -> m_value m = TNull).
Proof.
  intros T Bw Bw' H. apply (text_tree_vp T Bw Bw') in H. apply object_members in H. unfold required, optional in H.
  rewrite Forall_forall in H. split; [|split].
  - intros n Hn.
    assert (X : exists P, In (n, False, P) [(B "@context", False, is_list is_string (vp_contexts v)); (B "type", False, is_list is_string (vp_types v));
       (B "verifiableCredential", False, is_list (is_vc (f64_parse D) 124) (vp_credentials v)); (B "proof", vp_proof v = None, is_maybe is_proof (vp_proof v));
       (B "holder", vp_holder v = None, is_maybe is_string (vp_holder v))]).
    { cbn [In] in Hn. destruct Hn as [<-|[<-|[<-|[]]]]; eexists; cbn [In]; tauto. }
    destruct X as (P & X). apply H in X. destruct X as [(_ & [])|(m & E & _)]. eauto.
  - intros n [<-|[<-|[]]].
    + assert (X : has_member l (B "proof", vp_proof v = None, is_maybe is_proof (vp_proof v))) by (apply H; cbn [In]; tauto).
      destruct X as [(E & _)|(m & E & _)]; eauto.
    + assert (X : has_member l (B "holder", vp_holder v = None, is_maybe is_string (vp_holder v))) by (apply H; cbn [In]; tauto).
      destruct X as [(E & _)|(m & E & _)]; eauto.
  - assert (X : has_member l (B "proof", vp_proof v = None, is_maybe is_proof (vp_proof v))) by (apply H; cbn [In]; tauto).
    clear H. destruct X as [(E & N)|(m & E & N)].
    + split; [|auto]. intros _ m Hm Nm. exfalso. assert (X : In m (filter (named (B "proof")) l)) by (apply filter_In; auto). rewrite E in X. destruct X.
    + assert (Hm : In m l /\ named (B "proof") m = true) by (apply filter_In; rewrite E; left; reflexivity). destruct Hm as (Hm & Nm).
      split.
      * intros Ev m' Hm' Nm'. assert (X : In m' (filter (named (B "proof")) l)) by (apply filter_In; auto). rewrite E in X. destruct X as [<-|[]].
        rewrite Ev in N. exact N.
      * intros A. destruct (vp_proof v); [|reflexivity]. exfalso. cbn [is_maybe] in N. rewrite (A m Hm Nm) in N. exact (obj_nonnull N).
Qed.
