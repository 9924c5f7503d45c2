(** Proofs for C99. *)
From Verif Require Import Base BaseFacts Codec Json JsonParse Deps Types Proof Vc Suite JsonSpec Spec VcSpec SuiteSpec MiscSpec SuiteFacts Grammar GrammarFacts TextSpec TextFacts FlowSpec FlowFacts SessionSpec.
Set Implicit Arguments.
Local Open Scope nat_scope.

(** ** Strings *)
Definition nibble (n : N) : byte := if N.ltb n 10 then byte_of_N (48 + n) else byte_of_N (87 + n).
Definition escape (b : byte) : schar :=
  if beq b q_quote then Short q_quote else if beq b q_bslash then Short q_bslash
  else if N.ltb (Byte.to_N b) 32 then Uni "0" "0" (nibble (Byte.to_N b / 16)) (nibble (Byte.to_N b mod 16)) else Plain b.
Lemma escape_chars b r : chars (escape b :: r) = option_map (cons b) (chars r).
Proof. destruct b; reflexivity. Qed.
Lemma escape_ok b : char_ok (escape b).
Proof. destruct b; vm_compute; intuition discriminate. Qed.
Definition text_string (s : bytes) : tree := TStr (map escape s).
Lemma escapes_of s : chars (map escape s) = Some s.
Proof. induction s as [|b s IH]; [reflexivity|]. cbn [map]. rewrite escape_chars, IH. reflexivity. Qed.
Lemma key_of s : utf8 s -> string_of (map escape s) = Some s.
Proof. intros U. unfold string_of. rewrite escapes_of. unfold utf8 in U. rewrite U. reflexivity. Qed.
Lemma escapes_ok s : Forall char_ok (map escape s).
Proof. induction s; constructor; [apply escape_ok|assumption]. Qed.
Lemma string_is s : utf8 s -> is_string s (text_string s).
Proof. intros U. exists (map escape s). split; [reflexivity|apply key_of, U]. Qed.
Lemma string_ok s : tree_ok (text_string s). Proof. apply escapes_ok. Qed.

(** ** Objects *)
Definition member_of (n : bytes) (t : tree) : member tree := Member [] (map escape n) [] [] t [].
Lemma blank_nil : blank []. Proof. constructor. Qed.
Lemma member_of_ok n t : tree_ok t -> member_ok (member_of n t).
Proof. intros T. unfold member_ok, member_of. cbn. repeat split; try apply blank_nil; [apply escapes_ok|exact T]. Qed.
Lemma named_of n k t : utf8 n -> named k (member_of n t) = bytes_eqb n k.
Proof. intros U. unfold named, member_of. cbn [m_key]. rewrite key_of by exact U. reflexivity. Qed.
Definition field_name (f : member_spec) : bytes := fst (fst f).
(** A field is absent as it may be, or there is a value for it. *)
Definition filled (f : member_spec) : Prop := snd (fst f) \/ exists t, tree_ok t /\ snd f t.
Lemma object_filled fs t : is_object fs t -> tree_ok t -> Forall filled fs.
Proof.
  intros [(w & l & -> & _ & H)|(w & l & -> & H)] T.
  - apply ok_obj in T as [_ T]. revert H. apply Forall_impl. intros [[n a] P]. cbn. intros [[_ H]|(m & E & H)]; [left; exact H|]. right. exists (m_value m). split; [|exact H].
    assert (I : In m l) by (apply (proj1 (filter_In (named n) m l)); rewrite E; left; reflexivity). rewrite Forall_forall in T. apply T in I. apply I.
  - apply ok_arr in T as [_ T]. clear w. revert T. induction H as [|f i fs l Hf H IH]; intros T; [constructor|]. inversion T; subst. constructor; [|apply IH; assumption].
    right. exists (i_value i). split; [|exact Hf]. match goal with X : item_ok i |- _ => apply X end.
Qed.
(** Members with names among [ns]. *)
Definition within (ns : list bytes) (l : list (member tree)) : Prop := Forall (fun m => exists n, string_of (m_key m) = Some n /\ In n ns) l.
Lemma within_none ns l k : within ns l -> ~ In k ns -> filter (named k) l = [].
Proof.
  intros W N. induction W as [|m l (n & E & I) W IH]; [reflexivity|]. cbn [filter]. unfold named at 1. rewrite E. destruct (bytes_eqb n k) eqn:Q; [|exact IH]. apply bytes_eqb_eq in Q. subst. contradiction.
Qed.
Lemma filled_members fs : Forall filled fs -> NoDup (map field_name fs) -> Forall utf8 (map field_name fs) ->
  exists l, Forall member_ok l /\ Forall (has_member l) fs /\ within (map field_name fs) l.
Proof.
  induction 1 as [|f fs F Fs IH]; intros N U; [exists []; repeat split; constructor|]. cbn [map] in N, U. inversion N as [|? ? N1 N2]; subst. inversion U as [|? ? U1 U2]; subst.
  destruct (IH N2 U2) as (l & Lok & Lhas & Lin).
  assert (W : forall l0, within (map field_name fs) l0 -> within (map field_name (f :: fs)) l0).
  { intros l0. apply Forall_impl. intros m (n & E & I). exists n. split; [exact E|right; exact I]. }
  destruct f as [[n a] P]. unfold field_name in *. cbn [fst snd map] in *. destruct F as [A|(t & T & H)]; cbn [fst snd] in *.
  - exists l. split; [exact Lok|]. split; [|apply W, Lin]. constructor; [|exact Lhas]. left. split; [eapply within_none; eassumption|exact A].
  - exists (member_of n t :: l). split; [constructor; [apply member_of_ok, T|exact Lok]|]. split.
    + constructor.
      * right. exists (member_of n t). split; [|exact H]. cbn [filter]. rewrite named_of, bytes_eqb_refl by exact U1. rewrite (@within_none _ _ _ Lin N1). reflexivity.
      * apply Forall_forall. intros [[k b] Q] I. rewrite Forall_forall in Lhas. specialize (Lhas _ I). unfold has_member in *. cbn [filter]. rewrite named_of by exact U1.
        replace (bytes_eqb n k) with false; [exact Lhas|]. symmetry. apply bytes_eqb_neq. intros ->. apply N1. apply in_map_iff. exists (k, b, Q). split; [reflexivity|exact I].
    + constructor; [|apply W, Lin]. exists n. split; [apply key_of, U1|left; reflexivity].
Qed.
(** Members for claims. *)
Definition claimed (cs : claims) : list (member tree) := map (fun c => member_of (fst c) (text_string (snd c))) cs.
Lemma claimed_ok cs : Forall member_ok (claimed cs).
Proof. induction cs; constructor; [apply member_of_ok, string_ok|assumption]. Qed.
Lemma claimed_none ns cs k : new ns cs -> In k ns -> filter (named k) (claimed cs) = [].
Proof.
  intros [_ F] I. induction F as [|c cs (U & _ & N) F IH]; [reflexivity|]. cbn [claimed map filter]. rewrite named_of by exact U.
  replace (bytes_eqb (fst c) k) with false; [exact IH|]. symmetry. apply bytes_eqb_neq. intros E. apply N. rewrite E. exact I.
Qed.
Lemma claimed_says ns cs l : new ns cs -> within ns l -> Forall (member_says (l ++ claimed cs)) cs.
Proof.
  intros [N F] W. assert (X : forall c, In c cs -> filter (named (fst c)) (claimed cs) = [member_of (fst c) (text_string (snd c))]).
  { clear W. induction cs as [|d cs IH]; intros c I; [destruct I|]. cbn [map] in N. inversion N as [|? ? N1 N2]; subst. inversion F as [|? ? (U1 & U2 & _) F2]; subst.
    cbn [claimed map filter]. rewrite named_of by exact U1. destruct I as [<-|I].
    - rewrite bytes_eqb_refl. f_equal. assert (Y : forall cs', Forall (fun c => utf8 (fst c) /\ utf8 (snd c) /\ ~ In (fst c) ns) cs' -> ~ In (fst d) (map fst cs') -> filter (named (fst d)) (claimed cs') = []).
      { induction 1 as [|e cs' (V1 & _) F' IH']; intros NI; [reflexivity|]. cbn [claimed map filter]. rewrite named_of by exact V1.
        replace (bytes_eqb (fst e) (fst d)) with false; [apply IH'; intros I; apply NI; right; exact I|]. symmetry. apply bytes_eqb_neq. intros E. apply NI. left. exact E. }
      apply Y; assumption.
    - replace (bytes_eqb (fst d) (fst c)) with false; [apply IH; assumption|]. symmetry. apply bytes_eqb_neq. intros E. apply N1. rewrite E. apply in_map. exact I. }
  apply Forall_forall. intros c I. rewrite Forall_forall in F. destruct (F c I) as (U1 & U2 & K). exists (member_of (fst c) (text_string (snd c))). split; [|apply string_is, U2].
  rewrite filter_app, (@within_none _ _ _ W K), (X c I). reflexivity.
Qed.
Lemma claimed_has ns cs l f : new ns cs -> In (field_name f) ns -> has_member l f -> has_member (l ++ claimed cs) f.
Proof.
  destruct f as [[n a] P]. unfold field_name. cbn [fst snd]. intros N I. unfold has_member. rewrite filter_app, (@claimed_none _ _ _ N I), app_nil_r. exact (fun x => x).
Qed.
Lemma claimed_keys ns cs l : new ns cs -> within ns l -> forall m, In m (l ++ claimed cs) -> exists k, string_of (m_key m) = Some k.
Proof.
  intros [_ F] W m I. apply in_app_iff in I as [I|I].
  - unfold within in W. rewrite Forall_forall in W. destruct (W m I) as (n & E & _). eexists. exact E.
  - apply in_map_iff in I as (c & <- & I). rewrite Forall_forall in F. destruct (F c I) as (U & _). eexists. apply key_of, U.
Qed.
(** An object with the fields filled and the claims added. *)
Lemma object_with fs cs : Forall filled fs -> NoDup (map field_name fs) -> Forall utf8 (map field_name fs) -> new (map field_name fs) cs ->
  exists l, tree_ok (TObj [] l) /\ is_object fs (TObj [] l) /\ Forall (has_member l) fs /\ Forall (member_says l) cs.
Proof.
  intros F N U C. destruct (filled_members F N U) as (l & Lok & Lhas & Lin). exists (l ++ claimed cs).
  assert (H : Forall (has_member (l ++ claimed cs)) fs).
  { apply Forall_forall. intros f I. rewrite Forall_forall in Lhas. eapply claimed_has; [exact C|apply in_map; exact I|apply Lhas, I]. }
  split; [apply ok_obj; split; [apply blank_nil|apply Forall_app; split; [exact Lok|apply claimed_ok]]|].
  split; [left; exists [], (l ++ claimed cs); split; [reflexivity|split; [eapply claimed_keys; eassumption|exact H]]|]. split; [exact H|eapply claimed_says; eassumption].
Qed.

(** ** Documents *)
Ltac names := match goal with
  | |- NoDup _ => repeat (constructor; [vm_compute; intuition discriminate|]); constructor
  | |- Forall _ _ => repeat (constructor; [reflexivity|]); constructor
  end.
Section Documents.
  Variable f64 : bytes -> option N.
  Lemma proof_with p t cs : is_proof p t -> tree_ok t -> new proof_names cs ->
    exists l, tree_ok (TObj [] l) /\ is_proof p (TObj [] l) /\ Forall (member_says l) cs.
  Proof.
    intros H T C. apply object_filled in H; [|exact T]. apply (object_with (cs := cs)) in H; [|names|names|exact C]. destruct H as (l & L1 & L2 & _ & L3). exists l. split; [exact L1|]. split; [exact L2|exact L3].
  Qed.
  Lemma vc_with v p t d top inner : is_vc f64 d v t -> vc_proof v = Some p -> tree_ok t -> new vc_names top -> new proof_names inner ->
    exists u, tree_ok u /\ is_vc f64 d v u /\ says top inner u.
  Proof.
    intros H E T C1 C2. apply object_filled in H; [|exact T]. rewrite E in H. cbn [optional is_maybe] in H.
    inversion H as [|? ? H1 H']; subst. inversion H' as [|? ? H2 H'']; subst. inversion H'' as [|? ? H3 H3']; subst. inversion H3' as [|? ? H4 H4']; subst.
    unfold filled in H4. cbn [fst snd optional is_maybe] in H4. destruct H4 as [H4|(q & Q1 & Q2)]; [discriminate|]. destruct (proof_with Q2 Q1 C2) as (l' & L1 & L2 & L3).
    set (P := fun t => is_proof p t /\ exists w l, t = TObj w l /\ Forall (member_says l) inner).
    assert (F : Forall filled [required (B "@context") (is_list is_string (vc_contexts v)); required (B "type") (is_list is_string (vc_types v));
       required (B "credentialSubject") (is_value f64 d (vc_subject v)); required (B "proof") P; required (B "id") (is_string (vc_id v)); required (B "issuer") (is_string (vc_issuer v))]).
    { constructor; [exact H1|]. constructor; [exact H2|]. constructor; [exact H3|]. constructor; [|exact H4']. right. exists (TObj [] l'). split; [exact L1|]. split; [exact L2|]. exists [], l'. split; [reflexivity|exact L3]. }
    apply (object_with (cs := top)) in F; [|names|names|exact C1]. destruct F as (l & M1 & M2 & M3 & M4). exists (TObj [] l). split; [exact M1|].
    assert (M : exists m, filter (named (B "proof")) l = [m] /\ P (m_value m)).
    { rewrite Forall_forall in M3. specialize (M3 (required (B "proof") P)). destruct M3 as [[_ []]|M3]; [do 3 right; left; reflexivity|exact M3]. }
    destruct M as (m & M5 & M6 & w' & l2 & M7 & M8). split.
    - left. exists [], l. split; [reflexivity|]. destruct M2 as [(w0 & l0 & E0 & K & _)|(w0 & l0 & E0 & _)]; [|discriminate]. injection E0 as <- <-. split; [exact K|].
      rewrite E. inversion M3 as [|? ? X1 M']; subst. inversion M' as [|? ? X2 M'']; subst. inversion M'' as [|? ? X3 M3']; subst. inversion M3' as [|? ? X4 M4']; subst.
      constructor; [exact X1|]. constructor; [exact X2|]. constructor; [exact X3|]. constructor; [|exact M4']. right. exists m. split; [exact M5|exact M6].
    - exists [], l, m, w', l2. repeat split; assumption.
  Qed.
  Lemma vp_with v p t d top inner : is_vp f64 d v t -> vp_proof v = Some p -> tree_ok t -> new vp_names top -> new proof_names inner ->
    exists u, tree_ok u /\ is_vp f64 d v u /\ says top inner u.
  Proof.
    intros H E T C1 C2. apply object_filled in H; [|exact T]. rewrite E in H. cbn [optional is_maybe] in H.
    inversion H as [|? ? H1 H']; subst. inversion H' as [|? ? H2 H'']; subst. inversion H'' as [|? ? H3 H3']; subst. inversion H3' as [|? ? H4 H4']; subst.
    unfold filled in H4. cbn [fst snd optional is_maybe] in H4. destruct H4 as [H4|(q & Q1 & Q2)]; [discriminate|]. destruct (proof_with Q2 Q1 C2) as (l' & L1 & L2 & L3).
    set (P := fun t => is_proof p t /\ exists w l, t = TObj w l /\ Forall (member_says l) inner).
    assert (F : Forall filled [required (B "@context") (is_list is_string (vp_contexts v)); required (B "type") (is_list is_string (vp_types v));
       required (B "verifiableCredential") (is_list (is_vc f64 d) (vp_credentials v)); required (B "proof") P; optional (B "holder") is_string (vp_holder v)]).
    { constructor; [exact H1|]. constructor; [exact H2|]. constructor; [exact H3|]. constructor; [|exact H4']. right. exists (TObj [] l'). split; [exact L1|]. split; [exact L2|]. exists [], l'. split; [reflexivity|exact L3]. }
    apply (object_with (cs := top)) in F; [|names|names|exact C1]. destruct F as (l & M1 & M2 & M3 & M4). exists (TObj [] l). split; [exact M1|].
    assert (M : exists m, filter (named (B "proof")) l = [m] /\ P (m_value m)).
    { rewrite Forall_forall in M3. specialize (M3 (required (B "proof") P)). destruct M3 as [[_ []]|M3]; [do 3 right; left; reflexivity|exact M3]. }
    destruct M as (m & M5 & M6 & w' & l2 & M7 & M8). split.
    - left. exists [], l. split; [reflexivity|]. destruct M2 as [(w0 & l0 & E0 & K & _)|(w0 & l0 & E0 & _)]; [|discriminate]. injection E0 as <- <-. split; [exact K|].
      rewrite E. inversion M3 as [|? ? X1 M']; subst. inversion M' as [|? ? X2 M'']; subst. inversion M'' as [|? ? X3 M3']; subst. inversion M3' as [|? ? X4 M4']; subst.
      constructor; [exact X1|]. constructor; [exact X2|]. constructor; [exact X3|]. constructor; [|exact M4']. right. exists m. split; [exact M5|exact M6].
    - exists [], l, m, w', l2. repeat split; assumption.
  Qed.
End Documents.
Lemma text_tree (P : tree -> Prop) t : tree_ok t -> P t -> text_of P (render t).
Proof. intros T H. exists [], t, []. split; [apply blank_nil|]. split; [exact T|]. split; [apply blank_nil|]. split; [cbn [app]; rewrite app_nil_r; reflexivity|exact H]. Qed.
Theorem vc_claims D pk s e r top inner : verify_proof D (vc_proofable D) pk s e = Ok r -> new vc_names top -> new proof_names inner ->
  exists s', text_of (says top inner) s' /\ verify_proof D (vc_proofable D) pk s' e = Ok r.
Proof.
  intros H C1 C2. apply (doc_verify (vc_doc_laws D)) in H as (v & p & b & sig & x & H1 & H2 & H3). assert (H4 := H1). apply vc_text_iff in H4 as (w & t & w' & _ & T & _ & _ & H4).
  destruct (vc_with H4 H2 T C1 C2) as (u & U1 & U2 & U3). exists (render u). split; [apply text_tree; assumption|]. apply (doc_verify (vc_doc_laws D)). exists v, p, b, sig, x. split; [|split; [exact H2|exact H3]].
  apply vc_text_iff. apply text_tree; assumption.
Qed.
Theorem vp_claims D pk s e r top inner : verify_proof D (vp_proofable D) pk s e = Ok r -> new vp_names top -> new proof_names inner ->
  exists s', text_of (says top inner) s' /\ verify_proof D (vp_proofable D) pk s' e = Ok r.
Proof.
  intros H C1 C2. apply (doc_verify (vp_doc_laws D)) in H as (v & p & b & sig & x & H1 & H2 & H3). assert (H4 := H1). apply vp_text_iff in H4 as (w & t & w' & _ & T & _ & _ & H4).
  destruct (vp_with H4 H2 T C1 C2) as (u & U1 & U2 & U3). exists (render u). split; [apply text_tree; assumption|]. apply (doc_verify (vp_doc_laws D)). exists v, p, b, sig, x. split; [|split; [exact H2|exact H3]].
  apply vp_text_iff. apply text_tree; assumption.
Qed.

(** ** Errors *)
Definition usual (e : proof_error) : Prop := exists m, e = ProofGenerationError m \/ e = ProofVerificationError m.
Lemma gen_usual P e : gen P e -> usual e. Proof. intros (m & _ & ->). exists m. left. reflexivity. Qed.
Lemma ver_usual P e : ver P e -> usual e. Proof. intros (m & _ & ->). exists m. right. reflexivity. Qed.
Lemma failure_usual (checks : list (proof_error -> Prop)) e : Forall (fun c : proof_error -> Prop => forall e, c e -> usual e) checks -> first_failure checks e -> usual e.
Proof. induction 1 as [|c l C F IH]; cbn [first_failure]; [intros []|]. intros [H|[_ H]]; [apply C, H|apply IH, H]. Qed.
Ltac usuals := repeat (constructor; [intros ?; first [apply gen_usual|apply ver_usual]|]); constructor.
Lemma signing_usual D P o e : first_failure (signing_checks D P o) e -> usual e.
Proof. apply failure_usual. unfold signing_checks. usuals. Qed.
Lemma verification_usual D P m pk x o e : first_failure (verification_checks D P m pk x o) e -> usual e.
Proof. apply failure_usual. unfold verification_checks. destruct o; usuals. Qed.
Theorem errors_usual D e :
  (exists kp v o, add_proof D (vc_proofable D) kp v o = Err e) \/ (exists kp v o, add_proof D (vp_proofable D) kp v o = Err e) \/
  (exists pk s x, verify_proof D (vc_proofable D) pk s x = Err e) \/ (exists pk s x, verify_proof D (vp_proofable D) pk s x = Err e) ->
  exists m, e = ProofGenerationError m \/ e = ProofVerificationError m.
Proof.
  intros [(kp & v & o & H)|[(kp & v & o & H)|[(pk & s & x & H)|(pk & s & x & H)]]].
  - apply vc_signing_errors in H. eapply signing_usual; eassumption.
  - apply vp_signing_errors in H. eapply signing_usual; eassumption.
  - apply vc_verification_errors in H as [H|(v & _ & H)]; [|eapply verification_usual; eassumption]. apply vc_text_error in H as (m & ->). exists m. left. reflexivity.
  - apply vp_verification_errors in H as [H|(v & _ & H)]; [|eapply verification_usual; eassumption]. apply vp_text_error in H as (m & ->). exists m. left. reflexivity.
Qed.
