(** Proofs of C69 and C70: the texts of a value with any number texts and any member order, as trees. *)
From Coq Require Import Permutation.
From Verif Require Import Base BaseFacts Codec CodecFacts DidFacts Json JsonParse Deps Types Proof Vc Suite JsonFacts JsonParseFacts ParseFacts JsonSpec VcSpec Spec
  ReadFacts VcFacts SuiteSpec SuiteFacts Grammar GrammarFacts TextSpec TextFacts MiscSpec FlowSpec FlowFacts CanonSpec.
Set Implicit Arguments.
Local Open Scope nat_scope.

(** ** Numbers *)
Lemma parse_number_inv f64 neg s n r : parse_number f64 neg s = Some (n, r) ->
  exists i f e, int_ok i /\ frac_ok f /\ exp_ok e /\ s = (i ++ f ++ e) ++ r.
Proof. intros H. apply parse_ignore_number in H. apply ignore_number_inv in H. exact H. Qed.
Lemma token_iff f64 t n : parse_token f64 t = Some n <->
  exists neg i f e, int_ok i /\ frac_ok f /\ exp_ok e /\ t = number_text neg i f e /\ number_of f64 neg i f e = Some n.
Proof.
  unfold parse_token. split.
  - destruct t as [|c r]; [discriminate|]. destruct (beq c "-"%byte) eqn:N; [|destruct (is_digit c) eqn:Dg; [|discriminate]].
    + apply beq_eq in N. subst c. destruct (parse_number f64 true r) as [[n' [|]]|] eqn:E; try discriminate. intros H. inversion H; subst n'.
      destruct (parse_number_inv _ _ _ E) as (i & f & e & Hi & Hf & He & ->). rewrite parse_number_text in E by (auto; reflexivity).
      exists true, i, f, e. do 3 (split; [assumption|]). split; [unfold number_text; rewrite app_nil_r; reflexivity|].
      destruct (number_of f64 true i f e); inversion E; reflexivity.
    + destruct (parse_number f64 false (c :: r)) as [[n' [|]]|] eqn:E; try discriminate. intros H. inversion H; subst n'.
      destruct (parse_number_inv _ _ _ E) as (i & f & e & Hi & Hf & He & Es). rewrite Es in *. rewrite parse_number_text in E by (auto; reflexivity).
      exists false, i, f, e. do 3 (split; [assumption|]). split; [unfold number_text; rewrite app_nil_r; reflexivity|].
      destruct (number_of f64 false i f e); inversion E; reflexivity.
  - intros (neg & i & f & e & Hi & Hf & He & -> & E). unfold number_text. destruct neg.
    + change (B "-" ++ i ++ f ++ e) with ("-"%byte :: (i ++ f ++ e)). cbn beta iota. rewrite beq_refl.
      rewrite <- (app_nil_r (i ++ f ++ e)), parse_number_text by (auto; reflexivity). rewrite E. reflexivity.
    + cbn [app]. destruct (int_cons Hi) as (c & ds & -> & Hc). cbn [app]. rewrite Hc.
      assert (N : beq c "-"%byte = false) by (apply digit_case in Hc; tauto). rewrite N.
      change (c :: ds ++ f ++ e) with ((c :: ds) ++ f ++ e). rewrite <- (app_nil_r ((c :: ds) ++ f ++ e)), parse_number_text by (auto; reflexivity).
      rewrite E. reflexivity.
Qed.
Lemma reads_token num f64 n n' : reads_as num f64 n n' <-> parse_token f64 (num n) = Some n'.
Proof. rewrite token_iff. reflexivity. Qed.
Lemma reads_fun num f64 n a b : reads_as num f64 n a -> reads_as num f64 n b -> a = b.
Proof. rewrite !reads_token. congruence. Qed.

(** ** Strings *)
Lemma string_chars s : utf8_valid s = true -> exists cs, Forall char_ok cs /\ string_text cs = quote s /\ string_of cs = Some s.
Proof.
  intros U. pose proof (@parse_str_escape s [] U) as H. destruct (parse_str_inv H) as (cs & C & E). exists cs. split; [exact C|].
  split; [unfold string_text, quote; rewrite E; reflexivity|]. rewrite E, parse_str_text in H by exact C. destruct (string_of cs); inversion H; reflexivity.
Qed.

Lemma increasing_nodup l : increasing l -> NoDup l.
Proof.
  induction l as [|k l IH]; cbn; intros H; constructor; destruct H as [H1 H2]; auto.
  intros I. rewrite Forall_forall in H1. specialize (H1 _ I). rewrite bytes_compare_refl in H1. discriminate.
Qed.
Lemma max_le {A} (g : A -> nat) l n : fold_right (fun x k => Nat.max (g x) k) 0 l <= n <-> Forall (fun x => g x <= n) l.
Proof. induction l as [|x l IH]; cbn; [split; [constructor|lia]|]. rewrite Nat.max_lub_iff, IH. split; [intros [? ?]; auto|intros H; inversion H; auto]. Qed.
Lemma Forall2_in_l {A C} (R : A -> C -> Prop) l l' x : Forall2 R l l' -> In x l -> exists y, In y l' /\ R x y.
Proof. induction 1 as [|a b l l' H F IH]; intros I; [destruct I|]. destruct I as [->|I]; [exists b; split; [left|]; auto|]. destruct (IH I) as (y & ? & ?). exists y. split; [right|]; auto. Qed.

Section Trees.
  Variables (leb : bytes -> bytes -> bool) (num : number -> bytes) (f64 : bytes -> option N).
  Notation text := (jcs_text leb num).
  (** [t] is a tree of the text of [j]. *)
  Definition tree_for (j : json) (t : tree) : Prop := tree_ok t /\ render t = text j /\ tree_depth t <= depth j.

  Lemma for_string s : utf8_valid s = true -> exists t, tree_for (JStr s) t /\ is_string s t.
  Proof.
    intros U. destruct (string_chars _ U) as (cs & C & E & S). exists (TStr cs). split; [|exists cs; auto].
    split; [exact C|]. split; [exact E|]. cbn. lia.
  Qed.
  Lemma for_list A (J : A -> json) (P : A -> tree -> Prop) xs :
    Forall (fun x => exists t, tree_for (J x) t /\ P x t) xs -> exists t, tree_for (JArr (map J xs)) t /\ is_list P xs t.
  Proof.
    intros F. assert (H : exists l, Forall2 (fun x i => tree_for (J x) (i_value i) /\ P x (i_value i) /\ i_before i = [] /\ i_after i = []) xs l).
    { induction F as [|x xs (t & T & Px) F (l & IH)]; [exists []; constructor|]. exists (Item [] t [] :: l). constructor; auto. }
    clear F. destruct H as (l & F). exists (TArr [] l). split.
    - split; [|split].
      + apply ok_arr. split; [constructor|]. induction F as [|x i xs l ((T & _) & _ & Hb & Ha) F IH]; [constructor|]. constructor; [|exact IH].
        unfold item_ok. rewrite Hb, Ha. repeat split; auto; constructor.
      + rewrite render_arr. cbn [jcs_text app]. change (B "[") with ["["%byte]. cbn [app]. do 2 f_equal. f_equal.
        induction F as [|x i xs l ((_ & T & _) & _ & Hb & Ha) F IH]; [reflexivity|]. cbn [map]. rewrite IH. f_equal.
        unfold item_text. rewrite Hb, Ha, app_nil_r. exact T.
      + cbn [tree_depth depth]. apply le_n_S, max_le. apply Forall_forall. intros i I.
        assert (Hd : fold_right (fun x n => Nat.max (depth x) n) 0 (map J xs) <= fold_right (fun x n => Nat.max (depth x) n) 0 (map J xs)) by lia.
        apply max_le in Hd. rewrite Forall_forall in Hd.
        revert Hd. generalize (fold_right (fun x n => Nat.max (depth x) n) 0 (map J xs)). intros n Hd.
        induction F as [|x i' xs l ((_ & _ & T) & _) F IH]; [destruct I|]. destruct I as [->|I].
        * etransitivity; [exact T|]. apply Hd. left. reflexivity.
        * apply IH; [exact I|]. intros y Hy. apply Hd. right. exact Hy.
    - exists [], l. split; [reflexivity|]. induction F as [|x i xs l (_ & Px & _) F IH]; constructor; auto.
  Qed.

  (** Members of an object: name, value, and what is wanted of the tree of the value. *)
  Definition entry := (bytes * (json * (tree -> Prop)))%type.
  Definition entry_member (e : entry) : bytes * json := (fst e, fst (snd e)).
  Definition entry_tree (e : entry) (m : member tree) : Prop := string_of (m_key m) = Some (fst e) /\ snd (snd e) (m_value m).
  Lemma for_object (es : list entry) :
    Forall (fun e => utf8_valid (fst e) = true /\ exists t, tree_for (fst (snd e)) t /\ snd (snd e) t) es ->
    exists l l0, tree_for (JObj (map entry_member es)) (TObj [] l) /\ Permutation l0 l /\ Forall2 entry_tree es l0.
  Proof.
    intros F.
    (* pair each entry with its member *)
    set (good := fun (e : entry) (m : member tree) => entry_tree e m /\ tree_for (fst (snd e)) (m_value m) /\ Forall char_ok (m_key m) /\
       string_text (m_key m) = quote (fst e) /\ m_before m = [] /\ m_mid1 m = [] /\ m_mid2 m = [] /\ m_after m = []).
    assert (H : exists ps : list (bytes * (json * member tree)), map (fun p => (fst p, fst (snd p))) ps = map entry_member es /\
      Forall (fun p => exists e, fst p = fst e /\ fst (snd p) = fst (snd e) /\ good e (snd (snd p))) ps /\
      Forall2 entry_tree es (map (fun p => snd (snd p)) ps)).
    { induction F as [|e es (U & t & T & Pt) F (ps & IH1 & IH2 & IH3)]; [exists []; repeat split; constructor|].
      destruct (string_chars _ U) as (cs & C & E & S).
      set (m := Member [] cs [] [] t []).
      assert (G : good e m) by (repeat split; auto; apply T).
      exists ((fst e, (fst (snd e), m)) :: ps). split; [cbn; rewrite IH1; reflexivity|]. split.
      - constructor; [|exact IH2]. exists e. split; [reflexivity|]. split; [reflexivity|exact G].
      - cbn. constructor; [split; [exact S|exact Pt]|exact IH3]. }
    clear F. destruct H as (ps & Ems & G & F).
    set (qs := sort_by leb ps). assert (Pq : Permutation qs ps) by apply sort_perm.
    exists (map (fun p => snd (snd p)) qs), (map (fun p => snd (snd p)) ps). split; [|split; [apply Permutation_map; symmetry; exact Pq|exact F]].
    assert (Gq : Forall (fun p => exists e, fst p = fst e /\ fst (snd p) = fst (snd e) /\ good e (snd (snd p))) qs)
      by (eapply Permutation_Forall; [symmetry; exact Pq|exact G]).
    split; [|split].
    - apply ok_obj. split; [constructor|]. apply Forall_map. eapply Forall_impl; [|exact Gq].
      intros p (e & _ & _ & (_ & (T & _) & C & _ & H1 & H2 & H3 & H4)). unfold member_ok. rewrite H1, H2, H3, H4. repeat split; auto; constructor.
    - rewrite render_obj, jcs_obj, <- Ems. cbn [app]. change (B "{") with ["{"%byte]. cbn [app]. do 2 f_equal. f_equal.
      rewrite (@sort_map leb _ _ fst). fold qs. rewrite !map_map. cbn [fst snd].
      apply map_ext_in. intros p Ip. rewrite Forall_forall in Gq. destruct (Gq p Ip) as (e & E1 & E2 & (_ & (_ & T & _) & _ & Q & H1 & H2 & H3 & H4)).
      unfold mem_text. rewrite H1, H2, H3, H4, Q, T. cbn [app]. rewrite app_nil_r, E1, E2. reflexivity.
    - cbn [tree_depth depth]. apply le_n_S, max_le. rewrite <- Ems. apply Forall_map. eapply Permutation_Forall; [symmetry; exact Pq|].
      set (n := fold_right _ _ _). assert (Hd : n <= n) by lia. unfold n at 1 in Hd. apply max_le in Hd. apply Forall_map in Hd.
      apply Forall_forall. intros p Ip. rewrite Forall_forall in G, Hd. specialize (Hd p Ip). cbn [fst snd] in Hd.
      destruct (G p Ip) as (e & _ & E2 & (_ & (_ & _ & T) & _)). rewrite <- E2 in T. lia.
  Qed.

  (** ** Any value *)
  Lemma renumbered_keys R m m' : Forall2 (fun kv kv' : bytes * json => fst kv = fst kv' /\ renumbered R (snd kv) (snd kv')) m m' -> map fst m = map fst m'.
  Proof. induction 1 as [|[k v] [k' v'] m m' [E _] F IH]; [reflexivity|]. cbn in *. congruence. Qed.
  Theorem for_value j : forall j', val_ok (fun _ => True) j -> renumbered (reads_as num f64) j j' ->
    exists t, tree_for j t /\ value_of f64 t = Some j'.
  Proof.
    induction j as [|b|n|s|l IH|m IH] using json_ind'; intros j' V R; inversion R; subst.
    - exists TNull. split; [repeat split; cbn; lia|reflexivity].
    - exists (TBool b). split; [|reflexivity]. split; [exact I|]. split; [destruct b; reflexivity|cbn; lia].
    - match goal with H : reads_as _ _ _ _ |- _ => destruct H as (neg & i & f & e & Hi & Hf & He & E & N) end.
      exists (TNum neg i f e). split; [|cbn [value_of]; rewrite N; reflexivity]. split; [cbn; auto|]. split; [cbn; auto|cbn; lia].
    - destruct (for_string _ V) as (t & T & cs & -> & S). exists (TStr cs). split; [exact T|]. cbn [value_of]. rewrite S. reflexivity.
    - rename l' into l2. match goal with H : Forall2 _ _ _ |- _ => rename H into F end. apply val_ok_arr in V.
      destruct (for_list (A := json * json) fst (fun p t => value_of f64 t = Some (snd p)) (xs := combine l l2)) as (t & T & w & li & -> & F2).
      { clear R. induction F as [|x y l l2 Hxy F IHF]; [constructor|]. inversion V; subst. inversion IH; subst. constructor; [|auto]. cbn. auto. }
      assert (El : map fst (combine l l2) = l /\ map snd (combine l l2) = l2).
      { clear -F. induction F as [|x y l l2 _ F [E1 E2]]; [auto|]. cbn. rewrite E1, E2. auto. }
      destruct El as [E1 E2]. rewrite E1 in T. exists (TArr w li). split; [exact T|]. cbn [value_of].
      assert (Et : traverse (fun x => value_of f64 (i_value x)) li = Some l2); [|rewrite Et; reflexivity].
      rewrite <- E2. apply traverse_iff. clear -F2. induction F2; cbn; constructor; auto.
    - rename m' into m2. match goal with H : Forall2 _ _ _ |- _ => rename H into F end. apply val_ok_obj in V as [Inc V].
      set (es := map (fun p : (bytes * json) * (bytes * json) => (fst (fst p), (snd (fst p), fun t => value_of f64 t = Some (snd (snd p))))) (combine m m2) : list entry).
      destruct (@for_object es) as (l & l0 & T & Pl & F2).
      { unfold es. clear R Inc. induction F as [|[k x] [k' y] m m2 [Ek Hxy] F IHF]; [constructor|]. inversion V as [|? ? [U V1] V2]; subst.
        inversion IH; subst. cbn [combine map]. constructor; [|auto]. cbn [fst snd] in *. split; [exact U|]. auto. }
      assert (Em : map entry_member es = m).
      { unfold es. clear -F. induction F as [|[k x] [k' y] m m2 _ F IHF]; [reflexivity|]. cbn in *. rewrite IHF. reflexivity. }
      rewrite Em in T. exists (TObj [] l). split; [exact T|]. cbn [value_of].
      set (g := fun m0 : member tree => match string_of (m_key m0), value_of f64 (m_value m0) with Some k, Some v => Some (k, v) | _, _ => None end).
      assert (E0 : traverse g l0 = Some m2).
      { apply traverse_iff. clear -F F2. unfold es in F2. revert l0 F2. induction F as [|[k x] [k' y] m m2 [Ek _] F IHF]; intros l0 F2.
        - inversion F2. constructor.
        - cbn in F2. inversion F2 as [|? mm ? l1 [S1 S2] F3]; subst. constructor; [|apply IHF; exact F3]. unfold g. cbn [fst snd] in *. rewrite S1, S2, Ek. reflexivity. }
      pose proof (traverse_perm g Pl) as Hp. rewrite E0 in Hp. destruct (traverse g l) as [kvs|] eqn:El; [|destruct Hp].
      cbn [option_map]. do 2 f_equal. unfold object_of. rewrite <- (fold_insert_perm Hp).
      + rewrite insert_all; [reflexivity|]. cbn [app]. rewrite <- (renumbered_keys F). exact Inc.
      + rewrite <- (renumbered_keys F). apply increasing_nodup. exact Inc.
  Qed.

  (** ** Objects with known members *)
  Lemma member_here (es : list entry) l l0 k j P : Permutation l0 l -> Forall2 entry_tree es l0 -> NoDup (map fst es) -> In (k, (j, P)) es ->
    exists m, filter (named k) l = [m] /\ P (m_value m).
  Proof.
    intros Pl F ND I.
    assert (H : exists m, filter (named k) l0 = [m] /\ P (m_value m)).
    { clear Pl l. induction F as [|e m es l0 [S Pm] F IH]; [destruct I|]. cbn [map] in ND. inversion ND as [|? ? Nk ND']; subst. cbn [filter]. unfold named at 1. rewrite S.
      destruct I as [->|I].
      - cbn [fst snd] in *. rewrite bytes_eqb_refl. exists m. split; [|exact Pm]. f_equal.
        clear -F Nk. induction F as [|e' m' es l0 [S' _] F IH]; [reflexivity|]. cbn [filter]. unfold named at 1. rewrite S'.
        destruct (bytes_eqb (fst e') k) eqn:E; [apply bytes_eqb_eq in E; exfalso; apply Nk; left; exact E|].
        apply IH. intros H. apply Nk. right. exact H.
      - destruct (bytes_eqb (fst e) k) eqn:E; [|apply IH; assumption].
        apply bytes_eqb_eq in E. exfalso. apply Nk. rewrite E. apply (in_map fst) in I. exact I. }
    destruct H as (m & E & Pm). exists m. split; [|exact Pm].
    assert (Hp : Permutation (filter (named k) l0) (filter (named k) l)).
    { clear -Pl. induction Pl; cbn; [constructor| | |etransitivity; eauto].
      - destruct (named k x); auto.
      - destruct (named k x), (named k y); auto. apply perm_swap. }
    rewrite E in Hp. apply Permutation_length_1_inv in Hp. exact Hp.
  Qed.
  Lemma member_gone (es : list entry) l l0 k : Permutation l0 l -> Forall2 entry_tree es l0 -> ~ In k (map fst es) -> filter (named k) l = [].
  Proof.
    intros Pl F N. destruct (filter (named k) l) as [|m r] eqn:E; [reflexivity|]. exfalso. apply N.
    assert (I : In m (filter (named k) l)) by (rewrite E; left; reflexivity). apply filter_In in I as [I Nm].
    apply (Permutation_in _ (Permutation_sym Pl)) in I. clear -F I Nm. induction F as [|e m' es l0 [S _] F IH]; [destruct I|].
    destruct I as [->|I]; [|right; auto]. left. unfold named in Nm. rewrite S in Nm. apply bytes_eqb_eq in Nm. exact Nm.
  Qed.
  Lemma all_keys (es : list entry) l l0 : Permutation l0 l -> Forall2 entry_tree es l0 -> forall m, In m l -> exists k, string_of (m_key m) = Some k.
  Proof.
    intros Pl F m I. apply (Permutation_in _ (Permutation_sym Pl)) in I. clear -F I. induction F as [|e m' es l0 [S _] F IH]; [destruct I|].
    destruct I as [->|I]; [eauto|auto].
  Qed.
End Trees.

(** ** Documents *)
Definition nodup_names (l : list bytes) : bool :=
  (fix go l := match l with [] => true | k :: l' => negb (existsb (bytes_eqb k) l') && go l' end) l.
Lemma nodup_names_ok l : nodup_names l = true -> NoDup l.
Proof.
  induction l as [|k l IH]; intros H; constructor; apply andb_true_iff in H as [H1 H2]; [|apply IH; exact H2].
  intros I. apply negb_true_iff in H1. assert (E : existsb (bytes_eqb k) l = true); [|congruence].
  apply existsb_exists. exists k. split; [exact I|apply bytes_eqb_refl].
Qed.
Section Typed.
  Variables (leb : bytes -> bytes -> bool) (num : number -> bytes) (f64 : bytes -> option N).
  Notation tree_for := (tree_for leb num).
  Definition spec_met (es : list entry) (f : member_spec) : Prop :=
    (snd (fst f) /\ existsb (bytes_eqb (fst (fst f))) (map fst es) = false) \/ exists j, In (fst (fst f), (j, snd f)) es.
  Lemma for_fields (es : list entry) (fs : list member_spec) : nodup_names (map fst es) = true ->
    Forall (fun e => utf8_valid (fst e) = true /\ exists t, tree_for (fst (snd e)) t /\ snd (snd e) t) es ->
    Forall (spec_met es) fs -> exists t, tree_for (JObj (map entry_member es)) t /\ is_object fs t.
  Proof.
    intros ND F M. apply nodup_names_ok in ND. destruct (for_object F) as (l & l0 & T & Pl & F2). exists (TObj [] l). split; [exact T|].
    left. exists [], l. split; [reflexivity|]. split; [exact (all_keys Pl F2)|]. eapply Forall_impl; [|exact M].
    intros [[n ab] P] [[A G]|[j I]]; cbn [fst snd] in *; [left|right].
    - split; [|exact A]. apply (member_gone _ Pl F2). intros I. assert (E : existsb (bytes_eqb n) (map fst es) = true); [|congruence].
      apply existsb_exists. exists n. split; [exact I|apply bytes_eqb_refl].
    - exact (member_here _ _ _ Pl F2 ND I).
  Qed.
  Lemma for_strings l : all_utf8 l -> exists t, tree_for (strings l) t /\ is_list is_string l t.
  Proof. intros U. apply for_list. eapply Forall_impl; [|exact U]. intros s Us. exact (for_string leb num f64 s Us). Qed.
  Lemma for_purpose p : exists t, tree_for (JStr (purpose_name p)) t /\ is_purpose p t.
  Proof.
    destruct (for_string leb num f64 (purpose_name p)) as (t & T & cs & -> & S); [destruct p; reflexivity|]. exists (TStr cs). split; [exact T|].
    exists cs, (purpose_name p). split; [exact S|]. split; [|left; reflexivity]. destruct p; cbn; tauto.
  Qed.

  Definition opt_entry {A} (n : bytes) (J : A -> json) (P : A -> tree -> Prop) (o : option A) : list entry :=
    match o with Some x => [(n, (J x, is_maybe P (Some x)))] | None => [] end.
  Ltac here := unfold spec_met; cbn [fst snd required optional]; right; eexists; repeat (first [left; reflexivity | right]).
  Ltac gone := unfold spec_met; cbn [fst snd required optional]; left; split; reflexivity.
  Ltac specs := repeat (first [apply Forall_nil | apply Forall_cons; [first [gone | here]|]]).
  Ltac ents := repeat (apply Forall_cons; [split; [reflexivity|cbn [fst snd is_maybe]; eauto using for_string, for_strings, for_purpose]|]); try apply Forall_nil.

  Lemma for_proof p : proof_wf p -> exists t, tree_for (proof_json p) t /\ is_proof p t.
  Proof.
    intros (U1 & U2 & U3 & U4 & U5 & U6 & U7).
    set (es := [(B "id", (JStr (p_id p), is_string (p_id p))); (B "type", (JStr (p_typ p), is_string (p_typ p)));
                (B "proofPurpose", (JStr (purpose_name (p_purpose p)), is_purpose (p_purpose p)));
                (B "proofValue", (JStr (p_value p), is_string (p_value p))); (B "verificationMethod", (JStr (p_method p), is_string (p_method p)))]
               ++ opt_entry (B "created") JStr is_string (p_created p) ++ opt_entry (B "expires") JStr is_string (p_expires p)
               ++ opt_entry (B "cryptosuite") JStr is_string (p_cryptosuite p) : list entry).
    destruct p as [i ty pu va me cr ex su]; cbn [p_id p_typ p_purpose p_value p_method p_created p_expires p_cryptosuite] in *.
    destruct (@for_fields es [required (B "id") (is_string i); required (B "type") (is_string ty);
               required (B "proofPurpose") (is_purpose pu); required (B "proofValue") (is_string va);
               required (B "verificationMethod") (is_string me);
               optional (B "created") is_string cr; optional (B "expires") is_string ex;
               optional (B "cryptosuite") is_string su]) as (t & T & Ot).
    - destruct cr, ex, su; reflexivity.
    - unfold es. destruct cr, ex, su; cbn [app opt_entry opt_all] in *; ents.
    - unfold es. destruct cr, ex, su; cbn [app opt_entry] in *; specs.
    - exists t. split; [|exact Ot]. replace (proof_json _) with (JObj (map entry_member es)); [exact T|]. destruct cr, ex, su; reflexivity.
  Qed.

  Section Doc.
    Variable R : number -> number -> Prop.
    Hypothesis HR : forall n n', R n n' -> reads_as num f64 n n'.
    Lemma renumbered_impl j : forall j', renumbered R j j' -> renumbered (reads_as num f64) j j'.
    Proof.
      induction j as [|b|n|s|l IH|m IH] using json_ind'; intros j' H; inversion H; subst; try constructor; auto.
      - match goal with F : Forall2 _ _ _ |- _ => induction F; inversion IH; subst; constructor; auto end. apply IHForall2; auto. constructor; assumption.
      - match goal with F : Forall2 _ _ _ |- _ => induction F as [|? ? ? ? [? ?] ? IHF]; inversion IH; subst; constructor; auto end. apply IHF; auto. constructor; assumption.
    Qed.
    Lemma for_vc v w d : vc_shape (fun _ => True) v -> vc_renumbered R v w -> depth (vc_subject v) <= d ->
      exists t, tree_for (vc_json v) t /\ is_vc f64 d w t.
    Proof.
      intros (U1 & U2 & V & Hp & U3 & U4) (j' & Rj & ->) Hd. apply renumbered_impl in Rj.
      destruct v as [cx ty su pr i is]; cbn [vc_contexts vc_types vc_subject vc_proof vc_id vc_issuer with_subject] in *.
      destruct (for_value leb V Rj) as (ts & Ts & Es).
      set (es := [(B "@context", (strings cx, is_list is_string cx)); (B "type", (strings ty, is_list is_string ty));
                  (B "credentialSubject", (su, is_value f64 d j'))] ++ opt_entry (B "proof") proof_json is_proof pr
                 ++ [(B "id", (JStr i, is_string i)); (B "issuer", (JStr is, is_string is))] : list entry).
      destruct (@for_fields es [required (B "@context") (is_list is_string cx); required (B "type") (is_list is_string ty);
                  required (B "credentialSubject") (is_value f64 d j'); optional (B "proof") is_proof pr;
                  required (B "id") (is_string i); required (B "issuer") (is_string is)]) as (t & T & Ot).
      - destruct pr; reflexivity.
      - assert (Hs : exists t, tree_for su t /\ is_value f64 d j' t).
        { exists ts. split; [exact Ts|]. split; [exact Es|]. destruct Ts as (_ & _ & Ht). lia. }
        unfold es. destruct pr; cbn [app opt_entry opt_all] in *; ents. exact (for_proof Hp).
      - unfold es. destruct pr; cbn [app opt_entry] in *; specs.
      - exists t. split; [|exact Ot]. replace (vc_json _) with (JObj (map entry_member es)); [exact T|]. destruct pr; reflexivity.
    Qed.
    Lemma for_vp v w d : vp_shape (fun _ => True) v -> vp_renumbered R v w -> Forall (fun c => depth (vc_subject c) <= d) (vp_credentials v) ->
      exists t, tree_for (vp_json v) t /\ is_vp f64 d w t.
    Proof.
      intros (U1 & U2 & V & Hp & U3) (cs' & Rc & ->) Hd.
      destruct v as [cx ty cs pr ho]; cbn [vp_contexts vp_types vp_credentials vp_proof vp_holder] in *.
      assert (Hc : exists t, tree_for (JArr (map vc_json cs)) t /\ is_list (is_vc f64 d) cs' t).
      { destruct (@for_list leb num (vc * vc) (fun p => vc_json (fst p)) (fun p => is_vc f64 d (snd p)) (combine cs cs')) as (t & T & a & li & -> & F).
        - clear -HR V Rc Hd. induction Rc as [|c c' cs cs' H F IH]; [constructor|]. inversion V; inversion Hd; subst. cbn. constructor; [|auto]. cbn. eapply for_vc; eauto.
        - assert (E : map (fun p => vc_json (fst p)) (combine cs cs') = map vc_json cs /\ map snd (combine cs cs') = cs').
          { clear -Rc. induction Rc as [|c c' cs cs' H F [E1 E2]]; [auto|]. cbn. rewrite E1, E2. auto. }
          destruct E as [E1 E2]. rewrite E1 in T. exists (TArr a li). split; [exact T|]. exists a, li. split; [reflexivity|].
          rewrite <- E2. clear -F. induction F; cbn; constructor; auto. }
      set (es := [(B "@context", (strings cx, is_list is_string cx)); (B "type", (strings ty, is_list is_string ty));
                  (B "verifiableCredential", (JArr (map vc_json cs), is_list (is_vc f64 d) cs'))] ++ opt_entry (B "proof") proof_json is_proof pr
                 ++ opt_entry (B "holder") JStr is_string ho : list entry).
      destruct (@for_fields es [required (B "@context") (is_list is_string cx); required (B "type") (is_list is_string ty);
                  required (B "verifiableCredential") (is_list (is_vc f64 d) cs'); optional (B "proof") is_proof pr;
                  optional (B "holder") is_string ho]) as (t & T & Ot).
      - destruct pr, ho; reflexivity.
      - unfold es. destruct pr, ho; cbn [app opt_entry opt_all] in *; ents; exact (for_proof Hp).
      - unfold es. destruct pr, ho; cbn [app opt_entry] in *; specs.
      - exists t. split; [|exact Ot]. replace (vp_json _) with (JObj (map entry_member es)); [exact T|]. destruct pr, ho; reflexivity.
    Qed.
  End Doc.
End Typed.

Lemma text_is P s : (exists t, tree_ok t /\ render t = s /\ P t) -> text_of P s.
Proof. intros (t & T & <- & H). exists [], t, []. rewrite app_nil_r. repeat split; auto; constructor. Qed.
Lemma sort_true {A} (l : list (bytes * A)) : sort_by (fun _ _ => true) l = l.
Proof. induction l as [|x l IH]; [reflexivity|]. cbn. rewrite IH. destruct l; reflexivity. Qed.
Lemma plain_text num j : json_text num j = jcs_text (fun _ _ => true) num j.
Proof.
  induction j as [|b|n|s|l IH|m IH] using json_ind'; try reflexivity.
  - cbn [json_text jcs_text]. do 3 f_equal. induction IH as [|x l H F IHl]; [reflexivity|]. cbn. rewrite H, IHl. reflexivity.
  - cbn [json_text jcs_text]. rewrite sort_true, map_map. do 3 f_equal. induction IH as [|[k x] l H F IHl]; [reflexivity|]. cbn [map fst snd] in *. rewrite H, IHl. reflexivity.
Qed.

(** ** Replacing numbers *)
Lemma renumbered_weaken (R Q : number -> number -> Prop) : (forall n n', R n n' -> Q n n') -> forall j j', renumbered R j j' -> renumbered Q j j'.
Proof.
  intros HR. induction j as [|b|n|s|l IH|m IH] using json_ind'; intros j' H; inversion H; subst; try constructor; auto.
  - clear H. match goal with F : Forall2 _ _ _ |- _ => induction F; inversion IH; subst; constructor; auto end.
  - clear H. match goal with F : Forall2 _ _ _ |- _ => induction F as [|? ? ? ? [? ?] ? IHF]; inversion IH; subst; constructor; auto end.
Qed.
Lemma val_ok_any P j : val_ok P j -> val_ok (fun _ => True) j.
Proof.
  induction j as [|b|n|s|l IH|m IH] using json_ind'; intros V; auto; [exact I| |].
  - apply val_ok_arr in V. apply val_ok_arr. induction V; inversion IH; subst; constructor; auto.
  - apply val_ok_obj in V as [I V]. apply val_ok_obj. split; [exact I|]. clear I. induction V as [|? ? [? ?]]; inversion IH; subst; constructor; auto.
Qed.
Lemma vc_shape_any P v : vc_shape P v -> vc_shape (fun _ => True) v.
Proof. intros (H1 & H2 & H3 & H4). split; [exact H1|]. split; [exact H2|]. split; [exact (val_ok_any _ _ H3)|exact H4]. Qed.
Lemma vp_shape_any P v : vp_shape P v -> vp_shape (fun _ => True) v.
Proof. intros (H1 & H2 & H3 & H4). split; [exact H1|]. split; [exact H2|]. split; [|exact H4]. eapply Forall_impl; [|exact H3]. apply vc_shape_any. Qed.
Section Renumber.
  Variable R : number -> number -> Prop.
  Lemma renumbered_exists (P : number -> Prop) j : (forall n, P n -> exists n', R n n') -> val_ok P j -> exists j', renumbered R j j'.
  Proof.
    intros HP. induction j as [|b|n|s|l IH|m IH] using json_ind'; intros V; try (eexists; constructor; fail).
    - destruct (HP n V) as [n' Hn]. exists (JNum n'). constructor. exact Hn.
    - apply val_ok_arr in V. assert (H : exists l', Forall2 (renumbered R) l l').
      { induction V as [|x l Vx V IHV]; [exists []; constructor|]. inversion IH as [|? ? Hx Hl]; subst. destruct (Hx Vx) as [x' Rx], (IHV Hl) as [l' Rl].
        exists (x' :: l'). constructor; assumption. }
      destruct H as [l' H]. exists (JArr l'). constructor. exact H.
    - apply val_ok_obj in V as [_ V].
      assert (H : exists m', Forall2 (fun kv kv' => fst kv = fst kv' /\ renumbered R (snd kv) (snd kv')) m m').
      { induction V as [|[k x] l [_ Vx] V IHV]; [exists []; constructor|]. inversion IH as [|? ? Hx Hl]; subst. destruct (Hx Vx) as [x' Rx], (IHV Hl) as [l' Rl].
        exists ((k, x') :: l'). constructor; [split; [reflexivity|exact Rx]|assumption]. }
      destruct H as [m' H]. exists (JObj m'). constructor. exact H.
  Qed.
  Lemma renumbered_fun : (forall n a b, R n a -> R n b -> a = b) -> forall j a b, renumbered R j a -> renumbered R j b -> a = b.
  Proof.
    intros HF. induction j as [|x|n|s|l IH|m IH] using json_ind'; intros a b Ha Hb; inversion Ha; inversion Hb; subst; try reflexivity; f_equal; eauto.
    - match goal with F : Forall2 _ l ?x, G : Forall2 _ l ?y |- _ => rename F into F1, G into F2; rename x into la, y into lb end. clear Ha Hb.
      revert lb F2. induction F1 as [|x y l la Hx F IHF]; intros lb F2; inversion F2; subst; [reflexivity|]. inversion IH; subst. f_equal; eauto.
    - match goal with F : Forall2 _ m ?x, G : Forall2 _ m ?y |- _ => rename F into F1, G into F2; rename x into la, y into lb end. clear Ha Hb.
      revert lb F2. induction F1 as [|[k x] [k' y] l la [Ek Hx] F IHF]; intros lb F2; inversion F2 as [|? [k2 z] ? ? [Ek2 Hz] F3]; subst; [reflexivity|].
      inversion IH; subst. cbn in *. subst. f_equal; [f_equal; eauto|auto].
  Qed.
  Lemma renumbered_self j : renumbered R j j <-> all_numbers (fun n => R n n) j.
  Proof.
    induction j as [|x|n|s|l IH|m IH] using json_ind'; cbn [all_numbers]; try (split; [auto|constructor]; fail).
    - split; [intros H; inversion H; auto|constructor; auto].
    - rewrite (@fold_and _ (all_numbers (fun n => R n n))). split.
      + intros H. inversion H as [| | | |? ? F|]; subst. clear H. induction l as [|x l IHl]; [constructor|]. inversion F; inversion IH; subst. constructor; [tauto|auto].
      + intros H. constructor. induction l as [|x l IHl]; [constructor|]. inversion H; inversion IH; subst. constructor; [tauto|auto].
    - rewrite (@fold_and _ (fun kv : bytes * json => all_numbers (fun n => R n n) (snd kv))). split.
      + intros H. inversion H as [| | | | |? ? F]; subst. clear H. induction m as [|x l IHl]; [constructor|]. inversion F; inversion IH; subst. constructor; [tauto|auto].
      + intros H. constructor. induction m as [|x l IHl]; [constructor|]. inversion H; inversion IH; subst. constructor; [tauto|auto].
  Qed.
  Lemma vc_renumbered_exists (P : number -> Prop) v : (forall n, P n -> exists n', R n n') -> vc_shape P v -> exists w, vc_renumbered R v w.
  Proof. intros HP (_ & _ & V & _). destruct (renumbered_exists _ _ HP V) as [j Hj]. exists (with_subject v j), j. auto. Qed.
  Lemma vp_renumbered_exists (P : number -> Prop) v : (forall n, P n -> exists n', R n n') -> vp_shape P v -> exists w, vp_renumbered R v w.
  Proof.
    intros HP (_ & _ & V & _). assert (H : exists cs, Forall2 (vc_renumbered R) (vp_credentials v) cs).
    { induction V as [|c l Hc V (cs & IH)]; [exists []; constructor|]. destruct (vc_renumbered_exists HP Hc) as [w Hw]. exists (w :: cs). constructor; assumption. }
    destruct H as [cs H]. eexists. exists cs. split; [exact H|reflexivity].
  Qed.
  Section Canon.
    Variables (leb : bytes -> bytes -> bool) (num : number -> bytes).
    Hypothesis HR : forall n n', R n n' -> num n' = num n.
    Lemma renumbered_canon j : forall j', renumbered R j j' -> jcs_text leb num j' = jcs_text leb num j.
    Proof.
      induction j as [|x|n|s|l IH|m IH] using json_ind'; intros j' H; inversion H; subst; try reflexivity.
      - cbn. auto.
      - cbn [jcs_text]. do 3 f_equal. clear H. match goal with F : Forall2 _ _ _ |- _ => induction F as [|? ? ? ? ? ? IHF] end; [reflexivity|].
        inversion IH; subst. cbn. f_equal; auto.
      - cbn [jcs_text]. do 5 f_equal. clear H. match goal with F : Forall2 _ _ _ |- _ => induction F as [|? ? ? ? [? ?] ? IHF] end; [reflexivity|].
        inversion IH; subst. cbn. f_equal; [f_equal|]; auto.
    Qed.
    Lemma obj_members_eq m m' : map (fun kv : bytes * json => (fst kv, jcs_text leb num (snd kv))) m = map (fun kv => (fst kv, jcs_text leb num (snd kv))) m' ->
      jcs_text leb num (JObj m) = jcs_text leb num (JObj m').
    Proof. intros H. cbn [jcs_text]. rewrite H. reflexivity. Qed.
    Lemma vc_renumbered_canon v w : vc_renumbered R v w -> jcs_text leb num (vc_json w) = jcs_text leb num (vc_json v).
    Proof.
      intros (j & Hj & ->). apply renumbered_canon in Hj. apply obj_members_eq. rewrite !map_app. f_equal. cbn [map fst snd with_subject vc_contexts vc_types vc_subject].
      rewrite Hj. reflexivity.
    Qed.
    Lemma vp_renumbered_canon v w : vp_renumbered R v w -> jcs_text leb num (vp_json w) = jcs_text leb num (vp_json v).
    Proof.
      intros (cs & Hc & ->). apply obj_members_eq. rewrite !map_app. f_equal. cbn [map fst snd vp_contexts vp_types vp_credentials].
      do 3 f_equal. f_equal. cbn [jcs_text]. do 3 f_equal. rewrite !map_map. induction Hc as [|c c' l l' H F IH]; [reflexivity|]. cbn [map]. rewrite IH. f_equal.
      apply vc_renumbered_canon. exact H.
    Qed.
  End Canon.
  Lemma vc_renumbered_complete v w : vc_renumbered R v w -> (vc_complete w <-> vc_complete v).
  Proof.
    intros (j & Hj & ->). unfold vc_complete. cbn. assert (j = JNull <-> vc_subject v = JNull); [|tauto].
    split; intros E; rewrite E in Hj; inversion Hj; reflexivity.
  Qed.
  Lemma vp_renumbered_complete v w : vp_renumbered R v w -> (vp_complete w <-> vp_complete v).
  Proof.
    intros (cs & Hc & ->). unfold vp_complete. cbn. assert (cs = [] <-> vp_credentials v = []); [|tauto].
    inversion Hc; subst; split; congruence.
  Qed.
End Renumber.

(** ** C69, C70 *)
Section Reads.
  Variable D : deps.
  Lemma shape_signed P v p : vc_shape P v -> proof_wf p -> vc_shape P (vc_with_proof v (Some p)).
  Proof. intros (H1 & H2 & H3 & _ & H4 & H5) Hp. repeat (split; [assumption|]). assumption. Qed.
  Lemma vp_shape_signed P v p : vp_shape P v -> proof_wf p -> vp_shape P (vp_with_proof v (Some p)).
  Proof. intros (H1 & H2 & H3 & _ & H4) Hp. repeat (split; [assumption|]). assumption. Qed.
  Lemma renumbered_signed R v w p : vc_renumbered R v w -> vc_renumbered R (vc_with_proof v p) (vc_with_proof w p).
  Proof. intros (j & Hj & ->). exists j. auto. Qed.
  Lemma vp_renumbered_signed R v w p : vp_renumbered R v w -> vp_renumbered R (vp_with_proof v p) (vp_with_proof w p).
  Proof. intros (j & Hj & ->). exists j. auto. Qed.

  Theorem vc_json_reads v w t : vc_shape (fun _ => True) v -> depth (vc_subject v) <= 126 -> vc_renumbered (json_reads D) v w ->
    vc_to_json D v = Ok (JSONValue t) -> vc_parse_json_bytes D t = Ok w.
  Proof.
    intros S Hd R E. apply vc_to_json_spec in E as [_ E]. apply jv_inj in E. subst t. apply vc_text_iff, text_is.
    destruct (@for_vc (fun _ _ => true) _ _ _ (fun n n' H => H) v w 126 S R Hd) as (t & (T1 & T2 & _) & It).
    exists t. split; [exact T1|]. split; [|exact It]. rewrite T2, plain_text. reflexivity.
  Qed.
  Theorem vp_json_reads v w t : vp_shape (fun _ => True) v -> Forall (fun c => depth (vc_subject c) <= 124) (vp_credentials v) ->
    vp_renumbered (json_reads D) v w -> vp_to_json D v = Ok (JSONValue t) -> vp_parse_json_bytes D t = Ok w.
  Proof.
    intros S Hd R E. apply vp_to_json_spec in E as [_ E]. apply jv_inj in E. subst t. apply vp_text_iff, text_is.
    destruct (@for_vp (fun _ _ => true) _ _ _ (fun n n' H => H) v w 124 S R Hd) as (t & (T1 & T2 & _) & It).
    exists t. split; [exact T1|]. split; [|exact It]. rewrite T2, plain_text. reflexivity.
  Qed.
  Theorem vc_jcs_reads v w t : vc_shape (fun _ => True) v -> depth (vc_subject v) <= 126 -> vc_renumbered (jcs_reads D) v w ->
    vc_to_jcs D v = Ok t -> vc_parse_json_bytes D t = Ok w.
  Proof.
    intros S Hd R E. apply vc_to_jcs_spec in E as [_ ->]. apply vc_text_iff, text_is.
    destruct (@for_vc (jcs_leb D) _ _ _ (fun n n' H => H) v w 126 S R Hd) as (t & (T1 & T2 & _) & It). eauto.
  Qed.
  Theorem vp_jcs_reads v w t : vp_shape (fun _ => True) v -> Forall (fun c => depth (vc_subject c) <= 124) (vp_credentials v) ->
    vp_renumbered (jcs_reads D) v w -> vp_to_jcs D v = Ok t -> vp_parse_json_bytes D t = Ok w.
  Proof.
    intros S Hd R E. apply vp_to_jcs_spec in E as [_ ->]. apply vp_text_iff, text_is.
    destruct (@for_vp (jcs_leb D) _ _ _ (fun n n' H => H) v w 124 S R Hd) as (t & (T1 & T2 & _) & It). eauto.
  Qed.

  (** When the text reads as the document itself. *)
  Lemma json_reads_int n : in_range n -> match n with Float _ => False | _ => True end -> json_reads D n n.
  Proof.
    intros H F. apply reads_token. assert (N : number_ok (f64_text D) (f64_parse D) n) by (destruct n; [exact H|exact H|destruct F]).
    destruct (@number_read (f64_text D) (f64_parse D) n [] N eq_refl) as (c & s & E & [[-> P]|[Dg P]]); rewrite E in *; rewrite app_nil_r in P; unfold parse_token.
    - rewrite beq_refl, P. reflexivity.
    - assert (X : beq c "-"%byte = false) by (apply digit_case in Dg; tauto). rewrite X, Dg, P. reflexivity.
  Qed.
  Lemma json_reads_some n : floats_written D -> in_range n -> exists n', json_reads D n n'.
  Proof. intros FW H. destruct n as [n|m|b]; [exists (PosInt n)|exists (NegInt m)|exact (FW b)]; apply json_reads_int; auto. Qed.
  Lemma rereads_iff n : in_range n -> (json_reads D n n <-> rereads D n).
  Proof.
    intros H. destruct n as [n|m|b]; [split; [intros; exact I|intros; apply json_reads_int; auto]..|].
    unfold json_reads. rewrite reads_token. reflexivity.
  Qed.
  Lemma and_both (A A' C C' : Prop) : (A <-> A') -> (C <-> C') -> (A /\ C <-> A' /\ C'). Proof. tauto. Qed.
  Lemma all_numbers_iff (P Q Ok : number -> Prop) j : (forall n, Ok n -> (P n <-> Q n)) -> val_ok Ok j -> (all_numbers P j <-> all_numbers Q j).
  Proof.
    intros H. induction j as [|x|n|s|l IH|m IH] using json_ind'; intros V; try reflexivity.
    - apply H. exact V.
    - apply val_ok_arr in V. cbn [all_numbers]. induction V; inversion IH; subst; cbn; [reflexivity|]. apply and_both; auto.
    - apply val_ok_obj in V as [_ V]. cbn [all_numbers]. induction V as [|? ? [? ?]]; inversion IH; subst; cbn; [reflexivity|]. apply and_both; auto.
  Qed.
  Lemma reread_vc v w : vc_shape in_range v -> vc_renumbered (json_reads D) v w -> (w = v <-> vc_rereads D v).
  Proof.
    intros (_ & _ & V & _) (j & Hj & ->). unfold vc_rereads.
    rewrite <- (@all_numbers_iff (fun n => json_reads D n n) _ in_range) by (auto; intros; apply rereads_iff; auto).
    rewrite <- renumbered_self. split.
    - intros E. apply (f_equal vc_subject) in E. cbn in E. rewrite E in Hj. exact Hj.
    - intros H. assert (E : j = vc_subject v) by (eapply renumbered_fun; [|exact Hj|exact H]; apply reads_fun). subst j. destruct v; reflexivity.
  Qed.
  Theorem vc_rereads_iff v t : floats_written D -> vc_shape in_range v -> depth (vc_subject v) <= 126 -> vc_to_json D v = Ok (JSONValue t) ->
    (vc_parse_json_bytes D t = Ok v <-> vc_rereads D v).
  Proof.
    intros FW S Hd E. destruct (@vc_renumbered_exists (json_reads D) in_range v (fun n => @json_reads_some n FW) S) as [w Hw].
    rewrite (vc_json_reads (vc_shape_any S) Hd Hw E), <- (reread_vc S Hw). split; [intros H; inversion H|intros ->]; reflexivity.
  Qed.
  Theorem vp_rereads_iff v t : floats_written D -> vp_shape in_range v -> Forall (fun c => depth (vc_subject c) <= 124) (vp_credentials v) ->
    vp_to_json D v = Ok (JSONValue t) -> (vp_parse_json_bytes D t = Ok v <-> vp_rereads D v).
  Proof.
    intros FW S Hd E. destruct (@vp_renumbered_exists (json_reads D) in_range v (fun n => @json_reads_some n FW) S) as [w Hw].
    rewrite (vp_json_reads (vp_shape_any S) Hd Hw E). destruct Hw as (cs & Hc & ->). destruct S as (_ & _ & S & _).
    assert (H : cs = vp_credentials v <-> vp_rereads D v).
    { unfold vp_rereads. clear E Hd. induction Hc as [|c c' l l' H F IH]; [split; [constructor|auto]|]. inversion S; subst. specialize (IH ltac:(assumption)).
      pose proof (reread_vc ltac:(eassumption) H) as Hr. split.
      - intros X. inversion X; subst. constructor; tauto.
      - intros X. inversion X; subst. f_equal; tauto. }
    rewrite <- H. split.
    - intros X. apply (f_equal (fun r => match r with Ok x => vp_credentials x | Err _ => [] end)) in X. exact X.
    - intros ->. destruct v; reflexivity.
  Qed.

  (** Signed and written as any text that reads as the document with other numbers [w]. *)
  Section Signed.
    Context {T : Type} {P : proofable T} {J : T -> json} {W : T -> option proof -> T} {complete wf fits unique : T -> Prop}.
    Hypothesis L : doc_laws D P J W complete wf fits unique.
    Lemma signed_reads kp v o v' w t : ed_correct D -> pf_get_proof P v = None -> pf_get_proof P w = None -> p_value o = [] ->
      add_proof D P kp v o = Ok v' -> canonical D (J w) = canonical D (J v) -> (complete v -> complete w) ->
      pf_parse_json_bytes P t = Ok (W w (Some (with_value o (mb_encode58 (ed_sign D kp (message D o (J v))))))) ->
      verify_proof D P (ed_pub_key D kp) t (p_purpose o) = Ok {| verified := true; document := Some w |}.
    Proof.
      intros Hed Hv Hw Ho A C Cm E. apply (doc_add_proof L) in A as (H1 & H2 & H3 & _).
      apply (doc_verify L). set (sig := ed_sign D kp (message D o (J v))) in *. set (p := with_value o (mb_encode58 sig)) in *.
      exists (W w (Some p)), p, Base58Btc, sig, true. rewrite (l_get L), (l_twice L), (none_self L Hw).
      split; [exact E|]. split; [reflexivity|]. split; [exact H1|]. split; [reflexivity|]. split; [exact H2|].
      split; [apply (l_complete L); auto|]. split; [apply mb58_reads|]. split; [|reflexivity].
      replace (with_value p []) with o; [|destruct o; cbn in *; subst; reflexivity].
      replace (message D o (J w)) with (message D o (J v)); [apply Hed|]. unfold message. rewrite C. reflexivity.
    Qed.
  End Signed.
  Lemma value_ok_proof o s : proof_wf o -> proof_wf (with_value o (mb_encode58 s)).
  Proof. intros H. apply value_wf; [exact H|apply utf8_mb58]. Qed.
  Lemma renumbered_proof R v w : vc_renumbered R v w -> vc_proof w = vc_proof v.
  Proof. intros (j & _ & ->). reflexivity. Qed.
  Lemma vp_renumbered_proof R v w : vp_renumbered R v w -> vp_proof w = vp_proof v.
  Proof. intros (j & _ & ->). reflexivity. Qed.

  (** What is read back has the shape of the original. *)
  Lemma renumbered_unique R j : forall j', renumbered R j j' -> val_ok (fun _ => True) j -> val_ok (fun _ => True) j'.
  Proof.
    induction j as [|x|n|s|l IH|m IH] using json_ind'; intros j' H V; inversion H; subst; try exact V; try exact I.
    - apply val_ok_arr in V. apply val_ok_arr. clear H. match goal with F : Forall2 _ _ _ |- _ => induction F end; inversion V; inversion IH; subst; constructor; auto.
    - apply val_ok_obj in V as [Inc V]. apply val_ok_obj. clear H. match goal with F : Forall2 _ _ _ |- _ => rename F into F0 end. split; [rewrite <- (renumbered_keys F0); exact Inc|].
      clear Inc. induction F0 as [|? ? ? ? [E ?]]; inversion V as [|? ? [? ?]]; inversion IH; subst; constructor; auto. split; [rewrite <- E; assumption|auto].
  Qed.
  Lemma vc_renumbered_unique R v w : vc_renumbered R v w -> vc_shape (fun _ => True) v -> vc_unique w.
  Proof. intros (j & Hj & ->) (_ & _ & V & _). exact (val_ok_unique (renumbered_unique Hj V)). Qed.

  Lemma vc_renumbered_weaken (R Q : number -> number -> Prop) v w : (forall n n', R n n' -> Q n n') -> vc_renumbered R v w -> vc_renumbered Q v w.
  Proof. intros H (j & Hj & ->). exists j. split; [|reflexivity]. eapply renumbered_weaken; [exact H|exact Hj]. Qed.
  Lemma vp_renumbered_weaken (R Q : number -> number -> Prop) v w : (forall n n', R n n' -> Q n n') -> vp_renumbered R v w -> vp_renumbered Q v w.
  Proof. intros H (cs & Hc & ->). exists cs. split; [|reflexivity]. induction Hc; constructor; eauto using vc_renumbered_weaken. Qed.
  Lemma vp_renumbered_unique R v w : vp_renumbered R v w -> vp_shape (fun _ => True) v -> vp_unique w.
  Proof.
    intros (cs & Hc & ->) (_ & _ & V & _). unfold vp_unique. cbn. induction Hc; inversion V; subst; constructor; eauto using vc_renumbered_unique.
  Qed.
  Lemma vc_shape_unique P v : vc_shape P v -> vc_unique v.
  Proof. intros (_ & _ & V & _). exact (val_ok_unique V). Qed.
  Lemma vp_shape_unique P v : vp_shape P v -> vp_unique v.
  Proof. intros (_ & _ & V & _). eapply Forall_impl; [|exact V]. intros c. apply vc_shape_unique. Qed.

  (** *** C69, C70 for VCs *)
  Theorem vc_lossy_same kp v o v' w t : ed_correct D -> jcs_order D -> jcs_numbers D ->
    vc_shape (fun _ => True) v -> depth (vc_subject v) <= 126 -> vc_proof v = None -> proof_wf o -> p_value o = [] ->
    add_proof D (vc_proofable D) kp v o = Ok v' -> vc_to_json D v' = Ok (JSONValue t) -> vc_renumbered (json_reads D) v w -> same_vc D v w ->
    verify_proof D (vc_proofable D) (ed_pub_key D kp) t (p_purpose o) = Ok {| verified := true; document := Some w |}.
  Proof.
    intros Hed Ho Hn S Hd Hp Wo Hv A E R Sm.
    pose proof (proj1 (doc_add_proof (vc_doc_laws D) kp v o v') A) as (_ & _ & _ & Ev').
    eapply (signed_reads (vc_doc_laws D)); [exact Hed|exact Hp| |exact Hv|exact A| | |].
    - cbn. rewrite (renumbered_proof R). exact Hp.
    - symmetry. apply (vc_canonical Ho Hn); [exact (vc_shape_unique S)|exact (vc_renumbered_unique R S)|exact Sm].
    - intros C. apply (vc_renumbered_complete R). exact C.
    - rewrite Ev' in E. refine (@vc_json_reads _ _ t _ _ _ E); [apply shape_signed; [exact S|apply value_ok_proof; exact Wo]|exact Hd|apply renumbered_signed; exact R].
  Qed.
  Theorem vc_lossy_other kp v o v' w t e r : sha256_size D -> jcs_numbers D ->
    vc_shape (fun _ => True) v -> depth (vc_subject v) <= 126 -> vc_proof v = None -> proof_wf o -> p_value o = [] ->
    add_proof D (vc_proofable D) kp v o = Ok v' -> vc_to_json D v' = Ok (JSONValue t) -> vc_renumbered (json_reads D) v w -> ~ same_vc D v w ->
    verify_proof D (vc_proofable D) (ed_pub_key D kp) t e = Ok r -> verified r = true ->
    impersonated D (ed_pub_key D kp) [SignVc v o] o (vc_json w) (ed_sign D kp (message D o (vc_json v))).
  Proof.
    intros Hs Hn S Hd Hp Wo Hv A E R Sm H Hr.
    pose proof (proj1 (doc_add_proof (vc_doc_laws D) kp v o v') A) as (_ & _ & _ & Ev').
    destruct (vc_tamper Hs Hn [SignVc v o] H Hr) as (u & p & b & sig & Pu & Pp & Ms & _ & _ & _ & Cases).
    assert (Pw : vc_parse_json_bytes D t = Ok (vc_with_proof w (Some (with_value o (mb_encode58 (ed_sign D kp (message D o (vc_json v)))))))).
    { rewrite Ev' in E. refine (@vc_json_reads _ _ t _ _ _ E); [apply shape_signed; [exact S|apply value_ok_proof; exact Wo]|exact Hd|apply renumbered_signed; exact R]. }
    rewrite Pw in Pu. apply ok_inj in Pu. subst u. cbn [vc_with_proof vc_proof] in Pp. apply some_inj in Pp. subst p.
    assert (Eo : with_value (with_value o (mb_encode58 (ed_sign D kp (message D o (vc_json v))))) [] = o) by (destruct o; cbn in *; subst; reflexivity).
    rewrite Eo in Cases.
    assert (Ew : vc_with_proof (vc_with_proof w (Some (with_value o (mb_encode58 (ed_sign D kp (message D o (vc_json v))))))) None = w).
    { pose proof (renumbered_proof R) as X. rewrite Hp in X. destruct w; cbn in *; subst; reflexivity. }
    rewrite Ew in Cases. cbn [p_value with_value] in Ms. rewrite mb58_reads in Ms. injection Ms as _ <-. destruct Cases as [(v0 & I & X)|C]; [|exact C].
    exfalso. apply Sm. destruct I as [I|[]]. inversion I; subst v0. exact X.
  Qed.
  Lemma vc_stable v : jcs_stable D -> vc_shape in_range v -> exists w, vc_renumbered (jcs_reads D) v w /\
    canonical D (vc_json w) = canonical D (vc_json v) /\ (vc_complete w <-> vc_complete v).
  Proof.
    intros St S.
    destruct (@vc_renumbered_exists (fun n n' => jcs_reads D n n' /\ jcs_number D n' = jcs_number D n) in_range v St S) as [w R].
    exists w. split; [eapply vc_renumbered_weaken; [|exact R]; intros ? ? X; apply X|]. split; [eapply vc_renumbered_canon; [|exact R]; intros ? ? X; apply X|exact (vc_renumbered_complete R)].
  Qed.
  Theorem vc_canonical_fixed v t : jcs_stable D -> vc_shape in_range v -> depth (vc_subject v) <= 126 -> vc_to_jcs D v = Ok t ->
    exists w, vc_renumbered (jcs_reads D) v w /\ vc_parse_json_bytes D t = Ok w /\ vc_to_jcs D w = Ok t.
  Proof.
    intros St S Hd E. destruct (vc_stable St S) as (w & R & C & Cm). exists w. split; [exact R|].
    split; [exact (vc_jcs_reads (vc_shape_any S) Hd R E)|]. apply vc_to_jcs_spec in E as [E ->]. apply vc_to_jcs_spec. split; [tauto|]. symmetry. exact C.
  Qed.
  Theorem vc_canonical_transport kp v o v' t : ed_correct D -> jcs_stable D ->
    vc_shape in_range v -> depth (vc_subject v) <= 126 -> vc_proof v = None -> proof_wf o -> p_value o = [] ->
    add_proof D (vc_proofable D) kp v o = Ok v' -> vc_to_jcs D v' = Ok t ->
    exists w c, vc_renumbered (jcs_reads D) v w /\ vc_to_jcs D v = Ok c /\ vc_to_jcs D w = Ok c /\
      verify_proof D (vc_proofable D) (ed_pub_key D kp) t (p_purpose o) = Ok {| verified := true; document := Some w |}.
  Proof.
    intros Hed St S Hd Hp Wo Hv A E.
    pose proof (proj1 (doc_add_proof (vc_doc_laws D) kp v o v') A) as (_ & _ & Cv & Ev').
    destruct (vc_stable St S) as (w & R & C & Cm). exists w, (canonical D (vc_json v)). split; [exact R|].
    split; [apply vc_to_jcs_spec; auto|]. split; [apply vc_to_jcs_spec; split; [tauto|symmetry; exact C]|].
    eapply (signed_reads (vc_doc_laws D)); [exact Hed|exact Hp| |exact Hv|exact A|exact C|tauto|].
    - cbn. rewrite (renumbered_proof R). exact Hp.
    - rewrite Ev' in E. refine (@vc_jcs_reads _ _ t _ _ _ E); [apply shape_signed; [exact (vc_shape_any S)|apply value_ok_proof; exact Wo]|exact Hd|apply renumbered_signed; exact R].
  Qed.

  (** *** C69, C70 for VPs *)
  Theorem vp_lossy_same kp v o v' w t : ed_correct D -> jcs_order D -> jcs_numbers D ->
    vp_shape (fun _ => True) v -> Forall (fun c => depth (vc_subject c) <= 124) (vp_credentials v) -> vp_proof v = None -> proof_wf o -> p_value o = [] ->
    add_proof D (vp_proofable D) kp v o = Ok v' -> vp_to_json D v' = Ok (JSONValue t) -> vp_renumbered (json_reads D) v w -> same_vp D v w ->
    verify_proof D (vp_proofable D) (ed_pub_key D kp) t (p_purpose o) = Ok {| verified := true; document := Some w |}.
  Proof.
    intros Hed Ho Hn S Hd Hp Wo Hv A E R Sm.
    pose proof (proj1 (doc_add_proof (vp_doc_laws D) kp v o v') A) as (_ & _ & _ & Ev').
    eapply (signed_reads (vp_doc_laws D)); [exact Hed|exact Hp| |exact Hv|exact A| | |].
    - cbn. rewrite (vp_renumbered_proof R). exact Hp.
    - symmetry. apply (vp_canonical Ho Hn); [exact (vp_shape_unique S)|exact (vp_renumbered_unique R S)|exact Sm].
    - intros C. apply (vp_renumbered_complete R). exact C.
    - rewrite Ev' in E. refine (@vp_json_reads _ _ t _ _ _ E); [apply vp_shape_signed; [exact S|apply value_ok_proof; exact Wo]|exact Hd|apply vp_renumbered_signed; exact R].
  Qed.
  Theorem vp_lossy_other kp v o v' w t e r : sha256_size D -> jcs_numbers D ->
    vp_shape (fun _ => True) v -> Forall (fun c => depth (vc_subject c) <= 124) (vp_credentials v) -> vp_proof v = None -> proof_wf o -> p_value o = [] ->
    add_proof D (vp_proofable D) kp v o = Ok v' -> vp_to_json D v' = Ok (JSONValue t) -> vp_renumbered (json_reads D) v w -> ~ same_vp D v w ->
    verify_proof D (vp_proofable D) (ed_pub_key D kp) t e = Ok r -> verified r = true ->
    impersonated D (ed_pub_key D kp) [SignVp v o] o (vp_json w) (ed_sign D kp (message D o (vp_json v))).
  Proof.
    intros Hs Hn S Hd Hp Wo Hv A E R Sm H Hr.
    pose proof (proj1 (doc_add_proof (vp_doc_laws D) kp v o v') A) as (_ & _ & _ & Ev').
    destruct (vp_tamper Hs Hn [SignVp v o] H Hr) as (u & p & b & sig & Pu & Pp & Ms & _ & _ & _ & Cases).
    assert (Pw : vp_parse_json_bytes D t = Ok (vp_with_proof w (Some (with_value o (mb_encode58 (ed_sign D kp (message D o (vp_json v)))))))).
    { rewrite Ev' in E. refine (@vp_json_reads _ _ t _ _ _ E); [apply vp_shape_signed; [exact S|apply value_ok_proof; exact Wo]|exact Hd|apply vp_renumbered_signed; exact R]. }
    rewrite Pw in Pu. apply ok_inj in Pu. subst u. cbn [vp_with_proof vp_proof] in Pp. apply some_inj in Pp. subst p.
    assert (Eo : with_value (with_value o (mb_encode58 (ed_sign D kp (message D o (vp_json v))))) [] = o) by (destruct o; cbn in *; subst; reflexivity).
    rewrite Eo in Cases.
    assert (Ew : vp_with_proof (vp_with_proof w (Some (with_value o (mb_encode58 (ed_sign D kp (message D o (vp_json v))))))) None = w).
    { pose proof (vp_renumbered_proof R) as X. rewrite Hp in X. destruct w; cbn in *; subst; reflexivity. }
    rewrite Ew in Cases. cbn [p_value with_value] in Ms. rewrite mb58_reads in Ms. injection Ms as _ <-. destruct Cases as [(v0 & I & X)|C]; [|exact C].
    exfalso. apply Sm. destruct I as [I|[]]. inversion I; subst v0. exact X.
  Qed.
  Lemma vp_stable v : jcs_stable D -> vp_shape in_range v -> exists w, vp_renumbered (jcs_reads D) v w /\
    canonical D (vp_json w) = canonical D (vp_json v) /\ (vp_complete w <-> vp_complete v).
  Proof.
    intros St S.
    destruct (@vp_renumbered_exists (fun n n' => jcs_reads D n n' /\ jcs_number D n' = jcs_number D n) in_range v St S) as [w R].
    exists w. split; [eapply vp_renumbered_weaken; [|exact R]; intros ? ? X; apply X|]. split; [eapply vp_renumbered_canon; [|exact R]; intros ? ? X; apply X|exact (vp_renumbered_complete R)].
  Qed.
  Theorem vp_canonical_fixed v t : jcs_stable D -> vp_shape in_range v -> Forall (fun c => depth (vc_subject c) <= 124) (vp_credentials v) -> vp_to_jcs D v = Ok t ->
    exists w, vp_renumbered (jcs_reads D) v w /\ vp_parse_json_bytes D t = Ok w /\ vp_to_jcs D w = Ok t.
  Proof.
    intros St S Hd E. destruct (vp_stable St S) as (w & R & C & Cm). exists w. split; [exact R|].
    split; [exact (vp_jcs_reads (vp_shape_any S) Hd R E)|]. apply vp_to_jcs_spec in E as [E ->]. apply vp_to_jcs_spec. split; [tauto|]. symmetry. exact C.
  Qed.
  Theorem vp_canonical_transport kp v o v' t : ed_correct D -> jcs_stable D ->
    vp_shape in_range v -> Forall (fun c => depth (vc_subject c) <= 124) (vp_credentials v) -> vp_proof v = None -> proof_wf o -> p_value o = [] ->
    add_proof D (vp_proofable D) kp v o = Ok v' -> vp_to_jcs D v' = Ok t ->
    exists w c, vp_renumbered (jcs_reads D) v w /\ vp_to_jcs D v = Ok c /\ vp_to_jcs D w = Ok c /\
      verify_proof D (vp_proofable D) (ed_pub_key D kp) t (p_purpose o) = Ok {| verified := true; document := Some w |}.
  Proof.
    intros Hed St S Hd Hp Wo Hv A E.
    pose proof (proj1 (doc_add_proof (vp_doc_laws D) kp v o v') A) as (_ & _ & Cv & Ev').
    destruct (vp_stable St S) as (w & R & C & Cm). exists w, (canonical D (vp_json v)). split; [exact R|].
    split; [apply vp_to_jcs_spec; auto|]. split; [apply vp_to_jcs_spec; split; [tauto|symmetry; exact C]|].
    eapply (signed_reads (vp_doc_laws D)); [exact Hed|exact Hp| |exact Hv|exact A|exact C|tauto|].
    - cbn. rewrite (vp_renumbered_proof R). exact Hp.
    - rewrite Ev' in E. refine (@vp_jcs_reads _ _ t _ _ _ E); [apply vp_shape_signed; [exact (vp_shape_any S)|apply value_ok_proof; exact Wo]|exact Hd|apply vp_renumbered_signed; exact R].
  Qed.
End Reads.
