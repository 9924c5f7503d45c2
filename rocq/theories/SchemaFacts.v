(** Derived serialization and deserialization are inverse, up to the recursion limit. *)
From Verif Require Import Base BaseFacts Codec CodecFacts Json JsonParse Deps JsonFacts JsonParseFacts.
Require Import ZifyBool ZifyNat ZifyN.
Set Implicit Arguments.

Lemma forallb_map {A C} (f : C -> bool) (g : A -> C) l : forallb f (map g l) = forallb (fun x => f (g x)) l.
Proof. induction l; cbn; congruence. Qed.

Notation field := (bytes * bool * schema)%type.

Section Ind.
  Variable P : schema -> Prop.
  Hypothesis Hstring : P SString.
  Hypothesis Hvalue : P SValue.
  Hypothesis Hoption : forall sc, P sc -> P (SOption sc).
  Hypothesis Hvec : forall sc, P sc -> P (SVec sc).
  Hypothesis Henum : forall names, P (SEnum names).
  Hypothesis Hstruct : forall fs, Forall (fun f : field => P (snd f)) fs -> P (SStruct fs).
  Fixpoint schema_ind' (sc : schema) : P sc :=
    match sc with
    | SString => Hstring
    | SValue => Hvalue
    | SOption sc' => Hoption (schema_ind' sc')
    | SVec sc' => Hvec (schema_ind' sc')
    | SEnum names => Henum names
    | SStruct fs => Hstruct ((fix go fs : Forall (fun f : field => P (snd f)) fs :=
        match fs with
        | [] => Forall_nil _
        | f :: fs' => @Forall_cons _ (fun f : field => P (snd f)) f fs' (schema_ind' (snd f)) (go fs')
        end) fs)
    end.
End Ind.

(** Shapes whose text never starts with the letter n. *)
Definition nonnull (sc : schema) : bool := match sc with SValue | SOption _ => false | _ => true end.
Definition field_name (f : field) : bytes := fst (fst f).
Definition field_skip (f : field) : bool := snd (fst f).

(** Requirements on a shape (met by all shapes of the crate, see [Shapes]). *)
Fixpoint schema_ok (sc : schema) : bool :=
  match sc with
  | SString | SValue => true
  | SOption sc' => nonnull sc' && schema_ok sc'
  | SVec sc' => schema_ok sc'
  | SEnum names => forallb utf8_valid names
  | SStruct fs =>
    (fix go (fs : list field) : bool :=
       match fs with
       | [] => true
       | (n, skip, sc') :: fs' =>
         utf8_valid n && negb (existsb (fun f => bytes_eqb n (field_name f)) fs') && implb skip (is_option sc')
         && schema_ok sc' && go fs'
       end) fs
  end.

Section Data.
  Variables (f64t : N -> bytes) (f64p : bytes -> option N).
  Notation num := (serde_number f64t).
  Notation text := (json_text num).
  Notation vok := (value_ok f64t f64p).

  (** The value is a possible inhabitant of the Rust type. *)
  Fixpoint data_ok (sc : schema) (x : data) {struct sc} : Prop :=
    match sc, x with
    | SString, DStr s => utf8_valid s = true
    | SValue, DVal j => vok j
    | SOption _, DNone => True
    | SOption sc', DSome x' => data_ok sc' x'
    | SVec sc', DVec l => (fix all (l : list data) : Prop :=
                             match l with [] => True | x :: l' => data_ok sc' x /\ all l' end) l
    | SEnum names, DEnum n => known_name names n = true
    | SStruct fs, DStruct l =>
      (fix go (fs : list field) (l : list data) : Prop :=
         match fs, l with
         | [], [] => True
         | (_, _, sc') :: fs', x' :: l' => data_ok sc' x' /\ go fs' l'
         | _, _ => False
         end) fs l
    | _, _ => False
    end.

  Fixpoint fields_ok (fs : list field) (l : list data) : Prop :=
    match fs, l with
    | [], [] => True
    | f :: fs', x :: l' => data_ok (snd f) x /\ fields_ok fs' l'
    | _, _ => False
    end.
  Lemma data_ok_struct fs l : data_ok (SStruct fs) (DStruct l) <-> fields_ok fs l.
  Proof.
    revert l; induction fs as [|[[n sk] sc] fs IH]; intros [|x l]; cbn in *; try tauto.
    rewrite IH. tauto.
  Qed.
  Lemma data_ok_vec sc l : data_ok (SVec sc) (DVec l) <-> Forall (data_ok sc) l.
  Proof. cbn. induction l; [split; auto|]. rewrite IHl. split; [intros [? ?]; auto|]. intros H; inversion H; auto. Qed.

  Fixpoint fields_schema_ok (fs : list field) : bool :=
    match fs with
    | [] => true
    | f :: fs' =>
      utf8_valid (field_name f) && negb (existsb (fun g => bytes_eqb (field_name f) (field_name g)) fs')
      && implb (field_skip f) (is_option (snd f)) && schema_ok (snd f) && fields_schema_ok fs'
    end.
  Lemma schema_ok_struct fs : schema_ok (SStruct fs) = fields_schema_ok fs.
  Proof. cbn. induction fs as [|[[n sk] sc] fs IH]; cbn; [auto|]. rewrite IH. reflexivity. Qed.

  (** The members written for a struct. *)
  Definition skipped (f : field) (x : data) : bool :=
    field_skip f && match x with DNone => true | _ => false end.
  Fixpoint members (fs : list field) (l : list data) : list (bytes * json) :=
    match fs, l with
    | f :: fs', x :: l' =>
      if skipped f x then members fs' l' else (field_name f, ser (snd f) x) :: members fs' l'
    | _, _ => []
    end.
  Lemma ser_struct fs l : ser (SStruct fs) (DStruct l) = JObj (members fs l).
  Proof.
    cbn. f_equal. revert l; induction fs as [|[[n sk] sc] fs IH]; intros [|x l]; cbn; auto.
    unfold skipped, field_skip, field_name. cbn. rewrite IH. destruct sk, x; reflexivity.
  Qed.

  (** ** Text of a serialized value *)
  Lemma ser_ok sc : forall x, schema_ok sc = true -> data_ok sc x -> starts value_start (text (ser sc x)).
  Proof.
    induction sc as [| |sc IH|sc IH|names|fs IH] using schema_ind'; intros x; destruct x; intros Hs H;
      try (exfalso; exact H); try reflexivity.
    - cbn [ser]. eapply text_start. exact H.
    - cbn [schema_ok] in Hs. apply andb_true_iff in Hs as [_ Hs]. cbn [ser data_ok] in *. auto.
  Qed.

  Lemma ser_nonnull sc x : nonnull sc = true -> schema_ok sc = true -> data_ok sc x ->
    exists c s, text (ser sc x) = c :: s /\ beq c "n"%byte = false /\ is_ws c = false.
  Proof.
    destruct sc, x; intros Hn Hs H; try discriminate Hn; try (exfalso; exact H);
      cbn [ser json_text]; (do 2 eexists; split; [reflexivity|]; split; reflexivity).
  Qed.

  (** ** Struct fields *)
  Variable d : nat.
  Definition fp (f : field) : fparser := (field_name f, is_option (snd f), de f64p (snd f) d).

  Lemma set_field_here fs1 f fs2 (acc1 acc2 : list (option data)) r :
    existsb (fun g => bytes_eqb (field_name g) (field_name f)) fs1 = false -> length acc1 = length fs1 ->
    set_field (map fp (fs1 ++ f :: fs2)) (acc1 ++ None :: acc2) (field_name f) r
    = option_map (fun '(x, r') => (acc1 ++ Some x :: acc2, r')) (de f64p (snd f) d r).
  Proof.
    revert acc1; induction fs1 as [|g fs1 IH]; intros [|a acc1] Hn L; try discriminate L; cbn [map app set_field fp] in *.
    - rewrite bytes_eqb_refl. reflexivity.
    - cbn [existsb] in Hn. apply orb_false_iff in Hn as [-> Hn]. rewrite IH by (auto; cbn in L; lia).
      destruct (de f64p (snd f) d r) as [[x r']|]; reflexivity.
  Qed.

  (** State of the struct visitor after the fields [fs] with values [l]. *)
  Fixpoint filled (fs : list field) (l : list data) : list (option data) :=
    match fs, l with
    | f :: fs', x :: l' => (if skipped f x then None else Some x) :: filled fs' l'
    | _, _ => []
    end.
  Lemma filled_length fs l : fields_ok fs l -> length (filled fs l) = length fs.
  Proof. revert l; induction fs; intros [|]; cbn; try tauto. intros [_ H]. f_equal; auto. Qed.

  Lemma finish_filled fs l : fields_ok fs l -> fields_schema_ok fs = true -> finish (map fp fs) (filled fs l) = Some l.
  Proof.
    revert l; induction fs as [|f fs IH]; intros [|x l] H Hs; try (destruct H; fail); [reflexivity|].
    destruct H as [H1 H2]. cbn [fields_schema_ok] in Hs. rewrite !andb_true_iff in Hs. destruct Hs as [[[[_ _] Hopt] _] Hs].
    cbn [map fp finish filled]. rewrite IH by auto.
    unfold skipped. destruct (field_skip f); cbn [andb]; [|reflexivity].
    cbn in Hopt. rewrite Hopt. destruct x; reflexivity.
  Qed.
End Data.

(** ** The round trip *)
Section RoundTrip.
  Variables (f64t : N -> bytes) (f64p : bytes -> option N).
  Notation num := (serde_number f64t).
  Notation text := (json_text num).

  Definition rt (sc : schema) : Prop := forall x d r,
    schema_ok sc = true -> data_ok f64t f64p sc x -> (0 < d)%nat -> delim r = true ->
    de f64p sc d (text (ser sc x) ++ r) = if (depth (ser sc x) <? d)%nat then Some (x, r) else None.

  (** Invariant of the struct loop: the fields before [fs2] are filled, those of [fs2] still empty;
      [l] are the members of [fs2] still to come. The payload of the loop is (position, value). *)
  Definition pay := (field * data)%type.
  Fixpoint todo (fs : list field) (l : list data) : list (bytes * pay) :=
    match fs, l with
    | f :: fs', x :: l' =>
      if skipped f x then todo fs' l' else (field_name f, (f, x)) :: todo fs' l'
    | _, _ => []
    end.
  Definition ptext (p : pay) : bytes := text (ser (snd (fst p)) (snd p)).

  Lemma todo_members fs l : map (mtext ptext) (todo fs l) =
    map (fun kv => member_text (fst kv, text (snd kv))) (members fs l).
  Proof.
    revert l; induction fs as [|f fs IH]; intros [|x l]; cbn; auto. destruct (skipped f x); cbn; [auto|].
    f_equal. auto.
  Qed.
  Lemma todo_depth fs l d : forallb (fun kp : bytes * pay => (depth (ser (snd (fst (snd kp))) (snd (snd kp))) <? d)%nat) (todo fs l)
    = forallb (fun kv => (depth (snd kv) <? d)%nat) (members fs l).
  Proof.
    revert l; induction fs as [|f fs IH]; intros [|x l]; cbn; auto. destruct (skipped f x); cbn; [auto|].
    f_equal. auto.
  Qed.

  (** Setting a field by name. *)
  Fixpoint put (fs : list field) (acc : list (option data)) (k : bytes) (x : data) : list (option data) :=
    match fs, acc with
    | f :: fs', a :: acc' => if bytes_eqb (field_name f) k then Some x :: acc' else a :: put fs' acc' k x
    | _, _ => acc
    end.
  Lemma put_here fs1 f fs2 (acc1 acc2 : list (option data)) a x :
    existsb (fun g => bytes_eqb (field_name g) (field_name f)) fs1 = false -> length acc1 = length fs1 ->
    put (fs1 ++ f :: fs2) (acc1 ++ a :: acc2) (field_name f) x = acc1 ++ Some x :: acc2.
  Proof.
    revert acc1; induction fs1 as [|g fs1 IH]; intros [|b acc1] Hn L; try discriminate L; cbn [app put].
    - rewrite bytes_eqb_refl. reflexivity.
    - cbn [existsb] in Hn. apply orb_false_iff in Hn as [-> Hn]. cbn in L. rewrite IH by (auto; lia). reflexivity.
  Qed.

  Definition nones (fs : list field) : list (option data) := map (fun _ => None) fs.

  Lemma fields_schema_ok_app fs1 fs2 : fields_schema_ok (fs1 ++ fs2) = true ->
    fields_schema_ok fs2 = true /\
    forall f, In f fs2 -> existsb (fun g => bytes_eqb (field_name g) (field_name f)) fs1 = false.
  Proof.
    induction fs1 as [|g fs1 IH]; cbn [app fields_schema_ok existsb]; [auto|].
    rewrite !andb_true_iff. intros [[[[_ H1] _] _] H2]. destruct (IH H2) as [H3 H4]. split; [auto|].
    intros f Hf. rewrite (H4 f Hf), orb_false_r. apply negb_true_iff in H1.
    destruct (bytes_eqb (field_name g) (field_name f)) eqn:E; [|auto].
    rewrite <- H1. symmetry. apply existsb_exists. exists f. split; [apply in_or_app; auto|exact E].
  Qed.

  Section Loop.
    Variable d : nat.
    Variable fs : list field.
    Hypothesis Hd : (0 < d)%nat.
    Hypothesis Hfs : fields_schema_ok fs = true.
    Hypothesis Hrt : Forall (fun f : field => rt (snd f)) fs.

    Definition Inv (l : list (bytes * pay)) (acc : list (option data)) : Prop :=
      exists fs1 l1 fs2 l2, fs = fs1 ++ fs2 /\ fields_ok f64t f64p fs1 l1 /\ fields_ok f64t f64p fs2 l2 /\
        acc = filled fs1 l1 ++ nones fs2 /\ l = todo fs2 l2.

    Lemma filled_app fs1 l1 fs2 l2 : length l1 = length fs1 -> filled (fs1 ++ fs2) (l1 ++ l2) = filled fs1 l1 ++ filled fs2 l2.
    Proof. revert l1; induction fs1; intros [|]; cbn; try discriminate; auto. intros H; f_equal; auto. Qed.
    Lemma fields_ok_length fs1 l1 : fields_ok f64t f64p fs1 l1 -> length l1 = length fs1.
    Proof. revert l1; induction fs1; intros [|]; cbn; try tauto. intros [_ H]; f_equal; auto. Qed.
    Lemma fields_ok_app fs1 l1 fs2 l2 :
      fields_ok f64t f64p fs1 l1 -> fields_ok f64t f64p fs2 l2 -> fields_ok f64t f64p (fs1 ++ fs2) (l1 ++ l2).
    Proof. revert l1; induction fs1; intros [|]; cbn; try tauto. intros [? H] H2; split; auto. Qed.

    (** Skip the fields that are not written. *)
    Lemma Inv_cons k p l acc : Inv ((k, p) :: l) acc ->
      exists fs1 l1 f fs2 x l2, fs = fs1 ++ f :: fs2 /\ fields_ok f64t f64p fs1 l1 /\
        fields_ok f64t f64p (f :: fs2) (x :: l2) /\ acc = filled fs1 l1 ++ None :: nones fs2 /\
        k = field_name f /\ p = (f, x) /\ l = todo fs2 l2 /\ skipped f x = false.
    Proof.
      intros (fs1 & l1 & fs2 & l2 & E & H1 & H2 & Ea & El). revert fs1 l1 l2 E H1 H2 Ea El.
      induction fs2 as [|f fs2 IH]; intros fs1 l1 l2 E H1 H2 Ea El; [discriminate El|].
      destruct l2 as [|x l2]; [destruct H2|]. cbn [todo] in El. destruct (skipped f x) eqn:Sk.
      - apply (IH (fs1 ++ [f]) (l1 ++ [x]) l2); auto.
        + rewrite <- app_assoc. exact E.
        + apply fields_ok_app; auto. cbn. destruct H2; auto.
        + destruct H2; auto.
        + rewrite filled_app by (eapply fields_ok_length; eauto). cbn. rewrite Sk, <- app_assoc. exact Ea.
      - injection El as -> -> ->. exists fs1, l1, f, fs2, x, l2. auto 10.
    Qed.

    Lemma struct_member k p l acc : Inv ((k, p) :: l) acc ->
      utf8_valid k = true /\ Inv l (put fs acc k (snd p)) /\
      forall r, delim r = true ->
        set_field (map (fp f64p d) fs) acc k (ptext p ++ r)
        = if (depth (ser (snd (fst p)) (snd p)) <? d)%nat then Some (put fs acc k (snd p), r) else None.
    Proof.
      intros HI. destruct (Inv_cons HI) as (fs1 & l1 & f & fs2 & x & l2 & E & H1 & H2 & -> & -> & -> & -> & Sk).
      pose proof Hfs as Hs. rewrite E in Hs. apply fields_schema_ok_app in Hs as [Hs Hn].
      specialize (Hn f (or_introl eq_refl)). cbn [fields_schema_ok] in Hs. rewrite !andb_true_iff in Hs.
      destruct Hs as [[[[Hu _] _] Hsc] _]. destruct H2 as [Hx H2].
      assert (length (filled fs1 l1) = length fs1) as L by (eapply filled_length; eauto).
      split; [exact Hu|]. rewrite E. rewrite put_here by auto. cbn [snd fst]. split.
      - exists (fs1 ++ [f]), (l1 ++ [x]), fs2, l2. repeat split; auto.
        + rewrite <- app_assoc. exact E.
        + apply fields_ok_app; cbn; auto.
        + rewrite filled_app by (eapply fields_ok_length; eauto). cbn. rewrite Sk, <- app_assoc. reflexivity.
      - intros r D. rewrite set_field_here by auto. unfold ptext. cbn [fst snd].
        assert (rt (snd f)) as Hf.
        { rewrite Forall_forall in Hrt. apply Hrt. rewrite E. apply in_or_app; right; left; auto. }
        rewrite Hf by auto. destruct (depth (ser (snd f) x) <? d)%nat; reflexivity.
    Qed.

    Lemma put_todo l : forall fs1 l1 fs2, fs = fs1 ++ fs2 -> fields_ok f64t f64p fs1 l1 -> fields_ok f64t f64p fs2 l ->
      fold_left (fun acc kp => put fs acc (fst kp) (snd (snd kp))) (todo fs2 l) (filled fs1 l1 ++ nones fs2)
      = filled fs (l1 ++ l).
    Proof.
      induction l as [|x l IH]; intros fs1 l1 [|f fs2] E H1 H2; try (destruct H2; fail).
      - cbn. rewrite !app_nil_r in *. rewrite E. reflexivity.
      - destruct H2 as [Hx H2]. cbn [todo].
        assert (length l1 = length fs1) as L1 by (eapply fields_ok_length; eauto).
        assert (length (filled fs1 l1) = length fs1) as L by (eapply filled_length; eauto).
        replace (l1 ++ x :: l) with ((l1 ++ [x]) ++ l) by (rewrite <- app_assoc; reflexivity).
        rewrite <- IH with (fs1 := fs1 ++ [f]) (fs2 := fs2); auto.
        2: rewrite <- app_assoc; exact E.
        2: apply fields_ok_app; cbn; auto.
        rewrite filled_app by auto. cbn [filled].
        destruct (skipped f x) eqn:Sk.
        + rewrite <- app_assoc. reflexivity.
        + cbn [fold_left fst snd nones map]. pose proof Hfs as Hs. rewrite E in Hs. apply fields_schema_ok_app in Hs as [_ Hn].
          specialize (Hn f (or_introl eq_refl)).
          replace (put fs (filled fs1 l1 ++ None :: map (fun _ => None) fs2) (field_name f) x)
            with (filled fs1 l1 ++ Some x :: map (fun _ => None) fs2) by (rewrite E, put_here; auto).
          rewrite <- app_assoc. reflexivity.
    Qed.
  End Loop.

  Theorem de_ser sc : rt sc.
  Proof.
    induction sc as [| |sc IH|sc IH|names|fs IH] using schema_ind'; intros x d r Hs H Hd D;
      destruct x as [s|j| |x|l|name|l]; try (exfalso; exact H).
    - cbn [ser json_text]. rewrite quote_app. cbn [de]. rewrite skip_ws_start by reflexivity.
      rewrite beq_refl, parse_str_escape by exact H. destruct d; [lia|]. reflexivity.
    - cbn [ser de]. rewrite (@de_value_text f64t f64p j H d r Hd D). destruct (depth j <? d)%nat; reflexivity.
    - destruct d; [lia|]. reflexivity.
    - cbn [schema_ok] in Hs. apply andb_true_iff in Hs as [Hn Hs]. cbn [ser data_ok de] in *.
      pose proof (IH x d r Hs H Hd D) as E.
      destruct (@ser_nonnull f64t f64p sc x Hn Hs H) as (c & s & Et & Hc & Hw). rewrite Et in *. cbn [app] in *.
      rewrite skip_ws_start, Hc by assumption. rewrite E. destruct (depth (ser sc x) <? d)%nat; reflexivity.
    - apply data_ok_vec in H. cbn [schema_ok] in Hs. cbn [ser json_text]. rewrite brack_app. cbn [de].
      rewrite skip_ws_start by reflexivity. rewrite beq_refl.
      destruct d as [|d]; [lia|]. rewrite depth_arr. destruct d as [|d]; [rewrite andb_false_r; reflexivity|].
      cbn [enter]. change (0 <? S d)%nat with true. rewrite andb_true_r.
      assert (Forall (elem_spec (de f64p sc (S d)) (fun x => text (ser sc x)) (fun x => (depth (ser sc x) <? S d)%nat)) l) as F.
      { rewrite Forall_forall in *. intros x Hx. split; [eapply ser_ok; eauto|]. intros r' D'. apply IH; auto. lia. }
      rewrite map_map.
      rewrite seq_loop_true with (t := fun x => text (ser sc x)) (ok := fun x => (depth (ser sc x) <? S d)%nat); auto.
      + rewrite (forallb_map (fun x => (depth x <? S d)%nat)). destruct (forallb _ l); reflexivity.
      + rewrite app_length. pose proof (join_length F). cbn [length]. lia.
    - cbn [ser json_text]. rewrite quote_app. cbn [de data_ok schema_ok] in *. rewrite skip_ws_start by reflexivity.
      rewrite beq_refl, parse_str_escape.
      + rewrite H. destruct d; [lia|]. reflexivity.
      + unfold known_name in H. apply existsb_exists in H as (n & Hn & E). apply bytes_eqb_eq in E. subst n.
        rewrite forallb_forall in Hs. auto.
    - apply data_ok_struct in H. rewrite schema_ok_struct in Hs. rewrite ser_struct. cbn [json_text]. rewrite brace_app.
      cbn [de]. rewrite skip_ws_start by reflexivity.
      destruct d as [|d]; [lia|]. rewrite depth_obj. destruct d as [|d]; [rewrite andb_false_r; reflexivity|].
      cbn [enter]. change (0 <? S d)%nat with true. rewrite andb_true_r.
      change (beq "{" "{") with true. cbv iota.
      change (map (fun f => (fst (fst f), is_option (snd f), de f64p (snd f) (S d))) fs) with (map (fp f64p (S d)) fs).
      rewrite <- todo_members.
      match goal with |- context [map_loop _ _ _ _ ?st _] => change st with (map (fun _ : fparser => @None data) (map (fp f64p (S d)) fs)) end.
      rewrite (map_map (fp f64p (S d))). change (map (fun _ => None) fs) with (nones fs).
      rewrite map_loop_true with (t := ptext) (ok := fun p => (depth (ser (snd (fst p)) (snd p)) <? S d)%nat)
        (upd := fun acc kp => put fs acc (fst kp) (snd (snd kp))) (Inv := Inv fs).
      + rewrite todo_depth. destruct (forallb _ (members fs l)); [|reflexivity].
        pose proof (@put_todo fs Hs l [] [] fs eq_refl I H) as Ep. 
        match goal with |- context [finish _ ?st] => replace st with (filled fs l) by (symmetry; exact Ep) end.
        rewrite (finish_filled f64t f64p); auto.
      + intros k p l0 st HI. cbn [fst snd]. apply struct_member; auto. lia.
      + exists [], [], fs, l. split; [reflexivity|]. split; [exact I|]. split; [exact H|]. split; reflexivity.
      + rewrite app_length. pose proof (@join_mtext_length _ ptext (todo fs l)). cbn [length]. lia.
  Qed.

  (** [from_slice] after [to_string]. *)
  Theorem from_slice_ser sc x : schema_ok sc = true -> data_ok f64t f64p sc x ->
    from_slice f64p sc (text (ser sc x)) = if (depth (ser sc x) <=? 127)%nat then Some x else None.
  Proof.
    intros Hs H. unfold from_slice. pose proof (@de_ser sc x 128%nat [] Hs H) as E. rewrite app_nil_r in E.
    rewrite E by (auto; lia). change (depth (ser sc x) <? 128)%nat with (depth (ser sc x) <=? 127)%nat.
    destruct (depth (ser sc x) <=? 127)%nat; reflexivity.
  Qed.
End RoundTrip.
