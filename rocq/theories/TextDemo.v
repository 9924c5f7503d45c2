(** Concrete texts for the examples of C43 and C44. *)
From Coq Require Import String Permutation.
From Verif Require Import Base BaseFacts Codec Json Deps Types Proof Vc Grammar TextSpec TextFacts.
Local Open Scope list_scope.

Definition str (s : string) : tree := TStr (map Plain (B s)).
Definition mem (k : string) (v : tree) : member tree := Member [] (map Plain (B k)) [] [] v [].
Definition arr (l : list tree) : tree := TArr [] (map (fun t => Item [] t []) l).
Definition one : tree := TNum false (B "1") [] [].
Definition demo_subject : tree := TObj [] [mem "b" (arr [one; TNull]); mem "a" (TBool true)].
Definition demo_tree : tree :=
  TObj [] [mem "@context" (arr [str "c"]); mem "type" (arr [str "t"]); mem "credentialSubject" demo_subject;
           mem "id" (str "i"); mem "issuer" (str "me")].
(** The same with another order, blanks, an escape, and two members nobody asked for. *)
Definition demo_tree' : tree :=
  TObj [] [mem "admin" (TBool true);
           Member [x20] [Plain "i"; Uni "0" "0" "6" "4"] [x09] [x20] (str "i") [x0a];
           mem "credentialSubject" (TObj [] [mem "a" (TBool true); mem "b" (TArr [] [Item [] one [x20]; Item [x20] TNull []])]);
           mem "@context" (arr [str "c"]); mem "type" (arr [TStr [Uni "0" "0" "7" "4"]]);
           mem "issuer" (str "me"); mem "admin" (arr [])].
Definition demo_text : bytes :=
  B "{""@context"":[""c""],""type"":[""t""],""credentialSubject"":{""b"":[1,null],""a"":true},""id"":""i"",""issuer"":""me""}".
Definition demo_text' : bytes :=
  B "{""admin"":true, ""i\u0064""" ++ [x09] ++ B ": ""i""" ++ [x0a] ++
  B ",""credentialSubject"":{""a"":true,""b"":[1 , null]},""@context"":[""c""],""type"":[""\u0074""],""issuer"":""me"",""admin"":[]}  ".
Lemma demo_render : render demo_tree = demo_text. Proof. vm_compute. reflexivity. Qed.
Lemma demo_render' : render demo_tree' ++ [x20; x20] = demo_text'. Proof. vm_compute. reflexivity. Qed.

Lemma blank_dec w : forallb (fun c => existsb (beq c) [x20; x09; x0a; x0d]) w = true -> blank w.
Proof.
  intros H. apply Forall_forall. rewrite forallb_forall in H. intros c Hc. apply H in Hc. apply existsb_exists in Hc.
  destruct Hc as (x & Hx & E). apply beq_eq in E. subst x. exact Hx.
Qed.
Definition char_okb (x : schar) : bool :=
  match x with
  | Plain c => negb (beq c q_quote) && negb (beq c q_bslash) && N.leb 32 (Byte.to_N c)
  | Short e => match assoc e escapes with Some _ => true | None => false end
  | Uni a b c d => match code_unit a b c d with Some _ => true | None => false end
  end.
Lemma chars_dec cs : forallb char_okb cs = true -> Forall char_ok cs.
Proof.
  intros H. apply Forall_forall. rewrite forallb_forall in H. intros x Hx. apply H in Hx. destruct x as [c|e|a b c d]; cbn [char_okb char_ok] in *.
  - rewrite !andb_true_iff, !negb_true_iff in Hx. destruct Hx as ((H1 & H2) & H3). apply N.leb_le in H3.
    repeat split; [intros -> ..|exact H3]; [rewrite (proj2 (beq_eq _ _) eq_refl) in H1|rewrite (proj2 (beq_eq _ _) eq_refl) in H2]; discriminate.
  - destruct (assoc e escapes); discriminate.
  - destruct (code_unit a b c d); discriminate.
Qed.
Lemma one_ok : int_ok (B "1") /\ frac_ok [] /\ exp_ok [].
Proof.
  split; [|split; left; reflexivity]. split; [split; [discriminate|]|].
  - repeat constructor; vm_compute; discriminate.
  - intros E. vm_compute in E. discriminate.
Qed.
Ltac trees := cbn [tree_ok demo_tree demo_tree' demo_subject mem str arr map fold_right i_before i_value i_after m_before m_key m_mid1 m_mid2 m_value m_after];
  repeat split; try exact one_ok; first [apply blank_dec; reflexivity | apply chars_dec; reflexivity | exact I | apply one_ok | idtac].
Lemma demo_tree_ok : tree_ok demo_tree. Proof. unfold demo_tree, demo_subject, arr, str, mem, one. trees. Qed.
Lemma demo_tree_ok' : tree_ok demo_tree'. Proof. unfold demo_tree', demo_subject, arr, str, mem, one. trees. Qed.

Lemma demo_reformatted : reformatted demo_subject
  (TObj [] [mem "a" (TBool true); mem "b" (TArr [] [Item [] one [x20]; Item [x20] TNull []])]).
Proof.
  unfold demo_subject. eapply FObj; [| apply perm_swap |].
  - apply Forall2_cons; [|apply Forall2_cons; [|apply Forall2_nil]]; (split; [reflexivity|]); cbn [m_value mem]; [|apply FBool].
    apply FArr. repeat (apply Forall2_cons || apply Forall2_nil); constructor.
  - cbn [map m_key mem]. apply NoDup_cons; [|apply NoDup_cons; [intros []|apply NoDup_nil]].
    intros [E|[]]. vm_compute in E. discriminate.
Qed.
Lemma same_refl t : same_value t t. Proof. split; reflexivity. Qed.
Lemma demo_same : same_vc_tree demo_tree demo_tree'.
Proof.
  right. eexists _, _, _, _. split; [reflexivity|]. split; [reflexivity|].
  exists [mem "id" (str "i"); mem "credentialSubject" demo_subject; mem "@context" (arr [str "c"]); mem "type" (arr [str "t"]); mem "issuer" (str "me")].
  exists [Member [x20] [Plain "i"; Uni "0" "0" "6" "4"] [x09] [x20] (str "i") [x0a];
           mem "credentialSubject" (TObj [] [mem "a" (TBool true); mem "b" (TArr [] [Item [] one [x20]; Item [x20] TNull []])]);
           mem "@context" (arr [str "c"]); mem "type" (arr [TStr [Uni "0" "0" "7" "4"]]);
           mem "issuer" (str "me")].
  exists [], [mem "admin" (TBool true); mem "admin" (arr [])]. split; [|split; [|split; [|split]]].
  - rewrite app_nil_r.
    apply Permutation_trans with (l' := [mem "id" (str "i")] ++ [mem "credentialSubject" demo_subject; mem "@context" (arr [str "c"]); mem "type" (arr [str "t"]); mem "issuer" (str "me")]); [reflexivity|].
    apply Permutation_trans with (l' := [mem "credentialSubject" demo_subject] ++ [mem "@context" (arr [str "c"]); mem "type" (arr [str "t"]); mem "id" (str "i"); mem "issuer" (str "me")]).
    + cbn [app]. apply Permutation_trans with (1 := perm_swap _ _ _). apply perm_skip. apply Permutation_trans with (1 := perm_swap _ _ _). apply perm_skip. apply perm_swap.
    + cbn [app]. apply Permutation_trans with (1 := perm_swap _ _ _). apply perm_skip. apply perm_swap.
  - match goal with |- Permutation (?a ++ [?x; ?y]) (?x' :: ?b) => change (Permutation (a ++ [x; y]) (x :: a ++ [y])) end.
    apply Permutation_sym. apply Permutation_middle.
  - repeat (apply Forall2_cons || apply Forall2_nil).
    + exists (B "id"), same_value. split; [cbn [In]; tauto|]. split; [vm_compute; reflexivity|]. split; [vm_compute; reflexivity|]. apply same_refl.
    + exists (B "credentialSubject"), same_value. split; [cbn [In]; tauto|]. split; [vm_compute; reflexivity|]. split; [vm_compute; reflexivity|].
      apply reformatted_same. exact demo_reformatted.
    + exists (B "@context"), same_value. split; [cbn [In]; tauto|]. split; [vm_compute; reflexivity|]. split; [vm_compute; reflexivity|]. apply same_refl.
    + exists (B "type"), same_value. split; [cbn [In]; tauto|]. split; [vm_compute; reflexivity|]. split; [vm_compute; reflexivity|].
      apply reformatted_same. cbn [m_value mem]. apply FArr. repeat (apply Forall2_cons || apply Forall2_nil). constructor. vm_compute. reflexivity.
    + exists (B "issuer"), same_value. split; [cbn [In]; tauto|]. split; [vm_compute; reflexivity|]. split; [vm_compute; reflexivity|]. apply same_refl.
  - apply Forall_nil.
  - repeat (apply Forall_cons || apply Forall_nil); (exists (B "admin"); split; [vm_compute; reflexivity|]);
      cbn [map fst In]; intros H; repeat (destruct H as [H|H]; [vm_compute in H; discriminate|]); exact H.
Qed.
Lemma demo_same_text : same_text same_vc_tree demo_text demo_text'.
Proof.
  exists [], demo_tree, [], [], demo_tree', [x20; x20]. repeat (split; [apply blank_dec; reflexivity|]).
  split; [exact demo_tree_ok|]. split; [exact demo_tree_ok'|]. split; [rewrite app_nil_r; symmetry; exact demo_render|].
  split; [symmetry; exact demo_render'|]. exact demo_same.
Qed.
