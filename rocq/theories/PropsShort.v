(** C83: documents are written in the fewest bytes. *)
From Verif Require Import Base BaseFacts Codec Json Deps Types Proof Vc Grammar TextSpec FlowSpec ShortSpec ShortFacts TextDemo Demo DemoFacts.
Local Open Scope nat_scope.

(** C83. A string is written in the shortest of the forms JSON has for it, and (but for capital hexadecimal digits)
    that form is the only one of this length. *)
Theorem C83_string : forall num s, utf8_valid s = true ->
  (exists cs, Forall char_ok cs /\ Forall lower_case cs /\ string_of cs = Some s /\ string_text cs = json_text num (JStr s)) /\
  forall cs, Forall char_ok cs -> string_of cs = Some s ->
    length (json_text num (JStr s)) <= length (string_text cs) /\
    (Forall lower_case cs -> length (string_text cs) = length (json_text num (JStr s)) -> string_text cs = json_text num (JStr s)).
Proof. exact string_shortest. Qed.
Print Assumptions C83_string.
Example C83_string_example :
  let s := B "a/""" ++ [x0a; x01; x7f] in
  let cs := [Uni "0" "0" "6" "1"; Short "/"; Short """"; Uni "0" "0" "0" "A"; Uni "0" "0" "0" "1"; Plain x7f] in
  utf8_valid s = true /\ Forall char_ok cs /\ string_of cs = Some s /\
  json_text (serde_number (f64_text demo)) (JStr s) = B """a/\""\n\u0001" ++ [x7f; """"%byte] /\
  string_text cs = B """\u0061\/\""\u000A\u0001" ++ [x7f; """"%byte].
Proof. split; [vm_compute; reflexivity|]. split; [apply chars_dec; vm_compute; reflexivity|]. repeat split; vm_compute; reflexivity. Qed.

(** No numeral for an integer is shorter than the one written. (Of other numbers this is not so: 1e5 is shorter than
    100000.0; below it is a hypothesis for them.) *)
Theorem C83_integers : forall D n,
  short_number (f64_parse D) (serde_number (f64_text D)) (PosInt n) /\ short_number (f64_parse D) (serde_number (f64_text D)) (NegInt n).
Proof. exact integers_shortest. Qed.
Print Assumptions C83_integers.
Example C83_integers_example :
  int_ok (B "1") /\ frac_ok [] /\ exp_ok [] /\ number_of (f64_parse demo) false (B "1") [] [] = Some (PosInt 1) /\
  serde_number (f64_text demo) (PosInt 1) = number_text false (B "1") [] [].
Proof. destruct one_ok as (A & B & C). repeat split; try assumption; try (vm_compute; reflexivity); apply A. Qed.

(** No text of a JSON value is shorter than the written one and than the canonical one. *)
Theorem C83_value : forall f64 num leb t j, tree_ok t -> value_of f64 t = Some j -> all_numbers (short_number f64 num) j ->
  length (json_text num j) <= length (render t) /\ length (jcs_text leb num j) <= length (render t).
Proof. exact value_shortest. Qed.
Print Assumptions C83_value.
Example C83_value_example :
  tree_ok demo_tree' /\ exists j, value_of (f64_parse demo) demo_tree' = Some j /\
    all_numbers (short_number (f64_parse demo) (serde_number (f64_text demo))) j /\
    length (render demo_tree') = length (json_text (serde_number (f64_text demo)) j) + 29.
Proof.
  split; [exact demo_tree_ok'|]. eexists. split; [vm_compute; reflexivity|]. split; [|vm_compute; reflexivity].
  repeat split. apply integers_shortest.
Qed.

(** No text naming the members of a credential or a presentation (and read as such) is shorter than the text the
    crate writes for it, nor than the canonical text it signs. *)
Theorem C83_vc : forall D v t s, vc_parse_json_bytes D s = Ok v -> text_of vc_by_name s ->
  (vc_to_json D v = Ok (JSONValue t) -> all_numbers (short_number (f64_parse D) (serde_number (f64_text D))) (vc_subject v) -> length t <= length s) /\
  (vc_to_jcs D v = Ok t -> all_numbers (short_number (f64_parse D) (jcs_number D)) (vc_subject v) -> length t <= length s).
Proof. exact vc_shortest. Qed.
Print Assumptions C83_vc.
Theorem C83_vp : forall D v t s, vp_parse_json_bytes D s = Ok v -> text_of vp_by_name s ->
  (vp_to_json D v = Ok (JSONValue t) ->
     Forall (fun c => all_numbers (short_number (f64_parse D) (serde_number (f64_text D))) (vc_subject c)) (vp_credentials v) -> length t <= length s) /\
  (vp_to_jcs D v = Ok t ->
     Forall (fun c => all_numbers (short_number (f64_parse D) (jcs_number D)) (vc_subject c)) (vp_credentials v) -> length t <= length s).
Proof. exact vp_shortest. Qed.
Print Assumptions C83_vp.
Definition short_vp_tree : tree :=
  TObj [] [mem "holder" (TStr [Uni "0" "0" "6" "8"]); mem "type" (arr [str "t"]); mem "verifiableCredential" (arr [demo_tree']); mem "@context" (arr [str "c"])].
Example C83_vc_example :
  text_of vc_by_name demo_text' /\ exists v, vc_parse_json_bytes demo demo_text' = Ok v /\
    all_numbers (short_number (f64_parse demo) (serde_number (f64_text demo))) (vc_subject v) /\
    vc_to_json demo v = Ok (JSONValue (B "{""@context"":[""c""],""type"":[""t""],""credentialSubject"":{""a"":true,""b"":[1,null]},""id"":""i"",""issuer"":""me""}")) /\
    vc_to_jcs demo v = Ok (B "{""@context"":[""c""],""credentialSubject"":{""a"":true,""b"":[1,null]},""id"":""i"",""issuer"":""me"",""type"":[""t""]}").
Proof.
  split.
  - exists [], demo_tree', [x20; x20]. split; [constructor|]. split; [exact demo_tree_ok'|]. split; [apply blank_dec; reflexivity|].
    split; [symmetry; exact demo_render'|]. do 2 eexists. split; [reflexivity|]. intros m Hm Hn. cbn in Hm. decompose [or] Hm; subst; try contradiction; vm_compute in Hn; discriminate.
  - eexists. split; [vm_compute; reflexivity|]. split; [repeat split; apply integers_shortest|]. split; vm_compute; reflexivity.
Qed.
Example C83_vp_example :
  text_of vp_by_name (render short_vp_tree) /\ exists v, vp_parse_json_bytes demo (render short_vp_tree) = Ok v /\
    Forall (fun c => all_numbers (short_number (f64_parse demo) (serde_number (f64_text demo))) (vc_subject c)) (vp_credentials v) /\
    vp_to_json demo v = Ok (JSONValue (B "{""@context"":[""c""],""type"":[""t""],""verifiableCredential"":[{""@context"":[""c""],""type"":[""t""],""credentialSubject"":{""a"":true,""b"":[1,null]},""id"":""i"",""issuer"":""me""}],""holder"":""h""}")).
Proof.
  split.
  - exists [], short_vp_tree, []. split; [constructor|]. split; [unfold short_vp_tree, arr, str, mem; trees; unfold demo_tree', arr, str, mem, one; trees|].
    split; [constructor|]. split; [rewrite app_nil_r; reflexivity|]. do 2 eexists. split; [reflexivity|]. split.
    + intros m Hm Hn. cbn in Hm. decompose [or] Hm; subst; try contradiction; vm_compute in Hn; discriminate.
    + intros m w l Hm Hn E. cbn in Hm. decompose [or] Hm; subst; try contradiction; try (vm_compute in Hn; discriminate).
      unfold mem, arr in E. cbn [m_value map] in E. inversion E; subst. constructor; [|constructor]. cbn [i_value]. do 2 eexists. split; [reflexivity|].
      intros m Hm' Hn'. cbn in Hm'. decompose [or] Hm'; subst; try contradiction; vm_compute in Hn'; discriminate.
  - eexists. split; [vm_compute; reflexivity|]. split; [repeat constructor; apply integers_shortest|]. vm_compute. reflexivity.
Qed.
(** A credential given as the array of its fields is shorter. *)
Theorem C83_any_text_refuted : exists v t s, vc_parse_json_bytes demo s = Ok v /\ vc_to_json demo v = Ok (JSONValue t) /\
  all_numbers (short_number (f64_parse demo) (serde_number (f64_text demo))) (vc_subject v) /\ length s < length t.
Proof.
  do 2 eexists. exists (B "[[""c""],[""t""],true,null,""i"",""me""]"). split; [vm_compute; reflexivity|]. split; [vm_compute; reflexivity|].
  split; [exact I|]. apply Nat.ltb_lt. vm_compute. reflexivity.
Qed.
Print Assumptions C83_any_text_refuted.
