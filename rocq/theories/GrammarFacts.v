(** The parser of [JsonParse] accepts exactly the texts of [Grammar], with the meaning given there. *)
From Verif Require Import Base BaseFacts Codec CodecFacts Json JsonParse Deps JsonFacts JsonParseFacts SchemaFacts ParseFacts
  MiscSpec MiscFacts Grammar.
From Coq Require Import Lia ZifyBool ZifyNat ZifyN.
Set Implicit Arguments.
Unset Strict Implicit.
Local Open Scope N_scope.

(** ** Blanks *)
Lemma blank_ws c : In c [x20; x09; x0a; x0d] <-> is_ws c = true.
Proof.
  unfold is_ws. rewrite !orb_true_iff, !beq_eq. cbn [In]. intuition congruence.
Qed.
Lemma skip_blank w r : blank w -> skip_ws (w ++ r) = skip_ws r.
Proof. induction 1 as [|c w Hc F IH]; [reflexivity|]. cbn. apply blank_ws in Hc. rewrite Hc. exact IH. Qed.
Lemma skip_blank_start w c r : blank w -> is_ws c = false -> skip_ws (w ++ c :: r) = c :: r.
Proof. intros B H. rewrite skip_blank by assumption. apply skip_ws_start. exact H. Qed.
Lemma skip_split s : exists w, blank w /\ s = w ++ skip_ws s.
Proof.
  induction s as [|c s (w & B & E)]; [exists []; split; [constructor|reflexivity]|]. cbn [skip_ws].
  destruct (is_ws c) eqn:C; [|exists []; split; [constructor|reflexivity]].
  exists (c :: w). split; [constructor; [apply blank_ws; exact C|exact B]|]. cbn. rewrite <- E. reflexivity.
Qed.
Lemma skip_all w : skip_ws w = [] <-> blank w.
Proof.
  split; intros H.
  - destruct (skip_split w) as (w' & B & E). rewrite H, app_nil_r in E. subst. exact B.
  - rewrite <- (app_nil_r w). rewrite skip_blank by assumption. reflexivity.
Qed.
Lemma blank_app a b : blank a -> blank b -> blank (a ++ b).
Proof. unfold blank. intros. apply Forall_app. auto. Qed.
Lemma ws_delim c r : is_ws c = true -> delim (c :: r) = true.
Proof. cbn. revert c. apply byte_impl. reflexivity. Qed.
Lemma blank_delim w r : blank w -> delim r = true -> delim (w ++ r) = true.
Proof. intros [|c w' H F] D; [exact D|]. cbn [app]. apply ws_delim. apply blank_ws. exact H. Qed.

(** ** Strings *)
Lemma assoc_escape e : assoc e escapes = short_escape e.
Proof.
  revert e. assert (H : forall e, (match assoc e escapes, short_escape e with Some a, Some b => beq a b | None, None => true | _, _ => false end) = true).
  { apply forall_byte. reflexivity. }
  intros e. specialize (H e). destruct (assoc e escapes), (short_escape e); try discriminate; [|reflexivity].
  apply beq_eq in H. subst. reflexivity.
Qed.
Lemma assoc_hex c : assoc c hex_digits = hex_val c.
Proof.
  revert c. assert (H : forall e, (match assoc e hex_digits, hex_val e with Some a, Some b => N.eqb a b | None, None => true | _, _ => false end) = true).
  { apply forall_byte. reflexivity. }
  intros e. specialize (H e). destruct (assoc e hex_digits), (hex_val e); try discriminate; [|reflexivity].
  apply N.eqb_eq in H. subst. reflexivity.
Qed.
Lemma unit_hex4 a b c d : code_unit a b c d = hex4 a b c d.
Proof.
  unfold code_unit, hex4. rewrite !assoc_hex. destruct (hex_val a), (hex_val b), (hex_val c), (hex_val d); try reflexivity. f_equal. lia.
Qed.
Lemma code_point_encode n : code_point n = utf8_encode n.
Proof.
  unfold code_point, char_bytes, utf8_encode. repeat (match goal with |- context [if ?c then _ else _] => destruct c end); reflexivity.
Qed.

Lemma body_quote r : str_body (q_quote :: r) = Some ([], r). Proof. reflexivity. Qed.
Lemma body_plain c r : c <> q_quote -> c <> q_bslash -> 32 <= Byte.to_N c -> str_body (c :: r) = prepend [c] (str_body r).
Proof.
  intros H1 H2 H3. apply beq_neq in H1, H2. cbn [str_body]. rewrite H1, H2. unfold inr. replace (_ && _) with false by lia. reflexivity.
Qed.
Lemma short_not_u e x : short_escape e = Some x -> beq e "u"%byte = false.
Proof. intros H. apply beq_neq. intros ->. discriminate. Qed.
Lemma body_short e x r : short_escape e = Some x -> str_body (q_bslash :: e :: r) = prepend [x] (str_body r).
Proof. intros H. pose proof (short_not_u H) as U. cbn [str_body]. change (beq q_bslash q_quote) with false. change (beq q_bslash q_bslash) with true. cbv iota. rewrite U, H. reflexivity. Qed.
Definition pair_rest (n : N) (r2 : bytes) : option (bytes * bytes) :=
  match r2 with
  | p :: q :: a2 :: b2 :: c2 :: d2 :: r3 =>
    if beq p q_bslash && beq q "u"%byte then
      match hex4 a2 b2 c2 d2 with
      | None => None
      | Some m =>
        if ((m <? 56320) || (57343 <? m))%N then None
        else prepend (utf8_encode ((n - 55296) * 1024 + (m - 56320) + 65536)%N) (str_body r3)
      end
    else None
  | _ => None
  end.
Lemma body_uni a b c d r : str_body (q_bslash :: "u"%byte :: a :: b :: c :: d :: r) =
  match hex4 a b c d with
  | None => None
  | Some n => if ((n <? 55296) || (57343 <? n))%N then prepend (utf8_encode n) (str_body r)
              else if (56320 <=? n)%N then None else pair_rest n r
  end.
Proof. reflexivity. Qed.
Lemma pair_rest_no n r : (forall r', r <> q_bslash :: "u"%byte :: r') -> pair_rest n r = None.
Proof.
  intros H. unfold pair_rest. do 6 (destruct r as [|? r]; [reflexivity|]).
  destruct (beq b q_bslash && beq b0 "u"%byte) eqn:E; [|reflexivity]. exfalso. apply andb_prop in E. destruct E as [E1 E2].
  apply beq_eq in E1, E2. subst. eapply H. reflexivity.
Qed.
Lemma prepend_map p (o : option bytes) (r : bytes) : prepend p (option_map (fun t => (t, r)) o) = option_map (fun t => (t, r)) (option_map (app p) o).
Proof. destruct o; reflexivity. Qed.

Lemma str_body_text k : forall cs r, (length cs <= k)%nat -> Forall char_ok cs ->
  str_body (flat_map char_text cs ++ q_quote :: r) = option_map (fun t => (t, r)) (chars cs).
Proof.
  induction k as [|k IH]; intros cs r L F.
  { destruct cs; [apply body_quote | cbn in L; lia]. }
  destruct F as [|x cs Hx F]; [apply body_quote|]. cbn [length] in L. cbn [flat_map]. rewrite <- app_assoc.
  destruct x as [c|e|a b c d]; cbn [char_text app char_ok] in *.
  - destruct Hx as (H1 & H2 & H3). rewrite body_plain by assumption. rewrite IH by (assumption || lia). apply prepend_map.
  - cbn [chars]. rewrite assoc_escape in *. destruct (short_escape e) as [x|] eqn:E; [|congruence].
    rewrite (body_short _ E). rewrite IH by (assumption || lia). apply prepend_map.
  - rewrite body_uni. cbn [chars]. rewrite unit_hex4. destruct (hex4 a b c d) as [n|]; [|reflexivity].
    change 55296 with 0xD800. change 57343 with 0xDFFF. change 56320 with 0xDC00. rewrite <- code_point_encode.
    destruct ((n <? 0xD800) || (0xDFFF <? n)); [rewrite IH by (assumption || lia); apply prepend_map|].
    destruct (0xDC00 <=? n); [reflexivity|].
    destruct F as [|y cs Hy F].
    { apply pair_rest_no. intros r' E. discriminate. }
    cbn [flat_map]. rewrite <- app_assoc. destruct y as [c'|e'|a' b' c' d']; cbn [char_text app char_ok] in *.
    + apply pair_rest_no. intros r' E. injection E as E1 E2. destruct Hy as (_ & Hy & _). contradiction.
    + apply pair_rest_no. intros r' E. injection E as E1 E2. subst e'. apply Hy. reflexivity.
    + unfold pair_rest. change (beq q_bslash q_bslash && beq "u" "u") with true. cbv iota.
      rewrite unit_hex4. destruct (hex4 a' b' c' d') as [m|]; [|reflexivity].
      replace ((m <? 56320) || (57343 <? m)) with (negb ((0xDC00 <=? m) && (m <=? 0xDFFF))) by lia.
      destruct ((0xDC00 <=? m) && (m <=? 0xDFFF)); [|reflexivity]. cbn [negb]. cbn [length] in L.
      rewrite IH by (assumption || lia). rewrite <- code_point_encode.
      replace ((n - 55296) * 1024 + (m - 56320) + 65536) with (0x10000 + (n - 0xD800) * 0x400 + (m - 0xDC00)) by lia.
      apply prepend_map.
Qed.
Lemma parse_str_text cs r : Forall char_ok cs -> parse_str (flat_map char_text cs ++ q_quote :: r) = option_map (fun t => (t, r)) (string_of cs).
Proof.
  intros F. unfold parse_str, string_of. rewrite (@str_body_text (length cs)) by (auto || lia).
  destruct (chars cs) as [t|]; [|reflexivity]. cbn [option_map]. destruct (utf8_valid t); reflexivity.
Qed.
Lemma ignore_str_text cs r : Forall char_ok cs -> ignore_str (flat_map char_text cs ++ q_quote :: r) = Some r.
Proof.
  induction 1 as [|x cs Hx F IH]; [reflexivity|]. cbn [flat_map]. rewrite <- app_assoc.
  destruct x as [c|e|a b c d]; cbn [char_text app char_ok ignore_str] in *.
  - destruct Hx as (H1 & H2 & H3). apply beq_neq in H1, H2. rewrite H1, H2. unfold inr. replace (_ && _) with false by lia. exact IH.
  - rewrite assoc_escape in Hx. destruct (short_escape e) as [x|] eqn:E; [|congruence].
    change (beq q_bslash q_quote) with false. change (beq q_bslash q_bslash) with true. cbv iota. rewrite (short_not_u E). exact IH.
  - change (beq q_bslash q_quote) with false. change (beq q_bslash q_bslash) with true. change (beq "u" "u") with true. cbv iota.
    rewrite unit_hex4 in Hx. destruct (hex4 a b c d); [exact IH|congruence].
Qed.

(** Conversely, what is read as a string is the text of some characters. *)
Lemma plain_ok c : beq c q_quote = false -> beq c q_bslash = false -> inr 0 31 c = false -> char_ok (Plain c).
Proof. intros H1 H2 H3. apply beq_neq in H1, H2. unfold inr in H3. cbn. repeat split; try assumption. lia. Qed.
Lemma str_body_inv k : forall s t r, (length s <= k)%nat -> str_body s = Some (t, r) ->
  exists cs, Forall char_ok cs /\ s = flat_map char_text cs ++ q_quote :: r.
Proof.
  induction k as [|k IH]; intros s t r L H; (destruct s as [|c s]; [discriminate|]); [cbn in L; lia|].
  cbn [length] in L. cbn [str_body] in H.
  destruct (beq c q_quote) eqn:C1.
  { apply beq_eq in C1. injection H as <- <-. subst c. exists []. split; [constructor|reflexivity]. }
  destruct (beq c q_bslash) eqn:C2.
  - apply beq_eq in C2. subst c. destruct s as [|e s]; [discriminate|]. cbn [length] in L.
    destruct (beq e "u"%byte) eqn:C3.
    + apply beq_eq in C3. subst e. destruct s as [|a [|b [|c [|d s]]]]; try discriminate. cbn [length] in L.
      destruct (hex4 a b c d) as [n|] eqn:Hx; [|discriminate].
      assert (Hok : char_ok (Uni a b c d)) by (cbn; rewrite unit_hex4, Hx; discriminate).
      destruct ((n <? 55296) || (57343 <? n)).
      * apply prepend_some in H. destruct H as (t' & H & _). apply IH in H; [|lia]. destruct H as (cs & F & ->).
        exists (Uni a b c d :: cs). split; [constructor; assumption|reflexivity].
      * destruct (56320 <=? n); [discriminate|].
        destruct s as [|p [|q [|a2 [|b2 [|c2 [|d2 s]]]]]]; try discriminate. cbn [length] in L.
        destruct (beq p q_bslash && beq q "u"%byte) eqn:Ep; [|discriminate]. apply andb_prop in Ep. destruct Ep as [E1 E2].
        apply beq_eq in E1, E2. subst p q. destruct (hex4 a2 b2 c2 d2) as [m|] eqn:Hy; [|discriminate].
        destruct ((m <? 56320) || (57343 <? m)); [discriminate|].
        apply prepend_some in H. destruct H as (t' & H & _). apply IH in H; [|lia]. destruct H as (cs & F & ->).
        exists (Uni a b c d :: Uni a2 b2 c2 d2 :: cs). split; [|reflexivity].
        constructor; [assumption|]. constructor; [|assumption]. cbn. rewrite unit_hex4, Hy. discriminate.
    + destruct (short_escape e) as [x|] eqn:E; [|discriminate]. apply prepend_some in H. destruct H as (t' & H & _).
      apply IH in H; [|lia]. destruct H as (cs & F & ->). exists (Short e :: cs). split; [|reflexivity].
      constructor; [|assumption]. cbn [char_ok]. rewrite assoc_escape, E. discriminate.
  - destruct (inr 0 31 c) eqn:C3; [discriminate|]. apply prepend_some in H. destruct H as (t' & H & _).
    apply IH in H; [|lia]. destruct H as (cs & F & ->). exists (Plain c :: cs). split; [|reflexivity].
    constructor; [|assumption]. apply plain_ok; assumption.
Qed.
Lemma parse_str_inv s t r : parse_str s = Some (t, r) -> exists cs, Forall char_ok cs /\ s = flat_map char_text cs ++ q_quote :: r.
Proof.
  unfold parse_str. destruct (str_body s) as [[t' r']|] eqn:E; [|discriminate]. destruct (utf8_valid t'); [|discriminate].
  intros H. injection H as <- <-. eapply str_body_inv; eauto.
Qed.
Lemma ignore_str_inv k : forall s r, (length s <= k)%nat -> ignore_str s = Some r ->
  exists cs, Forall char_ok cs /\ s = flat_map char_text cs ++ q_quote :: r.
Proof.
  induction k as [|k IH]; intros s r L H; (destruct s as [|c s]; [discriminate|]); [cbn in L; lia|].
  cbn [length] in L. cbn [ignore_str] in H.
  destruct (beq c q_quote) eqn:C1.
  { apply beq_eq in C1. injection H as <-. subst c. exists []. split; [constructor|reflexivity]. }
  destruct (beq c q_bslash) eqn:C2.
  - apply beq_eq in C2. subst c. destruct s as [|e s]; [discriminate|]. cbn [length] in L.
    destruct (beq e "u"%byte) eqn:C3.
    + apply beq_eq in C3. subst e. destruct s as [|a [|b [|c [|d s]]]]; try discriminate. cbn [length] in L.
      destruct (hex4 a b c d) as [n|] eqn:Hx; [|discriminate]. apply IH in H; [|lia]. destruct H as (cs & F & ->).
      exists (Uni a b c d :: cs). split; [|reflexivity]. constructor; [|assumption]. cbn. rewrite unit_hex4, Hx. discriminate.
    + destruct (short_escape e) as [x|] eqn:E; [|discriminate].
      apply IH in H; [|lia]. destruct H as (cs & F & ->). exists (Short e :: cs). split; [|reflexivity].
      constructor; [|assumption]. cbn [char_ok]. rewrite assoc_escape, E. discriminate.
  - destruct (inr 0 31 c) eqn:C3; [discriminate|].
    apply IH in H; [|lia]. destruct H as (cs & F & ->). exists (Plain c :: cs). split; [|reflexivity].
    constructor; [|assumption]. apply plain_ok; assumption.
Qed.

(** ** Numbers *)
Lemma digit_iff c : digit c <-> is_digit c = true.
Proof. unfold digit, is_digit, inr. lia. Qed.
Lemma digits_iff ds : Forall digit ds <-> forallb is_digit ds = true.
Proof. rewrite forallb_forall, Forall_forall. split; intros H c Hc; apply digit_iff; auto. Qed.
Definition no_digit (r : bytes) : Prop := match r with c :: _ => is_digit c = false | [] => True end.
Lemma exp_no_digit e r : exp_ok e -> no_digit r -> no_digit (e ++ r).
Proof.
  intros [->|(l & sg & ds & -> & Hl & _)] Hr; [exact Hr|]. cbn. destruct Hl as [<-|[<-|[]]]; reflexivity.
Qed.
Lemma frac_no_digit f r : frac_ok f -> no_digit r -> no_digit (f ++ r).
Proof. intros [->|(ds & -> & _)] Hr; [exact Hr|reflexivity]. Qed.
Lemma scan_int_text i r : int_ok i -> no_digit r -> scan_int (i ++ r) = Some (i, r).
Proof.
  intros ((Hn & F) & Hz) Hr. unfold scan_int. rewrite span_digits_app; [|apply digits_iff; exact F|exact Hr].
  destruct i as [|c ds]; [congruence|]. destruct (beq c "0"%byte && negb (is_empty ds)) eqn:E; [|reflexivity].
  apply andb_prop in E. destruct E as [E1 E2]. apply beq_eq in E1. specialize (Hz E1). injection Hz as _ ->. discriminate.
Qed.
Definition not_start (p : byte -> bool) (r : bytes) : Prop := match r with c :: _ => p c = false | [] => True end.
Lemma scan_frac_text f r : frac_ok f -> no_digit r -> not_start (fun c => beq c "."%byte) r -> scan_frac (f ++ r) = Some (f, r).
Proof.
  intros [->|(ds & -> & (Hn & F))] Hr Hd.
  - destruct r as [|c r]; [reflexivity|]. cbn in Hd. cbn. rewrite Hd. reflexivity.
  - cbn [app scan_frac]. change (beq "." ".") with true. cbv iota. rewrite span_digits_app; [|apply digits_iff; exact F|exact Hr].
    destruct ds; [congruence|reflexivity].
Qed.
Lemma scan_exp_text e r : exp_ok e -> delim r = true -> scan_exp (e ++ r) = Some (e, r).
Proof.
  intros [->|(l & sg & ds & -> & Hl & Hs & (Hn & F))] Hr.
  - apply scan_exp_delim. exact Hr.
  - cbn [app scan_exp]. replace (beq l "e" || beq l "E") with true by (destruct Hl as [<-|[<-|[]]]; reflexivity).
    assert (Es : (match sg ++ ds ++ r with
            | g :: r0 => if beq g "+"%byte || beq g "-"%byte then ([g], r0) else ([], sg ++ ds ++ r)
            | [] => ([], sg ++ ds ++ r) end) = (sg, ds ++ r)).
    { destruct Hs as [<-|[<-|[<-|[]]]]; [|reflexivity|reflexivity]. cbn [app]. destruct ds as [|c ds]; [congruence|]. cbn [app].
      pose proof (Forall_inv F) as Hc. apply digit_iff in Hc.
      replace (beq c "+" || beq c "-") with false; [reflexivity|]. symmetry. revert c Hc F Hn. 
      assert (Q : forall c, is_digit c = true -> negb (beq c "+" || beq c "-") = true) by (apply byte_impl; reflexivity).
      intros c Hc _ _. apply Q in Hc. apply negb_true_iff in Hc. exact Hc. }
    rewrite <- app_assoc. rewrite Es. rewrite span_digits_app; [|apply digits_iff; exact F|apply delim_digit; exact Hr].
    destruct ds; [congruence|reflexivity].
Qed.
Lemma exp_not_dot e r : exp_ok e -> delim r = true -> not_start (fun c => beq c "."%byte) (e ++ r).
Proof.
  intros [->|(l & sg & ds & -> & Hl & _)] Hr.
  - destruct r as [|c r]; [exact I|]. cbn in *. destruct (beq c ".") eqn:E; [|reflexivity]. apply beq_eq in E. subst. discriminate.
  - cbn. destruct Hl as [<-|[<-|[]]]; reflexivity.
Qed.
Lemma number_parts i f e r : int_ok i -> frac_ok f -> exp_ok e -> delim r = true ->
  scan_int ((i ++ f ++ e) ++ r) = Some (i, (f ++ e) ++ r) /\ scan_frac ((f ++ e) ++ r) = Some (f, e ++ r) /\ scan_exp (e ++ r) = Some (e, r).
Proof.
  intros Hi Hf He Hr. pose proof (delim_digit _ Hr) as Hd. rewrite <- !app_assoc.
  split; [apply scan_int_text; [assumption|]; apply frac_no_digit; [assumption|]; apply exp_no_digit; assumption|].
  split; [apply scan_frac_text; [assumption|apply exp_no_digit; assumption|apply exp_not_dot; assumption]|].
  apply scan_exp_text; assumption.
Qed.
Lemma parse_number_text f64 neg i f e r : int_ok i -> frac_ok f -> exp_ok e -> delim r = true ->
  parse_number f64 neg ((i ++ f ++ e) ++ r) = option_map (fun n => (n, r)) (number_of f64 neg i f e).
Proof.
  intros Hi Hf He Hr. destruct (number_parts Hi Hf He Hr) as (E1 & E2 & E3). unfold parse_number. rewrite E1, E2, E3.
  unfold number_of, number_text. destruct (is_empty f && is_empty e); destruct neg; cbn [andb negb].
  - destruct (dec_value i =? 0) eqn:Z.
    + replace (0 <? dec_value i) with false by lia. cbn [andb]. destruct (f64 _); reflexivity.
    + replace (0 <? dec_value i) with true by lia. cbn [andb]. destruct (dec_value i <=? 2 ^ 63); [reflexivity|]. destruct (f64 _); reflexivity.
  - destruct (dec_value i <? 2 ^ 64); [reflexivity|]. destruct (f64 _); reflexivity.
  - destruct (f64 _); reflexivity.
  - destruct (f64 _); reflexivity.
Qed.
Lemma ignore_number_text i f e r : int_ok i -> frac_ok f -> exp_ok e -> delim r = true -> ignore_number ((i ++ f ++ e) ++ r) = Some r.
Proof. intros Hi Hf He Hr. destruct (number_parts Hi Hf He Hr) as (E1 & E2 & E3). unfold ignore_number. rewrite E1, E2, E3. reflexivity. Qed.

Lemma span_digits_inv s : forall d r, span_digits s = (d, r) -> s = d ++ r /\ Forall digit d.
Proof.
  induction s as [|c s IH]; intros d r E; cbn in E; [injection E as <- <-; auto|].
  destruct (is_digit c) eqn:C; [|injection E as <- <-; auto].
  destruct (span_digits s) as [d' r'] eqn:E'. destruct (IH _ _ eq_refl) as (-> & F). injection E as <- <-.
  split; [reflexivity|]. constructor; [apply digit_iff; exact C|exact F].
Qed.
Lemma scan_int_inv s i r : scan_int s = Some (i, r) -> s = i ++ r /\ int_ok i.
Proof.
  unfold scan_int. destruct (span_digits s) as [d r'] eqn:E. apply span_digits_inv in E. destruct E as (-> & F).
  destruct d as [|c ds]; [discriminate|]. destruct (beq c "0"%byte && negb (is_empty ds)) eqn:Z; [discriminate|].
  intros H. injection H as <- <-. split; [reflexivity|]. split; [split; [discriminate|exact F]|]. cbn [hd]. intros ->.
  cbn in Z. destruct ds; [reflexivity|discriminate].
Qed.
Lemma scan_frac_inv s f r : scan_frac s = Some (f, r) -> s = f ++ r /\ frac_ok f.
Proof.
  unfold scan_frac. destruct s as [|c s]; [intros H; injection H as <- <-; split; [reflexivity|left; reflexivity]|].
  destruct (beq c "."%byte) eqn:C.
  - apply beq_eq in C. subst c. destruct (span_digits s) as [d r'] eqn:E. apply span_digits_inv in E. destruct E as (-> & F).
    destruct d as [|x ds]; [discriminate|]. intros H. injection H as <- <-. split; [reflexivity|]. right. eexists. split; [reflexivity|].
    split; [discriminate|exact F].
  - intros H. injection H as <- <-. split; [reflexivity|left; reflexivity].
Qed.
Lemma scan_exp_inv s e r : scan_exp s = Some (e, r) -> s = e ++ r /\ exp_ok e.
Proof.
  unfold scan_exp. destruct s as [|c s]; [intros H; injection H as <- <-; split; [reflexivity|left; reflexivity]|].
  destruct (beq c "e"%byte || beq c "E"%byte) eqn:C.
  - assert (Hc : In c (B "eE")). { apply orb_prop in C. destruct C as [C|C]; apply beq_eq in C; subst; cbn; auto. }
    assert (Hs : exists sg r1, (match s with g :: r0 => if beq g "+"%byte || beq g "-"%byte then ([g], r0) else ([], s) | [] => ([], s) end) = (sg, r1)
                 /\ s = sg ++ r1 /\ In sg [[]; B "+"; B "-"]).
    { destruct s as [|g s]; [do 2 eexists; repeat split; left; reflexivity|].
      destruct (beq g "+"%byte || beq g "-"%byte) eqn:G; [|do 2 eexists; repeat split; left; reflexivity].
      do 2 eexists. split; [reflexivity|]. split; [reflexivity|]. apply orb_prop in G. destruct G as [G|G]; apply beq_eq in G; subst; cbn; auto. }
    destruct Hs as (sg & r1 & -> & -> & Hsg). destruct (span_digits r1) as [d r'] eqn:E. apply span_digits_inv in E. destruct E as (-> & F).
    destruct d as [|x ds]; [discriminate|]. intros H. injection H as <- <-. split; [cbn; rewrite <- app_assoc; reflexivity|].
    right. exists c, sg, (x :: ds). repeat split; auto. discriminate.
  - intros H. injection H as <- <-. split; [reflexivity|left; reflexivity].
Qed.
Lemma ignore_number_inv s r : ignore_number s = Some r -> exists i f e, int_ok i /\ frac_ok f /\ exp_ok e /\ s = (i ++ f ++ e) ++ r.
Proof.
  unfold ignore_number. destruct (scan_int s) as [[i r1]|] eqn:E1; [|discriminate]. apply scan_int_inv in E1. destruct E1 as (-> & Hi).
  destruct (scan_frac r1) as [[f r2]|] eqn:E2; [|discriminate]. apply scan_frac_inv in E2. destruct E2 as (-> & Hf).
  destruct (scan_exp r2) as [[e r3]|] eqn:E3; [|discriminate]. apply scan_exp_inv in E3. destruct E3 as (-> & He).
  intros H. injection H as <-. exists i, f, e. rewrite <- !app_assoc. auto.
Qed.
Lemma parse_ignore_number f64 neg s n r : parse_number f64 neg s = Some (n, r) -> ignore_number s = Some r.
Proof.
  unfold parse_number, ignore_number. destruct (scan_int s) as [[i r1]|]; [|discriminate]. destruct (scan_frac r1) as [[f r2]|]; [|discriminate].
  destruct (scan_exp r2) as [[e r3]|]; [|discriminate]. cbv zeta.
  repeat match goal with |- context [if ?c then _ else _] => destruct c end; try (destruct (f64 _); cbn [option_map]; [|discriminate]);
    intros H; injection H as _ <-; reflexivity.
Qed.

(** ** Trees *)
Section TreeInd.
  Variable P : tree -> Prop.
  Hypothesis Hnull : P TNull.
  Hypothesis Hbool : forall b, P (TBool b).
  Hypothesis Hnum : forall neg i f e, P (TNum neg i f e).
  Hypothesis Hstr : forall cs, P (TStr cs).
  Hypothesis Harr : forall w l, Forall (fun x => P (i_value x)) l -> P (TArr w l).
  Hypothesis Hobj : forall w l, Forall (fun m => P (m_value m)) l -> P (TObj w l).
  Fixpoint tree_ind' (t : tree) : P t :=
    match t with
    | TNull => Hnull
    | TBool b => Hbool b
    | TNum neg i f e => Hnum neg i f e
    | TStr cs => Hstr cs
    | TArr w l => Harr w ((fix go l : Forall (fun x => P (i_value x)) l :=
        match l with
        | [] => Forall_nil _
        | x :: l' => @Forall_cons _ (fun x => P (i_value x)) x l' (tree_ind' (i_value x)) (go l')
        end) l)
    | TObj w l => Hobj w ((fix go l : Forall (fun m => P (m_value m)) l :=
        match l with
        | [] => Forall_nil _
        | m :: l' => @Forall_cons _ (fun m => P (m_value m)) m l' (tree_ind' (m_value m)) (go l')
        end) l)
    end.
End TreeInd.

Definition item_text (x : item tree) : bytes := i_before x ++ render (i_value x) ++ i_after x.
Definition mem_text (m : member tree) : bytes :=
  m_before m ++ string_text (m_key m) ++ m_mid1 m ++ B ":" ++ m_mid2 m ++ render (m_value m) ++ m_after m.
Definition item_ok (x : item tree) : Prop := blank (i_before x) /\ tree_ok (i_value x) /\ blank (i_after x).
Definition member_ok (m : member tree) : Prop :=
  blank (m_before m) /\ Forall char_ok (m_key m) /\ blank (m_mid1 m) /\ blank (m_mid2 m) /\ tree_ok (m_value m) /\ blank (m_after m).
Lemma fold_and {A} (Q : A -> Prop) l : fold_right (fun x P => Q x /\ P) True l <-> Forall Q l.
Proof. induction l as [|x l IH]; cbn; [split; auto|]. rewrite IH. split; [intros [? ?]; auto|intros H; inversion H; auto]. Qed.
Lemma ok_arr w l : tree_ok (TArr w l) <-> blank w /\ Forall item_ok l.
Proof. cbn [tree_ok]. rewrite (@fold_and _ item_ok). reflexivity. Qed.
Lemma ok_obj w l : tree_ok (TObj w l) <-> blank w /\ Forall member_ok l.
Proof. cbn [tree_ok]. rewrite (@fold_and _ member_ok). reflexivity. Qed.
Lemma render_arr w l : render (TArr w l) = "["%byte :: w ++ join (B ",") (map item_text l) ++ B "]".
Proof. reflexivity. Qed.
Lemma render_obj w l : render (TObj w l) = "{"%byte :: w ++ join (B ",") (map mem_text l) ++ B "}".
Proof. reflexivity. Qed.

(** The first byte. *)
Definition first_byte (t : tree) : byte :=
  match t with
  | TNull => "n"%byte
  | TBool b => if b then "t"%byte else "f"%byte
  | TNum neg i _ _ => if neg then "-"%byte else hd x31 i
  | TStr _ => q_quote
  | TArr _ _ => "["%byte
  | TObj _ _ => "{"%byte
  end.
Lemma int_cons i : int_ok i -> exists c ds, i = c :: ds /\ is_digit c = true.
Proof. intros ((Hn & F) & _). destruct i as [|c ds]; [congruence|]. exists c, ds. split; [reflexivity|]. apply digit_iff. exact (Forall_inv F). Qed.
Lemma render_first t : tree_ok t -> exists s, render t = first_byte t :: s.
Proof.
  destruct t as [|[]|neg i f e|cs|w l|w l]; intros H; try (eexists; reflexivity).
  destruct H as (Hi & _ & _). apply int_cons in Hi. destruct Hi as (c & ds & -> & _). destruct neg; eexists; reflexivity.
Qed.
Lemma first_start t : tree_ok t -> value_start (first_byte t) = true.
Proof.
  destruct t as [|[]|neg i f e|cs|w l|w l]; intros H; try reflexivity.
  destruct H as (Hi & _ & _). apply int_cons in Hi. destruct Hi as (c & ds & -> & Hd). destruct neg; [reflexivity|].
  cbn [first_byte hd]. apply digit_start. exact Hd.
Qed.
Lemma skip_render t w r : tree_ok t -> blank w -> skip_ws (w ++ render t ++ r) = render t ++ r.
Proof.
  intros H B. destruct (render_first H) as (s & E). rewrite E. cbn [app]. apply skip_blank_start; [exact B|].
  apply first_start in H. apply value_start_inv in H. tauto.
Qed.
Lemma render_len t : tree_ok t -> (1 <= length (render t))%nat.
Proof. intros H. destruct (render_first H) as (s & ->). cbn. lia. Qed.

(** Only a number needs a delimiter after it. *)
Definition ends (t : tree) (r : bytes) : Prop := match t with TNum _ _ _ _ => delim r = true | _ => True end.
Lemma delim_ends t r : delim r = true -> ends t r.
Proof. destruct t; cbn; auto. Qed.

(** ** Reading arrays *)
Section SeqText.
  Context {A : Type}.
  Variables (p : bytes -> option (A * bytes)) (val : tree -> option A).
  Definition reads (t : tree) : Prop := forall w r, blank w -> delim r = true -> p (w ++ render t ++ r) = option_map (fun x => (x, r)) (val t).

  Lemma tail_delim (l : list (item tree)) c r w : is_num_char c = false -> blank w -> delim (w ++ flat_map (fun x => ","%byte :: item_text x) l ++ c :: r) = true.
  Proof. intros H B. apply blank_delim; [exact B|]. destruct l; cbn; [rewrite H|]; reflexivity. Qed.

  Lemma next_elem_first x s : item_ok x -> forall w, blank w -> next_elem true (w ++ item_text x ++ s) = More tt (render (i_value x) ++ i_after x ++ s).
  Proof.
    intros (B1 & T & B2) w Bw. unfold next_elem, item_text. rewrite <- !app_assoc. rewrite (app_assoc w).
    rewrite skip_render by (auto using blank_app). destruct (render_first T) as (s' & E). rewrite E. cbn [app].
    apply first_start in T. apply value_start_inv in T. destruct T as (_ & -> & _). reflexivity.
  Qed.
  Lemma next_elem_next x s : item_ok x -> forall w, blank w -> next_elem false (w ++ ","%byte :: item_text x ++ s) = More tt (render (i_value x) ++ i_after x ++ s).
  Proof.
    intros (B1 & T & B2) w Bw. unfold next_elem, item_text. rewrite <- !app_assoc.
    rewrite skip_blank_start by (auto || reflexivity). change (beq "," "]") with false. change (beq "," ",") with true. cbv iota.
    rewrite skip_render by auto. destruct (render_first T) as (s' & E). rewrite E. cbn [app].
    apply first_start in T. apply value_start_inv in T. destruct T as (_ & -> & _). reflexivity.
  Qed.
  Lemma next_elem_end first w r : blank w -> next_elem first (w ++ "]"%byte :: r) = Stop r.
  Proof. intros B. unfold next_elem. rewrite skip_blank_start by (auto || reflexivity). reflexivity. Qed.

  Lemma seq_rest l : Forall item_ok l -> Forall (fun x => reads (i_value x)) l -> forall fuel w r, (length l < fuel)%nat -> blank w ->
    seq_loop p fuel false (w ++ flat_map (fun x => ","%byte :: item_text x) l ++ "]"%byte :: r)
    = option_map (fun xs => (xs, r)) (traverse (fun x => val (i_value x)) l).
  Proof.
    induction 1 as [|x l Hx F IH]; intros R fuel w r L Bw; (destruct fuel as [|fuel]; [cbn in L; lia|]); cbn [seq_loop].
    - cbn [flat_map app]. rewrite next_elem_end by assumption. reflexivity.
    - cbn [flat_map]. cbn [app]. rewrite <- app_assoc. rewrite next_elem_next by assumption. cbn [length] in L.
      assert (R0 := Forall_inv R : reads (i_value x)). specialize (R0 []). cbn [app] in R0.
      rewrite R0 by (first [constructor | apply tail_delim; [reflexivity|apply Hx]]).
      cbn [traverse]. destruct (val (i_value x)) as [y|]; [|reflexivity]. cbn [option_map].
      rewrite IH by (first [exact (Forall_inv_tail R) | lia | apply Hx]).
      destruct (traverse _ l); reflexivity.
  Qed.
  Lemma seq_text l : Forall item_ok l -> Forall (fun x => reads (i_value x)) l -> forall fuel w r, (length l < fuel)%nat -> blank w ->
    seq_loop p fuel true (w ++ join (B ",") (map item_text l) ++ "]"%byte :: r)
    = option_map (fun xs => (xs, r)) (traverse (fun x => val (i_value x)) l).
  Proof.
    intros [|x l' Hx F] R fuel w r L Bw; (destruct fuel as [|fuel]; [cbn in L; lia|]); cbn [seq_loop].
    - cbn [map join app]. rewrite next_elem_end by assumption. reflexivity.
    - cbn [map]. rewrite join_flat, flat_map_concat_map, map_map, <- flat_map_concat_map. rewrite <- app_assoc.
      change (fun x0 => B "," ++ item_text x0) with (fun x0 => ","%byte :: item_text x0).
      rewrite next_elem_first by assumption. cbn [length] in L.
      assert (R0 := Forall_inv R : reads (i_value x)). specialize (R0 []). cbn [app] in R0.
      rewrite R0 by (first [constructor | apply tail_delim; [reflexivity|apply Hx]]).
      cbn [traverse]. destruct (val (i_value x)) as [y|]; [|reflexivity]. cbn [option_map].
      rewrite seq_rest by (first [exact (Forall_inv_tail R) | lia | apply Hx | assumption]).
      destruct (traverse _ l'); reflexivity.
  Qed.
End SeqText.
Lemma items_len l : Forall item_ok l -> (length l <= length (join (B ",") (map item_text l)))%nat.
Proof.
  intros [|x l' Hx F]; [cbn; lia|]. cbn [map length]. rewrite join_flat, app_length.
  assert (H1 : (1 <= length (item_text x))%nat).
  { destruct Hx as (_ & T & _). apply render_len in T. unfold item_text. rewrite !app_length. lia. }
  enough (length l' <= length (flat_map (fun y => B "," ++ y) (map item_text l')))%nat by lia.
  clear. induction l' as [|y l IH]; cbn [map flat_map length]; [lia|]. rewrite !app_length. change (length (B ",")) with 1%nat. lia.
Qed.

(** ** Reading objects *)
Section MapText.
  Context {K A : Type}.
  Variables (key : bytes -> option (K * bytes)) (keyval : list schar -> option K).
  Hypothesis Hkey : forall cs r, Forall char_ok cs -> key (flat_map char_text cs ++ q_quote :: r) = option_map (fun k => (k, r)) (keyval cs).
  Variables (member : A -> K -> bytes -> option (A * bytes)) (step : A -> K -> tree -> option A).
  Variable I : A -> Prop.
  Hypothesis HI : forall st k t st', I st -> step st k t = Some st' -> I st'.
  Definition member_reads (t : tree) : Prop := forall st k w r, I st -> blank w -> delim r = true ->
    member st k (w ++ render t ++ r) = option_map (fun st' => (st', r)) (step st k t).
  Fixpoint steps (st : A) (l : list (Grammar.member tree)) : option A :=
    match l with
    | [] => Some st
    | m :: l' =>
      match keyval (m_key m) with
      | None => None
      | Some k => match step st k (m_value m) with None => None | Some st' => steps st' l' end
      end
    end.

  Lemma mem_tail_delim (l : list (Grammar.member tree)) r w : blank w -> delim (w ++ flat_map (fun x => ","%byte :: mem_text x) l ++ "}"%byte :: r) = true.
  Proof. intros B. apply blank_delim; [exact B|]. destruct l; reflexivity. Qed.
  Definition key_step (m : Grammar.member tree) (s : bytes) : JsonParse.step K :=
    match keyval (m_key m) with Some k => More k (m_mid2 m ++ render (m_value m) ++ m_after m ++ s) | None => Fail end.
  Lemma key_text m s : member_ok m -> (match key (flat_map char_text (m_key m) ++ q_quote :: m_mid1 m ++ ":"%byte :: m_mid2 m ++ render (m_value m) ++ m_after m ++ s) with
      | Some (k, r1) => match colon r1 with Some r2 => More k r2 | None => Fail end | None => Fail end) = key_step m s.
  Proof.
    intros (B1 & C & B2 & B3 & T & B4). rewrite Hkey by assumption. unfold key_step. destruct (keyval (m_key m)) as [k|]; [|reflexivity].
    cbn [option_map]. unfold colon. rewrite skip_blank_start by (auto || reflexivity). reflexivity.
  Qed.
  Lemma mem_text_app m s : mem_text m ++ s = m_before m ++ q_quote :: flat_map char_text (m_key m) ++ q_quote :: m_mid1 m ++ ":"%byte :: m_mid2 m ++ render (m_value m) ++ m_after m ++ s.
  Proof. unfold mem_text, string_text. change (B ":") with [":"%byte]. do 4 (rewrite <- ?app_assoc; cbn [app]). reflexivity. Qed.
  Lemma next_key_first m s : member_ok m -> forall w, blank w -> next_key key true (w ++ mem_text m ++ s) = key_step m s.
  Proof.
    intros M w Bw. rewrite <- key_text by assumption. rewrite mem_text_app. unfold next_key. rewrite app_assoc.
    rewrite skip_blank_start by (first [reflexivity | apply blank_app; [exact Bw|apply M]]). reflexivity.
  Qed.
  Lemma next_key_next m s : member_ok m -> forall w, blank w -> next_key key false (w ++ ","%byte :: mem_text m ++ s) = key_step m s.
  Proof.
    intros M w Bw. rewrite <- key_text by assumption. rewrite mem_text_app. unfold next_key.
    rewrite skip_blank_start by (auto || reflexivity). change (beq "," "}") with false. change (beq "," ",") with true. cbv iota.
    rewrite skip_blank_start by (first [reflexivity | apply M]). reflexivity.
  Qed.
  Lemma next_key_end first w r : blank w -> next_key key first (w ++ "}"%byte :: r) = Stop r.
  Proof. intros B. unfold next_key. rewrite skip_blank_start by (auto || reflexivity). reflexivity. Qed.

  Lemma map_rest l : Forall member_ok l -> Forall (fun m => member_reads (m_value m)) l -> forall fuel st w r, I st -> (length l < fuel)%nat -> blank w ->
    map_loop key member fuel false st (w ++ flat_map (fun x => ","%byte :: mem_text x) l ++ "}"%byte :: r)
    = option_map (fun st' => (st', r)) (steps st l).
  Proof.
    induction 1 as [|m l Hm F IH]; intros R fuel st w r Hst L Bw; (destruct fuel as [|fuel]; [cbn in L; lia|]); cbn [map_loop].
    - cbn [flat_map app]. rewrite next_key_end by assumption. reflexivity.
    - cbn [flat_map]. cbn [app]. rewrite <- app_assoc. rewrite next_key_next by assumption. cbn [length] in L.
      unfold key_step. cbn [steps]. destruct (keyval (m_key m)) as [k|]; [|reflexivity].
      assert (R0 := Forall_inv R : member_reads (m_value m)).
      rewrite R0 by (first [assumption | apply Hm | apply mem_tail_delim; apply Hm]).
      destruct (step st k (m_value m)) as [st'|] eqn:Est; [|reflexivity]. cbn [option_map].
      apply IH; [exact (Forall_inv_tail R) | exact (HI Hst Est) | lia | apply Hm].
  Qed.
  Lemma map_text l : Forall member_ok l -> Forall (fun m => member_reads (m_value m)) l -> forall fuel st w r, I st -> (length l < fuel)%nat -> blank w ->
    map_loop key member fuel true st (w ++ join (B ",") (map mem_text l) ++ "}"%byte :: r)
    = option_map (fun st' => (st', r)) (steps st l).
  Proof.
    intros [|m l' Hm F] R fuel st w r Hst L Bw; (destruct fuel as [|fuel]; [cbn in L; lia|]); cbn [map_loop].
    - cbn [map join app]. rewrite next_key_end by assumption. reflexivity.
    - cbn [map]. rewrite join_flat, flat_map_concat_map, map_map, <- flat_map_concat_map. rewrite <- app_assoc.
      change (fun x0 => B "," ++ mem_text x0) with (fun x0 => ","%byte :: mem_text x0).
      rewrite next_key_first by assumption. cbn [length] in L.
      unfold key_step. cbn [steps]. destruct (keyval (m_key m)) as [k|]; [|reflexivity].
      assert (R0 := Forall_inv R : member_reads (m_value m)).
      rewrite R0 by (first [assumption | apply Hm | apply mem_tail_delim; apply Hm]).
      destruct (step st k (m_value m)) as [st'|] eqn:Est; [|reflexivity]. cbn [option_map].
      apply map_rest; [assumption | exact (Forall_inv_tail R) | exact (HI Hst Est) | lia | apply Hm].
  Qed.
End MapText.
Lemma members_len l : (length l <= length (join (B ",") (map mem_text l)))%nat.
Proof.
  destruct l as [|x l']; [cbn; lia|]. cbn [map length]. rewrite join_flat, app_length.
  assert (H1 : (1 <= length (mem_text x))%nat). { unfold mem_text, string_text. rewrite !app_length. cbn [length]. lia. }
  enough (length l' <= length (flat_map (fun y => B "," ++ y) (map mem_text l')))%nat by lia.
  clear. induction l' as [|y l IH]; cbn [map flat_map length]; [lia|]. rewrite !app_length. change (length (B ",")) with 1%nat. lia.
Qed.

(** ** Values *)
Lemma strip_app lit r : strip lit (lit ++ r) = Some r.
Proof. induction lit as [|c lit IH]; [reflexivity|]. cbn [strip app]. rewrite beq_refl. exact IH. Qed.
Lemma join_in (x : bytes) l : In x l -> (length x <= length (join (B ",") l))%nat.
Proof.
  destruct l as [|y l]; [intros []|]. rewrite join_flat, app_length. intros [->|H]; [lia|].
  enough (length x <= length (flat_map (fun y => B "," ++ y) l))%nat by lia. clear y.
  induction l as [|y l IH]; [destruct H|]. cbn [flat_map]. rewrite !app_length. destruct H as [->|H]; [lia|]. apply IH in H. lia.
Qed.
Lemma arr_item_len w l x : In x l -> (length (render (i_value x)) + 2 <= length (render (TArr w l)))%nat.
Proof.
  intros H. apply (in_map item_text) in H. apply join_in in H. rewrite render_arr. cbn [length]. rewrite !app_length.
  change (length (B "]")) with 1%nat. unfold item_text in H at 1. rewrite !app_length in H. lia.
Qed.
Lemma obj_member_len w l m : In m l -> (length (render (m_value m)) + 2 <= length (render (TObj w l)))%nat.
Proof.
  intros H. apply (in_map mem_text) in H. apply join_in in H. rewrite render_obj. cbn [length]. rewrite !app_length.
  change (length (B "}")) with 1%nat. unfold mem_text in H at 1. rewrite !app_length in H. lia.
Qed.
Lemma arr_len w l : Forall item_ok l -> (length l + 2 <= length (render (TArr w l)))%nat.
Proof. intros H. apply items_len in H. rewrite render_arr. cbn [length]. rewrite !app_length. change (length (B "]")) with 1%nat. lia. Qed.
Lemma obj_len w l : (length l + 2 <= length (render (TObj w l)))%nat.
Proof. pose proof (members_len l) as H. rewrite render_obj. cbn [length]. rewrite !app_length. change (length (B "}")) with 1%nat. lia. Qed.
Lemma arr_app w l r : render (TArr w l) ++ r = "["%byte :: w ++ join (B ",") (map item_text l) ++ "]"%byte :: r.
Proof. rewrite render_arr. cbn [app]. rewrite <- !app_assoc. reflexivity. Qed.
Lemma obj_app w l r : render (TObj w l) ++ r = "{"%byte :: w ++ join (B ",") (map mem_text l) ++ "}"%byte :: r.
Proof. rewrite render_obj. cbn [app]. rewrite <- !app_assoc. reflexivity. Qed.
Lemma str_app cs r : render (TStr cs) ++ r = q_quote :: flat_map char_text cs ++ q_quote :: r.
Proof. cbn [render]. unfold string_text. cbn [app]. rewrite <- app_assoc. reflexivity. Qed.
Lemma traverse_tt {A} (l : list A) : exists u, traverse (fun _ => Some tt) l = Some u.
Proof. induction l as [|x l (u & IH)]; cbn; [eauto|]. rewrite IH. eauto. Qed.
Lemma digit_case c : is_digit c = true -> beq c "n" = false /\ beq c "t" = false /\ beq c "f" = false /\ beq c "-" = false /\ beq c q_quote = false /\
  beq c "[" = false /\ beq c "{" = false.
Proof.
  intros H. assert (Q : forall c, is_digit c = true -> negb (beq c "n" || beq c "t" || beq c "f" || beq c "-" || beq c q_quote || beq c "[" || beq c "{") = true)
    by (apply byte_impl; reflexivity).
  apply Q in H. apply negb_true_iff in H. rewrite !orb_false_iff in H. tauto.
Qed.

Theorem skip_text t : tree_ok t -> forall fuel w r, (length (render t) < fuel)%nat -> blank w -> delim r = true ->
  skip_value fuel (w ++ render t ++ r) = Some r.
Proof.
  induction t as [|b|neg i f e|cs|w0 l IH|w0 l IH] using tree_ind'; intros T fuel w r L Bw Hr; (destruct fuel as [|fuel]; [lia|]);
    cbn [skip_value]; rewrite (skip_render _ T Bw).
  - reflexivity.
  - destruct b; reflexivity.
  - destruct T as (Hi & Hf & He). destruct neg; cbn [render]; unfold number_text.
    + change (B "-") with ["-"%byte]. cbn [app]. change (beq "-" "n") with false. change (beq "-" "t") with false. change (beq "-" "f") with false.
      change (beq "-" "-") with true. cbv iota. apply ignore_number_text; assumption.
    + cbn [app]. destruct (int_cons Hi) as (c & ds & Ei & Hd).
      replace ((i ++ f ++ e) ++ r) with (c :: (ds ++ f ++ e) ++ r) by (rewrite Ei; reflexivity).
      destruct (digit_case Hd) as (-> & -> & -> & -> & _). rewrite Hd.
      replace (c :: (ds ++ f ++ e) ++ r) with ((i ++ f ++ e) ++ r) by (rewrite Ei; reflexivity). apply ignore_number_text; assumption.
  - rewrite str_app. change (beq q_quote "n") with false. change (beq q_quote "t") with false. change (beq q_quote "f") with false.
    change (beq q_quote "-") with false. change (is_digit q_quote) with false. change (beq q_quote q_quote) with true. cbv iota.
    apply ignore_str_text. exact T.
  - pose proof T as T'. apply ok_arr in T'. destruct T' as (B0 & F). rewrite arr_app.
    change (beq "[" "n") with false. change (beq "[" "t") with false. change (beq "[" "f") with false.
    change (beq "[" "-") with false. change (is_digit "[") with false. change (beq "[" q_quote) with false. change (beq "[" "[") with true. cbv iota.
    pose proof (arr_len w0 F) as Ln.
    rewrite (@seq_text _ _ (fun _ => Some tt)); [|exact F| |lia|exact B0].
    + destruct (traverse_tt l) as (u & ->). reflexivity.
    + rewrite Forall_forall in *. intros x Hx w1 r1 B1 D1.
      pose proof (arr_item_len w0 Hx) as Lx. rewrite (IH x Hx); auto; [apply F; exact Hx|lia].
  - pose proof T as T'. apply ok_obj in T'. destruct T' as (B0 & F). rewrite obj_app.
    change (beq "{" "n") with false. change (beq "{" "t") with false. change (beq "{" "f") with false.
    change (beq "{" "-") with false. change (is_digit "{") with false. change (beq "{" q_quote) with false. change (beq "{" "[") with false.
    change (beq "{" "{") with true. cbv iota. pose proof (obj_len w0 l) as Ln.
    rewrite (@map_text _ _ _ (fun _ => Some tt)) with (step := fun _ _ _ => Some tt) (I := fun _ => True); [| |auto|exact F| |exact Logic.I|lia|exact B0].
    + assert (S : steps (fun _ => Some tt) (fun _ _ _ => Some tt) tt l = Some tt) by (clear; induction l; auto). rewrite S. reflexivity.
    + intros cs r1 C. rewrite ignore_str_text by assumption. reflexivity.
    + rewrite Forall_forall in *. intros m Hm st k w1 r1 _ B1 D1.
      pose proof (obj_member_len w0 Hm) as Lx. rewrite (IH m Hm); auto; [apply F; exact Hm|lia].
Qed.
Theorem ignore_text t w r : tree_ok t -> blank w -> delim r = true -> ignore_value (w ++ render t ++ r) = Some r.
Proof. intros T B D. unfold ignore_value. apply skip_text; auto. rewrite !app_length. lia. Qed.

Lemma traverse_if {A C} (c : A -> bool) (g : A -> option C) l :
  traverse (fun x => if c x then g x else None) l = if forallb c l then traverse g l else None.
Proof.
  induction l as [|x l IH]; [reflexivity|]. cbn [traverse forallb]. rewrite IH. destruct (c x); [|reflexivity]. cbn [andb].
  destruct (forallb c l); [reflexivity|]. destruct (g x); reflexivity.
Qed.
Lemma tree_depth_arr w l d : (tree_depth (TArr w l) <? S d)%nat = forallb (fun x => (tree_depth (i_value x) <? d)%nat) l && (0 <? d)%nat.
Proof.
  cbn [tree_depth]. induction l as [|x l IH]; cbn [fold_right forallb]; [cbn; lia|].
  rewrite <- andb_assoc, <- IH. lia.
Qed.
Lemma tree_depth_obj w l d : (tree_depth (TObj w l) <? S d)%nat = forallb (fun x => (tree_depth (m_value x) <? d)%nat) l && (0 <? d)%nat.
Proof.
  cbn [tree_depth]. induction l as [|x l IH]; cbn [fold_right forallb]; [cbn; lia|].
  rewrite <- andb_assoc, <- IH. lia.
Qed.
Lemma steps_insert (val : tree -> option json) l : forall st,
  steps string_of (fun m k t => option_map (fun v => obj_insert k v m) (val t)) st l =
  option_map (fun kvs => fold_left (fun m kv => obj_insert (fst kv) (snd kv) m) kvs st)
    (traverse (fun m => match string_of (m_key m), val (m_value m) with Some k, Some v => Some (k, v) | _, _ => None end) l).
Proof.
  induction l as [|m l IH]; intros st; [reflexivity|]. cbn [steps traverse].
  destruct (string_of (m_key m)) as [k|]; [|reflexivity]. destruct (val (m_value m)) as [v|]; [|reflexivity]. cbn [option_map].
  rewrite IH. destruct (traverse _ l); reflexivity.
Qed.

Theorem value_text f64 t : tree_ok t -> forall d w r, (0 < d)%nat -> blank w -> ends t r ->
  de_value f64 d (w ++ render t ++ r) = if (tree_depth t <? d)%nat then option_map (fun j => (j, r)) (value_of f64 t) else None.
Proof.
  induction t as [|b|neg i f e|cs|w0 l IH|w0 l IH] using tree_ind'; intros T d w r L Bw Hr; (destruct d as [|d]; [lia|]);
    cbn [de_value]; rewrite (skip_render _ T Bw).
  - reflexivity.
  - destruct b; reflexivity.
  - destruct T as (Hi & Hf & He). cbn [tree_depth value_of]. change (0 <? S d)%nat with true. cbv iota.
    destruct neg; cbn [render]; unfold number_text.
    + change (B "-") with ["-"%byte]. cbn [app]. change (beq "-" "n") with false. change (beq "-" "t") with false. change (beq "-" "f") with false.
      change (beq "-" "-") with true. cbv iota. rewrite parse_number_text by assumption. destruct (number_of _ _ _ _ _); reflexivity.
    + cbn [app]. destruct (int_cons Hi) as (c & ds & Ei & Hd).
      replace ((i ++ f ++ e) ++ r) with (c :: (ds ++ f ++ e) ++ r) by (rewrite Ei; reflexivity).
      destruct (digit_case Hd) as (-> & -> & -> & -> & _). rewrite Hd.
      replace (c :: (ds ++ f ++ e) ++ r) with ((i ++ f ++ e) ++ r) by (rewrite Ei; reflexivity).
      rewrite parse_number_text by assumption. destruct (number_of _ _ _ _ _); reflexivity.
  - rewrite str_app. change (beq q_quote "n") with false. change (beq q_quote "t") with false. change (beq q_quote "f") with false.
    change (beq q_quote "-") with false. change (is_digit q_quote) with false. change (beq q_quote q_quote) with true. cbv iota.
    rewrite parse_str_text by exact T. cbn [tree_depth value_of]. destruct (string_of cs); reflexivity.
  - pose proof T as T'. apply ok_arr in T'. destruct T' as (B0 & F). rewrite arr_app, tree_depth_arr.
    change (beq "[" "n") with false. change (beq "[" "t") with false. change (beq "[" "f") with false.
    change (beq "[" "-") with false. change (is_digit "[") with false. change (beq "[" q_quote) with false. change (beq "[" "[") with true. cbv iota.
    destruct d as [|d]; [rewrite andb_false_r; reflexivity|]. change (0 <? S d)%nat with true. rewrite andb_true_r.
    rewrite (@seq_text _ _ (fun t => if (tree_depth t <? S d)%nat then value_of f64 t else None)); [|exact F| | |exact B0].
    + rewrite traverse_if. cbn [value_of]. destruct (forallb _ l); [|reflexivity]. destruct (traverse _ l); reflexivity.
    + rewrite Forall_forall in *. intros x Hx w1 r1 B1 D1. rewrite (IH x Hx); auto using delim_ends; [|apply F; exact Hx|lia].
      destruct (_ <? _)%nat; reflexivity.
    + pose proof (items_len F). rewrite !app_length. lia.
  - pose proof T as T'. apply ok_obj in T'. destruct T' as (B0 & F). rewrite obj_app, tree_depth_obj.
    change (beq "{" "n") with false. change (beq "{" "t") with false. change (beq "{" "f") with false.
    change (beq "{" "-") with false. change (is_digit "{") with false. change (beq "{" q_quote) with false. change (beq "{" "[") with false.
    change (beq "{" "{") with true. cbv iota. 
    destruct d as [|d]; [rewrite andb_false_r; reflexivity|]. change (0 <? S d)%nat with true. rewrite andb_true_r.
    set (val := fun t => if (tree_depth t <? S d)%nat then value_of f64 t else None).
    rewrite (@map_text _ _ _ string_of) with (step := fun m k t => option_map (fun v => obj_insert k v m) (val t)) (I := fun _ => True); [|exact parse_str_text|auto|exact F| |exact Logic.I| |exact B0].
    + rewrite steps_insert. cbn [value_of].
      replace (traverse (fun m => match string_of (m_key m), val (m_value m) with Some k, Some v => Some (k, v) | _, _ => None end) l)
        with (traverse (fun m => if (tree_depth (m_value m) <? S d)%nat
                                 then match string_of (m_key m), value_of f64 (m_value m) with Some k, Some v => Some (k, v) | _, _ => None end else None) l).
      * rewrite traverse_if. destruct (forallb _ l); [|reflexivity]. destruct (traverse _ l); reflexivity.
      * clear. induction l as [|m l IH]; [reflexivity|]. cbn [traverse]. rewrite IH. subst val. cbv beta.
        destruct (tree_depth (m_value m) <? S d)%nat; [reflexivity|]. destruct (string_of (m_key m)); reflexivity.
    + rewrite Forall_forall in *. intros m Hm st k w1 r1 _ B1 D1. rewrite (IH m Hm); auto using delim_ends; [|apply F; exact Hm|lia].
      subst val. cbv beta. destruct (_ <? _)%nat; [|reflexivity]. destruct (value_of _ _); reflexivity.
    + pose proof (members_len l). rewrite !app_length. lia.
Qed.

(** ** The derived implementations *)
Section Derived.
  Variable f64 : bytes -> option N.
  Definition de_reads (sc : schema) : Prop := forall t, tree_ok t -> forall d w r, blank w -> ends t r ->
    de f64 sc (S d) (w ++ render t ++ r) = option_map (fun x => (x, r)) (decode f64 sc d t).

  (** Members of a struct. *)
  Section Struct.
    Variable d : nat.
    Notation dec sc t := (decode f64 sc d t).
    (** What [set_field] does, on trees. *)
    Fixpoint put_tree (fs : list field) (acc : list (option data)) (k : bytes) (t : tree) : option (list (option data)) :=
      match fs, acc with
      | f :: fs', a :: acc' =>
        if bytes_eqb (field_name f) k then
          match a with Some _ => None | None => option_map (fun x => Some x :: acc') (dec (snd f) t) end
        else option_map (cons a) (put_tree fs' acc' k t)
      | _, _ => Some acc
      end.
    Lemma set_field_text fs : Forall (fun f => de_reads (snd f)) fs -> forall acc k t w r, length acc = length fs ->
      tree_ok t -> blank w -> delim r = true ->
      set_field (map (fp f64 (S d)) fs) acc k (w ++ render t ++ r) = option_map (fun acc' => (acc', r)) (put_tree fs acc k t).
    Proof.
      induction 1 as [|f fs Hf F IH]; intros acc k t w r L T Bw Hr.
      - destruct acc; [|discriminate]. cbn [map set_field put_tree]. rewrite ignore_text by assumption. reflexivity.
      - destruct acc as [|a acc]; [discriminate|]. injection L as L. cbn [map set_field put_tree fp].
        destruct (bytes_eqb (field_name f) k).
        + destruct a; [reflexivity|]. rewrite Hf by auto using delim_ends. destruct (dec (snd f) t); reflexivity.
        + rewrite IH by assumption. destruct (put_tree fs acc k t); reflexivity.
    Qed.
    Lemma put_length fs : forall acc k t acc', length acc = length fs -> put_tree fs acc k t = Some acc' -> length acc' = length fs.
    Proof.
      induction fs as [|f fs IH]; intros [|a acc] k t acc' L E; try discriminate; cbn in E.
      - injection E as <-. reflexivity.
      - injection L as L. destruct (bytes_eqb (field_name f) k).
        + destruct a; [discriminate|]. destruct (dec (snd f) t); [|discriminate]. injection E as <-. cbn. lia.
        + destruct (put_tree fs acc k t) as [acc0|] eqn:E0; [|discriminate]. injection E as <-. apply IH in E0; [|exact L]. cbn. lia.
    Qed.

    (** The content of a field after the members [l]. *)
    Definition slot_of (l : list (member tree)) (f : field) : option (option data) :=
      match filter (named (field_name f)) l with
      | [] => Some None
      | [m] => option_map Some (dec (snd f) (m_value m))
      | _ => None
      end.
    Lemma slot_snoc_other l m k f : string_of (m_key m) = Some k -> bytes_eqb (field_name f) k = false -> slot_of (l ++ [m]) f = slot_of l f.
    Proof.
      intros K E. unfold slot_of. rewrite filter_app. cbn [filter]. unfold named at 2. rewrite K, bytes_eqb_sym, E. rewrite app_nil_r. reflexivity.
    Qed.
    Lemma slot_snoc_same l m k f : string_of (m_key m) = Some k -> bytes_eqb (field_name f) k = true ->
      slot_of (l ++ [m]) f = match slot_of l f with Some None => option_map Some (dec (snd f) (m_value m)) | _ => None end.
    Proof.
      intros K E. unfold slot_of. rewrite filter_app. cbn [filter]. unfold named at 2. rewrite K, bytes_eqb_sym, E.
      destruct (filter (named (field_name f)) l) as [|m1 [|m2 l']]; [reflexivity| |reflexivity].
      cbn [app]. destruct (dec (snd f) (m_value m1)); reflexivity.
    Qed.
    Lemma put_slots l m k fs : string_of (m_key m) = Some k -> fields_schema_ok fs = true ->
      traverse (slot_of (l ++ [m])) fs = match traverse (slot_of l) fs with Some acc => put_tree fs acc k (m_value m) | None => None end.
    Proof.
      intros K. induction fs as [|[[n sk] sc] fs IH]; [reflexivity|]. cbn [fields_schema_ok]. rewrite !andb_true_iff.
      intros ((((_ & Hn) & _) & _) & Hfs). specialize (IH Hfs). apply negb_true_iff in Hn. cbn [traverse].
      set (f := (n, sk, sc)) in *. change n with (field_name f) in Hn.
      destruct (bytes_eqb (field_name f) k) eqn:E.
      - rewrite (slot_snoc_same _ K E).
        assert (O : traverse (slot_of (l ++ [m])) fs = traverse (slot_of l) fs).
        { apply bytes_eqb_eq in E. rewrite E in Hn. clear - K Hn. induction fs as [|g fs IH]; [reflexivity|]. cbn [existsb] in Hn.
          apply orb_false_iff in Hn. destruct Hn as (H1 & H2). cbn [traverse]. rewrite IH by exact H2.
          rewrite (slot_snoc_other _ K) by (rewrite bytes_eqb_sym; exact H1). reflexivity. }
        rewrite O. destruct (slot_of l f) as [[y|]|]; [|destruct (traverse (slot_of l) fs) as [acc|]|destruct (traverse (slot_of l) fs); reflexivity].
        + destruct (traverse (slot_of l) fs) as [acc|]; [|reflexivity]. cbn [put_tree]. rewrite E. reflexivity.
        + cbn [put_tree]. rewrite E. destruct (dec (snd f) (m_value m)); reflexivity.
        + destruct (dec (snd f) (m_value m)); reflexivity.
      - rewrite (slot_snoc_other _ K E). destruct (slot_of l f) as [a|]; [|reflexivity]. rewrite IH.
        destruct (traverse (slot_of l) fs) as [acc|]; [|reflexivity]. cbn [put_tree]. rewrite E.
        destruct (put_tree fs acc k (m_value m)); reflexivity.
    Qed.
    Lemma steps_app {K A} (keyval : list schar -> option K) (step : A -> K -> tree -> option A) l1 l2 : forall st,
      steps keyval step st (l1 ++ l2) = match steps keyval step st l1 with Some st' => steps keyval step st' l2 | None => None end.
    Proof.
      induction l1 as [|m l1 IH]; intros st; [reflexivity|]. cbn [app steps]. destruct (keyval (m_key m)); [|reflexivity].
      destruct (step st _ (m_value m)); [|reflexivity]. apply IH.
    Qed.
    Lemma traverse_none {A C} (g : A -> option C) l : (forall x, In x l -> g x <> None) -> traverse g l <> None.
    Proof.
      induction l as [|x l IH]; intros H; [discriminate|]. cbn [traverse]. pose proof (H x (or_introl eq_refl)) as Hx.
      destruct (g x); [|congruence]. destruct (traverse g l); [discriminate|]. intros _. apply IH; auto. intros y Hy. apply H. right. exact Hy.
    Qed.
    Definition keys_ok (l : list (member tree)) : bool := forallb (fun m => match string_of (m_key m) with Some _ => true | None => false end) l.
    Lemma steps_slots fs l : fields_schema_ok fs = true ->
      steps string_of (put_tree fs) (map (fun _ => None) fs) l = if keys_ok l then traverse (slot_of l) fs else None.
    Proof.
      intros Hfs. induction l as [|m l IH] using rev_ind.
      - cbn. clear. induction fs as [|f fs IH]; [reflexivity|]. cbn [map traverse]. rewrite <- IH. reflexivity.
      - rewrite steps_app, IH. unfold keys_ok. rewrite forallb_app. fold (keys_ok l). cbn [forallb steps]. rewrite andb_true_r.
        destruct (keys_ok l); [|reflexivity]. cbn [andb].
        destruct (string_of (m_key m)) as [k|] eqn:K.
        + rewrite (put_slots _ K Hfs). destruct (traverse (slot_of l) fs) as [acc|]; [|reflexivity]. destruct (put_tree fs acc k (m_value m)); reflexivity.
        + destruct (traverse (slot_of l) fs); reflexivity.
    Qed.
    Definition field_value (l : list (member tree)) (f : field) : option data :=
      match filter (named (field_name f)) l with
      | [] => if is_option (snd f) then Some DNone else None
      | [m] => dec (snd f) (m_value m)
      | _ => None
      end.
    Lemma finish_slots l fs : (match traverse (slot_of l) fs with Some acc => finish (map (fp f64 (S d)) fs) acc | None => None end)
      = traverse (field_value l) fs.
    Proof.
      induction fs as [|f fs IH]; [reflexivity|]. cbn [traverse]. rewrite <- IH. unfold slot_of at 1, field_value at 1.
      destruct (filter (named (field_name f)) l) as [|m [|m2 l']]; [| |reflexivity].
      - destruct (traverse (slot_of l) fs) as [acc|]; [|destruct (is_option _); reflexivity]. cbn [map fp finish].
        destruct (is_option (snd f)); [|reflexivity]. destruct (finish _ acc); reflexivity.
      - destruct (dec (snd f) (m_value m)) as [x|]; [|reflexivity]. cbn [option_map].
        destruct (traverse (slot_of l) fs) as [acc|]; [|reflexivity]. cbn [map fp finish]. destruct (finish _ acc); reflexivity.
    Qed.

    Fixpoint array_fields (fs : list field) (l : list (item tree)) : option (list data) :=
      match fs, l with
      | [], [] => Some []
      | f :: fs', x :: l' =>
        match dec (snd f) (i_value x), array_fields fs' l' with
        | Some y, Some ys => Some (y :: ys)
        | _, _ => None
        end
      | _, _ => None
      end.
    Lemma close_text (w r : bytes) (l : list (item tree)) : blank w ->
      match skip_ws (w ++ flat_map (fun x => ","%byte :: item_text x) l ++ "]"%byte :: r) with
      | c :: r' => if beq c "]"%byte then Some (@nil data, r') else None | [] => None end
      = match l with [] => Some ([], r) | _ => None end.
    Proof. intros Bw. rewrite skip_blank by assumption. destruct l; reflexivity. Qed.
    Lemma seq_fields_rest fs : Forall (fun f => de_reads (snd f)) fs -> forall l w r, Forall item_ok l -> blank w ->
      seq_fields (map (fp f64 (S d)) fs) false (w ++ flat_map (fun x => ","%byte :: item_text x) l ++ "]"%byte :: r)
      = option_map (fun xs => (xs, r)) (array_fields fs l).
    Proof.
      induction 1 as [|f fs Hf F IH]; intros l w r Fl Bw; cbn [map seq_fields].
      - rewrite close_text by assumption. destruct l; reflexivity.
      - destruct Fl as [|x l Hx Fl].
        + cbn [flat_map app]. rewrite next_elem_end by assumption. reflexivity.
        + cbn [flat_map]. cbn [app]. rewrite <- app_assoc. rewrite next_elem_next by assumption. cbn [fp].
          pose proof (Hf (i_value x) (proj1 (proj2 Hx)) d []) as Hx'. cbn [app] in Hx'.
          rewrite Hx' by (first [constructor | apply delim_ends; apply tail_delim; [reflexivity|apply Hx]]). cbn [array_fields].
          destruct (dec (snd f) (i_value x)) as [y|]; [|reflexivity]. cbn [option_map].
          rewrite IH by (first [exact Fl | apply Hx]). destruct (array_fields fs l); reflexivity.
    Qed.
    Lemma seq_fields_text fs : Forall (fun f => de_reads (snd f)) fs -> forall l w r, Forall item_ok l -> blank w ->
      seq_fields (map (fp f64 (S d)) fs) true (w ++ join (B ",") (map item_text l) ++ "]"%byte :: r)
      = option_map (fun xs => (xs, r)) (array_fields fs l).
    Proof.
      intros [|f fs' Hf F] l w r Fl Bw; cbn [map seq_fields].
      - destruct Fl as [|x l Hx Fl].
        + cbn [map join app]. rewrite skip_blank_start by (auto || reflexivity). reflexivity.
        + cbn [map]. rewrite join_flat. rewrite <- app_assoc. unfold item_text at 1. rewrite <- !app_assoc. rewrite (app_assoc w).
          rewrite skip_render by (first [apply Hx | apply blank_app; [exact Bw|apply Hx]]).
          destruct (render_first (proj1 (proj2 Hx))) as (s & E). rewrite E. cbn [app].
          pose proof (first_start (proj1 (proj2 Hx))) as St. apply value_start_inv in St. destruct St as (_ & -> & _). reflexivity.
      - destruct Fl as [|x l Hx Fl].
        + cbn [map join app]. rewrite next_elem_end by assumption. reflexivity.
        + cbn [map]. rewrite join_flat, flat_map_concat_map, map_map, <- flat_map_concat_map. rewrite <- app_assoc.
          change (fun x0 => B "," ++ item_text x0) with (fun x0 => ","%byte :: item_text x0).
          rewrite next_elem_first by assumption. cbn [fp].
          pose proof (Hf (i_value x) (proj1 (proj2 Hx)) d []) as Hx'. cbn [app] in Hx'.
          rewrite Hx' by (first [constructor | apply delim_ends; apply tail_delim; [reflexivity|apply Hx]]). cbn [array_fields].
          destruct (dec (snd f) (i_value x)) as [y|]; [|reflexivity]. cbn [option_map].
          rewrite seq_fields_rest by (first [exact F | exact Fl | apply Hx]). destruct (array_fields fs' l); reflexivity.
    Qed.
  End Struct.

  Lemma decode_struct fs d t : decode f64 (SStruct fs) d t =
    match d, t with
    | S d', TObj _ l => if keys_ok l then option_map DStruct (traverse (field_value d' l) fs) else None
    | S d', TArr _ l => option_map DStruct (array_fields d' fs l)
    | _, _ => None
    end.
  Proof. destruct d as [|d]; [reflexivity|]. destruct t; reflexivity. Qed.

  Lemma first_n t : tree_ok t -> beq (first_byte t) "n" = match t with TNull => true | _ => false end.
  Proof.
    destruct t as [|[]|[] i f e|cs|w l|w l]; intros H; try reflexivity. destruct H as (Hi & _). apply int_cons in Hi.
    destruct Hi as (c & ds & -> & Hd). cbn. apply digit_case in Hd. tauto.
  Qed.
  Lemma first_quote t : tree_ok t -> beq (first_byte t) q_quote = match t with TStr _ => true | _ => false end.
  Proof.
    destruct t as [|[]|[] i f e|cs|w l|w l]; intros H; try reflexivity. destruct H as (Hi & _). apply int_cons in Hi.
    destruct Hi as (c & ds & -> & Hd). cbn [first_byte hd]. apply digit_case in Hd. tauto.
  Qed.
  Lemma first_brack t : tree_ok t -> beq (first_byte t) "[" = match t with TArr _ _ => true | _ => false end.
  Proof.
    destruct t as [|[]|[] i f e|cs|w l|w l]; intros H; try reflexivity. destruct H as (Hi & _). apply int_cons in Hi.
    destruct Hi as (c & ds & -> & Hd). cbn [first_byte hd]. apply digit_case in Hd. tauto.
  Qed.
  Lemma first_brace t : tree_ok t -> beq (first_byte t) "{" = match t with TObj _ _ => true | _ => false end.
  Proof.
    destruct t as [|[]|[] i f e|cs|w l|w l]; intros H; try reflexivity. destruct H as (Hi & _). apply int_cons in Hi.
    destruct Hi as (c & ds & -> & Hd). cbn [first_byte hd]. apply digit_case in Hd. tauto.
  Qed.
  Lemma strip_null t r : tree_ok t -> strip (B "null") (render t ++ r) = match t with TNull => Some r | _ => None end.
  Proof.
    intros H. destruct t eqn:E; try reflexivity.
    - destruct b; reflexivity.
    - destruct (render_first H) as (s & Es). rewrite Es. pose proof (first_n H) as Fn. cbn [app strip B].
      change (B "null") with ("n"%byte :: B "ull"). cbn [strip]. rewrite beq_sym. rewrite Fn. reflexivity.
  Qed.

  (** The one-member object form of an enum variant. *)
  Lemma enum_obj names d w0 l r : Forall member_ok l -> blank w0 ->
    match enter d, skip_ws (w0 ++ join (B ",") (map mem_text l) ++ "}"%byte :: r) with
        | Some _, c1 :: r1 =>
          if beq c1 q_quote then
            match parse_str r1 with
            | Some (t, r2) =>
              if known_name names t then
                match colon r2 with
                | Some r3 =>
                  match strip (B "null") (skip_ws r3) with
                  | Some r4 =>
                    match skip_ws r4 with
                    | c5 :: r5 => if beq c5 "}"%byte then Some (DEnum t, r5) else None
                    | [] => None
                    end
                  | None => None
                  end
                | None => None
                end
              else None
            | None => None
            end
          else None
        | _, _ => None
        end
    = match enter d, l with
      | Some _, [m] =>
        match m_value m, string_of (m_key m) with TNull, Some n => if known_name names n then Some (DEnum n, r) else None | _, _ => None end
      | _, _ => None
      end.
  Proof.
    intros F B0. destruct (enter d) as [d'|]; [|reflexivity]. destruct F as [|m l Hm F].
    - cbn [map join app]. rewrite skip_blank_start by (auto || reflexivity). reflexivity.
    - cbn [map]. rewrite join_flat. rewrite <- app_assoc. rewrite mem_text_app. rewrite app_assoc.
      destruct Hm as (B1 & C & B2 & B3 & T & B4).
      rewrite skip_blank_start by (auto using blank_app || reflexivity). change (beq q_quote q_quote) with true. cbv iota.
      rewrite parse_str_text by assumption. destruct (string_of (m_key m)) as [n|]; cbn [option_map];
        [|destruct l; [destruct (m_value m)|]; reflexivity].
      destruct (known_name names n); [|destruct l; [destruct (m_value m)|]; reflexivity].
      unfold colon. rewrite skip_blank_start by (auto || reflexivity). change (beq ":" ":") with true. cbv iota.
      rewrite skip_render by assumption. rewrite strip_null by assumption.
      destruct (m_value m); try (destruct l; reflexivity). rewrite skip_blank by assumption. destruct l; reflexivity.
  Qed.

  Theorem de_text sc : schema_ok sc = true -> de_reads sc.
  Proof.
    induction sc as [| |sc IH|sc IH|names|fs IH] using schema_ind'; intros Hok t T d w r Bw Hr.
    - cbn [de]. rewrite skip_render by assumption. destruct (render_first T) as (s & E).
      replace (match render t ++ r with c :: r0 => if beq c q_quote then option_map (fun '(t0, r') => (DStr t0, r')) (parse_str r0) else None | [] => None end)
        with (match t with TStr cs => option_map (fun x => (x, r)) (option_map DStr (string_of cs)) | _ => None end); [destruct t; reflexivity|].
      pose proof (first_quote T) as Q. destruct t as [| | |cs| |]; try (rewrite E; cbn [app]; rewrite Q; reflexivity).
      rewrite str_app. change (beq q_quote q_quote) with true. cbv iota. rewrite parse_str_text by exact T. destruct (string_of cs); reflexivity.
    - cbn [de decode]. rewrite value_text by (assumption || lia). change (tree_depth t <? S d)%nat with (tree_depth t <=? d)%nat.
      destruct (tree_depth t <=? d)%nat; [|reflexivity]. destruct (value_of f64 t); reflexivity.
    - cbn [schema_ok] in Hok. apply andb_prop in Hok. destruct Hok as (_ & Hok). cbn [de]. rewrite skip_render by assumption.
      destruct (render_first T) as (s & E). pose proof (first_n T) as Q.
      assert (Cases : t = TNull \/ (beq (first_byte t) "n" = false /\ decode f64 (SOption sc) d t = option_map DSome (decode f64 sc d t))).
      { rewrite Q. destruct t; auto. }
      destruct Cases as [->|(Fn & ->)]; [reflexivity|]. rewrite E. cbn [app]. rewrite Fn. rewrite app_comm_cons, <- E.
      pose proof (IH Hok t T d [] r) as H. cbn [app] in H. rewrite H by (assumption || constructor). destruct (decode f64 sc d t); reflexivity.
    - cbn [schema_ok] in Hok. cbn [de]. rewrite skip_render by assumption.
      destruct (render_first T) as (s & E). pose proof (first_brack T) as Q.
      destruct t as [| | | |w0 l|] eqn:Et; rewrite <- Et in *; try (rewrite E; cbn [app]; rewrite Q; rewrite Et; cbv iota; subst t; destruct d; reflexivity).
      subst t. rewrite arr_app. change (beq "[" "[") with true. cbv iota. destruct d as [|d]; [reflexivity|]. cbn [enter decode].
      apply ok_arr in T. destruct T as (B0 & F).
      rewrite (@seq_text _ _ (fun t => decode f64 sc d t)); [|exact F| | |exact B0].
      + destruct (traverse _ l); reflexivity.
      + rewrite Forall_forall in *. intros x Hx w1 r1 B1 D1. apply IH; auto using delim_ends. apply F. exact Hx.
      + pose proof (items_len F). rewrite !app_length. lia.
    - cbn [de]. rewrite skip_render by assumption.
      destruct (render_first T) as (s & E). pose proof (first_quote T) as Q1. pose proof (first_brace T) as Q2.
      destruct t as [| | |cs| |w0 l] eqn:Et; rewrite <- Et in *;
        try (rewrite E; cbn [app]; rewrite Q1, Q2; rewrite Et; cbv iota; subst t; destruct d; reflexivity); subst t.
      + rewrite str_app. change (beq q_quote q_quote) with true. cbv iota. rewrite parse_str_text by exact T.
        assert (Dd : decode f64 (SEnum names) d (TStr cs) = match string_of cs with Some n => if known_name names n then Some (DEnum n) else None | None => None end)
          by (destruct d; reflexivity).
        rewrite Dd. destruct (string_of cs) as [n|]; [|reflexivity]. cbn [option_map]. destruct (known_name names n); reflexivity.
      + rewrite obj_app. change (beq "{" q_quote) with false. change (beq "{" "{") with true. cbv iota.
        apply ok_obj in T. destruct T as (B0 & F). rewrite enum_obj by assumption. destruct d as [|d]; [reflexivity|]. cbn [enter decode].
        destruct l as [|m [|m2 l]]; [reflexivity| |reflexivity].
        destruct (m_value m); try reflexivity. destruct (string_of (m_key m)) as [n|]; [|reflexivity]. destruct (known_name names n); reflexivity.
    - rewrite schema_ok_struct in Hok. rewrite decode_struct.
      assert (IH' : Forall (fun f => de_reads (snd f)) fs).
      { clear - IH Hok. induction fs as [|[[n sk] sc] fs IHf]; [constructor|]. cbn [fields_schema_ok] in Hok. rewrite !andb_true_iff in Hok.
        constructor; [apply (Forall_inv IH); tauto|apply IHf; [exact (Forall_inv_tail IH)|tauto]]. }
      change (de f64 (SStruct fs) (S d) (w ++ render t ++ r)) with
        (match skip_ws (w ++ render t ++ r) with
         | [] => None
         | c :: r0 =>
           match enter (S d) with
           | None => None
           | Some d' =>
             if beq c "{"%byte then
               match map_loop parse_str (set_field (map (fp f64 d') fs)) (S (length r0)) true (map (fun _ => None) (map (fp f64 d') fs)) r0 with
               | Some (acc, r') => option_map (fun l => (DStruct l, r')) (finish (map (fp f64 d') fs) acc)
               | None => None
               end
             else if beq c "["%byte then option_map (fun '(l, r') => (DStruct l, r')) (seq_fields (map (fp f64 d') fs) true r0)
             else None
           end
         end).
      rewrite skip_render by assumption. destruct (render_first T) as (s & E). pose proof (first_brace T) as Q1. pose proof (first_brack T) as Q2.
      destruct d as [|d].
      { rewrite E. cbn [app enter]. destruct t; reflexivity. }
      destruct t as [| | | |w0 l|w0 l] eqn:Et; rewrite <- Et in *;
        try (rewrite E; cbn [app enter]; rewrite Q1, Q2; reflexivity); subst t.
      + rewrite arr_app. cbn [enter]. change (beq "[" "{") with false. change (beq "[" "[") with true. cbv iota.
        apply ok_arr in T. destruct T as (B0 & F). rewrite seq_fields_text by assumption. destruct (array_fields d fs l); reflexivity.
      + rewrite obj_app. cbn [enter]. change (beq "{" "{") with true. cbv iota.
        apply ok_obj in T. destruct T as (B0 & F).
        assert (M : map_loop parse_str (set_field (map (fp f64 (S d)) fs)) (S (length (w0 ++ join (B ",") (map mem_text l) ++ "}"%byte :: r))) true
                      (map (fun _ => None) (map (fp f64 (S d)) fs)) (w0 ++ join (B ",") (map mem_text l) ++ "}"%byte :: r)
                    = option_map (fun acc => (acc, r)) (steps string_of (put_tree d fs) (map (fun _ => None) fs) l)).
        { rewrite map_map. apply map_text with (I := fun st => length st = length fs).
          - exact parse_str_text.
          - intros st k t st'. apply put_length.
          - exact F.
          - rewrite Forall_forall in *. intros m Hm st k w1 r1 Ls B1 D1. apply set_field_text; auto.
            + apply Forall_forall. exact IH'.
            + apply F. exact Hm.
          - apply map_length.
          - pose proof (members_len l). rewrite !app_length. lia.
          - exact B0. }
        rewrite M. rewrite steps_slots by exact Hok. destruct (keys_ok l); [|reflexivity].
        rewrite <- (finish_slots d l fs). destruct (traverse (slot_of d l) fs) as [acc|]; [|reflexivity]. cbn [option_map].
        destruct (finish _ acc); reflexivity.
  Qed.
End Derived.

(** ** Conversely, what is accepted is the text of a tree *)
Definition is_tree_text (s r : bytes) : Prop := exists w t, blank w /\ tree_ok t /\ s = w ++ render t ++ r.
Ltac skip_of s := let w := fresh "w" in let Bw := fresh "Bw" in let E := fresh "E" in destruct (skip_split s) as (w & Bw & E).

Lemma next_elem_stop_inv first s r : next_elem first s = Stop r -> exists w, blank w /\ s = w ++ "]"%byte :: r.
Proof.
  unfold next_elem. destruct (skip_split s) as (w & Bw & E). destruct (skip_ws s) as [|c s']; [discriminate|].
  destruct (beq c "]"%byte) eqn:C; [apply beq_eq in C; subst c; intros H; injection H as <-; eauto|].
  destruct first; [discriminate|]. destruct (beq c ","%byte); [|discriminate]. destruct (skip_ws s') as [|c' s'']; [discriminate|].
  destruct (beq c' "]"%byte); discriminate.
Qed.
Lemma next_elem_first_inv s u r : next_elem true s = More u r -> exists w, blank w /\ s = w ++ r.
Proof.
  unfold next_elem. destruct (skip_split s) as (w & Bw & E). destruct (skip_ws s) as [|c s']; [discriminate|].
  destruct (beq c "]"%byte); [discriminate|]. intros H. injection H as _ <-. eauto.
Qed.
Lemma next_elem_next_inv s u r : next_elem false s = More u r -> exists w w', blank w /\ blank w' /\ s = w ++ ","%byte :: w' ++ r.
Proof.
  unfold next_elem. destruct (skip_split s) as (w & Bw & E). destruct (skip_ws s) as [|c s']; [discriminate|].
  destruct (beq c "]"%byte); [discriminate|]. destruct (beq c ","%byte) eqn:C; [|discriminate]. apply beq_eq in C. subst c.
  destruct (skip_split s') as (w' & Bw' & E'). destruct (skip_ws s') as [|c' s'']; [discriminate|].
  destruct (beq c' "]"%byte); [discriminate|]. intros H. injection H as _ <-. subst s' s. eauto.
Qed.

Lemma item_text_eq a t b : item_text (Item a t b) = a ++ render t ++ b. Proof. reflexivity. Qed.
Lemma join_map {A} (f : A -> bytes) x l : join (B ",") (map f (x :: l)) = f x ++ flat_map (fun y => ","%byte :: f y) l.
Proof. cbn [map]. rewrite join_flat, flat_map_concat_map, map_map, <- flat_map_concat_map. reflexivity. Qed.
Section SeqInv.
  Context {A : Type}.
  Variable p : bytes -> option (A * bytes).
  Hypothesis Hp : forall s x r, p s = Some (x, r) -> is_tree_text s r.
  Lemma seq_rest_inv fuel : forall s l r, seq_loop p fuel false s = Some (l, r) ->
    exists w items, blank w /\ Forall item_ok items /\ s = w ++ flat_map (fun x => ","%byte :: item_text x) items ++ "]"%byte :: r.
  Proof.
    induction fuel as [|fuel IH]; intros s l r H; [discriminate|]. cbn [seq_loop] in H.
    destruct (next_elem false s) as [r0|u r0|] eqn:N; [| |discriminate].
    - injection H as <- <-. apply next_elem_stop_inv in N. destruct N as (w & Bw & ->). exists w, []. auto.
    - apply next_elem_next_inv in N. destruct N as (w & w' & Bw & Bw' & ->). destruct (p r0) as [[x r1]|] eqn:P; [|discriminate].
      destruct (seq_loop p fuel false r1) as [[xs r2]|] eqn:L; [|discriminate]. injection H as <- <-.
      apply Hp in P. destruct P as (w1 & t & B1 & T & ->). apply IH in L. destruct L as (w2 & items & B2 & F & ->).
      exists w, (Item (w' ++ w1) t w2 :: items). split; [assumption|]. split; [constructor; [|assumption]; repeat split; cbn; auto using blank_app|].
      cbn [flat_map]. rewrite item_text_eq. cbn [app]. rewrite <- !app_assoc. reflexivity.
  Qed.
  Lemma seq_inv fuel s l r : seq_loop p fuel true s = Some (l, r) ->
    exists w items, blank w /\ Forall item_ok items /\ s = w ++ join (B ",") (map item_text items) ++ "]"%byte :: r.
  Proof.
    destruct fuel as [|fuel]; intros H; [discriminate|]. cbn [seq_loop] in H.
    destruct (next_elem true s) as [r0|u r0|] eqn:N; [| |discriminate].
    - injection H as <- <-. apply next_elem_stop_inv in N. destruct N as (w & Bw & ->). exists w, []. auto.
    - apply next_elem_first_inv in N. destruct N as (w & Bw & ->). destruct (p r0) as [[x r1]|] eqn:P; [|discriminate].
      destruct (seq_loop p fuel false r1) as [[xs r2]|] eqn:L; [|discriminate]. injection H as <- <-.
      apply Hp in P. destruct P as (w1 & t & B1 & T & ->). apply seq_rest_inv in L. destruct L as (w2 & items & B2 & F & ->).
      exists w, (Item w1 t w2 :: items). split; [assumption|]. split; [constructor; [|assumption]; repeat split; cbn; auto using blank_app|].
      rewrite join_map, item_text_eq. rewrite <- !app_assoc. reflexivity.
  Qed.
End SeqInv.

Section MapInv.
  Context {K A : Type}.
  Variables (key : bytes -> option (K * bytes)) (member : A -> K -> bytes -> option (A * bytes)).
  Hypothesis Hkey : forall s k r, key s = Some (k, r) -> exists cs, Forall char_ok cs /\ s = flat_map char_text cs ++ q_quote :: r.
  Hypothesis Hmem : forall st k s st' r, member st k s = Some (st', r) -> is_tree_text s r.
  Definition key_text_of (cs : list schar) (w2 r : bytes) : bytes := q_quote :: flat_map char_text cs ++ q_quote :: w2 ++ ":"%byte :: r.
  Lemma read_inv s k r : (match key s with Some (k, r1) => match colon r1 with Some r2 => More k r2 | None => Fail end | None => Fail end) = More k r ->
    exists cs w2, Forall char_ok cs /\ blank w2 /\ q_quote :: s = key_text_of cs w2 r.
  Proof.
    destruct (key s) as [[k' r1]|] eqn:E; [|discriminate]. apply Hkey in E. destruct E as (cs & C & ->). unfold colon.
    destruct (skip_split r1) as (w2 & B2 & E2). destruct (skip_ws r1) as [|c r2]; [discriminate|].
    destruct (beq c ":"%byte) eqn:Cc; [|discriminate]. apply beq_eq in Cc. subst c. intros H. injection H as -> ->.
    exists cs, w2. subst r1. auto.
  Qed.
  Lemma next_key_stop_inv first s r : next_key key first s = Stop r -> exists w, blank w /\ s = w ++ "}"%byte :: r.
  Proof.
    unfold next_key. destruct (skip_split s) as (w & Bw & E). destruct (skip_ws s) as [|c s']; [discriminate|].
    destruct (beq c "}"%byte) eqn:C; [apply beq_eq in C; subst c; intros H; injection H as <-; eauto|]. intros H. exfalso. revert H.
    destruct first.
    - destruct (beq c q_quote); [|discriminate]. destruct (key s') as [[k r1]|]; [|discriminate]. destruct (colon r1); discriminate.
    - destruct (beq c ","%byte); [|discriminate]. destruct (skip_ws s') as [|c' s'']; [discriminate|]. destruct (beq c' q_quote); [|discriminate].
      destruct (key s'') as [[k r1]|]; [|discriminate]. destruct (colon r1); discriminate.
  Qed.
  Lemma next_key_first_inv s k r : next_key key true s = More k r ->
    exists w cs w2, blank w /\ Forall char_ok cs /\ blank w2 /\ s = w ++ key_text_of cs w2 r.
  Proof.
    unfold next_key. destruct (skip_split s) as (w & Bw & E). destruct (skip_ws s) as [|c s']; [discriminate|].
    destruct (beq c "}"%byte); [discriminate|]. destruct (beq c q_quote) eqn:C; [|discriminate]. apply beq_eq in C. subst c.
    intros H. apply read_inv in H. destruct H as (cs & w2 & F & B2 & E'). rewrite E' in E. exists w, cs, w2. auto.
  Qed.
  Lemma next_key_next_inv s k r : next_key key false s = More k r ->
    exists w0 w cs w2, blank w0 /\ blank w /\ Forall char_ok cs /\ blank w2 /\ s = w0 ++ ","%byte :: w ++ key_text_of cs w2 r.
  Proof.
    unfold next_key. destruct (skip_split s) as (w0 & Bw0 & E). destruct (skip_ws s) as [|c s']; [discriminate|].
    destruct (beq c "}"%byte); [discriminate|]. destruct (beq c ","%byte) eqn:C; [|discriminate]. apply beq_eq in C. subst c.
    destruct (skip_split s') as (w & Bw & E'). destruct (skip_ws s') as [|c' s'']; [discriminate|].
    destruct (beq c' q_quote) eqn:C; [|discriminate]. apply beq_eq in C. subst c'.
    intros H. apply read_inv in H. destruct H as (cs & w2 & F & B2 & E''). rewrite E'' in E'. subst s'. exists w0, w, cs, w2. auto 10.
  Qed.
  Lemma mem_of_parts w cs w2 w3 t w4 s : w ++ key_text_of cs w2 (w3 ++ render t ++ w4 ++ s) = mem_text (Member w cs w2 w3 t w4) ++ s.
  Proof. rewrite mem_text_app. reflexivity. Qed.
  Lemma map_rest_inv fuel : forall st s st' r, map_loop key member fuel false st s = Some (st', r) ->
    exists w l, blank w /\ Forall member_ok l /\ s = w ++ flat_map (fun x => ","%byte :: mem_text x) l ++ "}"%byte :: r.
  Proof.
    induction fuel as [|fuel IH]; intros st s st' r H; [discriminate|]. cbn [map_loop] in H.
    destruct (next_key key false s) as [r0|k r0|] eqn:N; [| |discriminate].
    - injection H as <- <-. apply next_key_stop_inv in N. destruct N as (w & Bw & ->). exists w, []. auto.
    - apply next_key_next_inv in N. destruct N as (w0 & w & cs & w2 & B0 & B1 & C & B2 & ->).
      destruct (member st k r0) as [[st1 r1]|] eqn:P; [|discriminate].
      apply Hmem in P. destruct P as (w3 & t & B3 & T & ->). apply IH in H. destruct H as (w4 & l & B4 & F & ->).
      rewrite mem_of_parts. exists w0, (Member w cs w2 w3 t w4 :: l). split; [assumption|].
      split; [constructor; [|assumption]; repeat split; cbn; auto|]. cbn [flat_map]. cbn [app]. rewrite <- !app_assoc. reflexivity.
  Qed.
  Lemma map_inv fuel st s st' r : map_loop key member fuel true st s = Some (st', r) ->
    exists w l, blank w /\ Forall member_ok l /\ s = w ++ join (B ",") (map mem_text l) ++ "}"%byte :: r.
  Proof.
    destruct fuel as [|fuel]; intros H; [discriminate|]. cbn [map_loop] in H.
    destruct (next_key key true s) as [r0|k r0|] eqn:N; [| |discriminate].
    - injection H as <- <-. apply next_key_stop_inv in N. destruct N as (w & Bw & ->). exists w, []. auto.
    - apply next_key_first_inv in N. destruct N as (w & cs & w2 & B1 & C & B2 & ->).
      destruct (member st k r0) as [[st1 r1]|] eqn:P; [|discriminate].
      apply Hmem in P. destruct P as (w3 & t & B3 & T & ->). apply map_rest_inv in H. destruct H as (w4 & l & B4 & F & ->).
      rewrite mem_of_parts. exists [], (Member w cs w2 w3 t w4 :: l). split; [constructor|].
      split; [constructor; [|assumption]; repeat split; cbn; auto|]. cbn [app]. rewrite join_map. rewrite <- !app_assoc. reflexivity.
  Qed.
End MapInv.

Lemma strip_inv lit : forall s r, strip lit s = Some r -> s = lit ++ r.
Proof.
  induction lit as [|c lit IH]; intros s r H; cbn in H; [injection H as <-; reflexivity|]. destruct s as [|x s]; [discriminate|].
  destruct (beq c x) eqn:E; [|discriminate]. apply beq_eq in E. subst. apply IH in H. subst. reflexivity.
Qed.
Lemma number_tree (neg : bool) s r : ignore_number s = Some r -> exists t, tree_ok t /\ (if neg then B "-" else []) ++ s = render t ++ r.
Proof.
  intros H. apply ignore_number_inv in H. destruct H as (i & f & e & Hi & Hf & He & ->). exists (TNum neg i f e).
  split; [repeat split; assumption || apply Hi|]. cbn [render]. unfold number_text. rewrite <- !app_assoc. reflexivity.
Qed.
Lemma tree_text w t r : blank w -> tree_ok t -> forall s, s = render t ++ r -> is_tree_text (w ++ s) r.
Proof. intros Bw T s ->. exists w, t. auto. Qed.
Lemma str_tree s r : (exists cs, Forall char_ok cs /\ s = flat_map char_text cs ++ q_quote :: r) -> exists t, tree_ok t /\ q_quote :: s = render t ++ r.
Proof. intros (cs & F & ->). exists (TStr cs). split; [exact F|]. rewrite str_app. reflexivity. Qed.
Lemma arr_tree s r : (exists w items, blank w /\ Forall item_ok items /\ s = w ++ join (B ",") (map item_text items) ++ "]"%byte :: r) ->
  exists t, tree_ok t /\ "["%byte :: s = render t ++ r.
Proof. intros (w & l & Bw & F & ->). exists (TArr w l). split; [apply ok_arr; auto|]. rewrite arr_app. reflexivity. Qed.
Lemma obj_tree s r : (exists w l, blank w /\ Forall member_ok l /\ s = w ++ join (B ",") (map mem_text l) ++ "}"%byte :: r) ->
  exists t, tree_ok t /\ "{"%byte :: s = render t ++ r.
Proof. intros (w & l & Bw & F & ->). exists (TObj w l). split; [apply ok_obj; auto|]. rewrite obj_app. reflexivity. Qed.
Lemma some_tree w s r : blank w -> (exists t, tree_ok t /\ s = render t ++ r) -> is_tree_text (w ++ s) r.
Proof. intros Bw (t & T & ->). exists w, t. auto. Qed.
Lemma lit_tree lit t s r : tree_ok t -> strip (tl lit) s = Some r -> render t = lit -> lit <> [] -> exists t, tree_ok t /\ hd x00 lit :: s = render t ++ r.
Proof. intros T H E N. apply strip_inv in H. exists t. split; [exact T|]. rewrite E, H. destruct lit; [congruence|reflexivity]. Qed.

Theorem skip_inv fuel : forall s r, skip_value fuel s = Some r -> is_tree_text s r.
Proof.
  induction fuel as [|fuel IH]; intros s r H; [discriminate|]. cbn [skip_value] in H.
  destruct (skip_split s) as (w & Bw & E). destruct (skip_ws s) as [|c s0]; [discriminate|]. rewrite E. apply some_tree; [exact Bw|].
  repeat (match type of H with (if beq c ?x then _ else _) = _ => let C := fresh "C" in destruct (beq c x) eqn:C; [apply beq_eq in C; subst c|] | (if is_digit c then _ else _) = _ => destruct (is_digit c) end).
  - exact (lit_tree (lit := B "null") (t := TNull) Logic.I H eq_refl ltac:(discriminate)).
  - exact (lit_tree (lit := B "true") (t := TBool true) Logic.I H eq_refl ltac:(discriminate)).
  - exact (lit_tree (lit := B "false") (t := TBool false) Logic.I H eq_refl ltac:(discriminate)).
  - exact (number_tree true H).
  - exact (number_tree false H).
  - apply str_tree. eapply ignore_str_inv; eauto.
  - apply arr_tree. apply option_map_some in H. destruct H as ([l r'] & H & ->). eapply seq_inv; [|exact H].
    intros s1 x r1 H1. apply option_map_some in H1. destruct H1 as (r2 & H1 & E1). injection E1 as -> ->. apply IH. exact H1.
  - apply obj_tree. apply option_map_some in H. destruct H as ([l r'] & H & ->). eapply map_inv; [| |exact H].
    + intros s1 x r1 H1. apply option_map_some in H1. destruct H1 as (r2 & H1 & E1). injection E1 as -> ->. eapply ignore_str_inv; eauto.
    + intros st k s1 x r1 H1. apply option_map_some in H1. destruct H1 as (r2 & H1 & E1). injection E1 as -> ->. apply IH. exact H1.
  - discriminate.
Qed.
Theorem value_inv f64 d : forall s j r, de_value f64 d s = Some (j, r) -> is_tree_text s r.
Proof.
  induction d as [|d IH]; intros s j r H; cbn [de_value] in H;
  (destruct (skip_split s) as (w & Bw & E); destruct (skip_ws s) as [|c s0]; [discriminate|]; rewrite E; apply some_tree; [exact Bw|]);
  (repeat (match type of H with (if beq c ?x then _ else _) = _ => let C := fresh "C" in destruct (beq c x) eqn:C; [apply beq_eq in C; subst c|] | (if is_digit c then _ else _) = _ => destruct (is_digit c) end));
  try discriminate;
  try (destruct d as [|d]; [discriminate|]);
  apply option_map_some in H;
  try (destruct H as (r' & H & E1); injection E1 as -> ->; first
    [ exact (lit_tree (lit := B "null") (t := TNull) Logic.I H eq_refl ltac:(discriminate))
    | exact (lit_tree (lit := B "true") (t := TBool true) Logic.I H eq_refl ltac:(discriminate))
    | exact (lit_tree (lit := B "false") (t := TBool false) Logic.I H eq_refl ltac:(discriminate)) ]);
  destruct H as ([x r'] & H & E1); injection E1 as -> ->;
  first [ exact (number_tree true (parse_ignore_number H)) | exact (number_tree false (parse_ignore_number H))
        | apply str_tree; eapply parse_str_inv; eassumption | idtac ].
  - apply arr_tree. eapply seq_inv; [|exact H]. exact IH.
  - apply obj_tree. eapply map_inv; [| |exact H].
    + exact parse_str_inv.
    + intros st k s1 x1 r1 H1. apply option_map_some in H1. destruct H1 as ([v r2] & H1 & E1). injection E1 as -> ->. eapply IH. exact H1.
Qed.

Section DerivedInv.
  Variable f64 : bytes -> option N.
  Definition de_texts (sc : schema) : Prop := forall d s x r, de f64 sc d s = Some (x, r) -> is_tree_text s r.
  Lemma set_field_inv d fs : Forall (fun f => de_texts (snd f)) fs -> forall acc k s acc' r,
    set_field (map (fp f64 d) fs) acc k s = Some (acc', r) -> is_tree_text s r.
  Proof.
    assert (Ig : forall (acc : list (option data)) s acc' r, option_map (pair acc) (ignore_value s) = Some (acc', r) -> is_tree_text s r).
    { intros acc s acc' r H. apply option_map_some in H. destruct H as (r' & H & E). injection E as -> ->. eapply skip_inv. exact H. }
    induction 1 as [|f fs Hf F IH]; intros acc k s acc' r H; [eapply Ig; exact H|].
    cbn [map set_field] in H. destruct acc as [|a acc]; [eapply Ig; exact H|]. cbn [fp] in H. destruct (bytes_eqb (field_name f) k).
    - destruct a; [discriminate|]. apply option_map_some in H. destruct H as ([x r'] & H & E). injection E as -> ->. eapply Hf. exact H.
    - apply option_map_some in H. destruct H as ([x r'] & H & E). injection E as -> ->. eapply IH. exact H.
  Qed.
  Lemma seq_fields_rest_inv d fs : Forall (fun f => de_texts (snd f)) fs -> forall s l r,
    seq_fields (map (fp f64 d) fs) false s = Some (l, r) ->
    exists w items, blank w /\ Forall item_ok items /\ s = w ++ flat_map (fun x => ","%byte :: item_text x) items ++ "]"%byte :: r.
  Proof.
    induction 1 as [|f fs Hf F IH]; intros s l r H; cbn [map seq_fields] in H.
    - destruct (skip_split s) as (w & Bw & E). destruct (skip_ws s) as [|c s0]; [discriminate|]. destruct (beq c "]"%byte) eqn:C; [|discriminate].
      apply beq_eq in C. subst c. injection H as <- <-. exists w, []. auto.
    - cbn [fp] in H. destruct (next_elem false s) as [r0|u r0|] eqn:N; try discriminate.
      apply next_elem_next_inv in N. destruct N as (w & w' & Bw & Bw' & ->). destruct (de f64 (snd f) d r0) as [[x r1]|] eqn:P; [|discriminate].
      apply option_map_some in H. destruct H as ([xs r2] & L & E). injection E as -> ->.
      apply Hf in P. destruct P as (w1 & t & B1 & T & ->). apply IH in L. destruct L as (w2 & items & B2 & Fi & ->).
      exists w, (Item (w' ++ w1) t w2 :: items). split; [assumption|]. split; [constructor; [|assumption]; repeat split; cbn; auto using blank_app|].
      cbn [flat_map]. rewrite item_text_eq. cbn [app]. rewrite <- !app_assoc. reflexivity.
  Qed.
  Lemma seq_fields_inv d fs : Forall (fun f => de_texts (snd f)) fs -> forall s l r,
    seq_fields (map (fp f64 d) fs) true s = Some (l, r) ->
    exists w items, blank w /\ Forall item_ok items /\ s = w ++ join (B ",") (map item_text items) ++ "]"%byte :: r.
  Proof.
    intros [|f fs' Hf F] s l r H; cbn [map seq_fields] in H.
    - destruct (skip_split s) as (w & Bw & E). destruct (skip_ws s) as [|c s0]; [discriminate|]. destruct (beq c "]"%byte) eqn:C; [|discriminate].
      apply beq_eq in C. subst c. injection H as <- <-. exists w, []. auto.
    - cbn [fp] in H. destruct (next_elem true s) as [r0|u r0|] eqn:N; try discriminate.
      apply next_elem_first_inv in N. destruct N as (w & Bw & ->). destruct (de f64 (snd f) d r0) as [[x r1]|] eqn:P; [|discriminate].
      apply option_map_some in H. destruct H as ([xs r2] & L & E). injection E as -> ->.
      apply Hf in P. destruct P as (w1 & t & B1 & T & ->). apply (seq_fields_rest_inv F) in L. destruct L as (w2 & items & B2 & Fi & ->).
      exists w, (Item w1 t w2 :: items). split; [assumption|]. split; [constructor; [|assumption]; repeat split; cbn; auto using blank_app|].
      rewrite join_map, item_text_eq. rewrite <- !app_assoc. reflexivity.
  Qed.
  Lemma tail_tree w c s r : blank w -> is_tree_text (c :: s) r -> is_tree_text (w ++ c :: s) r.
  Proof. intros Bw (w' & t & B' & T & ->). exists (w ++ w'), t. rewrite <- app_assoc. auto using blank_app. Qed.

  Theorem de_inv sc : de_texts sc.
  Proof.
    induction sc as [| |sc IH|sc IH|names|fs IH] using schema_ind'; intros d s x r H.
    - cbn [de] in H. destruct (skip_split s) as (w & Bw & E). destruct (skip_ws s) as [|c s0]; [discriminate|]. rewrite E.
      apply some_tree; [exact Bw|]. destruct (beq c q_quote) eqn:C; [|discriminate]. apply beq_eq in C. subst c.
      apply option_map_some in H. destruct H as ([t r'] & H & E1). injection E1 as -> ->. apply str_tree. eapply parse_str_inv. exact H.
    - cbn [de] in H. apply option_map_some in H. destruct H as ([j r'] & H & E1). injection E1 as -> ->. eapply value_inv. exact H.
    - cbn [de] in H. destruct (skip_split s) as (w & Bw & E). destruct (skip_ws s) as [|c s0]; [discriminate|]. rewrite E.
      destruct (beq c "n"%byte) eqn:C.
      + apply beq_eq in C. subst c. apply some_tree; [exact Bw|]. apply option_map_some in H. destruct H as (r' & H & E1). injection E1 as -> ->.
        exact (lit_tree (lit := B "null") (t := TNull) Logic.I H eq_refl ltac:(discriminate)).
      + apply option_map_some in H. destruct H as ([y r'] & H & E1). injection E1 as -> ->. apply tail_tree; [exact Bw|]. eapply IH. exact H.
    - cbn [de] in H. destruct (skip_split s) as (w & Bw & E). destruct (skip_ws s) as [|c s0]; [discriminate|]. rewrite E.
      destruct (beq c "["%byte) eqn:C; [|discriminate]. apply beq_eq in C. subst c. apply some_tree; [exact Bw|].
      destruct (enter d) as [d'|]; [|discriminate]. apply option_map_some in H. destruct H as ([y r'] & H & E1). injection E1 as -> ->.
      apply arr_tree. eapply seq_inv; [|exact H]. exact (IH d').
    - cbn [de] in H. destruct (skip_split s) as (w & Bw & E). destruct (skip_ws s) as [|c s0]; [discriminate|]. rewrite E.
      apply some_tree; [exact Bw|]. destruct (beq c q_quote) eqn:C.
      + apply beq_eq in C. subst c. destruct (parse_str s0) as [[t r']|] eqn:P; [|discriminate]. destruct (known_name names t); [|discriminate].
        injection H as _ <-. apply str_tree. eapply parse_str_inv. exact P.
      + destruct (beq c "{"%byte) eqn:C2; [|discriminate]. apply beq_eq in C2. subst c. destruct (enter d) as [d'|]; [|discriminate].
        destruct (skip_split s0) as (w1 & B1 & E1). destruct (skip_ws s0) as [|c1 r1]; [discriminate|].
        destruct (beq c1 q_quote) eqn:C1; [|discriminate]. apply beq_eq in C1. subst c1.
        destruct (parse_str r1) as [[t r2]|] eqn:P; [|discriminate]. destruct (known_name names t); [|discriminate].
        apply parse_str_inv in P. destruct P as (cs & Cs & ->).
        unfold colon in H. destruct (skip_split r2) as (w2 & B2 & E2). destruct (skip_ws r2) as [|c3 r3]; [discriminate|].
        destruct (beq c3 ":"%byte) eqn:C3; [|discriminate]. apply beq_eq in C3. subst c3.
        destruct (skip_split r3) as (w3 & B3 & E3). destruct (strip (B "null") (skip_ws r3)) as [r4|] eqn:P4; [|discriminate].
        apply strip_inv in P4. destruct (skip_split r4) as (w5 & B5 & E5). destruct (skip_ws r4) as [|c5 r5]; [discriminate|].
        destruct (beq c5 "}"%byte) eqn:C5; [|discriminate]. apply beq_eq in C5. subst c5. injection H as _ <-.
        apply obj_tree. exists [], [Member w1 cs w2 w3 TNull w5]. split; [constructor|]. split; [constructor; [|constructor]; repeat split; cbn; auto|].
        cbn [app map join]. rewrite mem_text_app. cbn [m_before m_key m_mid1 m_mid2 m_value m_after].
        rewrite E1, E2, E3, P4, E5. reflexivity.
    - change (de f64 (SStruct fs) d s) with
        (match skip_ws s with
         | [] => None
         | c :: r0 =>
           match enter d with
           | None => None
           | Some d' =>
             if beq c "{"%byte then
               match map_loop parse_str (set_field (map (fp f64 d') fs)) (S (length r0)) true (map (fun _ => None) (map (fp f64 d') fs)) r0 with
               | Some (acc, r') => option_map (fun l => (DStruct l, r')) (finish (map (fp f64 d') fs) acc)
               | None => None
               end
             else if beq c "["%byte then option_map (fun '(l, r') => (DStruct l, r')) (seq_fields (map (fp f64 d') fs) true r0)
             else None
           end
         end) in H.
      destruct (skip_split s) as (w & Bw & E). destruct (skip_ws s) as [|c s0]; [discriminate|]. rewrite E.
      destruct (enter d) as [d'|]; [|discriminate]. apply some_tree; [exact Bw|].
      destruct (beq c "{"%byte) eqn:C.
      + apply beq_eq in C. subst c.
        match type of H with context [map_loop ?a ?b ?c ?e ?f ?g] => destruct (map_loop a b c e f g) as [[acc r']|] eqn:M; [|discriminate] end.
        apply option_map_some in H. destruct H as (l & H & E1). injection E1 as -> ->. apply obj_tree. eapply map_inv; [exact parse_str_inv| |exact M].
        intros st k s1 st' r1. apply set_field_inv. exact IH.
      + destruct (beq c "["%byte) eqn:C2; [|discriminate]. apply beq_eq in C2. subst c.
        apply option_map_some in H. destruct H as ([l r'] & H & E1). injection E1 as -> ->. apply arr_tree. eapply seq_fields_inv; [exact IH|exact H].
  Qed.

  (** ** [from_slice] is the grammar *)
  Theorem from_slice_tree sc t w w' : schema_ok sc = true -> tree_ok t -> blank w -> blank w' ->
    from_slice f64 sc (w ++ render t ++ w') = decode f64 sc 127 t.
  Proof.
    intros Hok T Bw Bw'. unfold from_slice. change 128%nat with (S 127).
    rewrite (de_text f64 Hok T) by (first [exact Bw | apply delim_ends; rewrite <- (app_nil_r w'); apply blank_delim; [exact Bw'|reflexivity]]).
    destruct (decode f64 sc 127 t); [|reflexivity]. cbn [option_map]. apply skip_all in Bw'. rewrite Bw'. reflexivity.
  Qed.
  Theorem from_slice_inv sc s x : from_slice f64 sc s = Some x ->
    exists w t w', blank w /\ tree_ok t /\ blank w' /\ s = w ++ render t ++ w'.
  Proof.
    unfold from_slice. destruct (de f64 sc 128 s) as [[y r]|] eqn:E; [|discriminate]. apply de_inv in E. destruct E as (w & t & Bw & T & ->).
    destruct (skip_ws r) eqn:S; [|discriminate]. apply skip_all in S. intros _. exists w, t, r. auto.
  Qed.
  Theorem from_slice_iff sc s x : schema_ok sc = true -> (from_slice f64 sc s = Some x <->
    exists w t w', blank w /\ tree_ok t /\ blank w' /\ s = w ++ render t ++ w' /\ decode f64 sc 127 t = Some x).
  Proof.
    intros Hok. split.
    - intros H. destruct (from_slice_inv H) as (w & t & w' & Bw & T & Bw' & ->). exists w, t, w'. repeat split; auto.
      rewrite <- (from_slice_tree Hok T Bw Bw'). exact H.
    - intros (w & t & w' & Bw & T & Bw' & -> & <-). apply from_slice_tree; assumption.
  Qed.
End DerivedInv.
