(** Proofs for C98. *)
From Coq Require Import ZifyBool ZifyNat ZifyN.
From Verif Require Import Base BaseFacts Codec Deps Types Did Keys Identity JsonFacts ParseFacts SchemaFacts Spec DidFacts FlowFacts Addr AddrSpec.
Local Open Scope N_scope.
Set Implicit Arguments.

(** ** Numerals *)
Lemma dec_val_iff c v : dec_val c = Some v <-> decimal v c.
Proof.
  unfold dec_val, decimal, inr. destruct ((48 <=? Byte.to_N c) && (Byte.to_N c <=? 57)) eqn:E.
  - split; [intros [= <-]; lia|intros H; f_equal; lia].
  - split; [discriminate|lia].
Qed.
Lemma hex_val_iff c v : hex_val c = Some v <-> hexadecimal v c.
Proof.
  unfold hex_val, hex_val_upper, hexadecimal, decimal, inr.
  destruct ((97 <=? Byte.to_N c) && (Byte.to_N c <=? 102)) eqn:E1; [|destruct ((48 <=? Byte.to_N c) && (Byte.to_N c <=? 57)) eqn:E2; [|destruct ((65 <=? Byte.to_N c) && (Byte.to_N c <=? 70)) eqn:E3]].
  1-3: split; [intros [= <-]; lia|intros H; f_equal; lia].
  split; [discriminate|lia].
Qed.
Section Numerals.
  Variables (base : N) (val : byte -> option N) (digit : N -> byte -> Prop).
  Hypothesis V : forall c v, val c = Some v <-> digit v c.
  Lemma numeral_not_nil n t : numeral base digit n t -> t <> [].
  Proof. intros H. destruct H; [discriminate|]. destruct t; discriminate. Qed.
  Lemma read_digits_iff t n : read_digits base val t = Some n <-> numeral base digit n t.
  Proof.
    assert (R : forall t c, t <> [] -> read_digits base val (t ++ [c]) = step base val (read_digits base val t) c).
    { intros u c N. unfold read_digits at 2. destruct u as [|x u]; [congruence|]. change ((x :: u) ++ [c]) with (x :: (u ++ [c])). unfold read_digits.
      change (x :: u ++ [c]) with ((x :: u) ++ [c]). rewrite fold_left_app. reflexivity. }
    assert (O : forall c, read_digits base val [c] = val c).
    { intros c. unfold read_digits, step. cbn [fold_left]. destruct (val c); reflexivity. }
    revert n. induction t as [|c t IH] using rev_ind; intros n.
    - split; [discriminate|]. intros H. apply numeral_not_nil in H. congruence.
    - destruct t as [|x t].
      + cbn [app]. rewrite O, V. split; [apply one_digit|]. intros H. inversion H as [v c' D|m u v c' Hm D E]; subst; [assumption|].
        apply numeral_not_nil in Hm. destruct u; [congruence|]. destruct u; discriminate.
      + rewrite R by discriminate. split.
        * unfold step. destruct (read_digits base val (x :: t)) as [m|] eqn:E; [|discriminate]. destruct (val c) as [v|] eqn:Ev; [|discriminate].
          intros [= <-]. apply more_digits; [apply IH; reflexivity|apply V; exact Ev].
        * intros H. inversion H as [v c' D E1 E2|m u v c' Hm D E1 E2]; subst.
          { destruct t; discriminate. }
          change (u ++ [c'] = (x :: t) ++ [c]) in E2. apply app_inj_tail in E2 as [-> ->]. apply IH in Hm. rewrite Hm. unfold step. apply V in D. rewrite D. reflexivity.
  Qed.
  Lemma numeral_chars n t : numeral base digit n t -> Forall (fun c => exists v, digit v c) t.
  Proof. induction 1; [repeat econstructor; eassumption|]. apply Forall_app. split; [assumption|repeat econstructor; eassumption]. Qed.
End Numerals.
Lemma decimal_chars n t : numeral 10 decimal n t -> Forall (fun c => 48 <= Byte.to_N c <= 57) t.
Proof. intros H. apply numeral_chars in H. revert H. apply Forall_impl. unfold decimal. intros c (v & H). lia. Qed.
Lemma hexadecimal_chars n t : numeral 16 hexadecimal n t -> Forall (fun c => 48 <= Byte.to_N c <= 57 \/ 65 <= Byte.to_N c <= 70 \/ 97 <= Byte.to_N c <= 102) t.
Proof. intros H. apply numeral_chars in H. revert H. apply Forall_impl. unfold hexadecimal, decimal. intros c (v & H). lia. Qed.
(** A numeral that does not begin with 0 is large when it is long. *)
Lemma numeral_large n t : numeral 10 decimal n t -> hd "0"%byte t <> "0"%byte -> 10 ^ N.of_nat (length t - 1) <= n.
Proof.
  induction 1 as [v c [D1 D2]|n t v c H IH [D1 D2]]; cbn [hd]; intros Z.
  - cbn. assert (v <> 0); [|lia]. intros ->. apply Z. apply to_N_inj. exact D2.
  - assert (N : t <> []) by (eapply numeral_not_nil; eassumption). destruct t as [|x t]; [congruence|]. specialize (IH Z).
    rewrite app_length. cbn [length] in *. replace (S (length t) + 1 - 1)%nat with (S (S (length t) - 1))%nat by lia.
    rewrite Nnat.Nat2N.inj_succ, N.pow_succ_r'. lia.
Qed.
Lemma numeral_10 n t : read_digits 10 dec_val t = Some n <-> numeral 10 decimal n t.
Proof. apply read_digits_iff. exact dec_val_iff. Qed.
Lemma numeral_16 n t : read_digits 16 hex_val t = Some n <-> numeral 16 hexadecimal n t.
Proof. apply read_digits_iff. exact hex_val_iff. Qed.

Lemma read_u16_iff t n : read_u16 t = Some n <-> port_text n t.
Proof.
  assert (X : forall d, match read_digits 10 dec_val d with Some n => if n <? 65536 then Some n else None | None => None end = Some n <-> n < 65536 /\ numeral 10 decimal n d).
  { intros d. rewrite <- numeral_10. destruct (read_digits 10 dec_val d) as [m|]; [|split; [discriminate|intros [_ H]; discriminate]].
    destruct (m <? 65536) eqn:E; split; try discriminate; intros H; try (injection H as ->); try (destruct H as [H1 H2]; injection H2 as ->); intuition lia. }
  unfold read_u16, port_text. cbv zeta. rewrite X. split.
  - intros [L H]. split; [exact L|]. eexists. split; [exact H|]. destruct t as [|c r]; [left; reflexivity|]. destruct (beq c "+"%byte) eqn:E; [|left; reflexivity].
    apply beq_eq in E. subst. right. reflexivity.
  - intros (L & d & H & [->| ->]); (split; [exact L|]).
    + destruct d as [|c r]; [exact H|]. destruct (beq c "+"%byte) eqn:E; [|exact H]. apply beq_eq in E. subst. apply decimal_chars in H. inversion H as [|? ? X1 ?]; subst.
      cbn in X1. lia.
    + cbn. exact H.
Qed.
Lemma read_octet_iff t n : read_octet t = Some n <-> octet_text n t.
Proof.
  unfold read_octet, octet_text. rewrite <- numeral_10. destruct (read_digits 10 dec_val t) as [m|] eqn:E; [|split; [discriminate|intros (_ & H & _); discriminate]].
  assert (H := proj1 (numeral_10 m t) E). split.
  - destruct (((length t =? 1)%nat || negb (beq (hd "0"%byte t) "0"%byte)) && (length t <=? 3)%nat && (m <? 256)) eqn:C; [|discriminate].
    intros [= <-]. apply andb_true_iff in C as [C C3]. apply andb_true_iff in C as [C1 C2]. split; [lia|]. split; [reflexivity|].
    destruct (beq (hd "0"%byte t) "0"%byte) eqn:Z; [|right; apply beq_neq; exact Z]. left. apply beq_eq in Z. destruct t as [|x [|y t]]; cbn in C1; try discriminate. cbn in Z. subst. reflexivity.
  - intros (L & E2 & C). injection E2 as ->. replace (_ && _ && _) with true; [reflexivity|]. symmetry. apply andb_true_iff. split; [|lia].
    destruct C as [->|C]; [reflexivity|]. assert (Z := numeral_large H C). apply beq_neq in C. rewrite C. cbn. rewrite orb_true_r. cbn.
    destruct (length t <=? 3)%nat eqn:Ln; [reflexivity|]. exfalso. assert (10 ^ 3 <= 10 ^ N.of_nat (length t - 1)); [apply N.pow_le_mono_r; lia|]. change (10 ^ 3) with 1000 in *. lia.
Qed.
(** Characters of these texts. *)
Definition lacks (c : byte) (t : bytes) : Prop := ~ In c t.
Lemma lacks_forall (P : byte -> Prop) c t : Forall P t -> ~ P c -> ~ In c t.
Proof. intros F N I. rewrite Forall_forall in F. apply N, F, I. Qed.
Lemma octet_chars n t : octet_text n t -> Forall (fun c => 48 <= Byte.to_N c <= 57) t.
Proof. intros (_ & H & _). eapply decimal_chars; eassumption. Qed.
Lemma mem_no (P : byte -> Prop) c t : Forall P t -> ~ P c -> mem c t = false.
Proof. intros F N. apply mem_not_In. eapply lacks_forall; eassumption. Qed.
Lemma read_ip4_iff t v : read_ip4 t = Some v <-> exists a b c d, v = V4 a b c d /\ ip4_text a b c d t.
Proof.
  unfold read_ip4, ip4_text. split.
  - destruct (split "."%byte t) as [|ta [|tb [|tc [|td [|? ?]]]]] eqn:S; cbn [map].
    1-4: repeat (destruct (read_octet _)); discriminate.
    2: repeat (destruct (read_octet _)); discriminate.
    destruct (read_octet ta) as [a|] eqn:Ea; [|discriminate]. destruct (read_octet tb) as [b|] eqn:Eb; [|discriminate].
    destruct (read_octet tc) as [c|] eqn:Ec; [|discriminate]. destruct (read_octet td) as [d|] eqn:Ed; [|discriminate]. intros [= <-].
    exists a, b, c, d. split; [reflexivity|]. exists ta, tb, tc, td. rewrite <- !read_octet_iff. repeat split; try assumption.
    rewrite <- (split_join "."%byte t), S. reflexivity.
  - intros (a & b & c & d & -> & ta & tb & tc & td & Ha & Hb & Hc & Hd & ->).
    change (ta ++ B "." ++ tb ++ B "." ++ tc ++ B "." ++ td) with (ta ++ "."%byte :: (tb ++ "."%byte :: (tc ++ "."%byte :: td))).
    rewrite !split_app, split_no by (eapply mem_no; [eapply octet_chars; eassumption|cbn; lia]). cbn [map].
    apply read_octet_iff in Ha, Hb, Hc, Hd. rewrite Ha, Hb, Hc, Hd. reflexivity.
Qed.
Lemma ip4_chars a b c d t : ip4_text a b c d t -> Forall (fun c => 46 <= Byte.to_N c <= 57 /\ Byte.to_N c <> 47) t.
Proof.
  intros (ta & tb & tc & td & Ha & Hb & Hc & Hd & ->). apply octet_chars in Ha, Hb, Hc, Hd.
  assert (X : forall u, Forall (fun c => 48 <= Byte.to_N c <= 57) u -> Forall (fun c => 46 <= Byte.to_N c <= 57 /\ Byte.to_N c <> 47) u).
  { intros u. apply Forall_impl. intros x. lia. }
  repeat (apply Forall_app; split); try (apply X; assumption); repeat constructor; cbn; lia.
Qed.

(** ** IPv6 *)
Lemma read_group_iff t g : read_group t = Some g <-> group_text g t.
Proof.
  unfold read_group, group_text. rewrite <- numeral_16. destruct (length t <=? 4)%nat eqn:E; [intuition lia|]. split; [discriminate|]. intros [_ H]. lia.
Qed.
Definition word (t : bytes) : Prop := t <> [] /\ ~ In ":"%byte t.
Lemma group_word g t : group_text g t -> word t.
Proof.
  intros [H _]. split; [eapply numeral_not_nil; eassumption|]. eapply lacks_forall; [eapply hexadecimal_chars; eassumption|]. cbn. lia.
Qed.
Lemma ip4_word a b c d t : ip4_text a b c d t -> word t.
Proof.
  intros H. split; [|eapply lacks_forall; [eapply ip4_chars; eassumption|cbn; lia]]. destruct H as (ta & tb & tc & td & (_ & H & _) & _ & _ & _ & ->).
  apply numeral_not_nil in H. destruct ta; [congruence|discriminate].
Qed.
Lemma ip4_no_group a b c d t : ip4_text a b c d t -> read_group t = None.
Proof.
  intros H. destruct (read_group t) as [g|] eqn:E; [|reflexivity]. exfalso. apply read_group_iff in E as [E _]. apply hexadecimal_chars in E.
  destruct H as (ta & tb & tc & td & _ & _ & _ & _ & ->). apply Forall_app in E as [_ E]. apply Forall_app in E as [E _]. inversion E as [|? ? X ?]; subst. cbn in X. lia.
Qed.
Lemma read_groups_iff v4 ts gs : read_groups v4 ts = Some gs <->
  Forall2 group_text gs ts \/
  v4 = true /\ exists hs us a b c d u, gs = hs ++ [a * 256 + b; c * 256 + d] /\ ts = us ++ [u] /\ Forall2 group_text hs us /\ ip4_text a b c d u.
Proof.
  revert gs. induction ts as [|t ts IH]; intros gs; cbn [read_groups].
  - split; [intros [= <-]; left; constructor|]. intros [H|(_ & hs & us & a & b & c & d & u & _ & H & _)]; [inversion H; reflexivity|destruct us; discriminate].
  - destruct (read_group t) as [g|] eqn:E.
    + assert (G := proj1 (read_group_iff t g) E). split.
      * destruct (read_groups v4 ts) as [gs'|]; [|discriminate]. intros [= <-]. destruct (proj1 (IH gs') eq_refl) as [H|(V & hs & us & a & b & c & d & u & -> & -> & H & H4)].
        { left. constructor; assumption. }
        right. split; [exact V|]. exists (g :: hs), (t :: us), a, b, c, d, u. repeat split; try assumption. constructor; assumption.
      * intros [H|(V & hs & us & a & b & c & d & u & -> & Et & H & H4)].
        { inversion H as [|g' t' gs' ts' H1 H2]; subst. apply read_group_iff in H1. assert (g' = g) by congruence. subst.
          rewrite (proj2 (IH gs')); [reflexivity|left; exact H2]. }
        destruct us as [|x us]; cbn [app] in Et; injection Et as -> Et.
        { exfalso. apply ip4_no_group in H4. congruence. }
        inversion H as [|g' t' gs' ts' H1 H2]; subst. apply read_group_iff in H1. assert (g' = g) by congruence. subst.
        rewrite (proj2 (IH (gs' ++ [a * 256 + b; c * 256 + d]))); [reflexivity|]. right. split; [reflexivity|]. exists gs', us, a, b, c, d, u. repeat split; assumption.
    + split.
      * destruct v4; cbn [andb]; [|discriminate]. destruct ts; cbn [is_empty]; [|discriminate]. destruct (read_ip4 t) as [v|] eqn:E4; [|discriminate].
        apply read_ip4_iff in E4 as (a & b & c & d & -> & H4). intros [= <-]. right. split; [reflexivity|]. exists [], [], a, b, c, d, t. repeat split; try assumption. constructor.
      * intros [H|(-> & hs & us & a & b & c & d & u & -> & Et & H & H4)].
        { inversion H as [|g' t' gs' ts' H1 H2]; subst. apply read_group_iff in H1. congruence. }
        destruct us as [|x us]; cbn [app] in Et; injection Et as -> Et.
        { subst ts. cbn [is_empty andb]. rewrite (proj2 (read_ip4_iff u (V4 a b c d))) by (exists a, b, c, d; split; [reflexivity|exact H4]). inversion H. reflexivity. }
        inversion H as [|g' t' gs' ts' H1 H2]; subst. apply read_group_iff in H1. congruence.
Qed.
Lemma fields_join ts : Forall word ts -> fields (join (B ":") ts) = ts.
Proof.
  intros F. unfold fields. destruct ts as [|t ts]; [reflexivity|]. assert (N : join (B ":") (t :: ts) <> []).
  { inversion F as [|? ? [W _] _]; subst. destruct t; [congruence|]. destruct ts; discriminate. }
  destruct (join (B ":") (t :: ts)) as [|x j] eqn:E; [congruence|]. cbn [is_empty]. rewrite <- E. apply split_join_inv; [discriminate|].
  intros p I. apply mem_not_In. rewrite Forall_forall in F. apply F, I.
Qed.
Lemma join_fields t : join (B ":") (fields t) = t.
Proof. unfold fields. destruct t as [|x t]; [reflexivity|]. cbn [is_empty]. apply split_join. Qed.
Lemma groups_words gs ts : Forall2 group_text gs ts -> Forall word ts.
Proof. induction 1; constructor; [eapply group_word; eassumption|assumption]. Qed.
Lemma groups_iff t gs : read_groups false (fields t) = Some gs <-> groups_text gs t.
Proof.
  rewrite read_groups_iff. unfold groups_text. split.
  - intros [H|[H _]]; [|discriminate]. exists (fields t). split; [exact H|]. symmetry. apply join_fields.
  - intros (ts & H & ->). left. rewrite fields_join; [exact H|]. eapply groups_words; eassumption.
Qed.
Lemma join_snoc (s u : bytes) us : us <> [] -> join s (us ++ [u]) = join s us ++ s ++ u.
Proof.
  induction us as [|x us IH]; [congruence|]. intros _. destruct us as [|y us]; [reflexivity|].
  change ((x :: y :: us) ++ [u]) with (x :: (y :: us) ++ [u]). change (join s (x :: (y :: us) ++ [u])) with (x ++ s ++ join s ((y :: us) ++ [u])).
  rewrite IH by discriminate. change (join s (x :: y :: us)) with (x ++ s ++ join s (y :: us)). rewrite !app_assoc. reflexivity.
Qed.
Lemma mixed_iff t gs : read_groups true (fields t) = Some gs <-> mixed_text gs t.
Proof.
  rewrite read_groups_iff. unfold mixed_text, groups_text. split.
  - intros [H|(_ & hs & us & a & b & c & d & u & -> & Et & H & H4)].
    + left. exists (fields t). split; [exact H|]. symmetry. apply join_fields.
    + right. exists hs, a, b, c, d, u. split; [reflexivity|]. split; [exact H4|]. rewrite <- (join_fields t), Et. inversion H; subst; [left; split; reflexivity|].
      right. eexists. split; [discriminate|]. split; [eexists; split; [eassumption|reflexivity]|]. apply join_snoc. discriminate.
  - intros [(ts & H & ->)|(hs & a & b & c & d & u & -> & H4 & [[-> ->]|(v & N & (ts & H & ->) & ->)])].
    + left. rewrite fields_join; [exact H|eapply groups_words; eassumption].
    + right. split; [reflexivity|]. exists [], [], a, b, c, d, u. repeat split; [|constructor|exact H4]. change u with (join (B ":") [u]) at 1. apply fields_join.
      constructor; [eapply ip4_word; eassumption|constructor].
    + right. split; [reflexivity|]. exists hs, ts, a, b, c, d, u. repeat split; try assumption. rewrite <- join_snoc.
      * apply fields_join. apply Forall_app. split; [eapply groups_words; eassumption|constructor; [eapply ip4_word; eassumption|constructor]].
      * inversion H; subst; [congruence|discriminate].
Qed.
Lemma mixed_words gs t : mixed_text gs t -> exists ws, Forall word ws /\ t = join (B ":") ws.
Proof.
  intros M. exists (fields t). split; [|symmetry; apply join_fields]. apply mixed_iff, read_groups_iff in M as [M|(_ & hs & us & a & b & c & d & u & _ & -> & M & M4)].
  - eapply groups_words; eassumption.
  - apply Forall_app. split; [eapply groups_words; eassumption|constructor; [eapply ip4_word; eassumption|constructor]].
Qed.
Lemma groups_mixed gs t : groups_text gs t -> mixed_text gs t. Proof. left. assumption. Qed.

(** The first double colon. *)
Lemma gap_cons c d r : gap (c :: d :: r) = if beq c ":"%byte && beq d ":"%byte then Some ([], r) else match gap (d :: r) with Some (a, b) => Some (c :: a, b) | None => None end.
Proof. reflexivity. Qed.
Lemma gap_some t a b : gap t = Some (a, b) -> t = a ++ B "::" ++ b.
Proof.
  revert a b. induction t as [|c t IH]; intros a b; [discriminate|]. destruct t as [|d t]; [discriminate|]. rewrite gap_cons.
  destruct (beq c ":"%byte && beq d ":"%byte) eqn:E.
  - intros [= <- <-]. apply andb_true_iff in E as [E1 E2]. apply beq_eq in E1, E2. subst. reflexivity.
  - destruct (gap (d :: t)) as [[a' b']|]; [|discriminate]. intros [= <- <-]. rewrite (IH a' b' eq_refl). reflexivity.
Qed.
Lemma gap_plain c t : c <> ":"%byte -> gap t = None -> gap (c :: t) = None.
Proof. intros N H. destruct t as [|d t]; [reflexivity|]. rewrite gap_cons. apply beq_neq in N. rewrite N. cbn [andb]. rewrite H. reflexivity. Qed.
Lemma gap_word w r : ~ In ":"%byte w -> gap r = None -> gap (w ++ r) = None.
Proof.
  induction w as [|c w IH]; intros N H; [exact H|]. cbn [app]. apply gap_plain; [intros ->; apply N; left; reflexivity|]. apply IH; [|exact H]. intros I. apply N. right. exact I.
Qed.
Lemma gap_words ws r : Forall word ws -> r = [] \/ r = B ":" -> gap (join (B ":") ws ++ r) = None.
Proof.
  intros F R. induction ws as [|w ws IH]; [destruct R as [->| ->]; reflexivity|]. inversion F as [|? ? [W1 W2] F']; subst. destruct ws as [|w' ws].
  - cbn [join]. apply gap_word; [exact W2|destruct R as [->| ->]; reflexivity].
  - change (join (B ":") (w :: w' :: ws)) with (w ++ ":"%byte :: join (B ":") (w' :: ws)). rewrite <- app_assoc. apply gap_word; [exact W2|]. change (gap (":"%byte :: (join (B ":") (w' :: ws) ++ r)) = None).
    specialize (IH F'). assert (J : exists c j, join (B ":") (w' :: ws) ++ r = c :: j /\ c <> ":"%byte).
    { inversion F' as [|? ? [V1 V2] _]; subst. destruct w' as [|c w']; [congruence|]. exists c. destruct ws; (eexists; split; [reflexivity|]); intros ->; apply V2; left; reflexivity. }
    destruct J as (c & j & J & N). rewrite J in IH |- *. rewrite gap_cons. apply beq_neq in N.
    rewrite N, andb_false_r, IH. reflexivity.
Qed.
Lemma gap_first u v : gap (u ++ B ":") = None -> gap (u ++ B "::" ++ v) = Some (u, v).
Proof.
  induction u as [|c u IH]; [reflexivity|]. destruct u as [|d u].
  - change (gap (c :: B ":") = None -> gap (c :: ":"%byte :: ":"%byte :: v) = Some ([c], v)). change (gap (c :: B ":")) with (if beq c ":"%byte && true then Some ([] : bytes, [] : bytes) else None).
    rewrite gap_cons. destruct (beq c ":"%byte); [discriminate|]. reflexivity.
  - cbn [app] in *. rewrite !gap_cons. destruct (beq c ":"%byte && beq d ":"%byte); [discriminate|]. intros H. rewrite IH; [reflexivity|].
    destruct (gap (d :: u ++ B ":")) as [[]|]; [discriminate|reflexivity].
Qed.
Lemma read_ip6_iff t v : read_ip6 t = Some v <-> exists gs, v = V6 gs /\ ip6_text gs t.
Proof.
  unfold read_ip6, ip6_text. split.
  - destruct (gap t) as [[h r]|] eqn:G.
    + apply gap_some in G. subst t. destruct (read_groups false (fields h)) as [hs|] eqn:E1; [|discriminate]. destruct (read_groups true (fields r)) as [ls|] eqn:E2; [|discriminate].
      destruct (length hs + length ls <=? 7)%nat eqn:L; [|discriminate]. apply Nat.leb_le in L. intros H.
      assert (Hv : V6 (hs ++ repeat 0 (8 - (length hs + length ls)) ++ ls) = v) by congruence. clear H. subst v. eexists. split; [reflexivity|]. split; [rewrite !app_length, repeat_length; lia|].
      right. exists hs, (7 - (length hs + length ls))%nat, ls, h, r. apply groups_iff in E1. apply mixed_iff in E2.
      replace (S (7 - (length hs + length ls))) with (8 - (length hs + length ls))%nat by lia. repeat split; assumption.
    + destruct (read_groups true (fields t)) as [gs|] eqn:E; [|discriminate]. destruct (length gs =? 8)%nat eqn:L; [|discriminate]. intros [= <-].
      eexists. split; [reflexivity|]. apply Nat.eqb_eq in L. split; [exact L|]. left. apply mixed_iff, E.
  - intros (gs & -> & L & [M|(hs & n & ls & u & w & -> & Hu & Mw & ->)]).
    + assert (X := M). apply mixed_words in X as (ws & F & ->). assert (G := gap_words F (or_introl eq_refl)). rewrite app_nil_r in G. rewrite G.
      apply mixed_iff in M. rewrite M, L. reflexivity.
    + assert (X := Hu). apply groups_mixed, mixed_words in X as (ws & F & E). rewrite E. rewrite (gap_first _ w (gap_words F (or_intror eq_refl))). rewrite <- E.
      apply groups_iff in Hu. apply mixed_iff in Mw. rewrite Hu, Mw. rewrite !app_length, repeat_length in L. replace (length hs + length ls <=? 7)%nat with true by (symmetry; apply Nat.leb_le; lia).
      replace (8 - (length hs + length ls))%nat with (S n) by lia. reflexivity.
Qed.
Lemma port_chars n t : port_text n t -> Forall (fun c => 48 <= Byte.to_N c <= 57 \/ Byte.to_N c = 43) t.
Proof.
  intros (_ & d & H & E). apply decimal_chars in H. assert (X : Forall (fun c => 48 <= Byte.to_N c <= 57 \/ Byte.to_N c = 43) d) by (revert H; apply Forall_impl; tauto).
  destruct E as [->| ->]; [exact X|]. constructor; [cbn; lia|exact X].
Qed.
Definition ip6_char (c : byte) : Prop := 48 <= Byte.to_N c <= 58 \/ 65 <= Byte.to_N c <= 70 \/ 97 <= Byte.to_N c <= 102 \/ Byte.to_N c = 46.
Lemma groups_chars gs t : groups_text gs t -> Forall ip6_char t.
Proof.
  intros (ts & F & ->). assert (X : Forall (Forall ip6_char) ts).
  { induction F as [|g t gs ts [H _] F IH]; constructor; [|exact IH]. apply hexadecimal_chars in H. revert H. apply Forall_impl. unfold ip6_char. intros c. lia. }
  clear F. induction ts as [|t ts IH]; [constructor|]. inversion X; subst. destruct ts as [|u ts]; [assumption|].
  change (join (B ":") (t :: u :: ts)) with (t ++ B ":" ++ join (B ":") (u :: ts)). apply Forall_app. split; [assumption|]. apply Forall_app. split; [|apply IH; assumption].
  constructor; [unfold ip6_char; cbn; lia|constructor].
Qed.
Lemma mixed_chars gs t : mixed_text gs t -> Forall ip6_char t.
Proof.
  intros [H|(hs & a & b & c & d & u & -> & H4 & H)]; [eapply groups_chars; eassumption|]. assert (U : Forall ip6_char u).
  { apply ip4_chars in H4. revert H4. apply Forall_impl. unfold ip6_char. intros x. lia. }
  destruct H as [[_ ->]|(v & _ & H & ->)]; [exact U|]. apply Forall_app. split; [eapply groups_chars; eassumption|]. constructor; [unfold ip6_char; cbn; lia|exact U].
Qed.
Lemma ip6_chars gs t : ip6_text gs t -> Forall ip6_char t.
Proof.
  intros (_ & [H|(hs & n & ls & u & v & _ & Hu & Hv & ->)]); [eapply mixed_chars; eassumption|]. apply Forall_app. split; [eapply groups_chars; eassumption|].
  constructor; [unfold ip6_char; cbn; lia|]. constructor; [unfold ip6_char; cbn; lia|]. eapply mixed_chars; eassumption.
Qed.

(** ** Protocols *)
Lemma one_of_iff k ks : one_of k ks = true <-> In k ks.
Proof.
  unfold one_of. rewrite existsb_exists. split; [intros (x & H & E); apply bytes_eqb_eq in E; subst; exact H|]. intros H. exists k. split; [exact H|apply bytes_eqb_refl].
Qed.
Lemma known_bland : forallb (fun k => forallb (fun c => negb (mem c k)) (B "/?&=")) known = true. Proof. reflexivity. Qed.
Lemma known_no k c : In k known -> In c (B "/?&=") -> ~ In c k.
Proof.
  intros K C. assert (H := known_bland). rewrite forallb_forall in H. specialize (H k K). rewrite forallb_forall in H. specialize (H c C). apply mem_not_In. destruct (mem c k); [discriminate|reflexivity].
Qed.
Lemma in_known k : In k known <-> k = B "ip4" \/ k = B "ip6" \/ In k ports \/ In k hosts \/ In k flags.
Proof. unfold known. rewrite !in_app_iff. cbn [In]. intuition. Qed.
Section Protocols.
  Variable rest : bytes -> reader.
  Lemma reader_known k : In k known ->
    k = B "ip4" /\ reader_of rest k = With read_ip4 \/
    k = B "ip6" /\ reader_of rest k = With read_ip6 \/
    In k ports /\ reader_of rest k = With (fun t => match read_u16 t with Some n => Some (Num n) | None => None end) \/
    In k hosts /\ reader_of rest k = With (fun t => Some (Txt t)) \/
    In k flags /\ reader_of rest k = Alone.
  Proof.
    intros K. apply in_known in K as [->|[->|[K|[K|K]]]].
    - left. split; reflexivity.
    - right. left. split; reflexivity.
    - right. right. left. split; [exact K|]. cbn [ports In] in K. repeat destruct K as [<-|K]; try reflexivity. destruct K.
    - right. right. right. left. split; [exact K|]. cbn [hosts In] in K. repeat destruct K as [<-|K]; try reflexivity. destruct K.
    - right. right. right. right. split; [exact K|]. cbn [flags In] in K. repeat destruct K as [<-|K]; try reflexivity. destruct K.
  Qed.
  Lemma reader_other k : ~ In k known -> reader_of rest k = rest k.
  Proof.
    intros N. unfold reader_of. assert (X : forall ks, (forall x, In x ks -> In x known) -> one_of k ks = false).
    { intros ks S. destruct (one_of k ks) eqn:E; [|reflexivity]. exfalso. apply one_of_iff in E. exact (N (S k E)). }
    destruct (bytes_eqb k (B "ip4")) eqn:E1; [exfalso; apply bytes_eqb_eq in E1; apply N, in_known; auto|].
    destruct (bytes_eqb k (B "ip6")) eqn:E2; [exfalso; apply bytes_eqb_eq in E2; apply N, in_known; auto|].
    rewrite !X; [reflexivity| | |]; intros x H; apply in_known; auto.
  Qed.
  Lemma known_dec k : In k known \/ ~ In k known.
  Proof. rewrite <- one_of_iff. destruct (one_of k known); [left; reflexivity|right; discriminate]. Qed.
  Definition slashed (t : bytes) : bytes := B "/" ++ t.
  Lemma alone_text k : ~ In "/"%byte k -> reader_of rest k = Alone -> protocol_text rest (k, None) (B "/" ++ k).
  Proof.
    intros S E. destruct (known_dec k) as [K|K].
    - destruct (reader_known K) as [[_ H]|[[_ H]|[[_ H]|[[_ H]|[F _]]]]]; try congruence. apply P_flag. exact F.
    - rewrite reader_other in E by exact K. apply P_alone; assumption.
  Qed.
  Lemma with_text k f t v : ~ In "/"%byte k -> ~ In "/"%byte t -> reader_of rest k = With f -> f t = Some v -> protocol_text rest (k, Some v) (B "/" ++ k ++ B "/" ++ t).
  Proof.
    intros S S' E V. destruct (known_dec k) as [K|K].
    - destruct (reader_known K) as [[-> H]|[[-> H]|[[F H]|[[F H]|[_ H]]]]]; rewrite H in E; try discriminate E; injection E as <-.
      + apply read_ip4_iff in V as (a & b & c & d & -> & V). apply P_ip4. exact V.
      + apply read_ip6_iff in V as (gs & -> & V). apply P_ip6. exact V.
      + destruct (read_u16 t) as [n|] eqn:R; [|discriminate]. apply (f_equal (fun o => match o with Some x => x | None => v end)) in V. cbn in V. subst v. apply P_port; [exact F|]. apply read_u16_iff. exact R.
      + apply (f_equal (fun o => match o with Some x => x | None => v end)) in V. cbn in V. subst v. apply P_host; assumption.
    - rewrite reader_other in E by exact K. eapply P_with; eassumption.
  Qed.
  Lemma parts_text ts : forall ps, Forall (fun t => ~ In "/"%byte t) ts -> read_parts rest ts = Some ps -> address_text rest ps (concat (map slashed ts)).
  Proof.
    remember (length ts) as n eqn:L. assert (Ln : (length ts <= n)%nat) by lia. clear L. revert ts Ln. induction n as [|n IH]; intros [|k r] L ps F; cbn [length] in L.
    1,3: intros [= <-]; exists []; split; [constructor|reflexivity].
    1: lia.
    cbn [read_parts]. inversion F as [|? ? Fk Fr]; subst. destruct (reader_of rest k) as [| |f] eqn:E; [discriminate| |].
    - destruct (read_parts rest r) as [qs|] eqn:R; [|discriminate]. intros [= <-]. apply IH in R as (us & U & C); [|lia|exact Fr]. exists ((B "/" ++ k) :: us). split.
      + constructor; [apply alone_text; assumption|exact U].
      + cbn [map concat]. rewrite C. reflexivity.
    - destruct r as [|t r]; [discriminate|]. destruct (f t) as [v|] eqn:V; [|discriminate]. destruct (read_parts rest r) as [qs|] eqn:R; [|discriminate]. intros [= <-].
      inversion Fr as [|? ? Ft Fr']; subst. cbn [length] in L. apply IH in R as (us & U & C); [|lia|exact Fr']. exists ((B "/" ++ k ++ B "/" ++ t) :: us). split.
      + constructor; [eapply with_text; eassumption|exact U].
      + cbn [map concat]. rewrite C. unfold slashed. rewrite <- !app_assoc. reflexivity.
  Qed.
  Lemma protocol_parts p u : protocol_text rest p u -> exists ts, u = concat (map slashed ts) /\ Forall (fun t => ~ In "/"%byte t) ts /\
    forall r ps, read_parts rest r = Some ps -> read_parts rest (ts ++ r) = Some (p :: ps).
  Proof.
    assert (T : forall k f t v, reader_of rest k = With f -> f t = Some v -> ~ In "/"%byte k -> ~ In "/"%byte t ->
      exists ts, B "/" ++ k ++ B "/" ++ t = concat (map slashed ts) /\ Forall (fun t => ~ In "/"%byte t) ts /\
        forall r ps, read_parts rest r = Some ps -> read_parts rest (ts ++ r) = Some ((k, Some v) :: ps)).
    { intros k f t v E V Sk St. exists [k; t]. split; [cbn [map concat]; rewrite app_nil_r; unfold slashed; rewrite <- app_assoc; reflexivity|].
      split; [repeat constructor; assumption|]. intros r ps R. cbn [app read_parts]. rewrite E, V, R. reflexivity. }
    assert (A : forall k, reader_of rest k = Alone -> ~ In "/"%byte k ->
      exists ts, B "/" ++ k = concat (map slashed ts) /\ Forall (fun t => ~ In "/"%byte t) ts /\
        forall r ps, read_parts rest r = Some ps -> read_parts rest (ts ++ r) = Some ((k, None) :: ps)).
    { intros k E Sk. exists [k]. split; [cbn [map concat]; rewrite app_nil_r; reflexivity|]. split; [repeat constructor; assumption|].
      intros r ps R. cbn [app read_parts]. rewrite E, R. reflexivity. }
    assert (KN : forall k, In k known -> ~ In "/"%byte k) by (intros k K; apply (@known_no k "/"%byte K); left; reflexivity).
    destruct 1 as [a b c d t H|gs t H|k n t K H|k t K H|k K|k K S E|k f t v K S E S' V].
    - apply (T (B "ip4") read_ip4); [reflexivity| |apply KN, in_known; auto|eapply lacks_forall; [eapply ip4_chars; eassumption|cbn; lia]].
      apply read_ip4_iff. exists a, b, c, d. split; [reflexivity|exact H].
    - apply (T (B "ip6") read_ip6); [reflexivity| |apply KN, in_known; auto|].
      + apply read_ip6_iff. eexists. split; [reflexivity|exact H].
      + eapply lacks_forall; [eapply ip6_chars; eassumption|unfold ip6_char; cbn; lia].
    - assert (K' : In k known) by (apply in_known; auto). destruct (reader_known K') as [[-> R]|[[-> R]|[[F R]|[[F R]|[F R]]]]].
      1,2: exfalso; cbn [ports In] in K; repeat destruct K as [K|K]; try discriminate; destruct K.
      2,3: exfalso; revert F K; clear; cbn [ports hosts flags In]; intros F K; repeat destruct K as [<-|K]; repeat destruct F as [F|F]; try discriminate; contradiction.
      eapply T; [exact R| |apply KN; exact K'|].
      + cbv beta. rewrite (proj2 (read_u16_iff t n) H). reflexivity.
      + eapply lacks_forall; [eapply port_chars; eassumption|cbn; lia].
    - assert (K' : In k known) by (apply in_known; auto). destruct (reader_known K') as [[-> R]|[[-> R]|[[F R]|[[F R]|[F R]]]]].
      1,2: exfalso; cbn [hosts In] in K; repeat destruct K as [K|K]; try discriminate; destruct K.
      1,3: exfalso; revert F K; clear; cbn [ports hosts flags In]; intros F K; repeat destruct K as [<-|K]; repeat destruct F as [F|F]; try discriminate; contradiction.
      eapply T; [exact R|reflexivity|apply KN; exact K'|exact H].
    - assert (K' : In k known) by (apply in_known; auto). destruct (reader_known K') as [[-> R]|[[-> R]|[[F R]|[[F R]|[F R]]]]].
      1,2: exfalso; cbn [flags In] in K; repeat destruct K as [K|K]; try discriminate; destruct K.
      1,2: exfalso; revert F K; clear; cbn [ports hosts flags In]; intros F K; repeat destruct F as [<-|F]; repeat destruct K as [K|K]; try discriminate; contradiction.
      apply A; [exact R|apply KN; exact K'].
    - apply A; [rewrite reader_other by exact K; exact E|exact S].
    - eapply T; [rewrite reader_other by exact K; exact E|exact V|exact S|exact S'].
  Qed.
  Lemma split_slashed s ts : ~ In "/"%byte s -> Forall (fun t => ~ In "/"%byte t) ts -> split "/"%byte (s ++ concat (map slashed ts)) = s :: ts.
  Proof.
    revert s. induction ts as [|t ts IH]; intros s S F; cbn [map concat].
    - rewrite app_nil_r. apply split_no, mem_not_In. exact S.
    - inversion F; subst. change (slashed t ++ concat (map slashed ts)) with ("/"%byte :: (t ++ concat (map slashed ts))). rewrite split_app by (apply mem_not_In; exact S). f_equal. apply IH; assumption.
  Qed.
  Lemma join_slashed ts : concat (map slashed ts) = join ["/"%byte] ([] :: ts).
  Proof.
    destruct ts as [|a ts]; [reflexivity|]. change (join ["/"%byte] ([] :: a :: ts)) with (["/"%byte] ++ join ["/"%byte] (a :: ts)). revert a. induction ts as [|b ts IH]; intros a.
    - cbn [map concat join]. rewrite app_nil_r. reflexivity.
    - change (join ["/"%byte] (a :: b :: ts)) with (a ++ (["/"%byte] ++ join ["/"%byte] (b :: ts))). rewrite <- IH. reflexivity.
  Qed.
  Theorem read_addr_iff t ps : read_addr rest t = Some ps <-> address_text rest ps t.
  Proof.
    unfold read_addr. split.
    - destruct (split "/"%byte t) as [|[|x s] ts] eqn:E; try discriminate. intros R. assert (F : Forall (fun t => ~ In "/"%byte t) ts).
      { apply Forall_forall. intros p I. apply mem_not_In. apply (split_pieces "/"%byte t). rewrite E. right. exact I. }
      apply parts_text in R; [|exact F]. replace t with (concat (map slashed ts)); [exact R|]. rewrite <- (split_join "/"%byte t), E. apply join_slashed.
    - intros (us & U & ->). assert (X : exists ts, concat us = concat (map slashed ts) /\ Forall (fun t => ~ In "/"%byte t) ts /\ read_parts rest ts = Some ps).
      { induction U as [|p u ps us P U (ts & E & F & R)]; [exists []; repeat split; constructor|]. destruct (protocol_parts P) as (ts' & E' & F' & R').
        exists (ts' ++ ts). split; [cbn [concat]; rewrite map_app, concat_app, E', E; reflexivity|]. split; [apply Forall_app; split; assumption|apply R'; exact R]. }
      destruct X as (ts & E & F & R). rewrite E. assert (Z := @split_slashed [] ts (fun x => x) F). cbn [app] in Z. rewrite Z. exact R.
  Qed.
End Protocols.

(** ** Addresses of the dependency *)
Theorem multiaddr_read rest D view : multiaddr18 rest D view -> forall t,
  (forall a, multiaddr D t = Ok a -> address_text rest (view a) t) /\
  (forall ps, address_text rest ps t -> exists a, multiaddr D t = Ok a /\ view a = ps).
Proof.
  intros M t. specialize (M t). split.
  - intros a E. rewrite E in M. apply read_addr_iff. exact M.
  - intros ps H. apply read_addr_iff in H. destruct (multiaddr D t) as [a|e]; [|congruence]. exists a. split; [reflexivity|congruence].
Qed.

(** ** Through a URI *)
Definition bland (t : bytes) : Prop := clean (Some t).
Lemma bland_app s t : bland s -> bland t -> bland (s ++ t).
Proof. unfold bland, clean. rewrite !in_app_iff. tauto. Qed.
Lemma bland_forall (P : byte -> Prop) t : Forall P t -> ~ P "?"%byte -> ~ P "&"%byte -> ~ P "="%byte -> bland t.
Proof. intros F N1 N2 N3. repeat split; eapply lacks_forall; eassumption. Qed.
Lemma bland_known k : In k known -> bland k.
Proof. intros K. repeat split; apply (known_no K); cbn; tauto. Qed.
Lemma bland_slash : bland (B "/"). Proof. unfold bland, clean. cbn. intuition discriminate. Qed.
Lemma protocol_bland rest p u : protocol_text rest p u -> In (fst p) known -> (forall x, snd p = Some (Txt x) -> clean (Some x)) -> bland u.
Proof.
  intros H K C. destruct H as [a b c d t H|gs t H|k n t K' H|k t K' H|k K'|k K' S E|k f t v K' S E S' V]; cbn [fst snd] in *; try contradiction.
  - change (B "/ip4/" ++ t) with (B "/" ++ B "ip4" ++ B "/" ++ t). repeat apply bland_app; try apply bland_slash; [apply bland_known; exact K|]. eapply bland_forall; [eapply ip4_chars; eassumption| | |]; cbn; lia.
  - change (B "/ip6/" ++ t) with (B "/" ++ B "ip6" ++ B "/" ++ t). repeat apply bland_app; try apply bland_slash; [apply bland_known; exact K|]. eapply bland_forall; [eapply ip6_chars; eassumption| | |]; unfold ip6_char; cbn; lia.
  - repeat apply bland_app; try apply bland_slash; [apply bland_known; exact K|]. eapply bland_forall; [eapply port_chars; eassumption| | |]; cbn; lia.
  - repeat apply bland_app; try apply bland_slash; [apply bland_known; exact K|]. apply C. reflexivity.
  - apply bland_app; [apply bland_slash|apply bland_known; exact K].
Qed.
Lemma address_bland rest ps t : address_text rest ps t -> (forall k v, In (k, v) ps -> In k known) -> (forall k x, In (k, Some (Txt x)) ps -> clean (Some x)) -> clean (Some t).
Proof.
  intros (us & U & ->). induction U as [|p u ps us P U IH]; intros K C; [cbn; tauto|]. cbn [concat]. apply bland_app.
  - destruct p as [k v]. eapply protocol_bland; [eassumption|apply (K k v); left; reflexivity|]. cbn [snd]. intros x ->. apply (C k x). left. reflexivity.
  - apply IH; [intros k v I; apply (K k v); right; exact I|intros k x I; apply (C k x); right; exact I].
Qed.
Theorem address_through_uri rest D view (d : did D) i ps t h uri : multiaddr18 rest D view -> did_identity d = Ok i ->
  address_text rest ps t -> (forall k v, In (k, v) ps -> In k known) -> (forall k x, In (k, Some (Txt x)) ps -> clean (Some x)) -> clean h ->
  build_uri d (Some {| address := Some t; hl := h |}) = Ok uri ->
  exists a, parse_uri uri = Ret (Ok (id_value i, {| address := Some t; hl := h |})) /\
    parse_multiaddr D {| address := Some t; hl := h |} = Ok (Some a) /\ view a = ps.
Proof.
  intros M I T K C Ch Bd. destruct (proj2 (multiaddr_read M t) ps T) as (a & Ea & Va). exists a. split; [|split; [|exact Va]].
  - apply (uri_round_trip I Bd). split; [eapply address_bland; eassumption|exact Ch].
  - unfold parse_multiaddr. cbn [address]. rewrite Ea. reflexivity.
Qed.
Lemma host_text rest k x : In k hosts -> ~ In "/"%byte x -> address_text rest [(k, Some (Txt x))] (B "/" ++ k ++ B "/" ++ x).
Proof. intros K S. exists [B "/" ++ k ++ B "/" ++ x]. split; [constructor; [apply P_host; assumption|constructor]|]. cbn [concat]. rewrite app_nil_r. reflexivity. Qed.
Lemma host_known k : In k hosts -> In k known. Proof. intros K. apply in_known. auto. Qed.
Lemma host_clean k x : In k hosts -> clean (Some x) -> clean (Some (B "/" ++ k ++ B "/" ++ x)).
Proof. intros K C. repeat apply bland_app; try apply bland_slash; [apply bland_known, host_known, K|exact C]. Qed.

(** A host name with '&hl=' in it: the address is taken, and its URI gives another host and a hashlink. *)
Theorem address_injects rest D view (d : did D) i k x y : multiaddr18 rest D view -> did_identity d = Ok i -> In k hosts ->
  clean (Some x) -> clean (Some y) -> ~ In "/"%byte x -> ~ In "/"%byte y ->
  let t := B "/" ++ k ++ B "/" ++ x ++ B "&hl=" ++ y in
  let t' := B "/" ++ k ++ B "/" ++ x in
  exists a a' uri, multiaddr D t = Ok a /\ view a = [(k, Some (Txt (x ++ B "&hl=" ++ y)))] /\
    build_uri d (Some {| address := Some t; hl := None |}) = Ok uri /\
    parse_uri uri = Ret (Ok (id_value i, {| address := Some t'; hl := Some y |})) /\
    multiaddr D t' = Ok a' /\ view a' = [(k, Some (Txt x))].
Proof.
  intros M I K Cx Cy Sx Sy t t'. assert (S : ~ In "/"%byte (x ++ B "&hl=" ++ y)).
  { rewrite !in_app_iff. cbn [B list_byte_of_string]. intros [H|[H|H]]; [exact (Sx H)| |exact (Sy H)]. cbn in H. repeat destruct H as [H|H]; try discriminate. destruct H. }
  destruct (proj2 (multiaddr_read M t) _ (@host_text rest k _ K S)) as (a & Ea & Va). destruct (proj2 (multiaddr_read M t') _ (@host_text rest k _ K Sx)) as (a' & Ea' & Va').
  assert (Bd : build_uri d (Some {| address := Some t'; hl := Some y |}) = build_uri d (Some {| address := Some (t' ++ B "&hl=" ++ y); hl := None |})) by exact (proj2 (parameter_injection d t' y)).
  assert (Q : exists uri, build_uri d (Some {| address := Some t'; hl := Some y |}) = Ok uri).
  { rewrite build_uri_eq. eexists. reflexivity. }
  destruct Q as (uri & Q). exists a, a', uri. split; [exact Ea|]. split; [exact Va|]. split; [|split; [|split; [exact Ea'|exact Va']]].
  - rewrite <- Q, Bd. subst t t'. rewrite <- !app_assoc. reflexivity.
  - apply (uri_round_trip I Q). split; [apply host_clean; assumption|exact Cy].
Qed.
(** A host name with '?', '&' or '=' in it: the address is taken, and its URI gives the part before it. *)
Theorem address_cut rest D view (d : did D) i k c x y : multiaddr18 rest D view -> did_identity d = Ok i -> In k hosts -> In c (B "?&=") ->
  clean (Some x) -> clean (Some y) -> ~ In "/"%byte x -> ~ In "/"%byte y ->
  let t := B "/" ++ k ++ B "/" ++ x ++ [c] ++ y in
  let t' := B "/" ++ k ++ B "/" ++ x in
  exists a a' uri, multiaddr D t = Ok a /\ view a = [(k, Some (Txt (x ++ [c] ++ y)))] /\
    build_uri d (Some {| address := Some t; hl := None |}) = Ok uri /\
    parse_uri uri = Ret (Ok (id_value i, {| address := Some t'; hl := None |})) /\
    multiaddr D t' = Ok a' /\ view a' = [(k, Some (Txt x))].
Proof.
  intros M I K Hc Cx Cy Sx Sy t t'. assert (S : ~ In "/"%byte (x ++ [c] ++ y)).
  { rewrite !in_app_iff. intros [H|[[H|[]]|H]]; [exact (Sx H)| |exact (Sy H)]. subst c. cbn in Hc. repeat destruct Hc as [Hc|Hc]; try discriminate. destruct Hc. }
  destruct (proj2 (multiaddr_read M t) _ (@host_text rest k _ K S)) as (a & Ea & Va). destruct (proj2 (multiaddr_read M t') _ (@host_text rest k _ K Sx)) as (a' & Ea' & Va').
  rewrite did_identity_eq in I. apply ok_inj in I. subst i. cbn [id_value identity_new]. set (v := identity_text (account_pubkey (did_account d))).
  exists a, a', (v ++ B "?" ++ B "address=" ++ t). split; [exact Ea|]. split; [exact Va|]. split; [rewrite build_uri_eq; reflexivity|]. split; [|split; [exact Ea'|exact Va']].
  assert (Nv : mem "?"%byte v = false) by (apply mem_not_In, identity_text_no; reflexivity).
  assert (Ct' : clean (Some t')) by (apply host_clean; assumption). destruct Ct' as (T1 & T2 & T3). destruct Cy as (Y1 & Y2 & Y3).
  assert (Et : t = t' ++ c :: y) by (subst t t'; rewrite <- !app_assoc; reflexivity).
  unfold parse_uri. cbv zeta. change (v ++ B "?" ++ B "address=" ++ t) with (v ++ "?"%byte :: (B "address=" ++ t)). rewrite split_app by exact Nv. rewrite Et.
  assert (A : forall s, ~ In s t' -> ~ In s (B "address=") -> mem s (B "address=" ++ t') = false).
  { intros s H1 H2. apply mem_not_In. rewrite in_app_iff. tauto. }
  assert (E1 : mem "?"%byte (B "address=" ++ t') = false) by (apply A; [exact T1|cbn; intuition discriminate]).
  assert (E2 : mem "&"%byte (B "address=" ++ t') = false) by (apply A; [exact T2|cbn; intuition discriminate]).
  assert (P : forall l, parse_items ((B "address=" ++ t') :: l) params_default = parse_items l {| address := Some t'; hl := None |}).
  { intros l. cbn [parse_items]. change (B "address=" ++ t') with (B "address" ++ "="%byte :: t'). rewrite split_app by reflexivity. rewrite split_no by (apply mem_not_In; exact T3). reflexivity. }
  apply mem_not_In in Y1, Y2, Y3. cbn in Hc. rewrite app_assoc. destruct Hc as [<-|[<-|[<-|[]]]].
  - rewrite (split_app _ _ _ E1), (split_no _ _ Y1). cbn [is_empty index nth_error obind length Nat.ltb Nat.leb]. rewrite (split_no _ _ E2), P. reflexivity.
  - rewrite split_no.
    2: { rewrite mem_app, mem_cons, E1, Y1. reflexivity. }
    cbn [is_empty index nth_error obind length Nat.ltb Nat.leb]. rewrite (split_app _ _ _ E2), (split_no _ _ Y2), P. cbn [parse_items]. rewrite (split_no _ _ Y3). reflexivity.
  - rewrite split_no.
    2: { rewrite mem_app, mem_cons, E1, Y1. reflexivity. }
    cbn [is_empty index nth_error obind length Nat.ltb Nat.leb]. rewrite split_no.
    2: { rewrite mem_app, mem_cons, E2, Y2. reflexivity. }
    cbn [parse_items]. change ((B "address=" ++ t') ++ "="%byte :: y) with (B "address" ++ "="%byte :: (t' ++ "="%byte :: y)). rewrite split_app by reflexivity.
    rewrite split_app by (apply mem_not_In; exact T3). rewrite (split_no _ _ Y3). reflexivity.
Qed.
(** An address with a port has another text. *)
Theorem address_respelt rest ps t k n : address_text rest ps t -> In (k, Some (Num n)) ps -> In k ports -> exists t', t' <> t /\ address_text rest ps t'.
Proof.
  intros (us & U & ->) I K. induction U as [|p u ps us P U IH]; [destruct I|]. destruct I as [->|I].
  - assert (X : exists u', u' <> u /\ protocol_text rest (k, Some (Num n)) u').
    { inversion P as [| |k' n' t (* port *) K' (L & d & H & E)| | | |k' f t v K' S E S' V]; subst.
      - exists (B "/" ++ k ++ B "/" ++ (match t with c :: r => if beq c "+"%byte then r else B "+" ++ t | [] => [] end)). split.
        + intros Q. repeat apply app_inv_head in Q. destruct t as [|c r]; [|destruct (beq c "+"%byte)]; apply (f_equal (@length byte)) in Q; cbn [length app B] in Q; try (rewrite app_length in Q); cbn in Q; try lia.
          destruct E as [E|E]; [|discriminate]. subst d. apply numeral_not_nil in H. congruence.
        + apply P_port; [exact K|]. split; [exact L|]. exists d. split; [exact H|]. destruct E as [->| ->]; [|left; reflexivity].
          right. destruct d as [|c r]; [apply numeral_not_nil in H; congruence|]. destruct (beq c "+"%byte) eqn:Z; [|reflexivity]. exfalso. apply beq_eq in Z. subst c.
          apply decimal_chars in H. inversion H as [|? ? X ?]; subst. cbn in X. lia.
      - exfalso. apply K', in_known. auto. }
    destruct X as (u' & N & P'). exists (concat (u' :: us)). split; [cbn [concat]; intros Q; apply N; eapply app_inv_tail; exact Q|]. exists (u' :: us). split; [constructor; assumption|reflexivity].
  - destruct (IH I) as (t' & N & (us' & U' & ->)). exists (concat (u :: us')). split; [cbn [concat]; intros Q; apply N; eapply app_inv_head; exact Q|]. exists (u :: us'). split; [constructor; assumption|reflexivity].
Qed.
