(** Proofs for C83: documents are written in the fewest bytes. *)
From Coq Require Import Permutation.
From Verif Require Import Base BaseFacts Codec CodecFacts Json JsonParse Deps JsonFacts JsonParseFacts SchemaFacts Types Proof Vc JsonSpec Spec VcFacts Grammar GrammarFacts TextSpec TextFacts FlowSpec ShortSpec.
From Verif Require CanonFacts.
From Verif Require Import ShapeFacts.
Require Import ZifyBool ZifyNat ZifyN.
Set Implicit Arguments.
Local Open Scope nat_scope.
Lemma some_inj {A} (x y : A) : Some x = Some y -> x = y. Proof. congruence. Qed.

(** ** Strings *)
Lemma escape_len_le c : length (escape_byte c) <= 6.
Proof. apply Nat.leb_le. apply (byte_impl (fun _ => true) (fun c => length (escape_byte c) <=? 6)); [vm_compute; reflexivity|reflexivity]. Qed.
Lemma escape_high c : (128 <= Byte.to_N c)%N -> escape_byte c = [c].
Proof.
  intros H. apply bytes_eqb_eq. apply (byte_impl (fun c => (128 <=? Byte.to_N c)%N) (fun c => bytes_eqb (escape_byte c) [c])); [vm_compute; reflexivity|].
  apply N.leb_le. exact H.
Qed.
Lemma escape_plain c : char_ok (Plain c) -> escape_byte c = [c].
Proof.
  intros (H1 & H2 & H3). apply bytes_eqb_eq.
  apply (byte_impl (fun c => negb (beq c q_quote) && negb (beq c q_bslash) && (32 <=? Byte.to_N c)%N) (fun c => bytes_eqb (escape_byte c) [c])); [vm_compute; reflexivity|].
  rewrite !andb_true_iff, !negb_true_iff. split; [split|]; [apply beq_neq; exact H1|apply beq_neq; exact H2|apply N.leb_le; exact H3].
Qed.
Definition short_fits (e : byte) : bool :=
  match assoc e escapes with
  | None => true
  | Some x => (length (escape_byte x) <=? 2) && implb (2 <=? length (escape_byte x)) (bytes_eqb (escape_byte x) [q_bslash; e])
  end.
Lemma escape_short e x : assoc e escapes = Some x ->
  length (escape_byte x) <= 2 /\ (length (escape_byte x) = 2 -> escape_byte x = [q_bslash; e]).
Proof.
  intros H. assert (S : short_fits e = true) by (apply (byte_impl (fun _ => true) short_fits); [vm_compute; reflexivity|reflexivity]).
  unfold short_fits in S. rewrite H in S. apply andb_true_iff in S. destruct S as [S1 S2]. apply Nat.leb_le in S1. split; [exact S1|].
  intros L. rewrite L in S2. apply bytes_eqb_eq. exact S2.
Qed.
Lemma escape_app a b : escape (a ++ b) = escape a ++ escape b.
Proof. unfold escape. apply flat_map_app. Qed.
Lemma escape_all_high s : Forall (fun c => (128 <= Byte.to_N c)%N) s -> escape s = s.
Proof. induction 1 as [|c s H F IH]; [reflexivity|]. unfold escape in *. cbn [flat_map]. rewrite (escape_high _ H), IH. reflexivity. Qed.
Lemma high_byte k : (128 <= k < 256)%N -> (128 <= Byte.to_N (byte_of_N k))%N.
Proof. intros H. rewrite to_N_byte_of_N by lia. lia. Qed.
Lemma code_point_high n : (128 <= n < 0x110000)%N -> escape (code_point n) = code_point n /\ length (code_point n) <= 4.
Proof.
  intros H. rewrite code_point_encode. unfold utf8_encode.
  destruct (N.ltb_spec n 128); [lia|]. 
  pose proof (N.div_mod n 64 ltac:(lia)). pose proof (N.mod_lt n 64 ltac:(lia)).
  pose proof (N.mod_lt (n / 64) 64 ltac:(lia)). pose proof (N.mod_lt (n / 4096) 64 ltac:(lia)).
  destruct (N.ltb_spec n 2048); [|destruct (N.ltb_spec n 65536)]; (split; [|cbn [length]; lia]); apply escape_all_high;
    repeat constructor; apply high_byte; try lia.
Qed.
Lemma code_point_low n : (n < 128)%N -> code_point n = [byte_of_N n].
Proof. intros H. rewrite code_point_encode. unfold utf8_encode. destruct (N.ltb_spec n 128); [reflexivity|lia]. Qed.
Definition six_fits (c : byte) : bool :=
  (Byte.to_N c <? 32)%N && bytes_eqb (escape_byte c) [q_bslash; "u"%byte; "0"%byte; "0"%byte; hex_digit (Byte.to_N c / 16); hex_digit (Byte.to_N c mod 16)].
Lemma escape_six c : length (escape_byte c) = 6 ->
  (Byte.to_N c < 32)%N /\ escape_byte c = [q_bslash; "u"%byte; "0"%byte; "0"%byte; hex_digit (Byte.to_N c / 16); hex_digit (Byte.to_N c mod 16)].
Proof.
  intros L. assert (S : six_fits c = true) by (apply (byte_impl (fun c => length (escape_byte c) =? 6) six_fits); [vm_compute; reflexivity|]; apply Nat.eqb_eq; exact L).
  unfold six_fits in S. apply andb_true_iff in S. destruct S as [S1 S2]. apply N.ltb_lt in S1. apply bytes_eqb_eq in S2. auto.
Qed.
Definition hex_fits (a : byte) : bool :=
  match assoc a hex_digits with Some x => (x <? 16)%N && (existsb (beq a) (B "ABCDEF") || beq a (hex_digit x)) | None => true end.
Lemma hex_lower a x : assoc a hex_digits = Some x -> (x < 16)%N /\ (~ In a (B "ABCDEF") -> a = hex_digit x).
Proof.
  intros H. assert (S : hex_fits a = true) by (apply (byte_impl (fun _ => true) hex_fits); [vm_compute; reflexivity|reflexivity]).
  unfold hex_fits in S. rewrite H in S. apply andb_true_iff in S. destruct S as [S1 S2]. apply N.ltb_lt in S1. split; [exact S1|].
  intros Hn. apply orb_true_iff in S2. destruct S2 as [S2|S2]; [|apply beq_eq; exact S2].
  apply existsb_exists in S2. destruct S2 as (y & I & E). apply beq_eq in E. subst y. contradiction.
Qed.
Lemma unit_cases a b c d n : code_unit a b c d = Some n ->
  (n < 65536)%N /\ (lower_case (Uni a b c d) -> (n < 32)%N -> [a; b; c; d] = ["0"%byte; "0"%byte; hex_digit (n / 16); hex_digit (n mod 16)]).
Proof.
  unfold code_unit. destruct (assoc a hex_digits) as [x|] eqn:A; [|discriminate]. destruct (assoc b hex_digits) as [y|] eqn:B0; [|discriminate].
  destruct (assoc c hex_digits) as [z|] eqn:C; [|discriminate]. destruct (assoc d hex_digits) as [w|] eqn:D; [|discriminate].
  apply hex_lower in A, B0, C, D. destruct A as [A A'], B0 as [B0 B'], C as [C C'], D as [D D']. intros E. apply some_inj in E. split; [lia|].
  intros L Hn. cbn [lower_case] in L.
  rewrite (A' (Forall_inv L)), (B' (Forall_inv (Forall_inv_tail L))), (C' (Forall_inv (Forall_inv_tail (Forall_inv_tail L)))),
    (D' (Forall_inv (Forall_inv_tail (Forall_inv_tail (Forall_inv_tail L))))).
  assert (x = 0 /\ y = 0)%N as (-> & ->) by lia.
  assert (Q1 : (n / 16 = z)%N) by (symmetry; apply N.div_unique with w; lia).
  assert (Q2 : (n mod 16 = w)%N) by (symmetry; apply N.mod_unique with z; lia). rewrite Q1, Q2. reflexivity.
Qed.
(** One piece of a string against what is written for the bytes it stands for. *)

Lemma string_fits k : forall cs s, length cs <= k -> Forall char_ok cs -> chars cs = Some s ->
  length (escape s) <= length (flat_map char_text cs) /\
  (Forall lower_case cs -> length (escape s) = length (flat_map char_text cs) -> flat_map char_text cs = escape s).
Proof.
  assert (J : forall cs s t p, (length (escape s) <= length (flat_map char_text cs) /\
      (Forall lower_case cs -> length (escape s) = length (flat_map char_text cs) -> flat_map char_text cs = escape s)) ->
      forall x xs, flat_map char_text xs = t -> length (escape p) <= length t ->
      (Forall lower_case xs -> length (escape p) = length t -> t = escape p) -> x = xs ++ cs ->
      length (escape (p ++ s)) <= length (flat_map char_text x) /\
      (Forall lower_case x -> length (escape (p ++ s)) = length (flat_map char_text x) -> flat_map char_text x = escape (p ++ s))).
  { intros cs s t p (L & E) x xs <- L' E' ->. rewrite escape_app, flat_map_app, !app_length. split; [lia|].
    intros Lo H. apply Forall_app in Lo. destruct Lo as [Lo1 Lo2]. rewrite (E Lo2 ltac:(lia)), <- (E' Lo1 ltac:(lia)). reflexivity. }
  induction k as [|k IH]; intros cs s Hk F H.
  { destruct cs; [|cbn in Hk; lia]. injection H as <-. split; [cbn; lia|reflexivity]. }
  destruct cs as [|x cs]; [injection H as <-; split; [cbn; lia|reflexivity]|]. cbn [length] in Hk.
  assert (Hx := Forall_inv F). assert (F' := Forall_inv_tail F). destruct x as [c|e|a b c d]; cbn [chars] in H.
  - destruct (chars cs) as [s'|] eqn:E; [|discriminate]. apply some_inj in H. subst s.
    apply (@J cs s' (flat_map char_text [Plain c]) [c]) with (xs := [Plain c]); [apply IH; [lia|exact F'|exact E]|reflexivity| | |reflexivity];
      unfold escape; cbn [flat_map]; rewrite (escape_plain Hx); cbn; [lia|auto].
  - destruct (assoc e escapes) as [x|] eqn:A; [|discriminate]. destruct (chars cs) as [s'|] eqn:E; [|discriminate]. apply some_inj in H. subst s.
    apply escape_short in A. destruct A as [A1 A2].
    apply (@J cs s' (flat_map char_text [Short e]) [x]) with (xs := [Short e]); [apply IH; [lia|exact F'|exact E]|reflexivity| | |reflexivity];
      unfold escape; cbn [flat_map char_text app]; rewrite app_nil_r; cbn [length]; [exact A1|]. intros _ L. symmetry. auto.
  - destruct (code_unit a b c d) as [n|] eqn:U; [|discriminate]. destruct (unit_cases _ _ _ _ U) as [U1 U2].
    destruct ((n <? 55296)%N || (57343 <? n)%N) eqn:Sur.
    + destruct (chars cs) as [s'|] eqn:E; [|discriminate]. apply some_inj in H. subst s.
      apply (@J cs s' (flat_map char_text [Uni a b c d]) (code_point n)) with (xs := [Uni a b c d]); [apply IH; [lia|exact F'|exact E]|reflexivity| | |reflexivity];
        cbn [flat_map char_text app length]; destruct (N.lt_ge_cases n 128) as [Hn|Hn].
      * rewrite (code_point_low Hn). unfold escape. cbn [flat_map]. rewrite app_nil_r. apply escape_len_le.
      * destruct (@code_point_high n) as [-> ?]; lia.
      * rewrite (code_point_low Hn). unfold escape. cbn [flat_map]. rewrite app_nil_r. intros Lo L. apply escape_six in L. destruct L as [L ->].
        rewrite to_N_byte_of_N in * by lia. assert (Q := U2 (Forall_inv Lo) L). congruence.
      * intros _. destruct (@code_point_high n) as [-> ?]; [lia|]. lia.
    + destruct (56320 <=? n)%N eqn:Tr; [discriminate|]. destruct cs as [|[c0|e0|a' b' c' d'] cs]; try discriminate.
      destruct (code_unit a' b' c' d') as [m|] eqn:U'; [|discriminate]. destruct ((56320 <=? m)%N && (m <=? 57343)%N) eqn:Tm; [|discriminate].
      destruct (chars cs) as [s'|] eqn:E; [|discriminate]. apply some_inj in H. subst s. cbn [length] in Hk.
      set (q := (65536 + (n - 55296) * 1024 + (m - 56320))%N) in *.
      assert (Hq : (128 <= q < 1114112)%N) by (unfold q; lia).
      apply (@J cs s' (flat_map char_text [Uni a b c d; Uni a' b' c' d']) (code_point q)) with (xs := [Uni a b c d; Uni a' b' c' d']); [apply IH; [lia|exact (Forall_inv_tail F')|exact E]|reflexivity| | |reflexivity];
        cbn [flat_map char_text app length]; destruct (code_point_high Hq) as [-> ?]; [lia|intros _; lia].
Qed.
Theorem quote_short cs s : Forall char_ok cs -> string_of cs = Some s ->
  length (quote s) <= length (string_text cs) /\ (Forall lower_case cs -> length (quote s) = length (string_text cs) -> string_text cs = quote s).
Proof.
  intros F H. unfold string_of in H. destruct (chars cs) as [t|] eqn:E; [|discriminate]. destruct (utf8_valid t); [|discriminate]. apply some_inj in H. subst t.
  destruct (@string_fits (length cs) cs s (le_n _) F E) as [L U]. unfold quote, string_text. cbn [length]. rewrite !app_length. cbn [length].
  split; [lia|]. intros Lo Q. rewrite (U Lo ltac:(lia)). reflexivity.
Qed.

Lemma one_byte (s : bytes) (c : byte) : s = [c] -> length s = 1. Proof. intros ->. reflexivity. Qed.
Ltac one_byte := repeat match goal with |- context [length (B ?s)] => rewrite (@one_byte (B s) _ eq_refl) end.
(** ** Weights of lists joined with commas *)
Definition weight (l : list bytes) : nat := fold_right (fun x n => S (length x) + n) 0 l.
Lemma join_weight l : length (join (B ",") l) = pred (weight l).
Proof.
  destruct l as [|x l]; [reflexivity|]. rewrite join_flat, app_length. cbn [weight fold_right Nat.pred plus]. fold (weight l). f_equal.
  induction l as [|y l IH]; [reflexivity|]. cbn [flat_map]. rewrite app_length, IH. reflexivity.
Qed.
Lemma weight_cons x l : weight (x :: l) = S (length x) + weight l. Proof. reflexivity. Qed.
Lemma weight_app a b : weight (a ++ b) = weight a + weight b.
Proof. induction a as [|x a IH]; [reflexivity|]. cbn [app weight fold_right]. fold (weight (a ++ b)). fold (weight a). lia. Qed.
Lemma weight_perm a b : Permutation a b -> weight a = weight b.
Proof.
  induction 1 as [|x a b P IH|x y a|a b c P1 IH1 P2 IH2]; cbn [weight fold_right]; try fold (weight a) in *; try fold (weight b) in *; try lia.
Qed.
Lemma weight_le {A C} (f : A -> bytes) (g : C -> bytes) l l' : Forall2 (fun x y => length (f x) <= length (g y)) l l' -> weight (map f l) <= weight (map g l').
Proof.
  induction 1 as [|x y l l' H F IH]; [apply le_n|]. cbn [map weight fold_right]. fold (weight (map f l)). fold (weight (map g l')). lia.
Qed.

(** ** Numbers *)
Lemma dec_unique i : int_ok i -> dec (JsonParse.dec_value i) = i.
Proof.
  intros ((Hn & F) & Z). destruct i as [|c i]; [congruence|]. cbn [hd] in Z.
  destruct (byte_eq_dec c "0"%byte) as [->|Hc]; [rewrite (Z eq_refl); reflexivity|].
  set (ds := rev (map (fun c => Byte.to_N c - 48)%N (c :: i))).
  assert (L : Forall (fun d => (d < 10)%N) ds).
  { apply Forall_rev. clear - F. induction F as [|x l H F IH]; cbn [map]; constructor; [unfold digit in H; lia|exact IH]. }
  assert (E : map (fun d => byte_of_N (48 + d)) (rev ds) = c :: i).
  { unfold ds. rewrite rev_involutive, map_map. clear - F. induction F as [|x l H F IH]; [reflexivity|]. cbn [map]. rewrite IH. f_equal.
    unfold digit in H. replace (48 + (Byte.to_N x - 48))%N with (Byte.to_N x) by lia. apply byte_of_N_to_N. }
  assert (C : canonical ds).
  { unfold ds. cbn [map rev]. assert (Q : (Byte.to_N c - 48 <> 0)%N).
    { assert (D := Forall_inv F). unfold digit in D. intros Q. apply Hc. rewrite <- (byte_of_N_to_N c). replace (Byte.to_N c) with 48%N by lia. reflexivity. }
    unfold canonical. rewrite rev_app_distr. exact Q. }
  assert (V : JsonParse.dec_value (c :: i) = value 10 ds) by (rewrite <- E; apply dec_value_rev; exact L).
  unfold dec. rewrite V. destruct (N.eqb_spec (value 10 ds) 0) as [Z0|Z0].
  - apply value_canonical_0 in Z0; [|lia|exact C]. unfold ds in Z0. cbn [map rev] in Z0. apply app_eq_nil in Z0. destruct Z0; discriminate.
  - rewrite digits_value by (lia || assumption). exact E.
Qed.
Lemma short_pos f64 f n : short_number f64 (serde_number f) (PosInt n).
Proof.
  intros neg i fr ex Hi _ _ H. unfold number_of in H.
  destruct (is_empty fr && is_empty ex && negb neg && (JsonParse.dec_value i <? 2 ^ 64)%N) eqn:C.
  - apply some_inj in H. assert (E : JsonParse.dec_value i = n) by congruence. rewrite !andb_true_iff in C. cbn [serde_number]. rewrite <- E, (dec_unique Hi).
    unfold number_text. rewrite !app_length. lia.
  - destruct (is_empty fr && is_empty ex && neg && (0 <? JsonParse.dec_value i)%N && (JsonParse.dec_value i <=? 2 ^ 63)%N); [congruence|].
    destruct (f64 (number_text neg i fr ex)); cbn [option_map] in H; congruence.
Qed.
Lemma short_neg f64 f n : short_number f64 (serde_number f) (NegInt n).
Proof.
  intros neg i fr ex Hi _ _ H. unfold number_of in H.
  destruct (is_empty fr && is_empty ex && negb neg && (JsonParse.dec_value i <? 2 ^ 64)%N); [congruence|].
  destruct (is_empty fr && is_empty ex && neg && (0 <? JsonParse.dec_value i)%N && (JsonParse.dec_value i <=? 2 ^ 63)%N) eqn:C.
  - apply some_inj in H. assert (E : JsonParse.dec_value i = n) by congruence. rewrite !andb_true_iff in C. destruct C as [[[[_ _] ->] _] _].
    cbn [serde_number]. rewrite <- E, (dec_unique Hi). unfold number_text. rewrite !app_length. lia.
  - destruct (f64 (number_text neg i fr ex)); cbn [option_map] in H; congruence.
Qed.

(** Distinct elements of a list of seconds come from distinct places. *)
Lemma pick {A C} (ps : list (A * C)) : forall bs, NoDup bs -> incl bs (map snd ps) -> exists qs rest, Permutation ps (qs ++ rest) /\ map snd qs = bs.
Proof.
  intros bs ND. revert ps. induction ND as [|b bs Hb ND IH]; intros ps I.
  - exists [], ps. split; reflexivity.
  - assert (In b (map snd ps)) as Ib by (apply I; left; reflexivity). apply in_map_iff in Ib. destruct Ib as (p & E & Ip).
    apply in_split in Ip. destruct Ip as (p1 & p2 & ->).
    destruct (IH (p1 ++ p2)) as (qs & rest & P & Q).
    { intros x Hx. assert (H := I x (or_intror Hx)). rewrite map_app in *. cbn [map] in H. apply in_app_or in H. apply in_or_app.
      destruct H as [H|[H|H]]; auto. subst x. rewrite E in Hx. contradiction. }
    exists (p :: qs), rest. split; [|cbn [map]; congruence]. rewrite <- app_comm_cons. rewrite <- P. symmetry. apply Permutation_middle.
Qed.
Lemma combine_fst {A C} (a : list A) (b : list C) : length a = length b -> map fst (combine a b) = a.
Proof. revert b. induction a as [|x a IH]; intros [|y b] L; cbn in *; try discriminate; [reflexivity|]. f_equal. apply IH. lia. Qed.
Lemma combine_snd {A C} (a : list A) (b : list C) : length a = length b -> map snd (combine a b) = b.
Proof. revert b. induction a as [|x a IH]; intros [|y b] L; cbn in *; try discriminate; [reflexivity|]. f_equal. apply IH. lia. Qed.
Lemma Forall2_same {A} (R : A -> A -> Prop) l : (forall x, In x l -> R x x) -> Forall2 R l l.
Proof. induction l as [|x l IH]; intros H; constructor; [apply H; left; reflexivity|]. apply IH. intros y Hy. apply H. right. exact Hy. Qed.
Lemma Forall2_combine {A C} (R : A -> C -> Prop) a b x y : Forall2 R a b -> In (x, y) (combine a b) -> R x y.
Proof. induction 1 as [|x0 y0 a b H F IH]; cbn; [tauto|]. intros [E|I]; [congruence|auto]. Qed.

(** ** Values *)
Section Values.
  Variables (f64 : bytes -> option N) (num : number -> bytes).
  Notation text := (json_text num).
  Notation short := (all_numbers (short_number f64 num)).
  Definition kv_text (kv : bytes * json) : bytes := member_text (fst kv, text (snd kv)).
  Lemma text_arr l : text (JArr l) = B "[" ++ join (B ",") (map text l) ++ B "]". Proof. reflexivity. Qed.
  Lemma text_obj m : text (JObj m) = B "{" ++ join (B ",") (map kv_text m) ++ B "}". Proof. reflexivity. Qed.
  (** What is in the object was a member. *)
  Lemma object_of_member kvs kv : In kv (object_of kvs) -> In kv kvs.
  Proof. destruct kv as [k v]. intros H. apply object_of_in in H. destruct H as (a & b & -> & _). apply in_or_app. right. left. reflexivity. Qed.
  Lemma all_arr (P : number -> Prop) l : all_numbers P (JArr l) <-> Forall (all_numbers P) l.
  Proof. cbn [all_numbers]. apply fold_and. Qed.
  Lemma all_obj (P : number -> Prop) m : all_numbers P (JObj m) <-> Forall (fun kv => all_numbers P (snd kv)) m.
  Proof. cbn [all_numbers]. apply (@fold_and _ (fun kv => all_numbers P (snd kv))). Qed.

  Definition pair_of (m : member tree) : option (bytes * json) :=
    match string_of (m_key m), value_of f64 (m_value m) with Some k, Some v => Some (k, v) | _, _ => None end.
  Lemma value_arr w l j : value_of f64 (TArr w l) = Some j -> exists js, j = JArr js /\ Forall2 (fun x j => value_of f64 (i_value x) = Some j) l js.
  Proof.
    cbn [value_of]. intros H. destruct (traverse _ l) as [js|] eqn:E; [|discriminate]. apply some_inj in H. apply traverse_iff in E. eauto.
  Qed.
  Lemma value_obj w l j : value_of f64 (TObj w l) = Some j -> exists kvs, j = JObj (object_of kvs) /\ Forall2 (fun m kv => pair_of m = Some kv) l kvs.
  Proof.
    cbn [value_of]. intros H. destruct (traverse _ l) as [kvs|] eqn:E; [|discriminate]. apply some_inj in H. apply traverse_iff in E. eauto.
  Qed.
  Lemma object_nodup kvs : NoDup (object_of kvs).
  Proof.
    pose proof (object_of_sorted kvs) as H. apply NoDup_map_inv with (f := fst). revert H. generalize (map fst (object_of kvs)).
    intros l H. exact (CanonFacts.increasing_nodup _ H).
  Qed.
  Lemma mem_fits m k v : Forall char_ok (m_key m) -> string_of (m_key m) = Some k -> length (text v) <= length (render (m_value m)) ->
    length (kv_text (k, v)) <= length (mem_text m).
  Proof.
    intros F S L. destruct (quote_short F S) as [Q _]. unfold kv_text, mem_text, member_text. cbn [fst snd]. rewrite !app_length. one_byte. lia.
  Qed.
  Theorem value_short t : forall j, tree_ok t -> value_of f64 t = Some j -> short j -> length (text j) <= length (render t).
  Proof.
    induction t as [|b|neg i f e|cs|w l IH|w l IH] using tree_ind'; intros j T V N.
    - apply some_inj in V. subst j. apply le_n.
    - apply some_inj in V. subst j. destruct b; apply le_n.
    - cbn [value_of] in V. destruct (number_of f64 neg i f e) as [n|] eqn:E; [|discriminate]. apply some_inj in V. subst j.
      destruct T as (Hi & Hf & He). exact (N neg i f e Hi Hf He E).
    - cbn [value_of] in V. destruct (string_of cs) as [s|] eqn:E; [|discriminate]. apply some_inj in V. subst j.
      exact (proj1 (quote_short T E)).
    - apply value_arr in V. destruct V as (js & -> & F). apply ok_arr in T. destruct T as [_ T]. apply all_arr in N.
      rewrite text_arr, render_arr. cbn [B app length]. rewrite !app_length, !join_weight. one_byte.
      enough (weight (map text js) <= weight (map item_text l)) by lia.
      apply weight_le. induction F as [|x j l js H F IHF]; constructor.
      + unfold item_text. rewrite !app_length. enough (length (text j) <= length (render (i_value x))) by lia.
        apply (Forall_inv IH); [apply (Forall_inv T)|exact H|exact (Forall_inv N)].
      + apply IHF; [exact (Forall_inv_tail IH)|exact (Forall_inv_tail T)|exact (Forall_inv_tail N)].
    - apply value_obj in V. destruct V as (kvs & -> & F). apply ok_obj in T. destruct T as [_ T]. apply all_obj in N.
      rewrite text_obj, render_obj. cbn [B app length]. rewrite !app_length, !join_weight. one_byte.
      enough (weight (map kv_text (object_of kvs)) <= weight (map mem_text l)) by lia.
      destruct (@pick _ _ (combine l kvs) (object_of kvs) (object_nodup kvs)) as (ps & rest & P & E).
      { rewrite combine_snd by (exact (Forall2_len F)). intros kv. apply object_of_member. }
      rewrite <- E. rewrite <- (combine_fst l kvs) by (exact (Forall2_len F)).
      rewrite (weight_perm (Permutation_map mem_text (Permutation_map fst P))), !map_app, weight_app, !map_map.
      enough (weight (map (fun x => kv_text (snd x)) ps) <= weight (map (fun x => mem_text (fst x)) ps)) by lia.
      apply weight_le. apply Forall2_same. intros [m [k v]] I. cbn [fst snd].
      assert (In (m, (k, v)) (combine l kvs)) as I' by (eapply Permutation_in; [symmetry; exact P|apply in_or_app; auto]).
      assert (I2 : In (k, v) (object_of kvs)) by (rewrite <- E; exact (in_map snd _ _ I)).
      pose proof (in_combine_l _ _ _ _ I') as Im. rewrite Forall_forall in IH, T, N.
      assert (Pm : pair_of m = Some (k, v)) by exact (Forall2_combine _ _ F I').
      unfold pair_of in Pm. destruct (string_of (m_key m)) as [k'|] eqn:Sk; [|discriminate]. destruct (value_of f64 (m_value m)) as [v'|] eqn:Vv; [|discriminate].
      apply some_inj in Pm. assert (k' = k) by congruence. assert (v' = v) by congruence. subst k' v'.
      destruct (T m Im) as (_ & Tk & _ & _ & Tv & _). apply mem_fits; [exact Tk|exact Sk|].
      apply IH; [exact Im|exact Tv|exact Vv|exact (N _ I2)].
  Qed.
End Values.

(** ** Values of the crate's types *)
(** Options that are absent are left out. *)
Fixpoint compact (sc : schema) : bool :=
  match sc with
  | SOption sc' | SVec sc' => compact sc'
  | SStruct fs => forallb (fun f => implb (is_option (snd f)) (snd (fst f)) && compact (snd f)) fs
  | _ => true
  end.
Fixpoint by_name (sc : schema) (t : tree) : Prop :=
  match sc with
  | SOption sc' => by_name sc' t
  | SVec sc' => match t with TArr _ l => Forall (fun x => by_name sc' (i_value x)) l | _ => True end
  | SStruct fs =>
    match t with
    | TArr _ _ => False
    | TObj _ l => fold_right (fun f P => (forall m, In m l -> named (fst (fst f)) m = true -> by_name (snd f) (m_value m)) /\ P) True fs
    | _ => True
    end
  | _ => True
  end.
Lemma weight_filter {A} (g : A -> bytes) (p : A -> bool) l : weight (map g l) = weight (map g (filter p l)) + weight (map g (filter (fun x => negb (p x)) l)).
Proof.
  induction l as [|x l IH]; [reflexivity|]. cbn [filter map]. destruct (p x); cbn [negb map weight fold_right]; fold (weight (map g l)) in *;
    fold (weight (map g (filter p l))); fold (weight (map g (filter (fun x => negb (p x)) l))); lia.
Qed.
Lemma named_other n n' m : n <> n' -> named n' m = true -> named n m = false.
Proof.
  unfold named. destruct (string_of (m_key m)) as [k|]; [|discriminate]. intros H E. apply bytes_eqb_eq in E. subst k.
  destruct (bytes_eqb n' n) eqn:Q; [apply bytes_eqb_eq in Q; congruence|reflexivity].
Qed.
Lemma filter_other n n' (l : list (member tree)) : n <> n' -> filter (named n') (filter (fun m => negb (named n m)) l) = filter (named n') l.
Proof.
  intros H. induction l as [|m l IH]; [reflexivity|]. cbn [filter]. destruct (named n m) eqn:E; cbn [negb].
  - destruct (named n' m) eqn:E'; [rewrite (named_other _ H E') in E; discriminate|exact IH].
  - cbn [filter]. rewrite IH. reflexivity.
Qed.

Section Types.
  Variables (f64 : bytes -> option N) (num : number -> bytes).
  Notation text := (json_text num).
  Notation short := (all_numbers (short_number f64 num)).
  Definition writes_short (sc : schema) : Prop := forall d t x, schema_ok sc = true -> compact sc = true -> tree_ok t -> by_name sc t ->
    decode f64 sc d t = Some x -> short (ser sc x) -> length (text (ser sc x)) <= length (render t).
  Lemma fields_weight d fs : Forall (fun f => writes_short (snd f)) fs -> forall xs l, Forall2 (fun f x => field_value f64 d l f = Some x) fs xs ->
    fields_schema_ok fs = true -> forallb (fun f => implb (is_option (snd f)) (snd (fst f)) && compact (snd f)) fs = true ->
    Forall member_ok l -> Forall (fun f => forall m, In m l -> named (fst (fst f)) m = true -> by_name (snd f) (m_value m)) fs ->
    Forall (fun kv => short (snd kv)) (members fs xs) -> weight (map (kv_text num) (members fs xs)) <= weight (map mem_text l).
  Proof.
    induction 1 as [|f fs Hf F IH]; intros xs l V Ok C T Bn N; inversion V as [|? x ? xs' Vx V']; subst; [cbn; lia|].
    cbn [fields_schema_ok] in Ok. rewrite !andb_true_iff in Ok. destruct Ok as ((((_ & Nn) & _) & Okf) & Ok).
    cbn [forallb] in C. rewrite !andb_true_iff in C. destruct C as ((Cs & Cf) & C).
    set (n := field_name f) in *.
    assert (Dn : forall g, In g fs -> n <> field_name g).
    { intros g Hg E. apply negb_true_iff in Nn. rewrite <- not_true_iff_false in Nn. apply Nn. apply existsb_exists. exists g.
      split; [exact Hg|]. apply bytes_eqb_eq. exact E. }
    rewrite (weight_filter mem_text (named n) l).
    set (l' := filter (fun m => negb (named n m)) l).
    assert (R : Forall (fun kv => short (snd kv)) (members fs xs') -> weight (map (kv_text num) (members fs xs')) <= weight (map mem_text l')).
    { apply IH; auto.
      - clear - V' Dn. induction V' as [|g y fs xs H V IH]; constructor; [|apply IH; intros g' Hg'; apply Dn; right; exact Hg'].
        unfold field_value in *. unfold l'. rewrite filter_other by (apply Dn; left; reflexivity). exact H.
      - apply Forall_forall. intros m Hm. apply filter_In in Hm. rewrite Forall_forall in T. apply T. tauto.
      - apply Forall_inv_tail in Bn. eapply Forall_impl; [|exact Bn]. cbn. intros g Hg m Hm. apply filter_In in Hm. apply Hg. tauto. }
    cbn [members] in *. unfold field_value in Vx. fold n in Vx.
    destruct (skipped f x) eqn:Sk; [specialize (R N); lia|]. specialize (R (Forall_inv_tail N)).
    cbn [map]. rewrite weight_cons.
    destruct (filter (named n) l) as [|m [|m' ms]] eqn:Fl; [| |discriminate].
    - exfalso. destruct (is_option (snd f)) eqn:Op; [|discriminate]. apply some_inj in Vx. subst x. unfold skipped, field_skip in Sk.
      cbn [implb] in Cs. rewrite Cs in Sk. discriminate.
    - cbn [map]. rewrite weight_cons. assert (Im : In m l /\ named n m = true) by (apply filter_In; rewrite Fl; left; reflexivity).
      destruct Im as [Im Nm]. rewrite Forall_forall in T. destruct (T m Im) as (_ & Tk & _ & _ & Tv & _).
      unfold named in Nm. destruct (string_of (m_key m)) as [k|] eqn:Sk'; [|discriminate]. apply bytes_eqb_eq in Nm. subst k.
      fold n. enough (length (kv_text num (n, ser (snd f) x)) <= length (mem_text m)) by (cbn [weight fold_right]; lia).
      apply (@mem_fits f64 num); [exact Tk|exact Sk'|]. eapply Hf; [exact Okf|exact Cf|exact Tv| |exact Vx|exact (Forall_inv N)].
      apply (Forall_inv Bn); [exact Im|]. unfold named. change (fst (fst f)) with n. rewrite Sk'. apply bytes_eqb_eq. reflexivity.
  Qed.
  Theorem type_short sc : writes_short sc.
  Proof.
    induction sc as [| |sc IH|sc IH|names|fs IH] using schema_ind'; intros d t x Ok C T Bn V N.
    - cbn [decode] in V. destruct t; try discriminate. destruct (string_of cs) as [s|] eqn:E; [|discriminate]. apply some_inj in V. subst x.
      exact (proj1 (quote_short T E)).
    - cbn [decode] in V. destruct (tree_depth t <=? d); [|discriminate]. destruct (value_of f64 t) as [j|] eqn:E; [|discriminate].
      apply some_inj in V. subst x. exact (@value_short f64 num t j T E N).
    - cbn [schema_ok] in Ok. apply andb_true_iff in Ok. destruct Ok as [_ Ok]. cbn [decode] in V.
      assert (Q : t = TNull /\ x = DNone \/ exists y, x = DSome y /\ decode f64 sc d t = Some y).
      { destruct t; [apply some_inj in V; auto|..]; (destruct (decode f64 sc d _) as [y|]; [|discriminate]; apply some_inj in V; eauto). }
      destruct Q as [[-> ->]|(y & -> & Vy)]; [apply le_n|]. exact (IH d t y Ok C T Bn Vy N).
    - cbn [decode] in V. destruct d as [|d]; [discriminate|]. destruct t as [| | | |w l|]; try discriminate.
      destruct (traverse _ l) as [ys|] eqn:E; [|discriminate]. apply some_inj in V. subst x. apply traverse_iff in E.
      cbn [ser] in *. apply all_arr in N. apply ok_arr in T. destruct T as [_ T]. cbn [by_name] in Bn.
      rewrite text_arr, render_arr. cbn [app length]. rewrite !app_length, !join_weight. one_byte.
      enough (weight (map text (map (ser sc) ys)) <= weight (map item_text l)) by lia. rewrite map_map.
      apply weight_le. cbn [schema_ok compact] in Ok, C. induction E as [|i y l ys H F IHF]; constructor.
      + unfold item_text. rewrite !app_length. enough (length (text (ser sc y)) <= length (render (i_value i))) by lia.
        eapply IH; [exact Ok|exact C|apply (Forall_inv T)|exact (Forall_inv Bn)|exact H|exact (Forall_inv N)].
      + apply IHF; [exact (Forall_inv_tail T)|exact (Forall_inv_tail Bn)|exact (Forall_inv_tail N)].
    - cbn [decode] in V. assert (Q : forall cs, Forall char_ok cs -> match string_of cs with Some n => if known_name names n then Some (DEnum n) else None | None => None end = Some x ->
        length (text (ser (SEnum names) x)) <= length (string_text cs)).
      { intros cs F H. destruct (string_of cs) as [n|] eqn:E; [|discriminate]. destruct (known_name names n); [|discriminate]. apply some_inj in H. subst x.
        exact (proj1 (quote_short F E)). }
      destruct t as [|b|neg i f e|cs|w l|w l]; try (destruct d; discriminate).
      + apply Q; [exact T|]. destruct d; exact V.
      + destruct d as [|d]; [discriminate|]. destruct l as [|m [|]]; try discriminate. destruct (m_value m) eqn:M; try discriminate.
        apply ok_obj in T. destruct T as [_ T]. destruct (Forall_inv T) as (_ & Tk & _). specialize (Q _ Tk V).
        rewrite render_obj. cbn [map join length]. unfold mem_text. cbn [length]. rewrite !app_length. lia.
    - rewrite decode_struct in V. destruct d as [|d]; [discriminate|]. destruct t as [|b|neg i f e|cs|w l|w l]; try discriminate; [destruct Bn|].
      destruct (keys_ok l); [|discriminate]. destruct (traverse (field_value f64 d l) fs) as [xs|] eqn:E; [|discriminate]. apply some_inj in V. subst x.
      apply traverse_iff in E. rewrite ser_struct in *. apply all_obj in N. apply ok_obj in T. destruct T as [_ T]. rewrite schema_ok_struct in Ok.
      rewrite text_obj, render_obj. cbn [app length]. rewrite !app_length, !join_weight. one_byte.
      enough (weight (map (kv_text num) (members fs xs)) <= weight (map mem_text l)) by lia.
      apply fields_weight with (d := d); auto. cbn [by_name] in Bn.
      apply (@fold_and _ (fun f : field => forall m, In m l -> named (fst (fst f)) m = true -> by_name (snd f) (m_value m))). exact Bn.
  Qed.
End Types.

(** ** The shortest form is one of the forms *)
Definition piece (c : byte) : schar :=
  match find (fun p => beq c (snd p)) escapes with
  | Some (e, _) => if beq c "/"%byte then Plain c else Short e
  | None => if (Byte.to_N c <? 32)%N then Uni "0" "0" (hex_digit (Byte.to_N c / 16)) (hex_digit (Byte.to_N c mod 16)) else Plain c
  end.
Definition piece_fits (c : byte) : bool :=
  bytes_eqb (char_text (piece c)) (escape_byte c) &&
  match piece c with
  | Plain d => beq c d && negb (beq c q_quote) && negb (beq c q_bslash) && (32 <=? Byte.to_N c)%N
  | Short e => match assoc e escapes with Some x => beq x c | None => false end
  | Uni a b c' d => match code_unit a b c' d with Some n => (n =? Byte.to_N c)%N && (n <? 128)%N | None => false end
                    && negb (existsb (fun h => existsb (beq h) (B "ABCDEF")) [a; b; c'; d])
  end.
Lemma piece_ok c : piece_fits c = true.
Proof. apply (byte_impl (fun _ => true) piece_fits); [vm_compute; reflexivity|reflexivity]. Qed.
Lemma piece_text s : flat_map char_text (map piece s) = escape s.
Proof.
  induction s as [|c s IH]; [reflexivity|]. unfold escape in *. cbn [map flat_map]. rewrite IH. f_equal. assert (H := piece_ok c).
  unfold piece_fits in H. apply andb_true_iff in H. apply bytes_eqb_eq. tauto.
Qed.
Lemma piece_char c : char_ok (piece c) /\ lower_case (piece c) /\ forall r, chars (piece c :: r) = option_map (cons c) (chars r).
Proof.
  assert (H := piece_ok c). unfold piece_fits in H. apply andb_true_iff in H. destruct H as [_ H]. destruct (piece c) as [d|e|a b c' d].
  - rewrite !andb_true_iff, !negb_true_iff in H. destruct H as [[[E Q] S] L]. apply beq_eq in E. subst d. apply beq_neq in Q, S. apply N.leb_le in L.
    split; [exact (conj Q (conj S L))|split; [exact I|reflexivity]].
  - cbn [char_ok chars]. destruct (assoc e escapes) as [x|]; [|discriminate]. apply beq_eq in H. subst x. split; [discriminate|split; [exact I|reflexivity]].
  - apply andb_true_iff in H. destruct H as [H L]. cbn [char_ok chars]. destruct (code_unit a b c' d) as [n|]; [|discriminate].
    apply andb_true_iff in H. destruct H as [E S]. apply N.eqb_eq in E. apply N.ltb_lt in S. split; [discriminate|]. split.
    + cbn [lower_case]. rewrite negb_true_iff in L. apply Forall_forall. intros h Hh Hi. rewrite <- not_true_iff_false in L. apply L.
      apply existsb_exists. exists h. split; [exact Hh|]. apply existsb_exists. exists h. split; [exact Hi|]. apply beq_refl.
    + intros r. destruct (N.ltb_spec n 55296); [|lia]. cbn [orb]. rewrite (code_point_low S), E, byte_of_N_to_N. destruct (chars r); reflexivity.
Qed.
Lemma pieces s : Forall char_ok (map piece s) /\ Forall lower_case (map piece s) /\ chars (map piece s) = Some s.
Proof.
  induction s as [|c s (A & L & E)]; [repeat split; constructor|]. destruct (piece_char c) as (A' & L' & E'). cbn [map].
  split; [constructor; assumption|]. split; [constructor; assumption|]. rewrite E', E. reflexivity.
Qed.
Theorem string_form s : utf8_valid s = true ->
  exists cs, Forall char_ok cs /\ Forall lower_case cs /\ string_of cs = Some s /\ string_text cs = quote s.
Proof.
  intros U. exists (map piece s). destruct (pieces s) as (A & L & E). split; [exact A|]. split; [exact L|]. split.
  - unfold string_of. rewrite E, U. reflexivity.
  - unfold string_text, quote. rewrite piece_text. reflexivity.
Qed.

(** ** Canonical texts are as long *)
Lemma jcs_len leb num j : length (jcs_text leb num j) = length (json_text num j).
Proof.
  induction j as [|b|n|s|l IH|m IH] using json_ind'; try reflexivity.
  - cbn [jcs_text json_text]. rewrite !app_length, !join_weight. do 2 f_equal. f_equal.
    induction IH as [|x l H F IHl]; [reflexivity|]. cbn [map]. rewrite !weight_cons. congruence.
  - cbn [jcs_text json_text]. rewrite !app_length, !join_weight. do 2 f_equal. f_equal.
    rewrite (weight_perm (Permutation_map member_text (sort_perm leb _))), map_map.
    induction IH as [|x m H F IHm]; [reflexivity|]. cbn [map fst snd]. rewrite !weight_cons. unfold member_text at 1 3. cbn [fst snd]. rewrite !app_length.
    rewrite IHm, H. reflexivity.
Qed.

(** ** Credentials and presentations *)
Lemma all_strings P l : all_numbers P (strings l).
Proof. apply all_arr. apply Forall_forall. intros x H. apply in_map_iff in H. destruct H as (s & <- & _). exact I. Qed.
Lemma all_proof P p : all_numbers P (proof_json p).
Proof. destruct p as [? ? ? ? ? [?|] [?|] [?|]]; repeat split. Qed.
Lemma all_vc P v : all_numbers P (vc_subject v) -> all_numbers P (vc_json v).
Proof.
  intros H. apply all_obj. unfold vc_json. repeat (apply Forall_app; split).
  - repeat (constructor; cbn [snd]; [first [apply all_strings|exact H]|]). constructor.
  - destruct (vc_proof v) as [p|]; cbn; [constructor; [apply all_proof|constructor]|constructor].
  - repeat constructor.
Qed.
Lemma all_vp P v : Forall (fun c => all_numbers P (vc_subject c)) (vp_credentials v) -> all_numbers P (vp_json v).
Proof.
  intros H. apply all_obj. unfold vp_json. repeat (apply Forall_app; split).
  - constructor; [apply all_strings|]. constructor; [apply all_strings|]. constructor; [|constructor]. cbn [snd]. apply all_arr.
    apply Forall_map. eapply Forall_impl; [|exact H]. intros c. apply all_vc.
  - destruct (vp_proof v) as [p|]; cbn; [constructor; [apply all_proof|constructor]|constructor].
  - destruct (vp_holder v) as [h|]; cbn; repeat constructor.
Qed.
Lemma proof_names t : not_array t -> by_name proof_schema t.
Proof. intros H. destruct t as [| | | |w l|w l]; try exact I; [destruct H|]. repeat split; intros; try exact I; destruct (m_value m); exact I. Qed.
Lemma vec_string_names t : by_name (SVec SString) t.
Proof. destruct t as [| | | |w l|w l]; try exact I. cbn [by_name]. apply Forall_forall. intros; exact I. Qed.
Lemma vc_names t : vc_by_name t -> by_name vc_schema t.
Proof.
  intros (w & l & -> & H). cbn [by_name vc_schema fold_right fst snd]. repeat split; intros m Hm Hn; try apply vec_string_names; try exact I.
  exact (proof_names _ (H m Hm Hn)).
Qed.
Lemma vp_names t : vp_by_name t -> by_name vp_schema t.
Proof.
  intros (w & l & -> & H & V). unfold vp_schema. cbn [by_name fold_right fst snd]. repeat split; intros m Hm Hn; try apply vec_string_names; try exact I.
  - destruct (m_value m) as [| | | |w' l'|w' l'] eqn:E; try exact I. specialize (V m w' l' Hm Hn E). eapply Forall_impl; [|exact V]. intros x. apply vc_names.
  - exact (proof_names _ (H m Hm Hn)).
Qed.
Section Api.
  Variable D : deps.
  Notation short num := (all_numbers (short_number (f64_parse D) num)).
  Lemma blanks_len w (s w' : bytes) : length s <= length (w ++ s ++ w'). Proof. rewrite !app_length. lia. Qed.
  Lemma vc_least num v s : vc_parse_json_bytes D s = Ok v -> text_of vc_by_name s -> short num (vc_subject v) -> length (json_text num (vc_json v)) <= length s.
  Proof.
    intros P (w & t & w' & Bw & T & Bw' & -> & Bn) N. unfold vc_parse_json_bytes in P.
    rewrite (from_slice_tree (f64_parse D) (sc := vc_schema) eq_refl T Bw Bw') in P.
    destruct (decode (f64_parse D) vc_schema 127 t) as [x|] eqn:E; [|discriminate].
    assert (X : x = vc_data v).
    { apply (dec_vc (f64_parse D) (d := 126)) in E; [|lia]. destruct E as (v' & -> & _). rewrite data_vc_inv in P. cbn [ok_or] in P. congruence. }
    subst x. eapply Nat.le_trans; [|apply blanks_len]. rewrite <- ser_vc. eapply type_short; [reflexivity|reflexivity|exact T|apply vc_names; exact Bn|exact E|].
    rewrite ser_vc. apply all_vc. exact N.
  Qed.
  Lemma vp_least num v s : vp_parse_json_bytes D s = Ok v -> text_of vp_by_name s -> Forall (fun c => short num (vc_subject c)) (vp_credentials v) ->
    length (json_text num (vp_json v)) <= length s.
  Proof.
    intros P (w & t & w' & Bw & T & Bw' & -> & Bn) N. unfold vp_parse_json_bytes in P.
    rewrite (from_slice_tree (f64_parse D) (sc := vp_schema) eq_refl T Bw Bw') in P.
    destruct (decode (f64_parse D) vp_schema 127 t) as [x|] eqn:E; [|discriminate].
    assert (X : x = vp_data v).
    { apply (dec_vp (f64_parse D) (d := 124)) in E; [|lia]. destruct E as (v' & -> & _). rewrite data_vp_inv in P. cbn [ok_or] in P. congruence. }
    subst x. eapply Nat.le_trans; [|apply blanks_len]. rewrite <- ser_vp. eapply type_short; [reflexivity|reflexivity|exact T|apply vp_names; exact Bn|exact E|].
    rewrite ser_vp. apply all_vp. exact N.
  Qed.
  Theorem vc_shortest v t s : vc_parse_json_bytes D s = Ok v -> text_of vc_by_name s ->
    (vc_to_json D v = Ok (JSONValue t) -> short (serde_number (f64_text D)) (vc_subject v) -> length t <= length s) /\
    (vc_to_jcs D v = Ok t -> short (jcs_number D) (vc_subject v) -> length t <= length s).
  Proof.
    intros P Bn. split; intros H N.
    - apply (vc_to_json_spec D v) in H. destruct H as [_ H]. assert (t = json_text (serde_number (f64_text D)) (vc_json v)) as -> by congruence. apply vc_least; assumption.
    - apply (vc_to_jcs_spec D v) in H. destruct H as [_ ->]. rewrite jcs_len. apply vc_least; assumption.
  Qed.
  Theorem vp_shortest v t s : vp_parse_json_bytes D s = Ok v -> text_of vp_by_name s ->
    (vp_to_json D v = Ok (JSONValue t) -> Forall (fun c => short (serde_number (f64_text D)) (vc_subject c)) (vp_credentials v) -> length t <= length s) /\
    (vp_to_jcs D v = Ok t -> Forall (fun c => short (jcs_number D) (vc_subject c)) (vp_credentials v) -> length t <= length s).
  Proof.
    intros P Bn. split; intros H N.
    - apply (vp_to_json_spec D v) in H. destruct H as [_ H]. assert (t = json_text (serde_number (f64_text D)) (vp_json v)) as -> by congruence. apply vp_least; assumption.
    - apply (vp_to_jcs_spec D v) in H. destruct H as [_ ->]. rewrite jcs_len. apply vp_least; assumption.
  Qed.
End Api.

(** ** Statements *)
Theorem string_shortest num s : utf8_valid s = true ->
  (exists cs, Forall char_ok cs /\ Forall lower_case cs /\ string_of cs = Some s /\ string_text cs = json_text num (JStr s)) /\
  forall cs, Forall char_ok cs -> string_of cs = Some s ->
    length (json_text num (JStr s)) <= length (string_text cs) /\
    (Forall lower_case cs -> length (string_text cs) = length (json_text num (JStr s)) -> string_text cs = json_text num (JStr s)).
Proof.
  intros U. split; [exact (string_form s U)|]. intros cs F E. destruct (quote_short F E) as [L Q]. split; [exact L|]. intros C H. apply Q; [exact C|symmetry; exact H].
Qed.
Theorem integers_shortest D n :
  short_number (f64_parse D) (serde_number (f64_text D)) (PosInt n) /\ short_number (f64_parse D) (serde_number (f64_text D)) (NegInt n).
Proof. split; [apply short_pos|apply short_neg]. Qed.
Theorem value_shortest f64 num leb t j : tree_ok t -> value_of f64 t = Some j -> all_numbers (short_number f64 num) j ->
  length (json_text num j) <= length (render t) /\ length (jcs_text leb num j) <= length (render t).
Proof. intros T V N. rewrite jcs_len. split; exact (@value_short f64 num t j T V N). Qed.
