(** Reading back what was written: [from_slice] inverts [to_string] up to the recursion limit. *)
From Verif Require Import Base BaseFacts Codec CodecFacts Json JsonParse Deps JsonFacts.
Require Import ZifyBool ZifyNat ZifyN.
Set Implicit Arguments.
Ltac Zify.zify_post_hook ::= Z.div_mod_to_equations.

(** ** Text starts *)
(** A text that starts with a character that is neither white space nor a closing bracket. *)
Definition starts (p : byte -> bool) (t : bytes) : Prop :=
  match t with c :: _ => p c = true | [] => False end.
Definition value_start (c : byte) : bool := negb (is_ws c) && negb (beq c "]"%byte) && negb (beq c "}"%byte).

Lemma starts_app p t r : starts p t -> starts p (t ++ r).
Proof. destruct t; cbn; tauto. Qed.
Lemma value_start_inv c : value_start c = true -> is_ws c = false /\ beq c "]"%byte = false /\ beq c "}"%byte = false.
Proof. unfold value_start. rewrite !andb_true_iff, !negb_true_iff. tauto. Qed.
Lemma skip_ws_start c r : is_ws c = false -> skip_ws (c :: r) = c :: r.
Proof. intros H; cbn. rewrite H. reflexivity. Qed.

Lemma join_flat (sep : bytes) x l : join sep (x :: l) = x ++ flat_map (fun y => sep ++ y) l.
Proof.
  revert x; induction l as [|y l IH]; intros x; [cbn; rewrite app_nil_r; reflexivity|].
  change (join sep (x :: y :: l)) with (x ++ sep ++ join sep (y :: l)). rewrite IH.
  cbn [flat_map]. rewrite <- !app_assoc. reflexivity.
Qed.

(** ** Array loop *)
Section Seq.
  Context {A : Type}.
  Variables (p : bytes -> option (A * bytes)) (t : A -> bytes) (ok : A -> bool).
  Definition elem_spec (x : A) : Prop :=
    starts value_start (t x) /\
    forall r, delim r = true -> p (t x ++ r) = if ok x then Some (x, r) else None.

  Lemma seq_loop_false l fuel r : Forall elem_spec l -> (length l < fuel)%nat -> 
    seq_loop p fuel false (flat_map (fun x => ","%byte :: t x) l ++ "]"%byte :: r)
    = if forallb ok l then Some (l, r) else None.
  Proof.
    intros H; revert fuel; induction H as [|x l [Hs Hx] Hl IH]; intros fuel Hf; (destruct fuel as [|fuel]; [cbn in Hf; lia|]).
    - reflexivity.
    - cbn [flat_map app seq_loop forallb]. rewrite <- !app_assoc. unfold next_elem.
      rewrite skip_ws_start by reflexivity. change (beq "," "]") with false. change (beq "," ",") with true. cbv iota.
      destruct (t x) as [|c s] eqn:E; [destruct Hs|]. cbn [starts] in Hs. apply value_start_inv in Hs as (W & C1 & C2).
      cbn [app]. rewrite skip_ws_start, C1 by assumption. rewrite app_comm_cons, Hx.
      2: { destruct l; reflexivity. }
      destruct (ok x); [|reflexivity]. cbn [length] in Hf. rewrite IH by lia.
      destruct (forallb ok l); reflexivity.
  Qed.

  Lemma seq_loop_true l fuel r : Forall elem_spec l -> (length l < fuel)%nat ->
    seq_loop p fuel true (join (B ",") (map t l) ++ "]"%byte :: r)
    = if forallb ok l then Some (l, r) else None.
  Proof.
    intros H Hf. destruct H as [|x l [Hs Hx] Hl]; (destruct fuel as [|fuel]; [cbn in Hf; lia|]).
    - reflexivity.
    - cbn [map seq_loop forallb]. rewrite join_flat, <- app_assoc. unfold next_elem.
      destruct (t x) as [|c s] eqn:E; [destruct Hs|]. cbn [starts] in Hs. apply value_start_inv in Hs as (W & C1 & C2).
      cbn [app]. rewrite skip_ws_start, C1 by assumption. rewrite app_comm_cons, Hx.
      2: { destruct l; reflexivity. }
      destruct (ok x); [|reflexivity]. cbn [length] in Hf.
      rewrite flat_map_concat_map, map_map, <- flat_map_concat_map.
      change (fun x => B "," ++ t x) with (fun x => ","%byte :: t x).
      rewrite seq_loop_false by (auto; lia). destruct (forallb ok l); reflexivity.
  Qed.

  Lemma join_length l : Forall elem_spec l -> (length l <= length (join (B ",") (map t l)))%nat.
  Proof.
    induction 1 as [|x l [Hs Hx] Hl IH]; [cbn; lia|]. cbn [map]. rewrite join_cons, app_length.
    destruct (t x); [destruct Hs|]. cbn [length].
    destruct l; cbn [map length] in *; [lia|]. rewrite app_length. change (length (B ",")) with 1%nat. lia.
  Qed.
End Seq.

(** ** Object loop *)
Section Map.
  Context {A St : Type}.
  Variables (member : St -> bytes -> bytes -> option (St * bytes)) (t : A -> bytes) (ok : A -> bool)
            (upd : St -> bytes * A -> St) (Inv : list (bytes * A) -> St -> Prop).
  Hypothesis Hmember : forall k x l st, Inv ((k, x) :: l) st ->
    utf8_valid k = true /\ Inv l (upd st (k, x)) /\
    forall r, delim r = true -> member st k (t x ++ r) = if ok x then Some (upd st (k, x), r) else None.
  Definition mtext (kx : bytes * A) : bytes := member_text (fst kx, t (snd kx)).

  Lemma colon_ok r : colon (":"%byte :: r) = Some r.
  Proof. reflexivity. Qed.

  Lemma map_loop_false l : forall st fuel r, Inv l st -> (length l < fuel)%nat ->
    map_loop parse_str member fuel false st (flat_map (fun x => ","%byte :: mtext x) l ++ "}"%byte :: r)
    = if forallb (fun kx => ok (snd kx)) l then Some (fold_left upd l st, r) else None.
  Proof.
    induction l as [|[k x] l IH]; intros st fuel r HI Hf; (destruct fuel as [|fuel]; [cbn in Hf; lia|]).
    - reflexivity.
    - destruct (Hmember HI) as (Hk & HI' & Hx).
      cbn [flat_map map_loop forallb fold_left snd]. unfold mtext at 1. cbn [fst snd].
      rewrite <- app_assoc. cbn [app]. rewrite member_text_app, quote_app. unfold next_key.
      rewrite skip_ws_start by reflexivity. change (beq "," "}") with false. change (beq "," ",") with true. cbv iota.
      rewrite skip_ws_start by reflexivity. rewrite beq_refl, parse_str_escape by assumption.
      change (B ":" ++ ?r) with (":"%byte :: r). rewrite colon_ok, Hx.
      2: { destruct l; reflexivity. }
      destruct (ok x); [|reflexivity]. cbn [length] in Hf. apply IH; auto; lia.
  Qed.

  Lemma map_loop_true l st fuel r : Inv l st -> (length l < fuel)%nat ->
    map_loop parse_str member fuel true st (join (B ",") (map mtext l) ++ "}"%byte :: r)
    = if forallb (fun kx => ok (snd kx)) l then Some (fold_left upd l st, r) else None.
  Proof.
    intros HI Hf. destruct l as [|[k x] l]; (destruct fuel as [|fuel]; [cbn in Hf; lia|]).
    - reflexivity.
    - destruct (Hmember HI) as (Hk & HI' & Hx).
      cbn [map map_loop forallb fold_left snd]. rewrite join_flat, <- app_assoc. unfold mtext at 1. cbn [fst snd].
      rewrite member_text_app, quote_app. unfold next_key.
      rewrite skip_ws_start by reflexivity. change (beq q_quote "}") with false. cbv iota.
      rewrite beq_refl, parse_str_escape by assumption.
      change (B ":" ++ ?r) with (":"%byte :: r). rewrite colon_ok, Hx.
      2: { destruct l; reflexivity. }
      destruct (ok x); [|reflexivity]. cbn [length] in Hf.
      rewrite flat_map_concat_map, map_map, <- flat_map_concat_map.
      change (fun x => B "," ++ mtext x) with (fun x => ","%byte :: mtext x).
      apply map_loop_false; auto; lia.
  Qed.

  Lemma join_mtext_length l : (length l <= length (join (B ",") (map mtext l)))%nat.
  Proof.
    induction l as [|x l IH]; [cbn; lia|]. cbn [map]. rewrite join_cons, app_length.
    unfold mtext at 1, member_text. rewrite !app_length. unfold quote at 1. cbn [length B].
    destruct l; cbn [map length] in *; [lia|]. rewrite !app_length. change (length (B ",")) with 1%nat. lia.
  Qed.
End Map.

(** ** Numbers *)
Lemma span_digits_app ds r : forallb is_digit ds = true -> (match r with c :: _ => is_digit c = false | [] => True end) ->
  span_digits (ds ++ r) = (ds, r).
Proof.
  induction ds as [|c ds IH]; cbn; intros H Hr.
  - destruct r as [|c r]; [auto|]. cbn. rewrite Hr. reflexivity.
  - apply andb_true_iff in H as [-> H]. rewrite IH by auto. reflexivity.
Qed.
Lemma delim_digit r : delim r = true -> match r with c :: _ => is_digit c = false | [] => True end.
Proof.
  destruct r as [|c r]; [auto|]. unfold delim, is_num_char, is_digit. destruct (inr 48 57 c); [discriminate|auto].
Qed.

Lemma digit_char d : (d < 10)%N -> is_digit (byte_of_N (48 + d)) = true /\ Byte.to_N (byte_of_N (48 + d)) = (48 + d)%N.
Proof.
  intros H. assert (Byte.to_N (byte_of_N (48 + d)) = (48 + d)%N) as E by (apply to_N_byte_of_N; lia).
  split; [|exact E]. unfold is_digit, inr. rewrite E. lia.
Qed.

Lemma dec_digits n : forallb is_digit (dec n) = true.
Proof.
  unfold dec. destruct (n =? 0)%N; [reflexivity|]. apply forallb_forall. intros c Hc.
  apply in_map_iff in Hc as (d & <- & Hd). apply in_rev in Hd.
  pose proof (digits_lt n (base := 10) ltac:(lia)) as F. rewrite Forall_forall in F. apply digit_char, F, Hd.
Qed.

Lemma dec_value_app a b acc : fold_left (fun n c => (n * 10 + (Byte.to_N c - 48))%N) (a ++ b) acc
  = fold_left (fun n c => (n * 10 + (Byte.to_N c - 48))%N) b (fold_left (fun n c => (n * 10 + (Byte.to_N c - 48))%N) a acc).
Proof. apply fold_left_app. Qed.

Lemma dec_value_rev ds : Forall (fun d => (d < 10)%N) ds ->
  dec_value (map (fun d => byte_of_N (48 + d)) (rev ds)) = value 10 ds.
Proof.
  unfold dec_value. induction 1 as [|d ds Hd F IH]; [reflexivity|].
  cbn [rev value]. rewrite map_app, fold_left_app, IH. cbn [map fold_left].
  rewrite (proj2 (digit_char Hd)). lia.
Qed.

Lemma dec_value_dec n : dec_value (dec n) = n.
Proof.
  unfold dec. destruct (N.eqb_spec n 0) as [->|Hn]; [reflexivity|].
  rewrite dec_value_rev by (apply digits_lt; lia). apply value_digits; lia.
Qed.

Lemma dec_shape n : exists c ds, dec n = c :: ds /\ (beq c "0"%byte = true -> n = 0%N /\ ds = []) /\ is_digit c = true.
Proof.
  unfold dec. destruct (N.eqb_spec n 0) as [->|Hn]; [exists "0"%byte, []; auto|].
  pose proof (digits_canonical n (base := 10) ltac:(lia)) as C. unfold canonical in C.
  pose proof (digits_lt n (base := 10) ltac:(lia)) as F.
  pose proof (value_digits n (base := 10) ltac:(lia)) as V.
  assert (Forall (fun d => (d < 10)%N) (rev (digits 10 n))) as F' by (apply Forall_rev; exact F).
  destruct (rev (digits 10 n)) as [|d ds] eqn:E.
  - apply (f_equal (@rev N)) in E. rewrite rev_involutive in E. rewrite E in V. cbn in V. congruence.
  - inversion F'; subst. destruct (digit_char H1) as [D T]. cbn [map]. do 2 eexists. split; [reflexivity|]. split; [|exact D].
    intros H. apply beq_eq in H. rewrite H in T. change (Byte.to_N "0"%byte) with 48%N in T. exfalso. lia.
Qed.

Lemma scan_int_dec n r : delim r = true -> scan_int (dec n ++ r) = Some (dec n, r).
Proof.
  intros D. unfold scan_int. rewrite span_digits_app by (first [apply dec_digits | apply delim_digit; assumption]).
  destruct (dec_shape n) as (c & ds & -> & H & _).
  destruct (beq c "0"%byte) eqn:E; [|reflexivity]. destruct (H eq_refl) as [_ ->]. reflexivity.
Qed.
Lemma scan_frac_delim r : delim r = true -> scan_frac r = Some ([], r).
Proof.
  destruct r as [|c r]; [reflexivity|]. unfold scan_frac, delim, is_num_char.
  destruct (beq c "."%byte); [|reflexivity]. rewrite !orb_true_r. discriminate.
Qed.
Lemma scan_exp_delim r : delim r = true -> scan_exp r = Some ([], r).
Proof.
  destruct r as [|c r]; [reflexivity|]. unfold scan_exp, delim, is_num_char.
  destruct (beq c "e"%byte); [rewrite !orb_true_r; discriminate|].
  destruct (beq c "E"%byte); [rewrite !orb_true_r; discriminate|]. reflexivity.
Qed.

Lemma parse_number_pos f64 n r : (n < 2 ^ 64)%N -> delim r = true ->
  parse_number f64 false (dec n ++ r) = Some (PosInt n, r).
Proof.
  intros Hn D. unfold parse_number. rewrite scan_int_dec, scan_frac_delim, scan_exp_delim by assumption.
  cbn [is_empty andb]. rewrite dec_value_dec. destruct (N.ltb_spec n (2 ^ 64)); [reflexivity|lia].
Qed.
Lemma parse_number_neg f64 n r : (n <> 0)%N -> (n <= 2 ^ 63)%N -> delim r = true ->
  parse_number f64 true (dec n ++ r) = Some (NegInt n, r).
Proof.
  intros H0 Hn D. unfold parse_number. rewrite scan_int_dec, scan_frac_delim, scan_exp_delim by assumption.
  cbn [is_empty andb]. rewrite dec_value_dec. destruct (N.eqb_spec n 0); [congruence|].
  destruct (N.leb_spec n (2 ^ 63)); [reflexivity|lia].
Qed.

(** A number token on its own: sign, then [parse_number], nothing left. *)
Definition parse_token (f64 : bytes -> option N) (t : bytes) : option number :=
  match (match t with
         | c :: r => if beq c "-"%byte then parse_number f64 true r
                     else if is_digit c then parse_number f64 false t else None
         | [] => None
         end) with
  | Some (n, []) => Some n
  | _ => None
  end.

Lemma span_digits_ext s r ds : span_digits s = (ds, []) -> delim r = true -> span_digits (s ++ r) = (ds, r).
Proof.
  revert ds; induction s as [|c s IH]; cbn; intros ds H D.
  - injection H as <-. pose proof (delim_digit _ D). destruct r as [|c r]; [auto|]. cbn. rewrite H. reflexivity.
  - destruct (is_digit c); [|discriminate]. destruct (span_digits s) as [d' r'] eqn:E. injection H as <- ->.
    rewrite (IH d') by auto. reflexivity.
Qed.
Lemma span_digits_ext2 s ds c r' r : span_digits s = (ds, c :: r') -> span_digits (s ++ r) = (ds, c :: r' ++ r).
Proof.
  revert ds; induction s as [|x s IH]; cbn; intros ds H; [discriminate|].
  destruct (is_digit x) eqn:Ex.
  - destruct (span_digits s) as [d' r0] eqn:E. injection H as <- ->. rewrite (IH d') by auto. reflexivity.
  - injection H as <- -> ->. cbn. reflexivity.
Qed.
Lemma scan_int_ext s ds r0 r : scan_int s = Some (ds, r0) -> delim r = true -> scan_int (s ++ r) = Some (ds, r0 ++ r).
Proof.
  unfold scan_int. intros H D. destruct (span_digits s) as [d q] eqn:E.
  assert (span_digits (s ++ r) = (d, q ++ r)) as ->
    by (destruct q; [apply span_digits_ext|apply span_digits_ext2]; auto).
  destruct d as [|c d]; [discriminate|]. destruct (beq c "0"%byte && negb (is_empty d)); [discriminate|].
  injection H as <- <-. reflexivity.
Qed.
Lemma scan_frac_ext s ds r0 r : scan_frac s = Some (ds, r0) -> delim r = true -> scan_frac (s ++ r) = Some (ds, r0 ++ r).
Proof.
  intros H D. destruct s as [|c s].
  - cbn in H. injection H as <- <-. apply scan_frac_delim; auto.
  - cbn [scan_frac app] in *. destruct (beq c "."%byte); [|injection H as <- <-; reflexivity].
    destruct (span_digits s) as [d q] eqn:E.
    assert (span_digits (s ++ r) = (d, q ++ r)) as ->
      by (destruct q; [apply span_digits_ext|apply span_digits_ext2]; auto).
    destruct d as [|c' d]; [discriminate|]. injection H as <- <-. reflexivity.
Qed.
Lemma scan_exp_ext s ds r0 r : scan_exp s = Some (ds, r0) -> delim r = true -> scan_exp (s ++ r) = Some (ds, r0 ++ r).
Proof.
  intros H D. destruct s as [|c s].
  - cbn in H. injection H as <- <-. apply scan_exp_delim; auto.
  - cbn [scan_exp app] in *. destruct (beq c "e"%byte || beq c "E"%byte); [|injection H as <- <-; reflexivity].
    destruct s as [|g s].
    + cbn in H. discriminate.
    + cbn [app]. destruct (beq g "+"%byte || beq g "-"%byte).
      * destruct (span_digits s) as [d q] eqn:E.
        assert (span_digits (s ++ r) = (d, q ++ r)) as ->
          by (destruct q; [apply span_digits_ext|apply span_digits_ext2]; auto).
        destruct d as [|c' d]; [discriminate|]. injection H as <- <-. reflexivity.
      * destruct (span_digits (g :: s)) as [d q] eqn:E. rewrite app_comm_cons.
        assert (span_digits ((g :: s) ++ r) = (d, q ++ r)) as ->
          by (destruct q; [apply span_digits_ext|apply span_digits_ext2]; auto).
        destruct d as [|c' d]; [discriminate|]. injection H as <- <-. reflexivity.
Qed.
Lemma parse_number_ext f64 neg s n r0 r :
  parse_number f64 neg s = Some (n, r0) -> delim r = true -> parse_number f64 neg (s ++ r) = Some (n, r0 ++ r).
Proof.
  unfold parse_number. intros H D.
  destruct (scan_int s) as [[ds r1]|] eqn:E1; [|discriminate]. rewrite (@scan_int_ext _ _ _ _ E1 D).
  destruct (scan_frac r1) as [[fr r2]|] eqn:E2; [|discriminate]. rewrite (@scan_frac_ext _ _ _ _ E2 D).
  destruct (scan_exp r2) as [[ex r3]|] eqn:E3; [|discriminate]. rewrite (@scan_exp_ext _ _ _ _ E3 D).
  set (o := f64 _) in *.
  destruct (is_empty fr && is_empty ex).
  - destruct neg.
    + destruct (dec_value ds =? 0)%N; [destruct o; [|discriminate]; injection H as <- <-; reflexivity|].
      destruct (dec_value ds <=? 2 ^ 63)%N; [injection H as <- <-; reflexivity|].
      destruct o; [|discriminate]; injection H as <- <-; reflexivity.
    + destruct (dec_value ds <? 2 ^ 64)%N; [injection H as <- <-; reflexivity|].
      destruct o; [|discriminate]; injection H as <- <-; reflexivity.
  - destruct o; [|discriminate]; injection H as <- <-; reflexivity.
Qed.

(** ** Values *)
Section Values.
  Variables (f64t : N -> bytes) (f64p : bytes -> option N).
  Notation num := (serde_number f64t).
  Notation text := (json_text num).

  (** The number survives printing and parsing. For integers this is the range of the Rust types; for
      floats it says that the printed text reads back as the same float. *)
  Definition number_ok (n : number) : Prop :=
    match n with
    | PosInt n => (n < 2 ^ 64)%N
    | NegInt m => m <> 0%N /\ (m <= 2 ^ 63)%N
    | Float b => parse_token f64p (f64t b) = Some (Float b)
    end.

  (** Keys strictly increasing: the order of a BTreeMap. *)
  Fixpoint increasing (l : list bytes) : Prop :=
    match l with
    | [] => True
    | k :: l' => Forall (fun k' => bytes_compare k k' = Lt) l' /\ increasing l'
    end.

  (** A [serde_json::Value] as it exists in memory: UTF-8 strings, numbers in range, objects sorted. *)
  Fixpoint value_ok (j : json) : Prop :=
    match j with
    | JNull | JBool _ => True
    | JNum n => number_ok n
    | JStr s => utf8_valid s = true
    | JArr l => (fix all (l : list json) : Prop := match l with [] => True | x :: l' => value_ok x /\ all l' end) l
    | JObj m => increasing (map fst m) /\
      (fix all (m : list (bytes * json)) : Prop :=
         match m with [] => True | (k, v) :: m' => (utf8_valid k = true /\ value_ok v) /\ all m' end) m
    end.
  Lemma value_ok_arr l : value_ok (JArr l) <-> Forall value_ok l.
  Proof. cbn. induction l; [split; auto|]. rewrite IHl. split; [intros [? ?]; auto|]. intros H; inversion H; auto. Qed.
  Lemma value_ok_obj m : value_ok (JObj m) <->
    increasing (map fst m) /\ Forall (fun kv => utf8_valid (fst kv) = true /\ value_ok (snd kv)) m.
  Proof.
    cbn. apply and_iff_compat_l. induction m as [|[k v] m IH]; [split; auto|]. rewrite IH.
    split; [intros [? ?]; auto|]. intros H; inversion H; auto.
  Qed.

  Lemma parse_token_number t n r : parse_token f64p t = Some n -> delim r = true ->
    exists c s, t = c :: s /\
      ((c = "-"%byte /\ parse_number f64p true (s ++ r) = Some (n, r)) \/
       (is_digit c = true /\ parse_number f64p false (t ++ r) = Some (n, r))).
  Proof.
    unfold parse_token. intros H D. destruct t as [|c s]; [discriminate|]. exists c, s. split; [auto|].
    destruct (beq c "-"%byte) eqn:E.
    - apply beq_eq in E. left; split; auto. destruct (parse_number f64p true s) as [[n' [|]]|] eqn:P; try discriminate.
      injection H as ->. apply (@parse_number_ext _ _ _ _ _ _ P D).
    - destruct (is_digit c) eqn:Hd; [|discriminate]. right; split; auto.
      destruct (parse_number f64p false (c :: s)) as [[n' [|]]|] eqn:P; try discriminate.
      injection H as ->. apply (@parse_number_ext _ _ _ _ _ _ P D).
  Qed.

  (** The two ways a number text can begin. *)
  Lemma number_read n r : number_ok n -> delim r = true ->
    exists c s, num n = c :: s /\
      ((c = "-"%byte /\ parse_number f64p true (s ++ r) = Some (n, r)) \/
       (is_digit c = true /\ parse_number f64p false (num n ++ r) = Some (n, r))).
  Proof.
    destruct n as [n|m|b]; cbn [number_ok serde_number].
    - intros H D. destruct (dec_shape n) as (c & ds & E & _ & Hd). exists c, ds. split; [auto|]. right; split; auto.
      apply parse_number_pos; auto.
    - intros [H0 H] D. exists "-"%byte, (dec m). split; [reflexivity|]. left; split; auto. apply parse_number_neg; auto.
    - intros H D. apply parse_token_number; auto.
  Qed.

  Lemma digit_start c : is_digit c = true -> value_start c = true.
  Proof. revert c; apply byte_impl. vm_compute; reflexivity. Qed.

  Lemma text_start j : value_ok j -> starts value_start (text j).
  Proof.
    destruct j as [|[]|n|s|l|m]; intros H; cbn [json_text bool_text]; try reflexivity.
    destruct (@number_read n [] H eq_refl) as (c & s & -> & [[-> _]|[Hd _]]); cbn; auto using digit_start.
  Qed.

  Lemma de_value_num d n r : number_ok n -> delim r = true -> de_value f64p d (num n ++ r) = Some (JNum n, r).
  Proof.
    intros H D. destruct (@number_read n r H D) as (c & s & E & [[-> P]|[Hd P]]); rewrite E in *; cbn [app].
    - destruct d; cbn [de_value]; rewrite skip_ws_start by reflexivity;
        change (beq "-" "n") with false; change (beq "-" "t") with false; change (beq "-" "f") with false;
        change (beq "-" "-") with true; cbv iota; rewrite P; reflexivity.
    - assert (is_ws c = false) as W by (apply value_start_inv, digit_start, Hd).
      assert (beq c "n"%byte = false /\ beq c "t"%byte = false /\ beq c "f"%byte = false /\ beq c "-"%byte = false) as (C1 & C2 & C3 & C4).
      { assert (negb (beq c "n"%byte) && negb (beq c "t"%byte) && negb (beq c "f"%byte) && negb (beq c "-"%byte) = true) as Hn.
        { revert c Hd E P W. intros c Hd _ _ _. revert c Hd. apply (@byte_impl is_digit (fun c => negb (beq c "n"%byte) && negb (beq c "t"%byte) && negb (beq c "f"%byte) && negb (beq c "-"%byte))). vm_compute; reflexivity. }
        rewrite !andb_true_iff, !negb_true_iff in Hn. tauto. }
      destruct d; cbn [de_value]; rewrite skip_ws_start, C1, C2, C3, C4, Hd by assumption;
        cbn [app] in P; rewrite P; reflexivity.
  Qed.

  (** Inserting increasing keys into a BTreeMap appends. *)
  Lemma insert_last {A} (m : list (bytes * A)) k v :
    Forall (fun kv => bytes_compare (fst kv) k = Lt) m -> obj_insert k v m = m ++ [(k, v)].
  Proof.
    induction 1 as [|[k' v'] m H F IH]; [reflexivity|]. cbn in H. cbn [obj_insert].
    rewrite bytes_compare_antisym, H. cbn. rewrite IH. reflexivity.
  Qed.
  Lemma insert_all {A} (l : list (bytes * A)) : forall m,
    increasing (map fst (m ++ l)) -> fold_left (fun m kv => obj_insert (fst kv) (snd kv) m) l m = m ++ l.
  Proof.
    induction l as [|[k v] l IH]; intros m H; [cbn; rewrite app_nil_r; reflexivity|].
    cbn [fold_left fst snd]. rewrite insert_last.
    - rewrite IH; rewrite <- app_assoc; auto.
    - clear IH. induction m as [|[k' v'] m IH]; [constructor|]. cbn in H. destruct H as [H1 H2].
      constructor; [|auto]. cbn. rewrite Forall_forall in H1. apply H1.
      rewrite map_app. apply in_or_app. right. left. reflexivity.
  Qed.

  Lemma depth_arr l d : (depth (JArr l) <? S d)%nat = forallb (fun x => (depth x <? d)%nat) l && (0 <? d)%nat.
  Proof.
    cbn [depth]. induction l as [|x l IH]; cbn [fold_right forallb].
    - destruct d; reflexivity.
    - rewrite <- andb_assoc, <- IH. lia.
  Qed.
  Lemma depth_obj m d : (depth (JObj m) <? S d)%nat = forallb (fun kv => (depth (snd kv) <? d)%nat) m && (0 <? d)%nat.
  Proof.
    cbn [depth]. induction m as [|x m IH]; cbn [fold_right forallb].
    - destruct d; reflexivity.
    - rewrite <- andb_assoc, <- IH. lia.
  Qed.

  Lemma brack_app l r : (B "[" ++ l ++ B "]") ++ r = "["%byte :: l ++ "]"%byte :: r.
  Proof. cbn. rewrite <- app_assoc. reflexivity. Qed.
  Lemma brace_app l r : (B "{" ++ l ++ B "}") ++ r = "{"%byte :: l ++ "}"%byte :: r.
  Proof. cbn. rewrite <- app_assoc. reflexivity. Qed.

  (** A printed value reads back exactly when it is nested less deeply than the remaining depth. *)
  Theorem de_value_text j : value_ok j -> forall d r, (0 < d)%nat -> delim r = true ->
    de_value f64p d (text j ++ r) = if (depth j <? d)%nat then Some (j, r) else None.
  Proof.
    induction j as [|b|n|s|l IH|m IH] using json_ind'; intros H d r Hd D.
    - destruct d as [|d]; [lia|]. reflexivity.
    - destruct d as [|d]; [lia|]. destruct b; reflexivity.
    - cbn [json_text]. rewrite de_value_num by assumption. destruct d; [lia|]. reflexivity.
    - cbn [json_text]. rewrite quote_app. destruct d as [|d]; [lia|]. cbn [de_value].
      rewrite skip_ws_start by reflexivity.
      change (beq q_quote "n") with false; change (beq q_quote "t") with false; change (beq q_quote "f") with false;
      change (beq q_quote "-") with false; change (is_digit q_quote) with false; rewrite beq_refl; cbv iota.
      rewrite parse_str_escape by assumption. reflexivity.
    - apply value_ok_arr in H. cbn [json_text]. rewrite brack_app. destruct d as [|d]; [lia|].
      rewrite depth_arr. cbn [de_value]. rewrite skip_ws_start by reflexivity.
      change (beq "[" "n") with false; change (beq "[" "t") with false; change (beq "[" "f") with false;
      change (beq "[" "-") with false; change (is_digit "[") with false; change (beq "[" q_quote) with false;
      change (beq "[" "[") with true; cbv iota.
      destruct d as [|d]; [rewrite andb_false_r; reflexivity|]. change (0 <? S d)%nat with true. rewrite andb_true_r.
      assert (Forall (elem_spec (de_value f64p (S d)) text (fun x => (depth x <? S d)%nat)) l) as F.
      { rewrite Forall_forall in *. intros x Hx. split; [apply text_start; auto|]. intros r' D'. apply IH; auto. lia. }
      rewrite seq_loop_true with (t := text) (ok := fun x => (depth x <? S d)%nat); auto.
      + destruct (forallb _ l); reflexivity.
      + rewrite app_length. pose proof (join_length F). cbn [length]. lia.
    - apply value_ok_obj in H as [Hi H]. cbn [json_text]. rewrite brace_app. destruct d as [|d]; [lia|].
      rewrite depth_obj. cbn [de_value]. rewrite skip_ws_start by reflexivity.
      change (beq "{" "n") with false; change (beq "{" "t") with false; change (beq "{" "f") with false;
      change (beq "{" "-") with false; change (is_digit "{") with false; change (beq "{" q_quote) with false;
      change (beq "{" "[") with false; change (beq "{" "{") with true; cbv iota.
      destruct d as [|d]; [rewrite andb_false_r; reflexivity|]. change (0 <? S d)%nat with true. rewrite andb_true_r.
      change (fun kv : bytes * json => member_text (fst kv, text (snd kv))) with (mtext text).
      rewrite map_loop_true with (t := text) (ok := fun x => (depth x <? S d)%nat)
        (upd := fun m kv => obj_insert (fst kv) (snd kv) m)
        (Inv := fun l _ => Forall (fun kv => (utf8_valid (fst kv) = true /\ value_ok (snd kv)) /\
           (forall r, delim r = true -> de_value f64p (S d) (text (snd kv) ++ r) = if (depth (snd kv) <? S d)%nat then Some (snd kv, r) else None)) l).
      + rewrite insert_all by assumption. destruct (forallb _ m); reflexivity.
      + intros k x l0 st HI. inversion HI as [|? ? [[H1 H2] H3] H4]; subst. cbn [fst snd] in *.
        repeat split; auto. intros r' D'. rewrite H3 by assumption. destruct (depth x <? S d)%nat; reflexivity.
      + rewrite Forall_forall in *. intros kv Hkv. split; [auto|]. intros r' D'. apply IH; auto; [apply H; auto|lia].
      + rewrite app_length. pose proof (@join_mtext_length _ text m). cbn [length]. lia.
  Qed.
End Values.
