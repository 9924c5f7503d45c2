(** Collisions of the hash functions come down to their compression functions. *)
From Verif Require Import Base BaseFacts Codec CodecFacts Json JsonParse Deps Types Did Keys Identity Proof Vc Suite Hashlink JsonSpec VcSpec Spec SuiteSpec SuiteFacts JsonParseFacts VcFacts DidFacts MiscFacts Hash HashFacts Bases BasesFacts DigestSpec.
Set Implicit Arguments.

(** ** Bytes, words and chunks *)
Lemma chunks_groups {A} k (l : list A) : chunks k l = groups k l.
Proof.
  unfold chunks, groups. generalize (length l). intros f. revert l. induction f as [|f IH]; intros l; [destruct l; reflexivity|].
  destruct l as [|x l]; [reflexivity|]. cbn [chunks_fuel groups_fuel]. rewrite IH. reflexivity.
Qed.
Lemma chunks_concat {A} k (l : list A) : (0 < k)%nat -> concat (chunks k l) = l.
Proof. intros K. rewrite chunks_groups. apply groups_concat; [exact K|apply le_n]. Qed.
Lemma chunks_lengths {A} k m (l : list A) : (0 < k)%nat -> length l = (k * m)%nat -> Forall (fun g => length g = k) (chunks k l).
Proof. intros K L. rewrite chunks_groups. exact (@groups_lengths _ _ k m l K (le_n _) L). Qed.
Lemma chunks_short {A} k (l : list A) g : In g (chunks k l) -> (length g <= k)%nat.
Proof.
  unfold chunks. generalize (length l). intros f. revert l. induction f as [|f IH]; intros l; [destruct l; intros []|].
  destruct l as [|x l]; [intros []|]. cbn [chunks_fuel]. intros [<-|I]; [rewrite firstn_length; lia|exact (IH _ I)].
Qed.
Lemma chunks_none {A} k (l : list A) g : (0 < k)%nat -> In g (chunks k l) -> g <> [].
Proof.
  intros K. unfold chunks. generalize (length l). intros f. revert l. induction f as [|f IH]; intros l; [destruct l; intros []|].
  destruct l as [|x l]; [intros []|]. cbn [chunks_fuel]. intros [<-|I]; [|exact (IH _ I)].
  destruct k; [lia|]. cbn [firstn]. discriminate.
Qed.
Lemma concat_length {A} k (l : list (list A)) : Forall (fun g => length g = k) l -> length (concat l) = (k * length l)%nat.
Proof. induction 1 as [|g l E F IH]; cbn [concat length]; [lia|]. rewrite app_length, E, IH. lia. Qed.
Lemma be_bytes_eq k x y : (x < 256 ^ N.of_nat k)%N -> (y < 256 ^ N.of_nat k)%N -> be_bytes k x = be_bytes k y -> x = y.
Proof.
  revert x y. induction k as [|k IH]; intros x y X Y E; [cbn in X, Y; lia|].
  cbn [be_bytes] in E. apply app_inj_tail in E as [E L].
  assert (P : (256 ^ N.of_nat (S k) = 256 * 256 ^ N.of_nat k)%N) by (rewrite Nat2N.inj_succ, N.pow_succ_r'; reflexivity).
  rewrite P in X, Y. apply IH in E; [|apply N.div_lt_upper_bound; lia|apply N.div_lt_upper_bound; lia].
  assert (M : (x mod 256 = y mod 256)%N).
  { pose proof (N.mod_lt x 256 ltac:(lia)) as A. pose proof (N.mod_lt y 256 ltac:(lia)) as B.
    apply (f_equal Byte.to_N) in L. rewrite !to_N_byte_of_N in L by assumption. exact L. }
  rewrite (N.div_mod x 256), (N.div_mod y 256) by lia. rewrite E, M. reflexivity.
Qed.
Lemma le_word_eq a b : length a = length b -> le_word a = le_word b -> a = b.
Proof.
  revert b. induction a as [|x a IH]; intros [|y b] L E; try discriminate; [reflexivity|].
  cbn [le_word fold_right] in E. fold (le_word a) in E. fold (le_word b) in E. cbn [length] in L.
  pose proof (to_N_lt x) as X. pose proof (to_N_lt y) as Y.
  assert (H : le_word a = le_word b) by lia. rewrite H in E. assert (G : Byte.to_N x = Byte.to_N y) by lia.
  f_equal; [apply to_N_inj; exact G|]. apply IH; [lia|exact H].
Qed.
Lemma map_eq_inj {A C} (f : A -> C) (P : A -> A -> Prop) : (forall x y, P x y -> f x = f y -> x = y) ->
  forall l l', (forall x y, In x l -> In y l' -> P x y) -> map f l = map f l' -> l = l'.
Proof.
  intros H. induction l as [|x l IH]; intros [|y l'] Q E; try discriminate; [reflexivity|].
  cbn [map] in E. injection E as E1 E2. f_equal.
  - apply H; [apply Q; left; reflexivity|exact E1].
  - apply IH; [intros a b I J; apply Q; right; assumption|exact E2].
Qed.
Lemma b3_words_eq b b' : (length b <= 64)%nat -> length b = length b' -> b3_words b = b3_words b' -> b = b'.
Proof.
  intros L E H. unfold b3_words in H. rewrite <- E in H.
  assert (S : forall s, length s = length b -> Forall (fun g => length g = 4%nat) (chunks 4 (s ++ repeat x00 (64 - length b)))).
  { intros s Q. apply (@chunks_lengths _ 4 16); [lia|]. rewrite app_length, repeat_length. lia. }
  pose proof (proj1 (Forall_forall _ _) (S b eq_refl)) as F. pose proof (proj1 (Forall_forall _ _) (S b' (eq_sym E))) as F'.
  apply (@map_eq_inj _ _ le_word (fun x y => length x = length y)) in H; [|intros x y; apply le_word_eq|intros x y I J; rewrite (F x I), (F' y J); reflexivity].
  apply (f_equal (@concat byte)) in H. rewrite !chunks_concat in H by lia. exact (app_inv_tail _ _ _ H).
Qed.

Lemma app_eq_length {A} (a b c d : list A) : length a = length b -> a ++ c = b ++ d -> a = b /\ c = d.
Proof.
  revert b. induction a as [|x a IH]; intros [|y b] L E; try discriminate; [split; [reflexivity|exact E]|].
  cbn [app] in E. injection E as -> E. cbn [length] in L. destruct (IH b ltac:(lia) E) as [-> ->]. split; reflexivity.
Qed.

(** ** Clashes *)
Lemma clash_incl {A} (out : A -> bytes) xs ys xs' ys' : incl xs xs' -> incl ys ys' -> clash out xs ys -> clash out xs' ys'.
Proof. intros I J (x & y & X & Y & R). exists x, y. split; [exact (I x X)|]. split; [exact (J y Y)|exact R]. Qed.
Lemma clash_or {A} (dec : forall x y : A, {x = y} + {x <> y}) (out : A -> bytes) x y xs ys : In x xs -> In y ys -> out x = out y -> x = y \/ clash out xs ys.
Proof. intros X Y E. destruct (dec x y) as [H|H]; [left; exact H|right; exists x, y; auto]. Qed.
Definition words_dec : forall a b : list N, {a = b} + {a <> b} := list_eq_dec N.eq_dec.
Definition call_dec : forall a b : list N * bytes, {a = b} + {a <> b}.
Proof. decide equality; [apply (list_eq_dec Byte.byte_eq_dec)|apply words_dec]. Defined.
Definition b3_call_dec : forall a b : b3_call, {a = b} + {a <> b}.
Proof. unfold b3_call. repeat decide equality; try apply N.eq_dec; apply words_dec. Defined.

(** ** Iterated compression *)
Section Iterated.
  Variable f : list N -> bytes -> list N.
  Variable post : list N -> bytes.
  Let out (c : list N * bytes) : bytes := post (f (fst c) (snd c)).
  Lemma calls_app a : forall st b, calls f st (a ++ b) = calls f st a ++ calls f (fold_left f a st) b.
  Proof. induction a as [|x a IH]; intros st b; [reflexivity|]. cbn [app calls fold_left]. rewrite IH. reflexivity. Qed.
  Lemma calls_snoc st a b : calls f st (a ++ [b]) = calls f st a ++ [(fold_left f a st, b)].
  Proof. rewrite calls_app. reflexivity. Qed.
  Lemma calls_last st a b : In (fold_left f a st, b) (calls f st (a ++ [b])).
  Proof. rewrite calls_snoc. apply in_or_app. right. left. reflexivity. Qed.
  Lemma iterated st a : forall a', length a = length a' -> fold_left f a st = fold_left f a' st ->
    a = a' \/ clash out (calls f st a) (calls f st a').
  Proof.
    induction a as [|b a IH] using rev_ind; intros a' L E.
    - destruct a'; [left; reflexivity|discriminate].
    - destruct a' as [|b' a' _] using rev_ind; [rewrite app_length in L; cbn in L; lia|].
      rewrite !app_length in L. cbn [length] in L. rewrite !fold_left_app in E. cbn [fold_left] in E.
      destruct (clash_or call_dec out _ _ _ _ (calls_last st a b) (calls_last st a' b')) as [H|H]; [unfold out; cbn [fst snd]; rewrite E; reflexivity| |right; exact H].
      injection H as H1 H2. destruct (IH a' ltac:(lia) H1) as [->|C]; [left; rewrite H2; reflexivity|]. right.
      rewrite !calls_snoc. refine (clash_incl _ _ C); apply incl_appl, incl_refl.
  Qed.
  Lemma iterated_last st a b a' b' : length a = length a' -> post (fold_left f (a ++ [b]) st) = post (fold_left f (a' ++ [b']) st) ->
    a ++ [b] = a' ++ [b'] \/ clash out (calls f st (a ++ [b])) (calls f st (a' ++ [b'])).
  Proof.
    intros L E. rewrite !fold_left_app in E. cbn [fold_left] in E.
    destruct (clash_or call_dec out _ _ _ _ (calls_last st a b) (calls_last st a' b') E) as [H|H]; [|right; exact H].
    injection H as H1 H2. destruct (iterated st a a' L H1) as [->|C]; [left; rewrite H2; reflexivity|]. right.
    rewrite !calls_snoc. refine (clash_incl _ _ C); apply incl_appl, incl_refl.
  Qed.
  Lemma iterated_ends st a b a' b' : b <> b' -> post (fold_left f (a ++ [b]) st) = post (fold_left f (a' ++ [b']) st) ->
    clash out (calls f st (a ++ [b])) (calls f st (a' ++ [b'])).
  Proof.
    intros L E. rewrite !fold_left_app in E. cbn [fold_left] in E. exists (fold_left f a st, b), (fold_left f a' st, b').
    split; [apply calls_last|]. split; [apply calls_last|]. split; [congruence|exact E].
  Qed.
End Iterated.

(** ** SHA-2 *)
Section Sha.
  Variable p : sha_params.
  Variable iv : list N.
  Variable post : list N -> bytes.
  Let wb := N.to_nat (sw p / 8).
  Hypothesis W : (0 < wb)%nat.
  Let field (m : bytes) := be_bytes (2 * wb) (8 * N.of_nat (length m)).
  Let blocks (m : bytes) := chunks (16 * wb) (sha_pad p m).
  Lemma pad_split m : exists q, sha_pad p m = m ++ q ++ field m /\ q <> [] /\ exists n, length (sha_pad p m) = (16 * wb * S n)%nat.
  Proof.
    unfold sha_pad. fold wb. set (u := ((length m + 1 + 2 * wb) mod (16 * wb))%nat). set (z := ((16 * wb - u) mod (16 * wb))%nat).
    exists ([x80] ++ repeat x00 z). split; [rewrite <- !app_assoc; reflexivity|]. split; [discriminate|].
    rewrite !app_length, repeat_length, be_bytes_length. cbn [length].
    assert (U : (u < 16 * wb)%nat) by (apply Nat.mod_upper_bound; lia).
    pose proof (Nat.div_mod (length m + 1 + 2 * wb) (16 * wb) ltac:(lia)) as Q. fold u in Q.
    set (d := ((length m + 1 + 2 * wb) / (16 * wb))%nat) in Q.
    assert (Z : (u = 0 /\ z = 0)%nat \/ (0 < u /\ z = 16 * wb - u)%nat).
    { destruct u as [|u'] eqn:Eu; [left; split; [reflexivity|]|right; split; [lia|]]; unfold z.
      - rewrite Nat.sub_0_r. apply Nat.mod_same. lia.
      - apply Nat.mod_small. lia. }
    destruct Z as [[Z0 Z1]|[Z0 Z1]].
    - destruct d as [|d']; [lia|]. exists d'. lia.
    - exists d. lia.
  Qed.
  Lemma blocks_facts m : exists a b, blocks m = a ++ [b] /\ concat (blocks m) = sha_pad p m /\ length (sha_pad p m) = (16 * wb * S (length a))%nat /\
    exists c, b = c ++ field m.
  Proof.
    destruct (pad_split m) as (q & E & _ & n & L).
    assert (C : concat (blocks m) = sha_pad p m) by (apply chunks_concat; lia).
    assert (F : Forall (fun g => length g = (16 * wb)%nat) (blocks m)) by (apply (@chunks_lengths _ _ (S n)); [lia|exact L]).
    destruct (blocks m) as [|b a _] eqn:Bm using rev_ind; [cbn in C; rewrite <- C in L; cbn in L; lia|].
    exists a, b. split; [reflexivity|]. split; [exact C|]. split.
    - rewrite <- C. rewrite (concat_length F), app_length. cbn. lia.
    - apply Forall_app in F as [_ F]. inversion F as [|? ? Lb _]. subst.
      rewrite concat_app in C. cbn [concat] in C. rewrite app_nil_r, E in C.
      exists (firstn (14 * wb) b). rewrite <- (firstn_skipn (14 * wb) b) at 1. f_equal.
      apply (f_equal (@rev byte)) in C. rewrite app_assoc in C. rewrite <- (firstn_skipn (14 * wb) b) in C.
      rewrite !rev_app_distr, <- !app_assoc in C. apply (f_equal (firstn (2 * wb))) in C.
      assert (L1 : length (rev (skipn (14 * wb) b)) = (2 * wb)%nat) by (rewrite rev_length, skipn_length; lia).
      assert (L2 : length (rev (field m)) = (2 * wb)%nat) by (rewrite rev_length; apply be_bytes_length).
      rewrite <- L1 in C at 1. rewrite <- L2 in C. rewrite !firstn_app, !firstn_all, !Nat.sub_diag, !firstn_O, !app_nil_r in C.
      rewrite <- (rev_involutive (skipn (14 * wb) b)), C. apply rev_involutive.
  Qed.
  Lemma field_eq m m' : (8 * N.of_nat (length m) < 256 ^ N.of_nat (2 * wb))%N -> (8 * N.of_nat (length m') < 256 ^ N.of_nat (2 * wb))%N ->
    field m = field m' -> length m = length m'.
  Proof. intros M M' E. apply be_bytes_eq in E; [lia|exact M|exact M']. Qed.
  Lemma sha_reduces m m' : (8 * N.of_nat (length m) < 256 ^ N.of_nat (2 * wb))%N -> (8 * N.of_nat (length m') < 256 ^ N.of_nat (2 * wb))%N ->
    post (sha_state p iv m) = post (sha_state p iv m') ->
    m = m' \/ clash (fun c => post (sha_block p (fst c) (snd c))) (sha_calls p iv m) (sha_calls p iv m').
  Proof.
    intros M M' E. unfold sha_state, sha_calls in *. fold wb in E. fold wb. change (chunks (16 * wb) (sha_pad p m)) with (blocks m) in E |- *.
    change (chunks (16 * wb) (sha_pad p m')) with (blocks m') in E |- *.
    destruct (blocks_facts m) as (a & b & Bm & C & L & c & Eb). destruct (blocks_facts m') as (a' & b' & Bm' & C' & L' & c' & Eb').
    destruct (list_eq_dec Byte.byte_eq_dec b b') as [H|H].
    - assert (G : length m = length m').
      { apply field_eq; [exact M|exact M'|]. rewrite Eb, Eb' in H. apply (f_equal (@rev byte)) in H. rewrite !rev_app_distr in H.
        apply (f_equal (firstn (2 * wb))) in H.
        assert (Q : forall x, length (rev (field x)) = (2 * wb)%nat) by (intros x; rewrite rev_length; apply be_bytes_length).
        rewrite <- (Q m) in H at 1. rewrite <- (Q m') in H. rewrite !firstn_app, !firstn_all, !Nat.sub_diag, !firstn_O, !app_nil_r in H.
        rewrite <- (rev_involutive (field m)), H. apply rev_involutive. }
      assert (LP : length (sha_pad p m) = length (sha_pad p m')).
      { unfold sha_pad. rewrite !app_length, !repeat_length, !be_bytes_length, G. reflexivity. }
      assert (LA : length a = length a').
      { rewrite L, L' in LP. apply Nat.mul_cancel_l in LP; lia. }
      rewrite Bm, Bm' in E |- *. destruct (iterated_last (sha_block p) post iv a b a' b' LA E) as [S|S]; [left|right; exact S].
      assert (PE : sha_pad p m = sha_pad p m') by (rewrite <- C, <- C'; f_equal; exact (eq_trans Bm (eq_trans S (eq_sym Bm')))).
      destruct (pad_split m) as (q & P & _). destruct (pad_split m') as (q' & P' & _). rewrite P, P' in PE.
      exact (proj1 (app_eq_length _ _ _ _ G PE)).
    - right. rewrite Bm, Bm' in E |- *. exact (iterated_ends (sha_block p) post iv a a' H E).
  Qed.
End Sha.
Theorem sha256_reduces m m' : sha256_domain m -> sha256_domain m' -> real_sha256 m = real_sha256 m' ->
  m = m' \/ clash sha256_out (sha256_calls m) (sha256_calls m').
Proof.
  intros M M' E. apply (@sha_reduces sha256_params iv256 (flat_map (be_bytes 4))); [apply Nat.ltb_lt; reflexivity| | |exact E];
    unfold sha256_domain in *; change (256 ^ N.of_nat (2 * N.to_nat (sw sha256_params / 8)))%N with (8 * 2 ^ 61)%N; lia.
Qed.
Theorem sha384_reduces m m' : sha384_domain m -> sha384_domain m' -> real_sha384 m = real_sha384 m' ->
  m = m' \/ clash sha384_out (sha384_calls m) (sha384_calls m').
Proof.
  intros M M' E. apply (@sha_reduces sha512_params iv384 (fun st => firstn 48 (flat_map (be_bytes 8) st))); [apply Nat.ltb_lt; reflexivity| | |exact E];
    unfold sha384_domain in *; change (256 ^ N.of_nat (2 * N.to_nat (sw sha512_params / 8)))%N with (8 * 2 ^ 125)%N; lia.
Qed.

(** ** BLAKE3 *)
Definition first_flag (s : N) (bs : list bytes) : N := match bs with [] => s | _ => 0%N end.
Lemma first_flag_iff a a' : first_flag 1 a = first_flag 1 a' -> (a = [] <-> a' = []).
Proof. destruct a, a'; cbn [first_flag]; intros H; split; intros G; try discriminate; reflexivity. Qed.
Lemma first_flag_small a : (first_flag 1 a < 2)%N.
Proof. destruct a; cbn [first_flag]; lia. Qed.
Fixpoint chain (cv : list N) (c s : N) (bs : list bytes) : list N :=
  match bs with [] => cv | b :: r => chain (b3_compress cv (b3_words b) c (N.of_nat (length b)) s) c 0 r end.
Fixpoint chain_calls (cv : list N) (c s : N) (bs : list bytes) : list b3_call :=
  match bs with
  | [] => []
  | b :: r => (cv, b3_words b, c, N.of_nat (length b), s) :: chain_calls (b3_compress cv (b3_words b) c (N.of_nat (length b)) s) c 0 r
  end.
Lemma chain_snoc a b : forall cv c s, chain cv c s (a ++ [b]) = b3_compress (chain cv c s a) (b3_words b) c (N.of_nat (length b)) (first_flag s a).
Proof.
  induction a as [|x a IH]; intros cv c s; [reflexivity|]. cbn [app chain first_flag]. rewrite IH. destruct a; reflexivity.
Qed.
Lemma chain_calls_snoc a b : forall cv c s, chain_calls cv c s (a ++ [b]) =
  chain_calls cv c s a ++ [(chain cv c s a, b3_words b, c, N.of_nat (length b), first_flag s a)].
Proof.
  induction a as [|x a IH]; intros cv c s; [reflexivity|]. cbn [app chain_calls chain first_flag]. rewrite IH. destruct a; reflexivity.
Qed.
Definition last_call (cv : list N) (c s e : N) (a : list bytes) (b : bytes) : b3_call :=
  (chain cv c s a, b3_words b, c, N.of_nat (length b), first_flag s a + 2 + e)%N.
Lemma blocks_snoc a b : forall cv c s e, b3_blocks cv c s e (a ++ [b]) =
  b3_compress (chain cv c s a) (b3_words b) c (N.of_nat (length b)) (first_flag s a + 2 + e).
Proof.
  induction a as [|x a IH]; intros cv c s e; [reflexivity|]. cbn [app]. destruct (a ++ [b]) as [|y l] eqn:E; [destruct a; discriminate|].
  change (b3_blocks cv c s e (x :: y :: l)) with (b3_blocks (b3_compress cv (b3_words x) c (N.of_nat (length x)) s) c 0 e (y :: l)).
  rewrite IH. cbn [chain first_flag]. destruct a; reflexivity.
Qed.
Lemma block_calls_snoc a b : forall cv c s e, b3_block_calls cv c s e (a ++ [b]) = chain_calls cv c s a ++ [last_call cv c s e a b].
Proof.
  induction a as [|x a IH]; intros cv c s e; [reflexivity|]. cbn [app]. destruct (a ++ [b]) as [|y l] eqn:E; [destruct a; discriminate|].
  change (b3_block_calls cv c s e (x :: y :: l)) with ((cv, b3_words x, c, N.of_nat (length x), s) ::
    b3_block_calls (b3_compress cv (b3_words x) c (N.of_nat (length x)) s) c 0 e (y :: l)).
  rewrite IH. cbn [chain_calls app]. unfold last_call. cbn [chain first_flag]. destruct a; reflexivity.
Qed.
Definition short_blocks (bs : list bytes) : Prop := Forall (fun b => (length b <= 64)%nat) bs.
Lemma chain_same cv c c' bs : forall bs', short_blocks bs -> short_blocks bs' -> (bs = [] <-> bs' = []) ->
  chain cv c 1 bs = chain cv c' 1 bs' -> bs = bs' \/ clash b3_out (chain_calls cv c 1 bs) (chain_calls cv c' 1 bs').
Proof.
  induction bs as [|b a IH] using rev_ind; intros bs' S S' Z E; [left; symmetry; apply Z; reflexivity|].
  destruct bs' as [|b' a' _] using rev_ind; [destruct Z as [_ Z]; specialize (Z eq_refl); destruct a; discriminate|].
  rewrite !chain_snoc in E. rewrite !chain_calls_snoc. apply Forall_app in S as [S Sb]. apply Forall_app in S' as [S' Sb'].
  apply Forall_inv in Sb. apply Forall_inv in Sb'.
  match goal with |- _ \/ clash _ (_ ++ [?x]) (_ ++ [?y]) => destruct (b3_call_dec x y) as [H|H] end.
  - injection H as H1 H2 H3 H4 H5. assert (Eb : b = b') by (apply b3_words_eq; [exact Sb|lia|exact H2]).
    destruct (IH a' S S') as [->|C]; [|exact H1|left; rewrite Eb; reflexivity|].
    + apply first_flag_iff; exact H5.
    + right. refine (clash_incl _ _ C); apply incl_appl, incl_refl.
  - right. eexists _, _. split; [apply in_or_app; right; left; reflexivity|]. split; [apply in_or_app; right; left; reflexivity|].
    split; [exact H|]. cbn [b3_out]. rewrite E. reflexivity.
Qed.
Definition chunk_blocks (ch : bytes) : list bytes := match ch with [] => [[]] | _ => chunks 64 ch end.
Lemma chunk_blocks_facts ch : concat (chunk_blocks ch) = ch /\ short_blocks (chunk_blocks ch) /\ exists a b, chunk_blocks ch = a ++ [b].
Proof.
  destruct ch as [|x ch]; [split; [reflexivity|]; split; [repeat constructor; cbn; lia|exists [], []; reflexivity]|].
  unfold chunk_blocks. assert (C : concat (chunks 64 (x :: ch)) = x :: ch) by (apply chunks_concat; lia). split; [exact C|]. split.
  - apply Forall_forall. intros g. apply chunks_short.
  - destruct (chunks 64 (x :: ch)) as [|b a _] eqn:Q using rev_ind; [discriminate|]. exists a, b. reflexivity.
Qed.
Lemma chunk_call c e ch : exists a b, chunk_blocks ch = a ++ [b] /\ In (last_call b3_iv c 1 e a b) (b3_chunk_calls c e ch) /\
  b3_out (last_call b3_iv c 1 e a b) = flat_map (le_bytes 4) (b3_chunk c e ch) /\
  incl (chain_calls b3_iv c 1 a) (b3_chunk_calls c e ch).
Proof.
  destruct (chunk_blocks_facts ch) as (_ & _ & a & b & E). exists a, b. split; [exact E|]. unfold b3_chunk_calls, b3_chunk.
  fold (chunk_blocks ch). rewrite E, blocks_snoc, block_calls_snoc. split; [apply in_or_app; right; left; reflexivity|].
  split; [reflexivity|]. apply incl_appl, incl_refl.
Qed.
Lemma chunk_same c c' e ch ch' : flat_map (le_bytes 4) (b3_chunk c e ch) = flat_map (le_bytes 4) (b3_chunk c' e ch') ->
  ch = ch' \/ clash b3_out (b3_chunk_calls c e ch) (b3_chunk_calls c' e ch').
Proof.
  intros E. destruct (chunk_call c e ch) as (a & b & Q & I & O & J). destruct (chunk_call c' e ch') as (a' & b' & Q' & I' & O' & J').
  destruct (clash_or b3_call_dec b3_out _ _ _ _ I I') as [H|H]; [congruence| |right; exact H].
  destruct (chunk_blocks_facts ch) as (C & S & _). destruct (chunk_blocks_facts ch') as (C' & S' & _).
  rewrite Q in C, S. rewrite Q' in C', S'. unfold last_call in H. injection H as H1 H2 H3 H4 H5.
  apply Forall_app in S as [S Sb]. apply Forall_app in S' as [S' Sb']. apply Forall_inv in Sb.
  assert (Eb : b = b') by (apply b3_words_eq; [exact Sb|lia|exact H2]).
  assert (Z : a = [] <-> a' = []) by (apply first_flag_iff; lia).
  destruct (@chain_same b3_iv c c' a a' S S' Z H1) as [->|K]; [left; rewrite <- C, <- C', Eb; reflexivity|].
  right. exact (clash_incl J J' K).
Qed.

(** A tree is a chunk or joins two smaller ones. *)
Definition parent_call (e : N) (l r : list N) : b3_call := (b3_iv, l ++ r, 0, 64, 4 + e)%N.
Lemma tree_view f c e cs : (length cs < S f)%nat ->
  (exists ch, concat cs = ch /\ b3_tree (S f) c e cs = b3_chunk c e ch /\ b3_tree_calls (S f) c e cs = b3_chunk_calls c e ch) \/
  (exists c2 l r, cs = l ++ r /\ (length l < f)%nat /\ (length r < f)%nat /\
    b3_tree (S f) c e cs = b3_parent e (b3_tree f c 0 l) (b3_tree f c2 0 r) /\
    b3_tree_calls (S f) c e cs = b3_tree_calls f c 0 l ++ b3_tree_calls f c2 0 r ++ [parent_call e (b3_tree f c 0 l) (b3_tree f c2 0 r)]).
Proof.
  intros L. destruct cs as [|x [|y cs]].
  - left. exists []. repeat split; reflexivity.
  - left. exists x. split; [cbn; apply app_nil_r|]. split; reflexivity.
  - right. set (n := N.of_nat (length (x :: y :: cs))). set (k := left_len n).
    assert (K : (1 <= k /\ k < n)%N).
    { assert (G : (2 <= n)%N) by (unfold n; cbn [length]; lia). unfold k, left_len.
      pose proof (N.log2_spec (n - 1) ltac:(lia)) as [P _]. pose proof (N.pow_nonzero 2 (N.log2 (n - 1)) ltac:(lia)). lia. }
    exists (c + k)%N, (firstn (N.to_nat k) (x :: y :: cs)), (skipn (N.to_nat k) (x :: y :: cs)).
    split; [symmetry; apply firstn_skipn|]. rewrite firstn_length, skipn_length. unfold n in K.
    split; [lia|]. split; [lia|]. split; reflexivity.
Qed.
Lemma tree_same f : forall f' c c' e cs cs', (length cs < f)%nat -> (length cs' < f')%nat ->
  flat_map (le_bytes 4) (b3_tree f c e cs) = flat_map (le_bytes 4) (b3_tree f' c' e cs') ->
  concat cs = concat cs' \/ clash b3_out (b3_tree_calls f c e cs) (b3_tree_calls f' c' e cs').
Proof.
  induction f as [|f IH]; intros f' c c' e cs cs' L L' E; [lia|]. destruct f' as [|f']; [lia|].
  destruct (@tree_view f c e cs L) as [(ch & Q & T & K)|(c2 & l & r & Q & Ll & Lr & T & K)];
    destruct (@tree_view f' c' e cs' L') as [(ch' & Q' & T' & K')|(c2' & l' & r' & Q' & Ll' & Lr' & T' & K')]; rewrite T, T' in E; rewrite K, K'.
  - rewrite Q, Q'. apply chunk_same. exact E.
  - right. destruct (chunk_call c e ch) as (a & b & _ & I & O & _). exists (last_call b3_iv c 1 e a b), (parent_call e (b3_tree f' c' 0 l') (b3_tree f' c2' 0 r')).
    split; [exact I|]. split; [apply in_or_app; right; apply in_or_app; right; left; reflexivity|]. split; [|rewrite O; exact E].
    unfold last_call, parent_call. intros H. pose proof (first_flag_small a) as F. clear - H F. apply (f_equal snd) in H. cbn [snd] in H. lia.
  - right. destruct (chunk_call c' e ch') as (a & b & _ & I & O & _). exists (parent_call e (b3_tree f c 0 l) (b3_tree f c2 0 r)), (last_call b3_iv c' 1 e a b).
    split; [apply in_or_app; right; apply in_or_app; right; left; reflexivity|]. split; [exact I|]. split; [|rewrite O; exact E].
    unfold last_call, parent_call. intros H. pose proof (first_flag_small a) as F. clear - H F. apply (f_equal snd) in H. cbn [snd] in H. lia.
  - match goal with |- _ \/ clash _ (_ ++ _ ++ [?x]) (_ ++ _ ++ [?y]) => destruct (b3_call_dec x y) as [H|H] end.
    + unfold parent_call in H. injection H as H.
      apply app_eq_length in H as [H1 H2]; [|rewrite !b3_tree_length; reflexivity].
      destruct (IH f' c c' 0%N l l' Ll Ll') as [Gl|C]; [rewrite H1; reflexivity| |].
      * destruct (IH f' c2 c2' 0%N r r' Lr Lr') as [Gr|C]; [rewrite H2; reflexivity| |].
        { left. rewrite Q, Q', !concat_app, Gl, Gr. reflexivity. }
        { right. refine (clash_incl _ _ C); apply incl_appr, incl_appl, incl_refl. }
      * right. refine (clash_incl _ _ C); apply incl_appl, incl_refl.
    + right. eexists _, _. split; [apply in_or_app; right; apply in_or_app; right; left; reflexivity|].
      split; [apply in_or_app; right; apply in_or_app; right; left; reflexivity|]. split; [exact H|exact E].
Qed.
Theorem blake3_reduces m m' : real_blake3 m = real_blake3 m' -> m = m' \/ clash b3_out (blake3_calls m) (blake3_calls m').
Proof.
  unfold real_blake3, blake3_calls. intros E. destruct (@tree_same _ _ _ _ _ _ _ (Nat.lt_succ_diag_r _) (Nat.lt_succ_diag_r _) E) as [H|H]; [left|right; exact H].
  rewrite !chunks_concat in H by lia. exact H.
Qed.

(** ** The last call gives the hash. *)
Lemma snoc_nonempty {A} (l : list A) x : l ++ [x] <> [].
Proof. destruct l; discriminate. Qed.
Lemma sha_last p iv m : (0 < N.to_nat (sw p / 8))%nat -> exists xs x, sha_calls p iv m = xs ++ [x] /\ sha_block p (fst x) (snd x) = sha_state p iv m.
Proof.
  intros W. destruct (blocks_facts p iv (fun _ => []) W m) as (a & b & E & _). unfold sha_calls, sha_state. rewrite E, calls_snoc, fold_left_app.
  eexists _, _. split; reflexivity.
Qed.
Theorem sha256_ends m : exists xs x, sha256_calls m = xs ++ [x] /\ sha256_out x = real_sha256 m.
Proof.
  destruct (@sha_last sha256_params iv256 m) as (xs & x & E & H); [apply Nat.ltb_lt; reflexivity|]. exists xs, x. split; [exact E|].
  unfold sha256_out, sha_out, real_sha256. rewrite H. reflexivity.
Qed.
Theorem sha384_ends m : exists xs x, sha384_calls m = xs ++ [x] /\ sha384_out x = real_sha384 m.
Proof.
  destruct (@sha_last sha512_params iv384 m) as (xs & x & E & H); [apply Nat.ltb_lt; reflexivity|]. exists xs, x. split; [exact E|].
  unfold sha384_out, sha_out, real_sha384. rewrite H. reflexivity.
Qed.
Theorem blake3_ends m : exists xs x, blake3_calls m = xs ++ [x] /\ b3_out x = real_blake3 m.
Proof.
  unfold blake3_calls, real_blake3. set (cs := chunks 1024 m). destruct (@tree_view (length cs) 0 8 cs (Nat.lt_succ_diag_r _)) as [(ch & _ & T & K)|(c2 & l & r & _ & _ & _ & T & K)]; rewrite T, K.
  - destruct (chunk_blocks_facts ch) as (_ & _ & a & b & E). unfold b3_chunk_calls, b3_chunk. fold (chunk_blocks ch).
    rewrite E, blocks_snoc, block_calls_snoc. eexists _, _. split; reflexivity.
  - rewrite app_assoc. eexists _, _. split; reflexivity.
Qed.

(** ** The crate *)
Lemma real_sizes D : real_hashes D -> sha256_size D /\ sha384_size D /\ blake3_size D.
Proof.
  intros (A & B & C). split; [intros m; rewrite A; apply real_sha256_size|]. split; [intros m; rewrite B; apply real_sha384_size|].
  intros m; rewrite C; apply real_blake3_size.
Qed.
Section Crate.
  Variable D : deps.
  Hypothesis R : real_hashes D.
  Lemma real_sha256_collision a b : collision (sha256 D) a b -> sha256_domain a -> sha256_domain b -> clash sha256_out (sha256_calls a) (sha256_calls b).
  Proof. intros [N E] A B. rewrite !(proj1 R) in E. destruct (sha256_reduces A B E) as [->|H]; [contradiction|exact H]. Qed.
  Lemma real_sha384_collision a b : collision (sha384 D) a b -> sha384_domain a -> sha384_domain b -> clash sha384_out (sha384_calls a) (sha384_calls b).
  Proof. intros [N E] A B. rewrite !(proj1 (proj2 R)) in E. destruct (sha384_reduces A B E) as [->|H]; [contradiction|exact H]. Qed.
  Lemma real_blake3_collision a b : collision (blake3 D) a b -> clash b3_out (blake3_calls a) (blake3_calls b).
  Proof. intros [N E]. rewrite !(proj2 (proj2 R)) in E. destruct (blake3_reduces a b E) as [->|H]; [contradiction|exact H]. Qed.
  Theorem real_hashlink s1 s2 t : verify_from_json D (Ok (JSONValue s1)) t = Ok tt -> verify_from_json D (Ok (JSONValue s2)) t = Ok tt ->
    s1 = s2 \/ clash b3_out (blake3_calls s1) (blake3_calls s2).
  Proof.
    intros A B. destruct (@hl_binds _ (proj2 (proj2 (real_sizes R))) _ _ _ A B) as [H|H]; [left; exact H|right; exact (real_blake3_collision H)].
  Qed.
  Theorem real_identity (d1 d2 : did D) i1 i2 : did_identity d1 = Ok i1 -> did_identity d2 = Ok i2 -> id_value i1 = id_value i2 ->
    let k1 := ed_pub_bytes D (account_pubkey (did_account d1)) in
    let k2 := ed_pub_bytes D (account_pubkey (did_account d2)) in
    sha384_domain k1 -> sha384_domain k2 ->
    k1 = k2 \/ clash sha384_out (sha384_calls k1) (sha384_calls k2) \/ clash b3_out (blake3_calls (sha384 D k1)) (blake3_calls (sha384 D k2)).
  Proof.
    intros A B E k1 k2 K1 K2. destruct (@identity_same_key _ d1 d2 _ _ A B E) as [H|[H|H]]; [left; exact H|right; left; exact (real_sha384_collision H K1 K2)|].
    right. right. exact (real_blake3_collision H).
  Qed.
  Theorem real_split t c t' c' m : sha256_domain t -> sha256_domain c -> sha256_domain t' -> sha256_domain c' ->
    generate_hash D t c = Ok m -> generate_hash D t' c' = Ok m ->
    (t = t' \/ clash sha256_out (sha256_calls t) (sha256_calls t')) /\ (c = c' \/ clash sha256_out (sha256_calls c) (sha256_calls c')).
  Proof.
    intros T C T' C' A B. destruct (@hash_split _ (proj1 (real_sizes R)) t c t' c' _ A B) as [[H|H] [G|G]]; split;
      first [left; assumption|right; apply real_sha256_collision; assumption].
  Qed.
  Lemma real_text_collision history o j : Forall (fun s => in_domain D (signing_options s) (signing_json s)) history -> in_domain D o j ->
    text_collision D history o j -> compression_collision D history o j.
  Proof.
    intros F [O J] (s & I & C). exists s. split; [exact I|]. destruct (proj1 (Forall_forall _ _) F s I) as [A B].
    destruct C as [C|C]; [left|right]; apply real_sha256_collision; assumption.
  Qed.
  Theorem real_vc_tamper pk history s e r : jcs_numbers D -> Forall (fun s => in_domain D (signing_options s) (signing_json s)) history ->
    verify_proof D (vc_proofable D) pk s e = Ok r -> verified r = true ->
    exists v p b sig, vc_parse_json_bytes D s = Ok v /\ vc_proof v = Some p /\ mb_decode (mb_other D) (p_value p) = Some (b, sig) /\
      document r = Some (vc_with_proof v None) /\ p_purpose p = e /\
      (in_domain D (with_value p []) (vc_json (vc_with_proof v None)) ->
       (exists v0, In (SignVc v0 (with_value p [])) history /\ same_vc D v0 (vc_with_proof v None)) \/
       forgery D pk history (message D (with_value p []) (vc_json (vc_with_proof v None))) sig \/
       compression_collision D history (with_value p []) (vc_json (vc_with_proof v None))).
  Proof.
    intros J F V T. destruct (vc_tamper (proj1 (real_sizes R)) J history V T) as (v & p & b & sig & H1 & H2 & H3 & H4 & H5 & _ & H).
    exists v, p, b, sig. split; [exact H1|]. split; [exact H2|]. split; [exact H3|]. split; [exact H4|]. split; [exact H5|]. intros I.
    destruct H as [H|[H|H]]; [left; exact H|right; left; exact H|right; right; exact (real_text_collision F I H)].
  Qed.
  Theorem real_vp_tamper pk history s e r : jcs_numbers D -> Forall (fun s => in_domain D (signing_options s) (signing_json s)) history ->
    verify_proof D (vp_proofable D) pk s e = Ok r -> verified r = true ->
    exists v p b sig, vp_parse_json_bytes D s = Ok v /\ vp_proof v = Some p /\ mb_decode (mb_other D) (p_value p) = Some (b, sig) /\
      document r = Some (vp_with_proof v None) /\ p_purpose p = e /\
      (in_domain D (with_value p []) (vp_json (vp_with_proof v None)) ->
       (exists v0, In (SignVp v0 (with_value p [])) history /\ same_vp D v0 (vp_with_proof v None)) \/
       forgery D pk history (message D (with_value p []) (vp_json (vp_with_proof v None))) sig \/
       compression_collision D history (with_value p []) (vp_json (vp_with_proof v None))).
  Proof.
    intros J F V T. destruct (vp_tamper (proj1 (real_sizes R)) J history V T) as (v & p & b & sig & H1 & H2 & H3 & H4 & H5 & _ & H).
    exists v, p, b, sig. split; [exact H1|]. split; [exact H2|]. split; [exact H3|]. split; [exact H4|]. split; [exact H5|]. intros I.
    destruct H as [H|[H|H]]; [left; exact H|right; left; exact H|right; right; exact (real_text_collision F I H)].
  Qed.
End Crate.
(** ** What the calls of SHA-2 are *)
Lemma calls_blocks f bs : forall st, map snd (calls f st bs) = bs.
Proof. induction bs as [|b bs IH]; intros st; [reflexivity|]. cbn [calls map snd]. rewrite IH. reflexivity. Qed.
Lemma calls_chained f bs : forall st xs x y ys, calls f st bs = xs ++ x :: y :: ys -> fst y = f (fst x) (snd x).
Proof.
  induction bs as [|b bs IH]; intros st xs x y ys E; [destruct xs; discriminate|]. cbn [calls] in E. destruct xs as [|z xs].
  - cbn [app] in E. injection E as <- E. destruct bs as [|b' bs]; [discriminate|]. cbn [calls] in E. injection E as <- _. reflexivity.
  - cbn [app] in E. injection E as _ E. exact (IH _ _ _ _ _ E).
Qed.
Theorem sha_run p iv m : (0 < N.to_nat (sw p / 8))%nat ->
  concat (map snd (sha_calls p iv m)) = sha_pad p m /\ Forall (fun c => length (snd c) = (16 * N.to_nat (sw p / 8))%nat) (sha_calls p iv m) /\
  (exists b xs, sha_calls p iv m = (iv, b) :: xs) /\
  (forall xs x y ys, sha_calls p iv m = xs ++ x :: y :: ys -> fst y = sha_block p (fst x) (snd x)).
Proof.
  intros W. unfold sha_calls. rewrite calls_blocks. split; [apply chunks_concat; lia|]. split; [|split; [|intros xs x y ys; apply calls_chained]].
  - apply (proj1 (Forall_map (snd (A := list N)) (fun b : bytes => length b = (16 * N.to_nat (sw p / 8))%nat) _)). rewrite calls_blocks.
    destruct (@pad_split p iv (fun _ => []) W m) as (q & _ & _ & n & L). apply (@chunks_lengths _ _ (S n)); [lia|exact L].
  - destruct (blocks_facts p iv (fun _ => []) W m) as (a & b & E & _). rewrite E. destruct a as [|c a]; cbn [app calls]; eexists _, _; reflexivity.
Qed.
