(** The constants of SHA-2, and its three functions. *)
From Coq Require Import ZArith Znumtheory Lia Bool ZifyBool ZifyNat ZifyN.
From Verif Require Import Base BaseFacts Codec Deps Types Keys Did Proof Suite SuiteFacts Identity DidFacts Hash HashFacts DigestSpec DigestFacts Ed25519 ShaSpec ShaFacts.
Local Open Scope N_scope.

(** * Primes *)
(** [n] has no divisor among [d], [d + 1], ... ([k] numbers) *)
Fixpoint coprime_from (k : nat) (d n : N) : bool :=
  match k with O => true | S k' => negb (n mod d =? 0) && coprime_from k' (d + 1) n end.
Definition isp (n : nat) : bool := (1 <? N.of_nat n) && coprime_from (n - 2) 2 (N.of_nat n).
Lemma coprime_from_spec k : forall d n, 0 < d -> (coprime_from k d n = true <-> forall e, d <= e < d + N.of_nat k -> n mod e <> 0).
Proof.
  induction k as [|k IH]; intros d n D; cbn [coprime_from].
  - split; [intros _ e E; lia|reflexivity].
  - rewrite andb_true_iff, negb_true_iff, N.eqb_neq, IH by lia. split.
    + intros [A H] e E. destruct (N.eq_dec e d) as [->|NE]; [exact A|apply H; lia].
    + intros H. split; [apply H; lia|]. intros e E. apply H. lia.
Qed.
Lemma isp_spec n : isp n = true <-> prime (Z.of_nat n).
Proof.
  unfold isp. rewrite andb_true_iff, coprime_from_spec by lia. split.
  - intros [G H]. assert (G' : (1 < Z.of_nat n)%Z) by lia. destruct (prime_dec (Z.of_nat n)) as [P|P]; [exact P|].
    apply not_prime_divide in P as (d & D & q & E); [|exact G']. exfalso. apply (H (Z.to_N d)); [lia|].
    replace (N.of_nat n) with (Z.to_N q * Z.to_N d) by nia. apply N.mod_mul. lia.
  - intros P. pose proof (prime_ge_2 _ P). split; [lia|]. intros e E M. apply N.mod_divide in M; [|lia]. destruct M as [q Q].
    assert (Dv : (Z.of_N e | Z.of_nat n)%Z) by (exists (Z.of_N q); lia). apply (prime_divisors _ P) in Dv. lia.
Qed.
Lemma filter_seq_nth (f : nat -> bool) n : forall a k x, nth_error (filter f (seq a n)) k = Some x ->
  f x = true /\ (a <= x)%nat /\ length (filter f (seq a (x - a))) = k.
Proof.
  induction n as [|n IH]; intros a k x H; [now destruct k|]. cbn [seq filter] in H. destruct (f a) eqn:F.
  - destruct k as [|k].
    + injection H as <-. rewrite Nat.sub_diag. auto.
    + cbn [nth_error] in H. destruct (IH _ _ _ H) as (A & L & E). split; [exact A|]. split; [lia|]. replace (x - a)%nat with (S (x - S a)) by lia. cbn [seq filter]. rewrite F. cbn. now rewrite E.
  - destruct (IH _ _ _ H) as (A & L & E). split; [exact A|]. split; [lia|]. replace (x - a)%nat with (S (x - S a)) by lia. cbn [seq filter]. now rewrite F.
Qed.
Lemma kth_prime_nth n k x : nth_error (filter isp (seq 0 n)) k = Some x -> kth_prime k (N.of_nat x).
Proof.
  intros H. apply filter_seq_nth in H as (A & _ & L). rewrite Nat.sub_0_r in L. split; [rewrite nat_N_Z; now apply isp_spec|].
  exists (map N.of_nat (filter isp (seq 0 x))). split.
  - apply FinFun.Injective_map_NoDup; [intros ? ? ?; lia|]. apply NoDup_filter, seq_NoDup.
  - split; [now rewrite map_length|]. intros q. rewrite in_map_iff. split.
    + intros (y & <- & Y). apply filter_In in Y as [Y P]. apply in_seq in Y. apply isp_spec in P. split; [now rewrite nat_N_Z|lia].
    + intros [P L']. exists (N.to_nat q). split; [apply N2Nat.id|]. apply filter_In. split; [apply in_seq; lia|]. apply isp_spec. now rewrite N_nat_Z.
Qed.
Lemma kth_prime_fun k x y : kth_prime k x -> kth_prime k y -> x = y.
Proof.
  assert (O : forall k x y, kth_prime k x -> kth_prime k y -> ~ x < y).
  { clear. intros k x y [P (l & N1 & L1 & E1)] [_ (l' & N2 & L2 & E2)] H.
    assert (I : incl (x :: l) l').
    { intros z [<-|Z]; apply E2; [now split|]. apply E1 in Z as [Z1 Z2]. split; [exact Z1|lia]. }
    assert (ND : NoDup (x :: l)) by (constructor; [|exact N1]; intros Z; apply E1 in Z as [_ Z]; lia).
    apply NoDup_incl_length in I; [|exact ND]. cbn in I. lia. }
  intros X Y. pose proof (O _ _ _ X Y). pose proof (O _ _ _ Y X). lia.
Qed.

(** * Digits of roots *)
Lemma floor_fun e v n n' : n ^ e <= v < (n + 1) ^ e -> n' ^ e <= v < (n' + 1) ^ e -> n = n'.
Proof.
  assert (O : forall n n', n ^ e <= v < (n + 1) ^ e -> n' ^ e <= v < (n' + 1) ^ e -> ~ n < n').
  { clear. intros n n' [_ A] [B _] L. pose proof (N.pow_le_mono_l (n + 1) n' e ltac:(lia)). lia. }
  intros X Y. pose proof (O _ _ X Y). pose proof (O _ _ Y X). lia.
Qed.
Lemma root_digits_fun e w p x y : root_digits e w p x -> root_digits e w p y -> x = y.
Proof.
  intros (X & a & A) (Y & b & B). pose proof (floor_fun _ _ _ _ A B) as E. rewrite (N.mul_comm a), (N.mul_comm b) in E.
  now apply N.div_mod_unique in E as [_ E].
Qed.
Lemma roots_fun e w k cs cs' : length cs = length cs' -> roots_of_primes e w k cs -> roots_of_primes e w k cs' -> cs = cs'.
Proof.
  intros L R R'. apply (nth_ext _ _ 0 0); [exact L|]. intros i I.
  assert (A : nth_error cs i = Some (nth i cs 0)) by now apply nth_error_nth'. assert (A' : nth_error cs' i = Some (nth i cs' 0)) by (apply nth_error_nth'; lia).
  destruct (R _ _ A) as (q & Q & D). destruct (R' _ _ A') as (q' & Q' & D'). rewrite (kth_prime_fun _ _ _ Q' Q) in D'. now apply (root_digits_fun e w q).
Qed.
Definition digits_check (e w : N) (c : N) (p : nat) : bool :=
  (c <? 2 ^ w) && existsb (fun whole => ((whole * 2 ^ w + c) ^ e <=? N.of_nat p * (2 ^ w) ^ e) && (N.of_nat p * (2 ^ w) ^ e <? (whole * 2 ^ w + c + 1) ^ e))
    [1; 2; 3; 4; 5; 6; 7; 8; 9].
Fixpoint roots_check (e w : N) (cs : list N) (ps : list nat) : bool :=
  match cs, ps with
  | [], _ => true
  | _ :: _, [] => false
  | c :: cs', p :: ps' => digits_check e w c p && roots_check e w cs' ps'
  end.
Lemma digits_check_ok e w c p : digits_check e w c p = true -> root_digits e w (N.of_nat p) c.
Proof.
  unfold digits_check. intros H. apply andb_true_iff in H as [H1 H2]. split; [now apply N.ltb_lt|]. apply existsb_exists in H2 as (x & _ & H). apply andb_true_iff in H as [A B].
  exists x. split; [now apply N.leb_le|now apply N.ltb_lt].
Qed.
Lemma roots_check_nth e w : forall cs ps i c, roots_check e w cs ps = true -> nth_error cs i = Some c ->
  exists p, nth_error ps i = Some p /\ root_digits e w (N.of_nat p) c.
Proof.
  induction cs as [|c cs IH]; intros [|p ps] [|i] x H E; try discriminate; cbn [roots_check] in H; apply andb_true_iff in H as [H1 H2].
  - injection E as <-. exists p. split; [reflexivity|now apply digits_check_ok].
  - cbn [nth_error] in *. now apply (IH ps i).
Qed.
Lemma nth_error_skipn {A} k : forall (l : list A) i, nth_error (skipn k l) i = nth_error l (k + i).
Proof. induction k as [|k IH]; intros [|x l] i; try reflexivity; [now destruct i|]. apply IH. Qed.
Lemma roots_check_ok n e w k cs : roots_check e w cs (skipn k (filter isp (seq 0 n))) = true -> roots_of_primes e w k cs.
Proof.
  intros H i c E. destruct (roots_check_nth _ _ _ _ _ _ H E) as (p & P & D). rewrite nth_error_skipn in P. exists (N.of_nat p). split; [now apply (kth_prime_nth n)|exact D].
Qed.

Lemma k256_roots : roots_of_primes 3 32 0 k256.
Proof. apply (roots_check_ok 410). vm_compute. reflexivity. Qed.
Lemma k512_roots : roots_of_primes 3 64 0 k512.
Proof. apply (roots_check_ok 410). vm_compute. reflexivity. Qed.
Lemma iv256_roots : roots_of_primes 2 32 0 iv256.
Proof. apply (roots_check_ok 410). vm_compute. reflexivity. Qed.
Lemma iv512_roots : roots_of_primes 2 64 0 iv512.
Proof. apply (roots_check_ok 410). vm_compute. reflexivity. Qed.
Lemma iv384_roots : roots_of_primes 2 64 8 iv384.
Proof. apply (roots_check_ok 410). vm_compute. reflexivity. Qed.

(** * The three functions *)
Lemma roots_only e w k cs : roots_of_primes e w k cs -> forall cs', length cs' = length cs -> roots_of_primes e w k cs' -> cs' = cs.
Proof. intros R cs' L R'. exact (roots_fun e w k cs' cs L R' R). Qed.
Ltac small_turns := repeat split; reflexivity.
Lemma digest256_iff m d : digest v256 m d <-> d = flat_map (be_bytes 4) (sha_state sha256_params iv256 m).
Proof.
  refine (digest_iff v256 k256 4 eq_refl _ _ _ _ _ _ eq_refl iv256 k256_roots iv256_roots eq_refl (roots_only _ _ _ _ k256_roots) (roots_only _ _ _ _ iv256_roots) m d);
    [lia|small_turns..|apply Nat.leb_le; reflexivity].
Qed.
Lemma digest512_iff m d : digest v512 m d <-> d = flat_map (be_bytes 8) (sha_state sha512_params iv512 m).
Proof.
  refine (digest_iff v512 k512 8 eq_refl _ _ _ _ _ _ eq_refl iv512 k512_roots iv512_roots eq_refl (roots_only _ _ _ _ k512_roots) (roots_only _ _ _ _ iv512_roots) m d);
    [lia|small_turns..|apply Nat.leb_le; reflexivity].
Qed.
Lemma digest384_iff m d : digest v384 m d <-> d = flat_map (be_bytes 8) (sha_state sha512_params iv384 m).
Proof.
  refine (digest_iff v384 k512 8 eq_refl _ _ _ _ _ _ eq_refl iv384 k512_roots iv384_roots eq_refl (roots_only _ _ _ _ k512_roots) (roots_only _ _ _ _ iv384_roots) m d);
    [lia|small_turns..|apply Nat.leb_le; reflexivity].
Qed.
Theorem sha256_iff m d : fips_sha256 m d <-> d = real_sha256 m.
Proof. exact (digest256_iff m d). Qed.
Theorem sha512_iff m d : fips_sha512 m d <-> d = real_sha512 m.
Proof. exact (digest512_iff m d). Qed.
Theorem sha384_iff m d : fips_sha384 m d <-> d = real_sha384 m.
Proof.
  unfold fips_sha384, real_sha384. set (full := flat_map (be_bytes 8) (sha_state sha512_params iv384 m)). split.
  - intros [L [rest R]]. apply digest384_iff in R. fold full in R. rewrite <- R. rewrite firstn_app, L, Nat.sub_diag, firstn_O, app_nil_r. symmetry. apply firstn_all2. lia.
  - intros ->. assert (LF : length full = 64%nat).
    { unfold full. rewrite (@flat_map_length _ _ _ 8%nat) by apply be_bytes_length. now rewrite sha_state_length. }
    split; [rewrite firstn_length; lia|]. exists (skipn 48 full). apply digest384_iff. apply firstn_skipn.
Qed.

(** * What the crate hashes *)
Section Crate.
  Variable D : deps.
  Hypothesis R : real_hashes D.
  Lemma fips_message t c m : generate_hash D t c = Ok m <-> exists ht hc, fips_sha256 t ht /\ fips_sha256 c hc /\ m = hc ++ ht.
  Proof.
    destruct R as (R1 & _ & _). unfold generate_hash, hash_text. cbn [map_err bind]. rewrite !R1. split.
    - intros E. exists (real_sha256 t), (real_sha256 c). split; [now apply sha256_iff|]. split; [now apply sha256_iff|]. congruence.
    - intros (ht & hc & H1 & H2 & ->). apply sha256_iff in H1, H2. now subst.
  Qed.
  Lemma fips_created {T} (P : proofable T) kp doc opts p : eddsa_create_proof D P kp doc opts = Ok p ->
    exists text config ht hc, pf_to_jcs P doc = Ok text /\ proof_to_jcs D opts = Ok config /\ fips_sha256 text ht /\ fips_sha256 config hc /\
      p_value p = mb_encode58 (ed_sign D kp (hc ++ ht)).
  Proof.
    unfold eddsa_create_proof, generate_proof_config, transform_document. intros H.
    destruct (validate_type opts) as [u1|]; [|discriminate]. destruct (validate_cryptosuite opts) as [u2|]; [|discriminate]. destruct (validate_created D opts) as [u3|]; [|discriminate].
    cbn [bind] in H. destruct (proof_to_jcs D opts) as [config|]; [|discriminate]. cbn [map_err bind] in H. destruct (pf_to_jcs P doc) as [text|]; [|discriminate].
    cbn [map_err bind] in H. destruct (generate_hash D text config) as [m|] eqn:G; [|discriminate]. cbn [bind] in H. injection H as <-.
    apply fips_message in G as (ht & hc & G1 & G2 & ->). exists text, config, ht, hc. repeat split; assumption.
  Qed.
  Lemma fips_identity (d : did D) : exists i h, did_identity d = Ok i /\ fips_sha384 (ed_pub_bytes D (account_pubkey (did_account d))) h /\
    id_value i = B "did:prople:" ++ mb_encode58 (hex_encode (blake3 D h)).
  Proof.
    destruct R as (_ & R2 & _). eexists _, _. split; [apply did_identity_eq|]. split; [apply sha384_iff; reflexivity|]. rewrite <- R2. reflexivity.
  Qed.
End Crate.
