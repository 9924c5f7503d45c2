(** Proofs of C96. *)
From Coq Require Import ZArith.
From Verif Require Import Base BaseFacts Codec CodecFacts Deps Hash HashFacts DigestFacts Bases BasesSpec BasesFacts Keys Aead AeadSpec AeadFacts AeadWorld Primes Fp Edwards Ed25519 Ed25519Spec CurveFacts Ed25519Facts Ed25519Points Ed25519World Pem PemSpec.
Require Import ZifyBool ZifyNat ZifyN.

Lemma alphabet_eq : BasesSpec.large ++ BasesSpec.small ++ BasesSpec.numerals ++ B "+/" = alphabet64. Proof. reflexivity. Qed.
Lemma alphabet_plain : plain_alphabet alphabet64 = true. Proof. vm_compute. reflexivity. Qed.
Lemma alphabet_size : length alphabet64 = (2 ^ 6)%nat. Proof. reflexivity. Qed.
Lemma alphabet_nodup : NoDup alphabet64. Proof. exact (proj1 (plain_facts _ alphabet_plain)). Qed.
Lemma six : (0 < 6 <= 8)%nat. Proof. lia. Qed.
Lemma encode6 s : packed 6 alphabet64 (bits_encode 6 alphabet64 s) s. Proof. apply packed_encode; (exact six || exact alphabet_size). Qed.
Lemma unique6 t t' s : packed 6 alphabet64 t s -> packed 6 alphabet64 t' s -> t = t'. Proof. apply packed_unique; (exact six || exact alphabet_size). Qed.
Lemma length6 t s : packed 6 alphabet64 t s -> exists z, (z < 6)%nat /\ (6 * length t = 8 * length s + z)%nat. Proof. apply packed_length; (exact six || exact alphabet_size). Qed.
Lemma decode6 t s : bits_decode 6 alphabet64 t = Some s <-> packed 6 alphabet64 t s. Proof. apply packed_decode; (exact six || exact alphabet_nodup || exact alphabet_size). Qed.
Lemma chars6 t s : packed 6 alphabet64 t s -> Forall (fun c => In c alphabet64) t. Proof. apply packed_chars. Qed.

(** ** Base 64 *)
Lemma pad4 n : Nat.divide 4 (n + (4 - n mod 4) mod 4).
Proof.
  pose proof (Nat.div_mod n 4 ltac:(lia)) as H. pose proof (Nat.mod_upper_bound n 4 ltac:(lia)). set (q := (n / 4)%nat) in *. set (r := (n mod 4)%nat) in *. clearbody q r.
  assert (r = 0 \/ r = 1 \/ r = 2 \/ r = 3)%nat as [->|[->|[->| ->]]] by lia.
  - exists q. change ((4 - 0) mod 4)%nat with 0%nat. lia.
  - exists (q + 1)%nat. change ((4 - 1) mod 4)%nat with 3%nat. lia.
  - exists (q + 1)%nat. change ((4 - 2) mod 4)%nat with 2%nat. lia.
  - exists (q + 1)%nat. change ((4 - 3) mod 4)%nat with 1%nat. lia.
Qed.
Lemma base64_iff t s : in_base64 t s <-> t = base64 s.
Proof.
  unfold in_base64, base64. rewrite alphabet_eq. split.
  - intros (v & k & P & K & [m M] & ->). assert (E : v = bits_encode 6 alphabet64 s) by exact (unique6 _ _ s P (encode6 s)).
    subst v. cbv zeta. f_equal. f_equal. set (n := length _) in *. clearbody n. pose proof (Nat.div_mod n 4 ltac:(lia)). pose proof (Nat.mod_upper_bound n 4 ltac:(lia)).
    assert (n mod 4 = 0 \/ n mod 4 = 1 \/ n mod 4 = 2 \/ n mod 4 = 3)%nat as [E|[E|[E|E]]] by lia; rewrite E in *; cbn; lia.
  - intros ->. cbv zeta. set (v := bits_encode 6 alphabet64 s). exists v, ((4 - length v mod 4) mod 4)%nat. split; [exact (encode6 s)|].
    split; [apply Nat.mod_upper_bound; lia|]. split; [|reflexivity]. apply pad4.
Qed.
Lemma base64_length s : length s = 83%nat -> length (base64 s) = 112%nat.
Proof.
  intros L. unfold base64. cbv zeta. destruct (length6 _ s (encode6 s)) as (z & Z & E). rewrite L in E.
  assert (H : length (bits_encode 6 alphabet64 s) = 111%nat) by lia. rewrite app_length, repeat_length, H. reflexivity.
Qed.
Lemma no_equals : ~ In "="%byte alphabet64.
Proof. intros H. apply (In_nth _ _ x00) in H as (n & L & E). rewrite alphabet_size in L. do 64 (destruct n as [|n]; [discriminate E|]). cbn in L. lia. Qed.
Lemma base64_decode s : bits_decode 6 alphabet64 (unpad (base64 s)) = Some s.
Proof.
  unfold base64. cbv zeta. assert (P := encode6 s). rewrite unpad_app.
  - apply decode6. exact P.
  - intros I. apply chars6 in P. rewrite Forall_forall in P. exact (no_equals (P _ I)).
Qed.

(** ** Lines *)
Lemma lines_iff eol u t : lines eol u t <-> u <> [] /\ t = flat_map (fun l => l ++ eol) (groups 64 u).
Proof.
  unfold groups. split.
  - intros H. assert (G : u <> [] /\ forall f, (length u <= f)%nat -> t = flat_map (fun l => l ++ eol) (groups_fuel f 64 u)).
    { induction H as [l Nl L|l u t L Nu _ [_ IH]].
      - split; [exact Nl|]. intros [|f] F; [destruct l; [congruence|cbn in F; lia]|]. destruct l as [|c l]; [congruence|]. cbn [groups_fuel]. rewrite firstn_all2 by exact L. rewrite skipn_all2 by exact L.
        destruct f; cbn [groups_fuel flat_map app]; rewrite app_nil_r; reflexivity.
      - split; [destruct l; [discriminate L|discriminate]|]. intros f F. rewrite app_length, L in F. destruct f as [|f]; [lia|]. destruct l as [|c l]; [discriminate L|]. cbn [app groups_fuel].
        change (c :: l ++ u) with ((c :: l) ++ u). rewrite firstn_app, skipn_app, L, Nat.sub_diag, firstn_O, skipn_O, app_nil_r, firstn_all2, skipn_all2 by lia. cbn [app].
        cbn [flat_map]. rewrite (IH f) by lia. cbn [app]. rewrite <- app_assoc. reflexivity. }
    destruct G as [Nu G]. split; [exact Nu|]. apply G. lia.
  - assert (G : forall f u, (length u <= f)%nat -> u <> [] -> lines eol u (flat_map (fun l => l ++ eol) (groups_fuel f 64 u))).
    { clear u t. induction f as [|f IH]; intros u F N; [destruct u; [congruence|cbn in F; lia]|]. destruct u as [|c u]; [congruence|]. cbn [groups_fuel flat_map].
      destruct (le_lt_dec (length (c :: u)) 64) as [L|L].
      - rewrite firstn_all2, skipn_all2 by exact L. destruct f; cbn [groups_fuel flat_map]; rewrite app_nil_r; apply last_line; (discriminate || exact L).
      - rewrite <- (firstn_skipn 64 (c :: u)) at 1. rewrite <- app_assoc. assert (Ls : length (skipn 64 (c :: u)) = (length (c :: u) - 64)%nat) by apply skipn_length.
        apply full_line; [apply firstn_length_le; lia|intros E; rewrite E in Ls; cbn [length] in *; lia|]. apply IH; [rewrite Ls; cbn [length] in *; lia|intros E; rewrite E in Ls; cbn [length] in *; lia]. }
    intros [N ->]. apply G; [lia|exact N].
Qed.

(** ** DER *)
Lemma tlv_iff tag c n t : Byte.to_N n = N.of_nat (length c) -> (length c < 128)%nat -> (tlv tag c t <-> t = tag :: n :: c).
Proof.
  intros E L. split.
  - intros (n' & E' & _ & ->). f_equal. f_equal. apply to_N_inj. congruence.
  - intros ->. exists n. auto.
Qed.
Lemma info_iff s p der : length s = 32%nat -> length p = 32%nat -> (key_info s p der <-> der = pkcs8_der s p).
Proof.
  intros Ls Lp. unfold key_info, pkcs8_der, pkcs8_head, pkcs8_middle. split.
  - intros (v & o & al & i & pr & pu & H1 & H2 & H3 & H4 & H5 & H6 & H7).
    apply (tlv_iff _ _ x01) in H1; [|reflexivity|cbn; lia]. apply (tlv_iff _ _ x03) in H2; [|reflexivity|cbn; lia]. subst v o.
    apply (tlv_iff _ _ x05) in H3; [|reflexivity|cbn; lia]. subst al. apply (tlv_iff _ _ x20) in H4; [|rewrite Ls; reflexivity|rewrite Ls; lia]. subst i.
    apply (tlv_iff _ _ x22) in H5; [|cbn [length]; rewrite Ls; reflexivity|cbn [length]; rewrite Ls; lia]. subst pr.
    apply (tlv_iff _ _ x21) in H6; [|cbn [length]; rewrite Lp; reflexivity|cbn [length]; rewrite Lp; lia]. subst pu.
    apply (tlv_iff _ _ x51) in H7; [|rewrite !app_length; cbn [length]; rewrite Ls, Lp; reflexivity|rewrite !app_length; cbn [length]; rewrite Ls, Lp; cbn; lia]. exact H7.
  - intros ->. exists [x02; x01; x01], [x06; x03; x2b; x65; x70], [x30; x05; x06; x03; x2b; x65; x70], (x04 :: x20 :: s), (x04 :: x22 :: x04 :: x20 :: s), (x81 :: x21 :: x00 :: p).
    split; [apply (tlv_iff _ _ x01); [reflexivity|cbn; lia|reflexivity]|]. split; [apply (tlv_iff _ _ x03); [reflexivity|cbn; lia|reflexivity]|].
    split; [apply (tlv_iff _ _ x05); [reflexivity|cbn; lia|reflexivity]|]. split; [apply (tlv_iff _ _ x20); [rewrite Ls; reflexivity|rewrite Ls; lia|reflexivity]|].
    split; [apply (tlv_iff _ _ x22); [cbn [length]; rewrite Ls; reflexivity|cbn [length]; rewrite Ls; lia|reflexivity]|].
    split; [apply (tlv_iff _ _ x21); [cbn [length]; rewrite Lp; reflexivity|cbn [length]; rewrite Lp; lia|reflexivity]|].
    apply (tlv_iff _ _ x51); [rewrite !app_length; cbn [length]; rewrite Ls, Lp; reflexivity|rewrite !app_length; cbn [length]; rewrite Ls, Lp; cbn; lia|reflexivity].
Qed.
Lemma der_length s p : length s = 32%nat -> length p = 32%nat -> length (pkcs8_der s p) = 83%nat.
Proof. intros Ls Lp. unfold pkcs8_der. rewrite !app_length, Ls, Lp. reflexivity. Qed.
Theorem file_iff eol s p t : length s = 32%nat -> length p = 32%nat -> (key_file eol s p t <-> t = pem_text eol (pkcs8_der s p)).
Proof.
  intros Ls Lp. unfold key_file, pem_text, begin_line, end_line. assert (L := base64_length _ (der_length s p Ls Lp)). split.
  - intros (der & u & body & I & Bs & Li & ->). apply (info_iff s p der Ls Lp) in I. subst der. apply base64_iff in Bs. subst u. apply lines_iff in Li as [_ ->]. reflexivity.
  - intros ->. exists (pkcs8_der s p), (base64 (pkcs8_der s p)), (flat_map (fun l => l ++ eol) (groups 64 (base64 (pkcs8_der s p)))).
    split; [apply info_iff; trivial|]. split; [apply base64_iff; reflexivity|]. split; [|reflexivity]. apply lines_iff. split; [|reflexivity]. intros E. rewrite E in L. discriminate L.
Qed.

(** ** The two lines *)
Lemma pem_two eol der : length der = 83%nat -> exists u1 u2, base64 der = u1 ++ u2 /\ length u1 = 64%nat /\ length u2 = 48%nat /\
  pem_text eol der = begin_line ++ eol ++ u1 ++ eol ++ u2 ++ eol ++ end_line ++ eol.
Proof.
  intros L. apply base64_length in L. set (u := base64 der) in *. exists (firstn 64 u), (skipn 64 u). split; [symmetry; apply firstn_skipn|].
  assert (L1 : length (firstn 64 u) = 64%nat) by (apply firstn_length_le; lia). assert (L2 : length (skipn 64 u) = 48%nat) by (rewrite skipn_length, L; reflexivity).
  split; [exact L1|]. split; [exact L2|]. unfold pem_text. fold u. f_equal. f_equal.
  assert (H : lines eol u (firstn 64 u ++ eol ++ skipn 64 u ++ eol)).
  { rewrite <- (firstn_skipn 64 u) at 1. apply full_line; [exact L1|intros E; rewrite E in L2; discriminate L2|]. apply last_line; [intros E; rewrite E in L2; discriminate L2|lia]. }
  apply lines_iff in H as [_ <-]. rewrite <- !app_assoc. reflexivity.
Qed.
Lemma skip_app {A} n (l r : list A) : length l = n -> skipn n (l ++ r) = r.
Proof. intros <-. rewrite skipn_app, Nat.sub_diag, skipn_O, skipn_all2 by lia. reflexivity. Qed.
Lemma first_app {A} n (l r : list A) : length l = n -> firstn n (l ++ r) = l.
Proof. intros <-. rewrite firstn_app, Nat.sub_diag, firstn_O, app_nil_r. apply firstn_all. Qed.
Lemma der_parts s p : length s = 32%nat -> firstn 32 (skipn 16 (pkcs8_der s p)) = s /\ skipn 51 (pkcs8_der s p) = p.
Proof.
  intros Ls. unfold pkcs8_der. split; [rewrite skip_app by reflexivity; apply first_app; exact Ls|].
  rewrite !app_assoc. apply skip_app. rewrite !app_length, Ls. reflexivity.
Qed.
Lemma pem_lines_of eol der : length der = 83%nat ->
  firstn 64 (skipn (27 + length eol) (pem_text eol der)) ++ firstn 48 (skipn (91 + length eol + length eol) (pem_text eol der)) = base64 der.
Proof.
  intros L. destruct (pem_two eol der L) as (u1 & u2 & -> & L1 & L2 & ->). f_equal.
  - rewrite (app_assoc begin_line). rewrite skip_app by (rewrite app_length; reflexivity). apply first_app. exact L1.
  - replace (begin_line ++ eol ++ u1 ++ eol ++ u2 ++ eol ++ end_line ++ eol) with ((begin_line ++ eol ++ u1 ++ eol) ++ u2 ++ eol ++ end_line ++ eol) by (rewrite <- !app_assoc; reflexivity).
    rewrite skip_app by (rewrite !app_length, L1; change (length begin_line) with 27%nat; lia). apply first_app. exact L2.
Qed.
Theorem read_text pub eol s p : length s = 32%nat -> length p = 32%nat ->
  pem_read pub eol (pem_text eol (pkcs8_der s p)) = if bytes_eqb p (pub s) then Some s else None.
Proof.
  intros Ls Lp. unfold pem_read. cbv zeta. rewrite pem_lines_of by (apply der_length; assumption). rewrite base64_decode. destruct (der_parts s p Ls) as [-> ->]. rewrite Ls, Nat.eqb_refl, bytes_eqb_refl.
  cbn [andb]. rewrite andb_true_r. reflexivity.
Qed.
Lemma text_inj eol s p s' p' : length s = 32%nat -> length p = 32%nat -> length s' = 32%nat -> length p' = 32%nat ->
  pem_text eol (pkcs8_der s p) = pem_text eol (pkcs8_der s' p') -> s = s' /\ p = p'.
Proof.
  intros Ls Lp Ls' Lp' E. assert (H := pem_lines_of eol _ (der_length s p Ls Lp)). rewrite E, (pem_lines_of eol _ (der_length s' p' Ls' Lp')) in H.
  assert (H1 := base64_decode (pkcs8_der s p)). rewrite <- H, base64_decode in H1. apply some_inj in H1. destruct (der_parts s p Ls) as [A1 A2]. destruct (der_parts s' p' Ls') as [B1 B2]. rewrite H1 in B1, B2. split; congruence.
Qed.
Lemma text_length eol s p : length s = 32%nat -> length p = 32%nat -> length (pem_text eol (pkcs8_der s p)) = (164 + 4 * length eol)%nat.
Proof.
  intros Ls Lp. destruct (pem_two eol _ (der_length s p Ls Lp)) as (u1 & u2 & _ & L1 & L2 & ->). rewrite !app_length, L1, L2. change (length begin_line) with 27%nat. change (length end_line) with 25%nat. lia.
Qed.

(** ** Public keys *)
Opaque fieldp groupq gen Edwards.plus Edwards.O Edwards.times enc modp.
Theorem public_iff s p : public_of s p <-> p = secret_to_public modp s.
Proof.
  split.
  - intros (G & a & prefix & A & HG & HX & MA & WA). unfold secret_to_public. apply expanded_iff in HX. rewrite <- HX. pose proof (expand_pos s) as Ha. rewrite <- HX in Ha. cbn [fst] in *.
    rewrite (compress_rep modp modp_spec _ _ (gen_mul_rep modp modp_spec a Ha)). apply base_iff in HG as [SG EG].
    apply multiple_iff in MA; [|rewrite EG; exact gen_on]. destruct MA as [SA EA]. rewrite EG, Z_N_nat in EA. apply written_iff in WA; [|exact SA]. rewrite EA in WA. exact WA.
  - intros ->. destruct (proj2 (signed_iff s _ [] _) (conj eq_refl eq_refl)) as (G & a & prefix & A & R & r & x & H1 & H2 & H3 & H4 & _). exists G, a, prefix, A. auto.
Qed.
Lemma public_length s : length (secret_to_public modp s) = 32%nat.
Proof. exact (proj1 (accepted_size (signed_accepted s []))). Qed.

(** ** Accounts *)
Section Accounts.
  Variable D : deps.
  Hypothesis P : pkcs8 D.
  Lemma account_signs secret (a : account D) :
    (forall kp, length (secret kp) = 32%nat /\ ed_pub_bytes D (ed_pub_key D kp) = secret_to_public modp (secret kp)) ->
    (forall kp m, ed_sign D kp m = ed25519_sign modp (secret kp) m) -> account_of D a (secret (acc_pair a)) (secret_to_public modp (secret (acc_pair a))).
  Proof.
    intros K S. split; [exact (proj2 (K _))|]. intros m sig. rewrite signed_iff. unfold account_sign. rewrite S. split; [intros <-; auto|intros [_ ->]; reflexivity].
  Qed.
  Theorem backup_file (a : account D) : exists eol s p, line_end eol /\ length s = 32%nat /\ length p = 32%nat /\ public_of s p /\ account_of D a s p /\
    forall t, build_pem a = Ok t <-> key_file eol s p t.
  Proof.
    destruct P as (secret & eol & Le & K & S & W & _). exists eol, (secret (acc_pair a)), (secret_to_public modp (secret (acc_pair a))). destruct (K (acc_pair a)) as [L E].
    split; [exact Le|]. split; [exact L|]. split; [apply public_length|]. split; [apply public_iff; reflexivity|]. split; [apply account_signs; assumption|].
    intros t. rewrite file_iff by (exact L || apply public_length). unfold build_pem. rewrite W, E. cbn [map_err]. split; [intros [= <-]; reflexivity|intros ->; reflexivity].
  Qed.
  Theorem file_restores eol s p t : line_end eol -> length s = 32%nat -> length p = 32%nat -> key_file eol s p t ->
    ((exists a, account_from_pem D t = Ok a) <-> public_of s p) /\ forall a, account_from_pem D t = Ok a -> account_of D a s p.
  Proof.
    intros Le Ls Lp F. apply (file_iff eol s p t Ls Lp) in F. subst t. destruct P as (secret & eol' & _ & K & S & _ & R). specialize (R eol s p Le Ls Lp). rewrite public_iff. unfold account_from_pem.
    destruct (ed_from_pem D (pem_text eol (pkcs8_der s p))) as [kp|e]; cbn [map_ok map_err].
    - destruct R as [R1 R2]. split; [split; [intros _; symmetry; exact R2|intros _; eexists; reflexivity]|]. intros a [= <-]. assert (H := account_signs secret {| acc_pair := kp |} K S). cbn [acc_pair] in H. rewrite R1, R2 in H. exact H.
    - split; [split; [intros [a [=]]|intros E; exfalso; apply R; symmetry; exact E]|]. intros a [=].
  Qed.
  Theorem file_damaged eol s p t eol' s' p' t' a a' : line_end eol -> line_end eol' -> length s = 32%nat -> length p = 32%nat -> length s' = 32%nat -> length p' = 32%nat ->
    key_file eol s p t -> key_file eol' s' p' t' -> account_from_pem D t = Ok a -> account_from_pem D t' = Ok a' ->
    (s = s' -> p = p') /\ (p = p' -> s <> s' -> exists q, public_of s q /\ public_of s' q).
  Proof.
    intros Le Le' Ls Lp Ls' Lp' F F' O O'. pose proof (proj1 (proj1 (file_restores _ _ _ _ Le Ls Lp F)) (ex_intro _ a O)) as H.
    pose proof (proj1 (proj1 (file_restores _ _ _ _ Le' Ls' Lp' F')) (ex_intro _ a' O')) as H'. split.
    - intros ->. apply public_iff in H, H'. congruence.
    - intros -> _. eauto.
  Qed.
  Theorem backup_length : exists n, (n = 168 \/ n = 172)%nat /\ forall a t, build_pem (D := D) a = Ok t -> length t = n.
  Proof.
    destruct P as (secret & eol & Le & K & _ & W & _). exists (164 + 4 * length eol)%nat. split; [destruct Le as [->| ->]; cbn; lia|]. intros a t. unfold build_pem. rewrite W. cbn [map_err]. intros [= <-].
    destruct (K (acc_pair a)) as [L E]. rewrite E. apply text_length; [exact L|apply public_length].
  Qed.
End Accounts.
