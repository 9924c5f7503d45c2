(** Output sizes of the executable hash functions, and published test vectors. *)
From Verif Require Import Base BaseFacts Codec Hash.
Open Scope N_scope.
Set Implicit Arguments.

Lemma be_bytes_length k x : length (be_bytes k x) = k.
Proof. revert x; induction k; intros; cbn [be_bytes]; auto. rewrite app_length, IHk. cbn. lia. Qed.
Lemma le_bytes_length k x : length (le_bytes k x) = k.
Proof. revert x; induction k; intros; cbn [le_bytes length]; auto. Qed.
Lemma flat_map_length {A C} (f : A -> list C) k l :
  (forall x, length (f x) = k) -> length (flat_map f l) = (length l * k)%nat.
Proof. intros H. induction l; cbn; auto. rewrite app_length, H, IHl. lia. Qed.
Lemma zip_add_length w a b : length a = length b -> length (zip_add w a b) = length a.
Proof. revert b; induction a as [|x a IH]; intros [|y b]; cbn [length zip_add]; intros H; try lia. rewrite IH; lia. Qed.
Lemma sha_round_length p st kw : length (sha_round p st kw) = length st.
Proof. do 9 (destruct st as [|? st]; try reflexivity). Qed.
Lemma fold_inv {A C} (P : A -> Prop) (f : A -> C -> A) l a : P a -> (forall a c, P a -> P (f a c)) -> P (fold_left f l a).
Proof. intros H Hf. revert a H. induction l; cbn; auto. Qed.
Lemma sha_block_length p st b : length (sha_block p st b) = length st.
Proof.
  unfold sha_block. apply zip_add_length.
  assert (H : length (fold_left (sha_round p) (combine (s_k p) (map be_word (chunks (N.to_nat (sw p / 8)) b) ++
    schedule p (s_rounds p - 16) (rev (map be_word (chunks (N.to_nat (sw p / 8)) b))))) st) = length st).
  { apply (@fold_inv _ _ (fun x => length x = length st)); auto. intros. rewrite sha_round_length. auto. }
  auto.
Qed.
Lemma sha_state_length p iv m : length (sha_state p iv m) = length iv.
Proof.
  unfold sha_state. apply (@fold_inv _ _ (fun x => length x = length iv)); auto.
  intros. rewrite sha_block_length. auto.
Qed.

Theorem real_sha256_size m : length (real_sha256 m) = 32%nat.
Proof.
  unfold real_sha256. rewrite (@flat_map_length _ _ _ 4) by apply be_bytes_length. rewrite sha_state_length. reflexivity.
Qed.
Theorem real_sha384_size m : length (real_sha384 m) = 48%nat.
Proof.
  unfold real_sha384. rewrite firstn_length.
  rewrite (@flat_map_length _ _ _ 8) by apply be_bytes_length. rewrite sha_state_length. reflexivity.
Qed.

Lemma b3_compress_length cv b c l f : length (b3_compress cv b c l f) = 8%nat.
Proof. unfold b3_compress. rewrite map_length. reflexivity. Qed.
Lemma b3_blocks_length bs cv c s e : length cv = 8%nat -> length (b3_blocks cv c s e bs) = 8%nat.
Proof.
  revert cv s. induction bs as [|b bs IH]; intros cv s H; [exact H|].
  destruct bs as [|b' bs].
  - cbn [b3_blocks]. apply b3_compress_length.
  - change (b3_blocks cv c s e (b :: b' :: bs))
      with (b3_blocks (b3_compress cv (b3_words b) c (N.of_nat (length b)) s) c 0 e (b' :: bs)).
    apply IH. apply b3_compress_length.
Qed.
Lemma b3_tree_length fuel c e cs : length (b3_tree fuel c e cs) = 8%nat.
Proof.
  destruct fuel as [|f]; [reflexivity|]. destruct cs as [|x [|y cs]]; cbn [b3_tree].
  - unfold b3_chunk. apply b3_blocks_length. reflexivity.
  - unfold b3_chunk. apply b3_blocks_length. reflexivity.
  - unfold b3_parent. apply b3_compress_length.
Qed.
Theorem real_blake3_size m : length (real_blake3 m) = 32%nat.
Proof.
  unfold real_blake3. rewrite (@flat_map_length _ _ _ 4) by apply le_bytes_length. rewrite b3_tree_length. reflexivity.
Qed.

(** Test vectors (FIPS 180-4 examples; BLAKE3 reference vectors for 0, 1024 and 1025 bytes). *)
Definition hex_of (s : bytes) : string := string_of_list_byte (hex_encode s).
Example sha256_abc : hex_of (real_sha256 (B "abc")) = "ba7816bf8f01cfea414140de5dae2223b00361a396177a9cb410ff61f20015ad"%string.
Proof. vm_compute. reflexivity. Qed.
Example sha384_abc : hex_of (real_sha384 (B "abc")) =
  "cb00753f45a35e8bb5a03d699ac65007272c32ab0eded1631a8b605a43ff5bed8086072ba1e7cc2358baeca134c825a7"%string.
Proof. vm_compute. reflexivity. Qed.
Definition b3_input (n : nat) : bytes := map (fun i => byte_of_N (N.of_nat i mod 251)) (seq 0 n).
Example blake3_0 : hex_of (real_blake3 []) = "af1349b9f5f9a1a6a0404dea36dcc9499bcb25c9adc112b7cc9a93cae41f3262"%string.
Proof. vm_compute. reflexivity. Qed.
Example blake3_1024 : hex_of (real_blake3 (b3_input 1024)) = "42214739f095a406f3fc83deb889744ac00df831c10daa55189b5d121c855af7"%string.
Proof. vm_compute. reflexivity. Qed.
Example blake3_1025 : hex_of (real_blake3 (b3_input 1025)) = "d00278ae47eb27b34faecf67b4fe263f82d5412916c1ffd97c8cb7fb814b8444"%string.
Proof. vm_compute. reflexivity. Qed.
