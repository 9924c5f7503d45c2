(** Collisions of the hash functions, down to their compression functions. The crate takes its hash functions
    from [sha2] and [blake3] (core/Cargo.toml); what is said here is about SHA-256, SHA-384 and BLAKE3 themselves
    ([Hash], checked against published vectors in [HashFacts]). *)
From Verif Require Import Base Codec Json Deps Types Proof Vc JsonSpec VcSpec Spec SuiteSpec Hash.
Set Implicit Arguments.

(** Two different inputs, one in each list, with the same output. *)
Definition clash {A} (out : A -> bytes) (xs ys : list A) : Prop :=
  exists x y, In x xs /\ In y ys /\ x <> y /\ out x = out y.

(** ** SHA-2: the calls of the compression function, each a state and a block. *)
Fixpoint calls (f : list N -> bytes -> list N) (st : list N) (blocks : list bytes) : list (list N * bytes) :=
  match blocks with [] => [] | b :: bs => (st, b) :: calls f (f st b) bs end.
Definition sha_calls (p : sha_params) (iv : list N) (m : bytes) : list (list N * bytes) :=
  calls (sha_block p) iv (chunks (16 * N.to_nat (sw p / 8)) (sha_pad p m)).
Definition sha_out (p : sha_params) (c : list N * bytes) : bytes :=
  flat_map (be_bytes (N.to_nat (sw p / 8))) (sha_block p (fst c) (snd c)).
(** The 256 bits a call of SHA-256's compression function gives, and the first 384 of the 512 of SHA-512's. *)
Definition sha256_calls : bytes -> list (list N * bytes) := sha_calls sha256_params iv256.
Definition sha256_out : list N * bytes -> bytes := sha_out sha256_params.
Definition sha384_calls : bytes -> list (list N * bytes) := sha_calls sha512_params iv384.
Definition sha384_out (c : list N * bytes) : bytes := firstn 48 (sha_out sha512_params c).
(** FIPS 180-4 defines SHA-256 for messages below 2^64 bits, SHA-384 for messages below 2^128 bits. *)
Definition sha256_domain (m : bytes) : Prop := (N.of_nat (length m) < 2 ^ 61)%N.
Definition sha384_domain (m : bytes) : Prop := (N.of_nat (length m) < 2 ^ 125)%N.

(** ** BLAKE3: chaining value, sixteen words, counter, length of the block, flags. *)
Definition b3_call : Type := (list N * list N * N * N * N)%type.
Definition b3_out (c : b3_call) : bytes :=
  let '(cv, ws, counter, blen, flags) := c in flat_map (le_bytes 4) (b3_compress cv ws counter blen flags).
Fixpoint b3_block_calls (cv : list N) (counter start extra : N) (blocks : list bytes) : list b3_call :=
  match blocks with
  | [] => []
  | [b] => [(cv, b3_words b, counter, N.of_nat (length b), start + 2 + extra)%N]
  | b :: bs => (cv, b3_words b, counter, N.of_nat (length b), start) ::
               b3_block_calls (b3_compress cv (b3_words b) counter (N.of_nat (length b)) start) counter 0 extra bs
  end.
Definition b3_chunk_calls (counter extra : N) (chunk : bytes) : list b3_call :=
  b3_block_calls b3_iv counter 1 extra (match chunk with [] => [[]] | _ => chunks 64 chunk end).
Fixpoint b3_tree_calls (fuel : nat) (counter extra : N) (cs : list bytes) : list b3_call :=
  match fuel, cs with
  | O, _ => []
  | _, [] => b3_chunk_calls counter extra []
  | _, [c] => b3_chunk_calls counter extra c
  | S f, _ =>
    let k := left_len (N.of_nat (length cs)) in
    let l := firstn (N.to_nat k) cs in
    let r := skipn (N.to_nat k) cs in
    b3_tree_calls f counter 0 l ++ b3_tree_calls f (counter + k) 0 r ++
    [(b3_iv, b3_tree f counter 0 l ++ b3_tree f (counter + k) 0 r, 0, 64, 4 + extra)%N]
  end.
Definition blake3_calls (m : bytes) : list b3_call :=
  let cs := chunks 1024 m in b3_tree_calls (S (length cs)) 0 8 cs.

(** ** The crate's hash functions are the real ones. *)
Definition real_hashes (D : deps) : Prop :=
  (forall m, sha256 D m = real_sha256 m) /\ (forall m, sha384 D m = real_sha384 m) /\
  (forall m, blake3 D m = real_blake3 m).
(** The texts of a signing and the accepted texts lead the compression function of SHA-256 to the same output by
    different inputs. *)
Definition compression_collision (D : deps) (history : list signing) (o : proof) (j : json) : Prop :=
  exists s, In s history /\
    (clash sha256_out (sha256_calls (canonical D (proof_json (signing_options s)))) (sha256_calls (canonical D (proof_json o))) \/
     clash sha256_out (sha256_calls (canonical D (signing_json s))) (sha256_calls (canonical D j))).
(** Options and document are short enough for SHA-256. *)
Definition in_domain (D : deps) (o : proof) (j : json) : Prop :=
  sha256_domain (canonical D (proof_json o)) /\ sha256_domain (canonical D j).
