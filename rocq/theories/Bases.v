(** The remaining bases of the multibase crate (0.9): [multibase::decode] is what reads the proof value of a document
    (core/src/verifiable/proof/eddsa.rs:89-91, [verify_proof]), the public keys of key pairs and DID documents
    (core/src/keys/verification.rs:39, core/src/keys/agreement.rs:34, core/src/doc/mod.rs:76,92), and hashlinks (core/src/hashlink.rs:32).
    [Codec.mb_decode] leaves the bases other than base58btc, base16 and identity open; they are given here, after the
    published sources of multibase 0.9.1, data-encoding and base-x, which are not in the sandbox. *)
From Verif Require Import Base Codec.
Set Implicit Arguments.

(** ** data-encoding: characters of [k] bits *)
(** [k] bits of a number, the most significant first, and back. *)
Fixpoint bits_of (k : nat) (n : N) : list bool :=
  match k with O => [] | S k' => N.testbit n (N.of_nat k') :: bits_of k' n end.
Definition of_bits (l : list bool) : N := fold_left (fun (n : N) (b : bool) => 2 * n + (if b then 1 else 0))%N l 0%N.
(** Groups of [k]. *)
Fixpoint groups_fuel {A} (fuel k : nat) (l : list A) : list (list A) :=
  match fuel, l with
  | S f, _ :: _ => firstn k l :: groups_fuel f k (skipn k l)
  | _, _ => []
  end.
Definition groups {A} (k : nat) (l : list A) : list (list A) := groups_fuel (length l) k l.
(** How many zero bits fill up the last character. *)
Definition missing (k n : nat) : nat := ((k - n mod k) mod k)%nat.
(** [Encoding::encode] without padding. *)
Definition bits_encode (k : nat) (alphabet : bytes) (s : bytes) : bytes :=
  let l := flat_map (fun b => bits_of 8 (Byte.to_N b)) s in
  map (fun g => nth (N.to_nat (of_bits g)) alphabet x00) (groups k (l ++ repeat false (missing k (length l)))).
(** [Encoding::decode] without padding: every character in the alphabet, no character too many, and (as by default,
    [check_trailing_bits]) only zeros in the bits left over. *)
Definition bits_decode (k : nat) (alphabet : bytes) (t : bytes) : option bytes :=
  match map_opt (fun c => find_index c alphabet 0) t with
  | Some vs =>
    let l := flat_map (bits_of k) vs in
    let n := (8 * (length l / 8))%nat in
    if ((length l - n <? k)%nat && forallb negb (skipn n l))%bool
    then Some (map (fun g => byte_of_N (of_bits g)) (groups 8 (firstn n l)))
    else None
  | None => None
  end.
(** With padding, a block of [octets] bytes is [chars] characters, filled up with equals signs. *)
Definition pad_block (k chars : nat) (alphabet : bytes) (s : bytes) : bytes :=
  let u := bits_encode k alphabet s in u ++ repeat "="%byte (chars - length u).
Definition pad_encode (k octets chars : nat) (alphabet : bytes) (s : bytes) : bytes :=
  flat_map (pad_block k chars alphabet) (groups octets s).
(** The text without the equals signs at its end ([check_pad]). *)
Fixpoint unpad (t : bytes) : bytes :=
  match t with
  | [] => []
  | c :: r => match unpad r with [] => if beq c "="%byte then [] else [c] | u => c :: u end
  end.
Definition decode_block (k chars : nat) (alphabet : bytes) (t : bytes) : option bytes :=
  if (length t =? chars)%nat && negb (is_empty (unpad t)) then bits_decode k alphabet (unpad t) else None.
(** [Encoding::decode] with padding: block by block (equals signs may end any block, not just the last). *)
Definition pad_decode (k chars : nat) (alphabet : bytes) (t : bytes) : option bytes :=
  option_map (@concat byte) (map_opt (decode_block k chars alphabet) (groups chars t)).

(** ** base-x: digits of a large number *)
Definition radix_encode (alphabet : bytes) (s : bytes) : bytes :=
  map (fun d => nth (N.to_nat d) alphabet x00) (conv 256 (N.of_nat (length alphabet)) (map Byte.to_N s)).
Definition radix_decode (alphabet : bytes) (t : bytes) : option bytes :=
  option_map (fun ds => map byte_of_N (conv (N.of_nat (length alphabet)) 256 ds)) (map_opt (fun c => find_index c alphabet 0) t).
(** [to_ascii_lowercase] and [to_ascii_uppercase]. *)
Definition lower_case (c : byte) : byte := if inr 65 90 c then byte_of_N (Byte.to_N c + 32) else c.
Definition upper_case (c : byte) : byte := if inr 97 122 c then byte_of_N (Byte.to_N c - 32) else c.

(** ** The bases *)
Inductive kind :=
| Packed (k : nat) (alphabet : bytes)                        (* characters of k bits *)
| Padded (k octets chars : nat) (alphabet : bytes)           (* the same with padding *)
| Radix (alphabet : bytes)                                   (* digits *)
| Folded (case : byte -> byte) (alphabet : bytes).           (* digits of either case *)
Definition lower32 : bytes := B "abcdefghijklmnopqrstuvwxyz234567".
Definition upper32 : bytes := B "ABCDEFGHIJKLMNOPQRSTUVWXYZ234567".
Definition lower32hex : bytes := B "0123456789abcdefghijklmnopqrstuv".
Definition upper32hex : bytes := B "0123456789ABCDEFGHIJKLMNOPQRSTUV".
Definition alphabet64 : bytes := B "ABCDEFGHIJKLMNOPQRSTUVWXYZabcdefghijklmnopqrstuvwxyz0123456789+/".
Definition alphabet64url : bytes := B "ABCDEFGHIJKLMNOPQRSTUVWXYZabcdefghijklmnopqrstuvwxyz0123456789-_".
(** [Base::from_code]: the bases by their letters, without those of [Codec.mb_decode]. *)
Definition kinds : list (byte * kind) := [
  ("0"%byte, Packed 1 (B "01"));
  ("7"%byte, Packed 3 (B "01234567"));
  ("9"%byte, Radix (B "0123456789"));
  ("b"%byte, Packed 5 lower32); ("B"%byte, Packed 5 upper32);
  ("c"%byte, Padded 5 5 8 lower32); ("C"%byte, Padded 5 5 8 upper32);
  ("v"%byte, Packed 5 lower32hex); ("V"%byte, Packed 5 upper32hex);
  ("t"%byte, Padded 5 5 8 lower32hex); ("T"%byte, Padded 5 5 8 upper32hex);
  ("h"%byte, Packed 5 (B "ybndrfg8ejkmcpqxot1uwisza345h769"));
  ("k"%byte, Folded lower_case (B "0123456789abcdefghijklmnopqrstuvwxyz"));
  ("K"%byte, Folded upper_case (B "0123456789ABCDEFGHIJKLMNOPQRSTUVWXYZ"));
  ("Z"%byte, Radix (B "123456789abcdefghijkmnopqrstuvwxyzABCDEFGHJKLMNPQRSTUVWXYZ"));
  ("m"%byte, Packed 6 alphabet64); ("M"%byte, Padded 6 3 4 alphabet64);
  ("u"%byte, Packed 6 alphabet64url); ("U"%byte, Padded 6 3 4 alphabet64url)].
Definition kind_encode (x : kind) (s : bytes) : bytes :=
  match x with
  | Packed k a => bits_encode k a s
  | Padded k n m a => pad_encode k n m a s
  | Radix a | Folded _ a => radix_encode a s
  end.
Definition kind_decode (x : kind) (t : bytes) : option bytes :=
  match x with
  | Packed k a => bits_decode k a t
  | Padded k n m a => pad_decode k m a t
  | Radix a => radix_decode a t
  | Folded f a => radix_decode a (map f t)
  end.
Definition find_kind (c : byte) : option kind := option_map snd (find (fun p => beq (fst p) c) kinds).
(** [multibase::decode] for these bases; their number is the letter's. *)
Definition other_bases (t : bytes) : option (N * bytes) :=
  match t with
  | c :: r => match find_kind c with Some x => option_map (pair (Byte.to_N c)) (kind_decode x r) | None => None end
  | [] => None
  end.
(** [multibase::encode] in one of these bases (the crate never calls it). *)
Definition encode_in (c : byte) (x : kind) (s : bytes) : bytes := c :: kind_encode x s.
