(** Specification vocabulary of C88: texts in the bases of the multibase table. *)
From Verif Require Import Base Codec Deps ExactSpec Bases.

(** ** Bits: [k] binary digits of a number, the highest first *)
Fixpoint binary (k : nat) (n : N) : list bool :=
  match k with O => [] | S k' => binary k' (n / 2) ++ [N.odd n] end.
(** The [t]'s characters, each standing for [k] bits by its position in the alphabet, hold the bits of [s] and then fewer
    than [k] zeros. *)
Definition packed (k : nat) (alphabet : bytes) (t s : bytes) : Prop :=
  exists ns z, Forall2 (fun c n => nth_error alphabet (N.to_nat n) = Some c) t ns /\ (z < k)%nat /\
    flat_map (binary k) ns = flat_map (fun b => binary 8 (Byte.to_N b)) s ++ repeat false z.
(** Blocks of up to [octets] bytes, each filled up with equals signs to [chars] characters. *)
Definition padded (k octets chars : nat) (alphabet : bytes) (t s : bytes) : Prop :=
  exists blocks, s = concat (map snd blocks) /\ t = concat (map fst blocks) /\
    Forall (fun '(u, p) => (1 <= length p <= octets)%nat /\ exists v, packed k alphabet v p /\ u = v ++ repeat "="%byte (chars - length v)) blocks.
(** ** Digits: the same number with as many leading zeros *)
Definition radix (alphabet : bytes) (t s : bytes) : Prop :=
  Forall (fun c => In c alphabet) t /\
  number_in (N.of_nat (length alphabet)) (fun c => position c alphabet) t = number256 s /\
  leading (hd x00 alphabet) t = leading x00 s.
Definition either_case (a b : byte) : Prop :=
  a = b \/ In (a, b) (combine (B "ABCDEFGHIJKLMNOPQRSTUVWXYZ") (B "abcdefghijklmnopqrstuvwxyz")) \/
  In (b, a) (combine (B "ABCDEFGHIJKLMNOPQRSTUVWXYZ") (B "abcdefghijklmnopqrstuvwxyz")).
Definition caseless (alphabet : bytes) (t s : bytes) : Prop := exists u, Forall2 either_case t u /\ radix alphabet u s.

(** ** The table (https://github.com/multiformats/multibase): letter, then text *)
Definition small : bytes := B "abcdefghijklmnopqrstuvwxyz".
Definition large : bytes := B "ABCDEFGHIJKLMNOPQRSTUVWXYZ".
Definition numerals : bytes := B "0123456789".
Definition flickr : bytes := B "123456789abcdefghijkmnopqrstuvwxyzABCDEFGHJKLMNPQRSTUVWXYZ".
Definition zooko : bytes := B "ybndrfg8ejkmcpqxot1uwisza345h769".
Definition table : list (byte * (bytes -> bytes -> Prop)) :=
  let b32 l := l ++ B "234567" in
  let hex32 l := numerals ++ firstn 22 l in
  let b64 e := large ++ small ++ numerals ++ e in
  [("0"%byte, packed 1 (B "01")); ("7"%byte, packed 3 (B "01234567")); ("9"%byte, radix numerals);
   ("b"%byte, packed 5 (b32 small)); ("B"%byte, packed 5 (b32 large));
   ("c"%byte, padded 5 5 8 (b32 small)); ("C"%byte, padded 5 5 8 (b32 large));
   ("v"%byte, packed 5 (hex32 small)); ("V"%byte, packed 5 (hex32 large));
   ("t"%byte, padded 5 5 8 (hex32 small)); ("T"%byte, padded 5 5 8 (hex32 large));
   ("h"%byte, packed 5 zooko);
   ("k"%byte, caseless (numerals ++ small)); ("K"%byte, caseless (numerals ++ large));
   ("Z"%byte, radix flickr);
   ("m"%byte, packed 6 (b64 (B "+/"))); ("M"%byte, padded 6 3 4 (b64 (B "+/")));
   ("u"%byte, packed 6 (b64 (B "-_"))); ("U"%byte, padded 6 3 4 (b64 (B "-_")))].
(** [t] is a text of [s] in the base with letter [c]. *)
Definition text_in (c : byte) (t s : bytes) : Prop := exists R r, In (c, R) table /\ t = c :: r /\ R r s.

(** The dependency multibase 0.9 (later versions have one more base, for texts of emojis starting with a rocket). *)
Definition rocket : bytes := [xf0; x9f; x9a; x80].
Definition multibase09 (D : deps) : Prop :=
  forall t, (forall r, t <> rocket ++ r) -> mb_other D t = other_bases t.
