(** How chrono (0.4.31 and later) reads a timestamp: [str::parse::<DateTime<Utc>>], used for the member [created] of a proof
    (core/src/verifiable/proof/mod.rs:185-200, [validate_created]). It calls [parse_rfc3339_relaxed], [scan::number],
    [scan::nanosecond], [scan::timezone_offset] and [Parsed::to_datetime] (from chrono's published source, which is not in the
    sandbox). Texts are UTF-8 (a Rust [String]). Simplifications: numbers are unbounded instead of 64-bit (a number beyond
    64 bits is beyond the years as well), error texts are left out, and of a leap second the instant after it is given. *)
From Verif Require Import Base Codec JsonParse.
Local Open Scope Z_scope.

(** ** Scanning *)
(** [char::is_whitespace]: one, two or three bytes. *)
Definition white1 (a : byte) : bool := inr 9 13 a || inr 32 32 a.
Definition white2 (a b : byte) : bool := inr 194 194 a && (inr 133 133 b || inr 160 160 b).
Definition white3 (a b c : byte) : bool :=
  (inr 225 225 a && inr 154 154 b && inr 128 128 c) ||
  (inr 226 226 a && inr 128 128 b && (inr 128 138 c || inr 168 169 c || inr 175 175 c)) ||
  (inr 226 226 a && inr 129 129 b && inr 159 159 c) ||
  (inr 227 227 a && inr 128 128 b && inr 128 128 c).
(** [trim_start] and, with [colon], [scan::colon_or_space]. *)
Fixpoint trim_start (colon : bool) (s : bytes) : bytes :=
  match s with
  | a :: r =>
    if white1 a || (colon && beq a ":"%byte) then trim_start colon r else
    match r with
    | b :: r2 =>
      if white2 a b then trim_start colon r2 else
      match r2 with c :: r3 => if white3 a b c then trim_start colon r3 else s | [] => s end
    | [] => s
    end
  | [] => []
  end.
(** [scan::number(s, 1, max)]: the digits, at most [max] of them if given. *)
Fixpoint take_digits (max : nat) (s : bytes) : bytes * bytes :=
  match max, s with
  | S max', c :: r => if is_digit c then let '(d, r') := take_digits max' r in (c :: d, r') else ([], s)
  | _, _ => ([], s)
  end.
Definition number (max : nat) (s : bytes) : option (Z * bytes) :=
  let '(d, r) := take_digits max s in if is_empty d then None else Some (Z.of_N (dec_value d), r).
Definition long_number (s : bytes) : option (Z * bytes) :=
  let '(d, r) := span_digits s in if is_empty d then None else Some (Z.of_N (dec_value d), r).
(** [Item::Numeric]: blanks, then a number; the year may have a sign. *)
Definition field (lo hi : Z) (s : bytes) : option (Z * bytes) :=
  match number 2 (trim_start false s) with
  | Some (n, r) => if (lo <=? n) && (n <=? hi) then Some (n, r) else None
  | None => None
  end.
Definition year_field (s : bytes) : option (Z * bytes) :=
  match trim_start false s with
  | c :: r =>
    if beq c "-"%byte then option_map (fun p => (- fst p, snd p)) (long_number r)
    else if beq c "+"%byte then long_number r
    else number 4 (c :: r)
  | [] => None
  end.
(** [Item::Space], then [Item::Literal]. *)
Definition literal (c : byte) (s : bytes) : option bytes :=
  match trim_start false s with a :: r => if beq a c then Some r else None | [] => None end.
(** [Fixed::Nanosecond] with [scan::nanosecond]: nine digits count. *)
Definition pad9 (d : bytes) : bytes := firstn 9 (d ++ repeat "0"%byte 9).
Definition fraction (s : bytes) : option (Z * bytes) :=
  match s with
  | c :: r =>
    if beq c "."%byte then
      let '(d, r') := span_digits r in if is_empty d then None else Some (Z.of_N (dec_value (pad9 d)), r')
    else Some (0, s)
  | [] => Some (0, [])
  end.
(** [scan::timezone_offset] with its sign (U+2212, too), and the text UTC. *)
Definition two_digits (hi : byte) (s : bytes) : option (Z * bytes) :=
  match s with
  | a :: b :: r => if (inr 48 (Byte.to_N hi) a && is_digit b)%bool then Some (Z.of_N (dec_value [a; b]), r) else None
  | _ => None
  end.
Definition offset_sign (s : bytes) : option (Z * bytes) :=
  match s with
  | a :: r =>
    if beq a "+"%byte then Some (1, r) else if beq a "-"%byte then Some (-1, r)
    else match r with b :: c :: r' => if inr 226 226 a && inr 136 136 b && inr 146 146 c then Some (-1, r') else None | _ => None end
  | [] => None
  end.
Definition is_letter (l : byte) (c : byte) : bool := inr (Byte.to_N l) (Byte.to_N l) c || inr (Byte.to_N l + 32) (Byte.to_N l + 32) c.
Definition numeric_offset (s : bytes) : option (Z * bytes) :=
  match offset_sign s with
  | Some (sg, r) =>
    match two_digits "9"%byte r with
    | Some (h, r1) =>
      match two_digits "5"%byte (trim_start true r1) with
      | Some (m, r2) => Some (sg * (h * 3600 + m * 60), r2)
      | None => None
      end
    | None => None
    end
  | None => None
  end.
Definition offset (s : bytes) : option (Z * bytes) :=
  match s with
  | a :: r =>
    if is_letter "Z"%byte a then Some (0, r)
    else match r with
         | b :: c :: r' => if is_letter "U"%byte a && is_letter "T"%byte b && is_letter "C"%byte c then Some (0, r') else numeric_offset s
         | _ => None
         end
  | [] => None
  end.

(** ** Dates *)
(** Days from 1970-01-01 to a date of the Gregorian calendar. *)
Definition leap (y : Z) : bool := (y mod 4 =? 0) && (negb (y mod 100 =? 0) || (y mod 400 =? 0)).
Definition month_days (y m : Z) : Z :=
  if m =? 2 then if leap y then 29 else 28 else if (m =? 4) || (m =? 6) || (m =? 9) || (m =? 11) then 30 else 31.
Definition before_month (y m : Z) : Z :=
  nth (Z.to_nat m) [0; 0; 31; 59; 90; 120; 151; 181; 212; 243; 273; 304; 334] 0 + (if (2 <? m) && leap y then 1 else 0).
Definition day_number (y m d : Z) : Z :=
  365 * (y - 1) + (y - 1) / 4 - (y - 1) / 100 + (y - 1) / 400 + before_month y m + d - 719163.

Definition option_bind {A C} (x : option A) (f : A -> option C) : option C := match x with Some a => f a | None => None end.
Notation "'do' p <- x ; y" := (option_bind x (fun p => y)) (at level 61, p pattern, x at next level, y at level 200).

(** The instant in nanoseconds since 1970-01-01T00:00:00Z. [lo] and [hi] are the first and last year chrono has, -262143 and
    262142 (other ones in older versions). Simplification: those refused an instant beyond them by a panic. *)
Definition read_time (lo hi : Z) (t : bytes) : option Z :=
  do (y, s) <- year_field t;
  do s <- literal "-"%byte s;
  do (mo, s) <- field 1 12 s;
  do s <- literal "-"%byte s;
  do (d, s) <- field 1 31 s;
  do s <- match s with c :: r => if is_letter "T"%byte c || beq c " "%byte then Some r else None | [] => None end;
  do (h, s) <- field 0 23 s;
  do s <- literal ":"%byte s;
  do (mi, s) <- field 0 59 s;
  do s <- literal ":"%byte s;
  do (se, s) <- field 0 60 s;
  do (ns, s) <- fraction s;
  do (off, s) <- offset (trim_start false s);
  if is_empty (trim_start false s) && (lo <=? y) && (y <=? hi) && (d <=? month_days y mo) && (Z.abs off <? 86400) then
    let secs := day_number y mo d * 86400 + h * 3600 + mi * 60 + se - off in
    if (day_number lo 1 1 <=? (secs - se + Z.min se 59) / 86400) && ((secs - se + Z.min se 59) / 86400 <=? day_number hi 12 31)
    then Some (secs * 1000000000 + ns) else None
  else None.
