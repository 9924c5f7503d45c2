(** [serde_json::from_slice] (core/src/verifiable/vc.rs:132, core/src/verifiable/vp.rs:134) and the
    [Deserialize] implementations derived for the crate's structs, at the level of bytes.
    serde_json 1.0 is a dependency; the definitions follow its [de.rs]/[read.rs].
    Every parser returns the value and the unread input, or [None] for any error. *)
From Verif Require Import Base Codec Json.
Set Implicit Arguments.

(** [parse_whitespace]. *)
Definition is_ws (c : byte) : bool := beq c x20 || beq c x0a || beq c x09 || beq c x0d.
Fixpoint skip_ws (s : bytes) : bytes :=
  match s with c :: r => if is_ws c then skip_ws r else s | [] => [] end.

(** [parse_ident]: the rest of a literal. *)
Fixpoint strip (lit s : bytes) : option bytes :=
  match lit, s with
  | [], _ => Some s
  | a :: lit', b :: s' => if beq a b then strip lit' s' else None
  | _ :: _, [] => None
  end.

(** ** Strings *)
(** UTF-8 encoding of a code point ([char::encode_utf8]). *)
Definition utf8_encode (n : N) : bytes :=
  (if n <? 128 then [byte_of_N n]
   else if n <? 2048 then [byte_of_N (192 + n / 64); byte_of_N (128 + n mod 64)]
   else if n <? 65536 then
     [byte_of_N (224 + n / 4096); byte_of_N (128 + n / 64 mod 64); byte_of_N (128 + n mod 64)]
   else
     [byte_of_N (240 + n / 262144); byte_of_N (128 + n / 4096 mod 64);
      byte_of_N (128 + n / 64 mod 64); byte_of_N (128 + n mod 64)])%N.

(** [decode_hex_escape]: four hex digits of either case. *)
Definition hex4 (a b c d : byte) : option N :=
  match hex_val a, hex_val b, hex_val c, hex_val d with
  | Some x, Some y, Some z, Some w => Some (((x * 16 + y) * 16 + z) * 16 + w)%N
  | _, _, _, _ => None
  end.

(** The short escapes of [parse_escape]. *)
Definition short_escape (e : byte) : option byte :=
  if beq e q_quote then Some q_quote
  else if beq e q_bslash then Some q_bslash
  else if beq e "/"%byte then Some "/"%byte
  else if beq e "b"%byte then Some x08
  else if beq e "f"%byte then Some x0c
  else if beq e "n"%byte then Some x0a
  else if beq e "r"%byte then Some x0d
  else if beq e "t"%byte then Some x09
  else None.

Definition prepend (p : bytes) (o : option (bytes * bytes)) : option (bytes * bytes) :=
  option_map (fun '(a, r) => (p ++ a, r)) o.

(** [parse_str_bytes] after the opening quote: decoded bytes and rest after the closing quote.
    Control characters and lone surrogates are errors. *)
Fixpoint str_body (s : bytes) : option (bytes * bytes) :=
  match s with
  | [] => None
  | c :: r =>
    if beq c q_quote then Some ([], r)
    else if beq c q_bslash then
      match r with
      | [] => None
      | e :: r1 =>
        if beq e "u"%byte then
          match r1 with
          | a :: b :: c1 :: d :: r2 =>
            match hex4 a b c1 d with
            | None => None
            | Some n =>
              if ((n <? 55296) || (57343 <? n))%N then prepend (utf8_encode n) (str_body r2)
              else if (56320 <=? n)%N then None           (* lone trailing surrogate *)
              else
                match r2 with
                | p :: q :: a2 :: b2 :: c2 :: d2 :: r3 =>
                  if beq p q_bslash && beq q "u"%byte then
                    match hex4 a2 b2 c2 d2 with
                    | None => None
                    | Some m =>
                      if ((m <? 56320) || (57343 <? m))%N then None
                      else prepend (utf8_encode ((n - 55296) * 1024 + (m - 56320) + 65536)%N) (str_body r3)
                    end
                  else None
                | _ => None
                end
            end
          | _ => None
          end
        else match short_escape e with
             | Some x => prepend [x] (str_body r1)
             | None => None
             end
      end
    else if inr 0 31 c then None
    else prepend [c] (str_body r)
  end.

(** [parse_str] after the opening quote: the decoded bytes must be UTF-8. *)
Definition parse_str (s : bytes) : option (bytes * bytes) :=
  match str_body s with
  | Some (t, r) => if utf8_valid t then Some (t, r) else None
  | None => None
  end.

(** [ignore_str]: escapes are only checked for shape, the bytes are not checked for UTF-8. *)
Fixpoint ignore_str (s : bytes) : option bytes :=
  match s with
  | [] => None
  | c :: r =>
    if beq c q_quote then Some r
    else if beq c q_bslash then
      match r with
      | [] => None
      | e :: r1 =>
        if beq e "u"%byte then
          match r1 with
          | a :: b :: c1 :: d :: r2 => match hex4 a b c1 d with Some _ => ignore_str r2 | None => None end
          | _ => None
          end
        else match short_escape e with Some _ => ignore_str r1 | None => None end
      end
    else if inr 0 31 c then None
    else ignore_str r
  end.

(** ** Numbers *)
Definition is_digit (c : byte) : bool := inr 48 57 c.
Fixpoint span_digits (s : bytes) : bytes * bytes :=
  match s with
  | c :: r => if is_digit c then let '(d, r') := span_digits r in (c :: d, r') else ([], s)
  | [] => ([], [])
  end.
Definition dec_value (ds : bytes) : N := fold_left (fun n c => (n * 10 + (Byte.to_N c - 48))%N) ds 0%N.

(** Integer part: a single 0, or a nonzero digit followed by digits. *)
Definition scan_int (s : bytes) : option (bytes * bytes) :=
  match span_digits s with
  | ([], _) => None
  | (c :: ds, r) => if beq c "0"%byte && negb (is_empty ds) then None else Some (c :: ds, r)
  end.
(** Optional fraction: '.' and at least one digit. *)
Definition scan_frac (s : bytes) : option (bytes * bytes) :=
  match s with
  | c :: r =>
    if beq c "."%byte then
      match span_digits r with ([], _) => None | (ds, r') => Some (c :: ds, r') end
    else Some ([], s)
  | [] => Some ([], [])
  end.
(** Optional exponent: 'e' or 'E', optional sign, at least one digit. *)
Definition scan_exp (s : bytes) : option (bytes * bytes) :=
  match s with
  | c :: r =>
    if beq c "e"%byte || beq c "E"%byte then
      let '(sg, r1) := match r with
                       | g :: r0 => if beq g "+"%byte || beq g "-"%byte then ([g], r0) else ([], r)
                       | [] => ([], r)
                       end in
      match span_digits r1 with ([], _) => None | (ds, r') => Some (c :: sg ++ ds, r') end
    else Some ([], s)
  | [] => Some ([], [])
  end.

(** [parse_any_number] ([neg]: a minus sign has been read). Plain integers that fit become u64 or
    negative i64; "-0", larger integers, and texts with a fraction or exponent go through the f64
    conversion [f64] (which fails when out of range). *)
Definition parse_number (f64 : bytes -> option N) (neg : bool) (s : bytes) : option (number * bytes) :=
  match scan_int s with
  | None => None
  | Some (ds, r1) =>
    match scan_frac r1 with
    | None => None
    | Some (fr, r2) =>
      match scan_exp r2 with
      | None => None
      | Some (ex, r3) =>
        let n := dec_value ds in
        let as_float := option_map (fun b => (Float b, r3))
                                   (f64 ((if neg then B "-" else []) ++ ds ++ fr ++ ex)) in
        if is_empty fr && is_empty ex then
          if neg then
            if (n =? 0)%N then as_float
            else if (n <=? 2 ^ 63)%N then Some (NegInt n, r3) else as_float
          else if (n <? 2 ^ 64)%N then Some (PosInt n, r3) else as_float
        else as_float
      end
    end
  end.

(** [ignore_integer] and what follows. *)
Definition ignore_number (s : bytes) : option bytes :=
  match scan_int s with
  | None => None
  | Some (_, r1) =>
    match scan_frac r1 with
    | None => None
    | Some (_, r2) => match scan_exp r2 with None => None | Some (_, r3) => Some r3 end
    end
  end.

(** ** Sequences and maps *)
Inductive step (K : Type) :=
| Stop (rest : bytes)              (* closing bracket read *)
| More (k : K) (rest : bytes)      (* positioned at an element / after [key:] *)
| Fail.
Arguments Stop {K} rest.
Arguments More {K} k rest.
Arguments Fail {K}.

(** [SeqAccess::next_element_seed] followed, at the end, by [end_seq]. *)
Definition next_elem (first : bool) (s : bytes) : step unit :=
  match skip_ws s with
  | [] => Fail
  | c :: r =>
    if beq c "]"%byte then Stop r
    else if first then More tt (c :: r)
    else if beq c ","%byte then
      match skip_ws r with
      | [] => Fail
      | c' :: r' => if beq c' "]"%byte then Fail else More tt (c' :: r')
      end
    else Fail
  end.

(** [parse_object_colon]. *)
Definition colon (s : bytes) : option bytes :=
  match skip_ws s with c :: r => if beq c ":"%byte then Some r else None | [] => None end.

(** [MapAccess::next_key_seed] and the colon of [next_value_seed]; [key] reads a key after its
    opening quote. *)
Definition next_key {K} (key : bytes -> option (K * bytes)) (first : bool) (s : bytes) : step K :=
  let read r := match key r with
                | Some (k, r1) => match colon r1 with Some r2 => More k r2 | None => Fail end
                | None => Fail
                end in
  match skip_ws s with
  | [] => Fail
  | c :: r =>
    if beq c "}"%byte then Stop r
    else if first then (if beq c q_quote then read r else Fail)
    else if beq c ","%byte then
      match skip_ws r with
      | [] => Fail
      | c' :: r' => if beq c' q_quote then read r' else Fail
      end
    else Fail
  end.

(** [visit_seq] of a Vec. The fuel bounds the number of elements; callers pass more than the number of
    input bytes, and every element reads at least one (see [JsonParseFacts]). *)
Fixpoint seq_loop {A} (elem : bytes -> option (A * bytes)) (fuel : nat) (first : bool) (s : bytes)
  : option (list A * bytes) :=
  match fuel with
  | O => None
  | S f =>
    match next_elem first s with
    | Fail => None
    | Stop r => Some ([], r)
    | More _ r =>
      match elem r with
      | None => None
      | Some (x, r1) =>
        match seq_loop elem f false r1 with
        | None => None
        | Some (xs, r2) => Some (x :: xs, r2)
        end
      end
    end
  end.

(** [visit_map]: a fold over the members in input order. *)
Fixpoint map_loop {K A} (key : bytes -> option (K * bytes)) (member : A -> K -> bytes -> option (A * bytes))
  (fuel : nat) (first : bool) (st : A) (s : bytes) : option (A * bytes) :=
  match fuel with
  | O => None
  | S f =>
    match next_key key first s with
    | Fail => None
    | Stop r => Some (st, r)
    | More k r =>
      match member st k r with
      | None => None
      | Some (st', r1) => map_loop key member f false st' r1
      end
    end
  end.

(** [check_recursion!]: [remaining_depth] (initially 128) is decremented on entering a container and
    must not reach zero. *)
Definition enter (d : nat) : option nat :=
  match d with S (S d') => Some (S d') | _ => None end.

(** [Value::deserialize] ([deserialize_any]) with remaining depth [d]. Objects are collected into a
    BTreeMap, the last of several equal keys wins. *)
Fixpoint de_value (f64 : bytes -> option N) (d : nat) (s : bytes) {struct d} : option (json * bytes) :=
  match skip_ws s with
  | [] => None
  | c :: r =>
    if beq c "n"%byte then option_map (pair JNull) (strip (B "ull") r)
    else if beq c "t"%byte then option_map (pair (JBool true)) (strip (B "rue") r)
    else if beq c "f"%byte then option_map (pair (JBool false)) (strip (B "alse") r)
    else if beq c "-"%byte then option_map (fun '(n, r') => (JNum n, r')) (parse_number f64 true r)
    else if is_digit c then option_map (fun '(n, r') => (JNum n, r')) (parse_number f64 false (c :: r))
    else if beq c q_quote then option_map (fun '(t, r') => (JStr t, r')) (parse_str r)
    else if beq c "["%byte then
      match d with
      | S (S _ as d') =>
        option_map (fun '(l, r') => (JArr l, r'))
                   (seq_loop (de_value f64 d') (S (length r)) true r)
      | _ => None
      end
    else if beq c "{"%byte then
      match d with
      | S (S _ as d') =>
        option_map (fun '(m, r') => (JObj m, r'))
          (map_loop parse_str
             (fun m k r0 => option_map (fun '(v, r') => (obj_insert k v m, r')) (de_value f64 d' r0))
             (S (length r)) true [] r)
      | _ => None
      end
    else None
  end.

(** [ignore_value] (values of unknown members): the same grammar, but without recursion limit, number
    range checks or UTF-8 checks. (serde_json uses an explicit stack; written here recursively.) *)
Fixpoint skip_value (fuel : nat) (s : bytes) : option bytes :=
  match fuel with
  | O => None
  | S f =>
    match skip_ws s with
    | [] => None
    | c :: r =>
      if beq c "n"%byte then strip (B "ull") r
      else if beq c "t"%byte then strip (B "rue") r
      else if beq c "f"%byte then strip (B "alse") r
      else if beq c "-"%byte then ignore_number r
      else if is_digit c then ignore_number (c :: r)
      else if beq c q_quote then ignore_str r
      else if beq c "["%byte then
        option_map snd (seq_loop (fun r0 => option_map (pair tt) (skip_value f r0)) f true r)
      else if beq c "{"%byte then
        option_map snd (map_loop (fun r0 => option_map (pair tt) (ignore_str r0))
                                 (fun _ _ r0 => option_map (pair tt) (skip_value f r0)) f true tt r)
      else None
    end
  end.
Definition ignore_value (s : bytes) : option bytes := skip_value (S (length s)) s.

(** ** Derived implementations *)
(** The shapes of the types that derive [Serialize]/[Deserialize] in this crate. A struct field is
    (name, skip_serializing_if = "Option::is_none", shape). *)
Inductive schema :=
| SString
| SValue
| SOption (sc : schema)
| SVec (sc : schema)
| SEnum (names : list bytes)
| SStruct (fs : list (bytes * bool * schema)).

(** Values of those shapes. *)
Inductive data :=
| DStr (s : bytes)
| DVal (j : json)
| DNone
| DSome (x : data)
| DVec (l : list data)
| DEnum (name : bytes)
| DStruct (l : list data).

Definition is_option (sc : schema) : bool := match sc with SOption _ => true | _ => false end.

(** A field as the struct visitor sees it: name, whether it is an Option, its deserializer. *)
Definition fparser := (bytes * bool * (bytes -> option (data * bytes)))%type.

(** Derived [visit_map], one member: an unknown name is skipped, a duplicate field is an error. *)
Fixpoint set_field (fps : list fparser) (acc : list (option data)) (k : bytes) (r : bytes)
  : option (list (option data) * bytes) :=
  match fps, acc with
  | (n, _, p) :: fps', a :: acc' =>
    if bytes_eqb n k then
      match a with
      | Some _ => None
      | None => option_map (fun '(x, r') => (Some x :: acc', r')) (p r)
      end
    else option_map (fun '(acc'', r') => (a :: acc'', r')) (set_field fps' acc' k r)
  | _, _ => option_map (pair acc) (ignore_value r)
  end.

(** Derived [visit_map], the end: a missing Option field is None, another missing field an error. *)
Fixpoint finish (fps : list fparser) (acc : list (option data)) : option (list data) :=
  match fps, acc with
  | (_, opt, _) :: fps', a :: acc' =>
    match (match a with Some x => Some x | None => if opt then Some DNone else None end), finish fps' acc' with
    | Some x, Some xs => Some (x :: xs)
    | _, _ => None
    end
  | _, _ => Some []
  end.

(** Derived [visit_seq] (a struct given as a JSON array): every field must be present, in order. *)
Fixpoint seq_fields (fps : list fparser) (first : bool) (s : bytes) : option (list data * bytes) :=
  match fps with
  | [] => match skip_ws s with c :: r => if beq c "]"%byte then Some ([], r) else None | [] => None end
  | (_, _, p) :: fps' =>
    match next_elem first s with
    | More _ r =>
      match p r with
      | None => None
      | Some (x, r1) => option_map (fun '(xs, r2) => (x :: xs, r2)) (seq_fields fps' false r1)
      end
    | _ => None
    end
  end.

Definition known_name (names : list bytes) (n : bytes) : bool := existsb (bytes_eqb n) names.

(** [Deserialize::deserialize] for a shape, with remaining depth [d]. *)
Fixpoint de (f64 : bytes -> option N) (sc : schema) (d : nat) (s : bytes) {struct sc} : option (data * bytes) :=
  match sc with
  | SString =>
    match skip_ws s with
    | c :: r => if beq c q_quote then option_map (fun '(t, r') => (DStr t, r')) (parse_str r) else None
    | [] => None
    end
  | SValue => option_map (fun '(j, r) => (DVal j, r)) (de_value f64 d s)
  | SOption sc' =>
    match skip_ws s with
    | [] => None
    | c :: r =>
      if beq c "n"%byte then option_map (pair DNone) (strip (B "ull") r)
      else option_map (fun '(x, r') => (DSome x, r')) (de f64 sc' d (c :: r))
    end
  | SVec sc' =>
    match skip_ws s with
    | [] => None
    | c :: r =>
      if beq c "["%byte then
        match enter d with
        | Some d' => option_map (fun '(l, r') => (DVec l, r')) (seq_loop (de f64 sc' d') (S (length r)) true r)
        | None => None
        end
      else None
    end
  | SEnum names =>
    match skip_ws s with
    | [] => None
    | c :: r =>
      if beq c q_quote then
        match parse_str r with
        | Some (t, r') => if known_name names t then Some (DEnum t, r') else None
        | None => None
        end
      else if beq c "{"%byte then
        match enter d, skip_ws r with
        | Some _, c1 :: r1 =>
          if beq c1 q_quote then
            match parse_str r1 with
            | Some (t, r2) =>
              if known_name names t then
                match colon r2 with
                | Some r3 =>
                  match strip (B "null") (skip_ws r3) with
                  | Some r4 =>
                    match skip_ws r4 with
                    | c5 :: r5 => if beq c5 "}"%byte then Some (DEnum t, r5) else None
                    | [] => None
                    end
                  | None => None
                  end
                | None => None
                end
              else None
            | None => None
            end
          else None
        | _, _ => None
        end
      else None
    end
  | SStruct fs =>
    match skip_ws s with
    | [] => None
    | c :: r =>
      match enter d with
      | None => None
      | Some d' =>
        let fps := map (fun f => (fst (fst f), is_option (snd f), de f64 (snd f) d')) fs in
        if beq c "{"%byte then
          match map_loop parse_str (set_field fps) (S (length r)) true (map (fun _ => None) fps) r with
          | Some (acc, r') => option_map (fun l => (DStruct l, r')) (finish fps acc)
          | None => None
          end
        else if beq c "["%byte then
          option_map (fun '(l, r') => (DStruct l, r')) (seq_fields fps true r)
        else None
      end
    end
  end.

(** [serde_json::from_slice]: one value, then only white space. *)
Definition from_slice (f64 : bytes -> option N) (sc : schema) (s : bytes) : option data :=
  match de f64 sc 128 s with
  | Some (x, r) => if is_empty (skip_ws r) then Some x else None
  | None => None
  end.

(** The tree walked by the derived [Serialize]. *)
Fixpoint ser (sc : schema) (x : data) {struct sc} : json :=
  match sc, x with
  | SString, DStr s => JStr s
  | SValue, DVal j => j
  | SOption _, DNone => JNull
  | SOption sc', DSome x' => ser sc' x'
  | SVec sc', DVec l => JArr (map (ser sc') l)
  | SEnum _, DEnum n => JStr n
  | SStruct fs, DStruct l =>
    JObj ((fix go (fs : list (bytes * bool * schema)) (l : list data) : list (bytes * json) :=
             match fs, l with
             | (n, skip, sc') :: fs', x' :: l' =>
               match skip, x' with
               | true, DNone => go fs' l'
               | _, _ => (n, ser sc' x') :: go fs' l'
               end
             | _, _ => []
             end) fs l)
  | _, _ => JNull   (* ill-typed; no value of the crate's types gets here: see [ShapeFacts], which computes [ser] for each of them *)
  end.

