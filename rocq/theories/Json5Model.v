(** Model of the reader of JSON5 texts.  Citations are relative to
    /repo/dochy_json5/src.  A text is the list of its characters (code points).

    Every rule of json5.pest is a function that gives the characters it matches and the
    rest, or [None].  Rules marked [@] or [$], and silent rules used inside them, match
    without blanks in between; the others ([array], [object], [pair], [text]) allow blanks
    between their parts, which is [skip].  pest is deterministic: alternatives are tried in
    order and repetitions take as much as they can.  The depth of the call stack, the
    positions of errors and the spans of values are left out. *)
From Coq Require Import String.
From Verif Require Import Base FloatModel CompactionModel StringCompactionModel ArchiveModel DocModel JsonModel.

(* ------------------------------------------------------------------ *)
(** * pest *)

(** what a rule without tokens in it does *)
Definition rule : Type := list Z -> option (list Z * list Z).

(** a character of a class *)
Definition one (f : Z -> bool) : rule :=
  fun s => match s with c :: r => if f c then Some ([c], r) else None | [] => None end.
Definition chr (x : Z) : rule := one (Z.eqb x).
(** the sequence [~] *)
Definition seq (p q : rule) : rule := fun s =>
  match p s with
  | Some (a, r) => match q r with Some (b, r') => Some (a ++ b, r') | None => None end
  | None => None
  end.
(** the choice [|] *)
Definition alt (p q : rule) : rule := fun s => match p s with Some x => Some x | None => q s end.
(** [?] *)
Definition opt (p : rule) : rule := fun s => match p s with Some x => Some x | None => Some ([], s) end.
(** [*], for rules that give [A]; every rule repeated here takes at least one character, so
    as many rounds as there are characters are enough *)
Fixpoint rounds {A} (n : nat) (p : list Z -> option (A * list Z)) (s : list Z) : list A * list Z :=
  match n with
  | O => ([], s)
  | S n =>
      match p s with
      | Some (a, r) => let '(l, r') := rounds n p r in (a :: l, r')
      | None => ([], s)
      end
  end.
Definition many {A} (p : list Z -> option (A * list Z)) (s : list Z) : list A * list Z := rounds (length s) p s.
Definition star (p : rule) : rule := fun s => let '(l, r) := many p s in Some (concat l, r).
(** [+] *)
Definition plus (p : rule) : rule := seq p (star p).
(** a text *)
Fixpoint lit (t : list Z) : rule :=
  match t with [] => fun s => Some ([], s) | c :: r => seq (chr c) (lit r) end.

(* ------------------------------------------------------------------ *)
(** * json5.pest *)

(** L77 *)
Definition line_terminator (c : Z) : bool := (c =? 10) || (c =? 13) || (c =? 8232) || (c =? 8233).

(** Unicode category Zs, which pest calls SPACE_SEPARATOR *)
Definition space_separator (c : Z) : bool :=
  (c =? 32) || (c =? 160) || (c =? 5760) || ((8192 <=? c) && (c <=? 8202)) || (c =? 8239) || (c =? 8287) || (c =? 12288).

(** L6-15 *)
Definition whitespace (c : Z) : bool :=
  (c =? 9) || (c =? 11) || (c =? 12) || (c =? 32) || (c =? 160) || (c =? 65279) || space_separator c || line_terminator c.

(** L4, after the opening: up to the first closing *)
Fixpoint block_end (s : list Z) : option (list Z) :=
  match s with
  | [] => None
  | 42 :: 47 :: r => Some r
  | _ :: r => block_end r
  end.
(** L4, the rest of a line *)
Fixpoint line_end (s : list Z) : list Z :=
  match s with [] => [] | c :: r => if line_terminator c then s else line_end r end.
(** L4 and L6-15: a comment or a blank *)
Definition blank (s : list Z) : option (unit * list Z) :=
  match s with
  | 47 :: 42 :: r => match block_end r with Some r' => Some (tt, r') | None => None end
  | 47 :: 47 :: r => Some (tt, line_end r)
  | c :: r => if whitespace c then Some (tt, r) else None
  | [] => None
  end.
(** what pest does between the parts of a sequence *)
Definition skip (s : list Z) : list Z := snd (many blank s).

(** pest: ASCII_DIGIT, ASCII_NONZERO_DIGIT, ASCII_HEX_DIGIT *)
Definition digit (c : Z) : bool := (48 <=? c) && (c <=? 57).
Definition nonzero_digit (c : Z) : bool := (49 <=? c) && (c <=? 57).
Definition hex_digit (c : Z) : bool := digit c || ((97 <=? c) && (c <=? 102)) || ((65 <=? c) && (c <=? 70)).

(** L25 *)
Definition decimal_integer_literal : rule := alt (chr 48) (seq (one nonzero_digit) (star (one digit))).
(** L48 *)
Definition exponent_part : rule :=
  seq (one (fun c => (c =? 101) || (c =? 69))) (seq (opt (one (fun c => (c =? 43) || (c =? 45)))) (plus (one digit))).
(** L27-31 *)
Definition decimal_literal : rule :=
  alt (seq decimal_integer_literal (seq (chr 46) (seq (star (one digit)) (opt exponent_part))))
  (alt (seq (chr 46) (seq (plus (one digit)) (opt exponent_part)))
       (seq decimal_integer_literal (opt exponent_part))).
(** L52 *)
Definition hex_integer_literal : rule :=
  seq (chr 48) (seq (one (fun c => (c =? 120) || (c =? 88))) (plus (one hex_digit))).
(** L91-96 *)
Definition numeric_literal : rule := alt hex_integer_literal (alt decimal_literal (alt (lit (txt "Infinity")) (lit (txt "NaN")))).
(** L89 *)
Definition number : rule := seq (opt (one (fun c => (c =? 43) || (c =? 45)))) numeric_literal.

(** L102 *)
Definition single_escape_char (c : Z) : bool :=
  (c =? 39) || (c =? 34) || (c =? 92) || (c =? 98) || (c =? 102) || (c =? 110) || (c =? 114) || (c =? 116) || (c =? 118).
(** L39 *)
Definition escape_char (c : Z) : bool := single_escape_char c || digit c || (c =? 120) || (c =? 117).
(** L81 *)
Definition non_escape_char (c : Z) : bool := negb (escape_char c || line_terminator c).
(** L23 *)
Definition char_literal (c : Z) : bool := negb ((c =? 92) || line_terminator c).

(** the tokens inside strings, with the characters they match: L23, L21, L83, L50 and L114 *)
Inductive component : Type :=
| CLiteral (s : list Z)
| CEscape (s : list Z)
| CNul (s : list Z)
| CHex (s : list Z).

Definition token (f : list Z -> component) (p : rule) : list Z -> option (list component * list Z) :=
  fun s => match p s with Some (a, r) => Some ([f a], r) | None => None end.
Definition after {A} (p : rule) (q : list Z -> option (A * list Z)) : list Z -> option (A * list Z) :=
  fun s => match p s with Some (_, r) => q r | None => None end.
Definition either {A} (p q : list Z -> option (A * list Z)) : list Z -> option (A * list Z) :=
  fun s => match p s with Some x => Some x | None => q s end.
Definition silent (p : rule) : list Z -> option (list component * list Z) :=
  fun s => match p s with Some (_, r) => Some ([], r) | None => None end.

(** L41-46, with L21, L83, L50, L114 *)
Definition escape_sequence : list Z -> option (list component * list Z) :=
  either (token CEscape (alt (one single_escape_char) (one non_escape_char)))
  (either (token CNul (chr 48))
  (either (after (chr 120) (token CHex (seq (one hex_digit) (one hex_digit))))
          (after (chr 117) (token CHex (seq (one hex_digit) (seq (one hex_digit) (seq (one hex_digit) (one hex_digit)))))))).
(** L75, L79 *)
Definition line_continuation : rule := seq (chr 92) (alt (seq (chr 13) (chr 10)) (one line_terminator)).
(** L33-37 and L104-108; [q] is the quotation mark *)
Definition quote_char (q : Z) : list Z -> option (list component * list Z) :=
  either (after (chr 92) escape_sequence)
  (either (silent line_continuation)
          (token CLiteral (one (fun c => negb (q =? c) && char_literal c)))).
(** L110, one of the two alternatives *)
Definition quoted (q : Z) (s : list Z) : option (list component * list Z) :=
  match chr q s with
  | Some (_, r) =>
      let '(l, r') := many (quote_char q) r in
      match chr q r' with Some (_, r'') => Some (concat l, r'') | None => None end
  | None => None
  end.
(** L110: the text with the quotation marks, and the tokens *)
Definition string_rule (s : list Z) : option ((list Z * list component) * list Z) :=
  match either (quoted 34) (quoted 39) s with
  | Some (l, r) => Some ((firstn (length s - length r) s, l), r)
  | None => None
  end.

(** The Unicode classes that pest knows: L116-123 unicode_letter, and NONSPACING_MARK,
    DIACRITIC, DECIMAL_NUMBER and CONNECTOR_PUNCTUATION of L59-62 *)
Section Unicode.
Variable letter : Z -> bool.
Variable part : Z -> bool.

(** L68-71 *)
Definition identifier_start : rule :=
  alt (one (fun c => (letter c || (c =? 36) || (c =? 95) || (c =? 64)) && char_literal c))
      (seq (chr 92) (seq (chr 117) (seq (one hex_digit) (seq (one hex_digit) (seq (one hex_digit) (one hex_digit)))))).
(** L56-66 *)
Definition identifier_part : rule :=
  alt identifier_start (one (fun c => (part c || (c =? 8204) || (c =? 8205)) && char_literal c)).
(** L54 *)
Definition identifier : rule := seq identifier_start (seq (star identifier_part) (seq (opt (chr 33)) (opt (chr 63)))).

(** The pairs pest gives, as far as they are looked at: of L73 key and of L125 value *)
Inductive key : Type :=
| KIdentifier (s : list Z)
| KString (s : list Z) (l : list component).
Inductive pair : Type :=
| PNull
| PUndefined
| PBoolean (s : list Z)
| PString (s : list Z) (l : list component)
| PNumber (s : list Z)
| PArray (l : list pair)
| PObject (l : list (key * pair)).

(** L73 *)
Definition key_rule (s : list Z) : option (key * list Z) :=
  match identifier s with
  | Some (a, r) => Some (KIdentifier a, r)
  | None => match string_rule s with Some ((a, l), r) => Some (KString a l, r) | None => None end
  end.

Section Value.
Variable value : list Z -> option (pair * list Z).

(** the parts of L17 and L98: a comma and another [p] *)
Definition comma {A} (p : list Z -> option (A * list Z)) (s : list Z) : option (A * list Z) :=
  match chr 44 (skip s) with Some (_, r) => p (skip r) | None => None end.
(** what L17 and L98 have in common: [o] and [c] are the brackets *)
Definition bracketed {A} (o c : Z) (p : list Z -> option (A * list Z)) (s : list Z) : option (list A * list Z) :=
  match chr o s with
  | Some (_, r) =>
      match chr c (skip r) with
      | Some (_, r') => Some ([], r')
      | None =>
          match p (skip r) with
          | Some (a, r1) =>
              let '(l, r2) := many (comma p) r1 in
              match opt (chr 44) (skip r2) with
              | Some (_, r3) => match chr c (skip r3) with Some (_, r4) => Some (a :: l, r4) | None => None end
              | None => None
              end
          | None => None
          end
      end
  | None => None
  end.
(** L100 *)
Definition pair_rule (s : list Z) : option ((key * pair) * list Z) :=
  match key_rule s with
  | Some (k, r) =>
      match chr 58 (skip r) with
      | Some (_, r1) => match value (skip r1) with Some (v, r2) => Some ((k, v), r2) | None => None end
      | None => None
      end
  | None => None
  end.
(** L125, L85, L87, L19, L110, L89, L98, L17 *)
Definition value_rule (s : list Z) : option (pair * list Z) :=
  match lit (txt "null") s with Some (_, r) => Some (PNull, r) | None =>
  match lit (txt "undefined") s with Some (_, r) => Some (PUndefined, r) | None =>
  match alt (lit (txt "true")) (lit (txt "false")) s with Some (a, r) => Some (PBoolean a, r) | None =>
  match string_rule s with Some ((a, l), r) => Some (PString a l, r) | None =>
  match number s with Some (a, r) => Some (PNumber a, r) | None =>
  match bracketed 123 125 pair_rule s with Some (l, r) => Some (PObject l, r) | None =>
  match bracketed 91 93 value s with Some (l, r) => Some (PArray l, r) | None => None
  end end end end end end end.
End Value.

(** the rules refer to themselves; a value inside a bracket is shorter *)
Fixpoint value (n : nat) (s : list Z) : option (pair * list Z) :=
  match n with O => None | S n => value_rule (value n) s end.

(** L112 *)
Definition text_rule (s : list Z) : option pair :=
  match value (S (length s)) (skip s) with
  | Some (p, r) => match skip r with [] => Some p | _ => None end
  | None => None
  end.

(* ------------------------------------------------------------------ *)
(** * de.rs *)

(** the value of digits *)
Definition hex_value (c : Z) : Z := if digit c then c - 48 else if c <=? 70 then c - 55 else c - 87.
Definition read_base (b : Z) (s : list Z) : Z := fold_left (fun acc c => acc * b + hex_value c) s 0.

(** L136-138 with u32::from_str_radix; the texts are hexadecimal digits *)
Definition parse_hex (s : list Z) : res Z :=
  let v := read_base 16 s in if v <? 2 ^ 32 then Ok v else Err.

(** L140-142; the texts are ASCII *)
Definition is_hex_literal (s : list Z) : bool :=
  match s with 48 :: x :: _ :: _ => (x =? 120) || (x =? 88) | _ => false end.

(** L132-134 *)
Definition is_int (s : list Z) : bool :=
  negb (existsb (Z.eqb 46) s) && (is_hex_literal s || (negb (existsb (Z.eqb 101) s) && negb (existsb (Z.eqb 69) s))).

(** [parse::<i64>] of the standard library *)
Definition parse_i64 (s : list Z) : res Z :=
  let '(neg, ds) := match s with 45 :: r => (true, r) | 43 :: r => (false, r) | _ => (false, s) end in
  if negb (is_nil ds) && forallb digit ds then
    let v := signed neg (read_base 10 ds) in
    if (- 2 ^ 63 <=? v) && (v <? 2 ^ 63) then Ok v else Err
  else Err.

(** L123-130 *)
Definition parse_integer (s : list Z) : res Z :=
  if is_hex_literal s then parse_hex (skipn 2 s) else parse_i64 s.

(** The f64 nearest to [n / d] in units of 2^-1074 (IEEE-754 section 4.3.1); [None] is
    an infinity *)
Definition nearest (n d : Z) : option Z :=
  let k := Z.max 0 (Z.log2 (n / d) - 52) in
  let r := rne n (d * 2 ^ k) * 2 ^ k in
  if 2 ^ 2098 <=? r then None else Some r.

(** the parts of a number: sign, digits before and after the point, exponent; what is not
    of this form is an error *)
Definition number_parts (s : list Z) : option (bool * list Z * list Z * Z) :=
  let '(neg, r) := match s with 45 :: r => (true, r) | 43 :: r => (false, r) | _ => (false, s) end in
  let '(whole, r) := span_of digit r in
  let '(frac, r) := match r with 46 :: r => span_of digit r | _ => ([], r) end in
  if is_nil whole && is_nil frac then None else
  match r with
  | [] => Some (neg, whole, frac, 0)
  | e :: r =>
      if (e =? 101) || (e =? 69) then
        let '(eneg, ds) := match r with 45 :: r => (true, r) | 43 :: r => (false, r) | _ => (false, r) end in
        if negb (is_nil ds) && forallb digit ds then Some (neg, whole, frac, signed eneg (read_base 10 ds)) else None
      else None
  end.

(** [parse::<f64>] of the standard library, which rounds correctly, for texts that are not
    words ([inf], [infinity] and [nan] have no point and no [e]), and [is_finite] *)
Definition parse_f64 (s : list Z) : res Z :=
  match number_parts s with
  | Some (neg, whole, frac, e) =>
      let m := read_base 10 (whole ++ frac) in
      let e := e - zlen frac in
      match nearest (m * 10 ^ Z.max 0 e * 2 ^ unit_exp) (10 ^ Z.max 0 (- e)) with
      | Some n => Ok (fenc F64 (FNum neg n))
      | None => Err
      end
  | None => Err
  end.

(** L103-121 *)
Definition parse_number (s : list Z) : res Z :=
  if eqb_bytes s (txt "Infinity") then Ok (fenc F64 (FInf false))
  else if eqb_bytes s (txt "-Infinity") then Ok (fenc F64 (FInf true))
  else if eqb_bytes s (txt "NaN") || eqb_bytes s (txt "-NaN") then Ok (fenc F64 FNaN)
  else if is_hex_literal s then v <- parse_hex (skipn 2 s) ; Ok (fenc F64 (of_int F64 v))
  else parse_f64 s.

(** L91-101 *)
Definition parse_char_escape_sequence (s : list Z) : list Z :=
  match s with
  | [98] => [8]
  | [102] => [12]
  | [110] => [10]
  | [114] => [13]
  | [116] => [9]
  | [118] => [11]
  | _ => s
  end.

(** [char::from_u32] *)
Definition from_u32 (v : Z) : option Z :=
  if ((0 <=? v) && (v <? 55296)) || ((57344 <=? v) && (v <? 1114112)) then Some v else None.

(** L73-89, the characters of a string *)
Definition parse_component (c : component) : res (list Z) :=
  match c with
  | CLiteral s => Ok s
  | CEscape s => Ok (parse_char_escape_sequence s)
  | CNul _ => Ok [0]
  | CHex s => v <- parse_hex s ; match from_u32 v with Some c => Ok [c] | None => Err end
  end.
Fixpoint parse_string (l : list component) : res (list Z) :=
  match l with [] => Ok [] | c :: l => a <- parse_component c ; b <- parse_string l ; Ok (a ++ b) end.

(** the bytes of a character in UTF-8 *)
Definition utf8 (c : Z) : list Z :=
  if c <? 128 then [c]
  else if c <? 2048 then [192 + c / 64; 128 + c mod 64]
  else if c <? 65536 then [224 + c / 4096; 128 + c / 64 mod 64; 128 + c mod 64]
  else [240 + c / 262144; 128 + c / 4096 mod 64; 128 + c / 64 mod 64; 128 + c mod 64].
Definition to_bytes (s : list Z) : list Z := concat (map utf8 s).

(** L52-58 *)
Definition parse_bool (s : list Z) : res bool :=
  if eqb_bytes s (txt "true") then Ok true else if eqb_bytes s (txt "false") then Ok false else Panic.

(** deserialize_item.rs L40-52: a key is the text of the identifier or what is between the
    quotation marks *)
Definition ident_of (k : key) : list Z :=
  match k with KIdentifier s => s | KString s _ => removelast (tl s) end.

(** L24-49 with deserialize_item.rs L12-79 *)
Fixpoint deserialize_any (p : pair) : res jval :=
  match p with
  | PNull => Ok JNull
  | PUndefined => Ok JUndefined
  | PBoolean s => b <- parse_bool s ; Ok (JBool b)
  | PString _ l => s <- parse_string l ; Ok (JString (to_bytes s))
  | PNumber s => if is_int s then i <- parse_integer s ; Ok (JInt i) else d <- parse_number s ; Ok (JDouble d)
  | PArray l =>
      l <- (fix all (l : list pair) : res (list jval) :=
              match l with [] => Ok [] | p :: l => v <- deserialize_any p ; r <- all l ; Ok (v :: r) end) l ;
      Ok (JArray l)
  | PObject l =>
      m <- (fix all (l : list (key * pair)) (acc : list (name * jval)) : res (list (name * jval)) :=
              match l with
              | [] => Ok acc
              | (k, p) :: l =>
                  let ident := to_bytes (ident_of k) in
                  v <- deserialize_any p ;
                  match hget ident acc with Some _ => Err | None => all l (acc ++ [(ident, v)]) end
              end) l [] ;
      Ok (JMap m)
  end.

(** L17-22 *)
Definition from_str (s : list Z) : res jval :=
  match text_rule s with Some p => deserialize_any p | None => Err end.

(** [chars] of a string: its characters *)
Fixpoint chars (l : list Z) : list Z :=
  match l with
  | [] => []
  | b0 :: l1 =>
      if b0 <? 128 then b0 :: chars l1 else
      match l1 with
      | [] => []
      | b1 :: l2 =>
          if b0 <? 224 then ((b0 - 192) * 64 + (b1 - 128)) :: chars l2 else
          match l2 with
          | [] => []
          | b2 :: l3 =>
              if b0 <? 240 then ((b0 - 224) * 4096 + (b1 - 128) * 64 + (b2 - 128)) :: chars l3 else
              match l3 with
              | [] => []
              | b3 :: l4 => ((b0 - 240) * 262144 + (b1 - 128) * 4096 + (b2 - 128) * 64 + (b3 - 128)) :: chars l4
              end
          end
      end
  end.

(** The bytes of a file: std::str::from_utf8, then [from_str]; for [parse] of JsonModel *)
Definition parse_file (content : list Z) : option jval :=
  if utf8_valid content then match from_str (chars content) with Ok v => Some v | _ => None end else None.
End Unicode.

(* ------------------------------------------------------------------ *)
(** * jval.rs *)

(** L107-151 line_num, with the characters of the text before the position; [pos] counts
    bytes.  [Panic] is [unreachable!] or an overflow of the subtraction. *)
Definition byte_len (c : Z) : Z := zlen (utf8 c).
Fixpoint line_loop (s : list Z) (pos line : Z) : res Z :=
  if pos =? 0 then Ok line else
  match s with
  | [] => Panic
  | 13 :: 10 :: r => line_loop r (if pos =? 1 then pos - 1 else pos - 2) (line + 1)
  | 13 :: r => line_loop r (pos - 1) line
  | 10 :: r => line_loop r (pos - 1) (line + 1)
  | c :: r => if pos <? byte_len c then Panic else line_loop r (pos - byte_len c) line
  end.
Definition line_num (before : list Z) : res Z := line_loop before (zlen (to_bytes before)) 1.
