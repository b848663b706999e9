(** Model of dochy_compaction/src/string_compaction.rs and
    enc_dec/decimal_lib.rs, and of the url_string module.
    Citations relative to /repo/dochy_compaction/src.  Strings are UTF-8 bytes. *)
From Verif Require Import Base CompactionModel TextModel.

(** length in bytes of the UTF-8 character starting with byte [b] *)
Definition char_len (b : Z) : nat :=
  if b <? 128 then 1 else if b <? 224 then 2 else if b <? 240 then 3 else 4.

(** [str::starts_with] *)
Fixpoint starts_with (p s : list Z) : bool :=
  match p, s with
  | [], _ => true
  | x :: p, y :: s => (x =? y) && starts_with p s
  | _ :: _, [] => false
  end.

(** The captures of the regular expression: sign present, group 3, group 4, group 5 *)
Record captures : Type := Caps { c_minus : bool; c_int : list Z; c_sep : list Z; c_frac : list Z }.

(** string_compaction.rs L102-106, the expression ^(-?)(([0-9]+)(.?)([0-9]{0,}))$
    (the source has a star in place of {0,}).
    [0-9]+ is greedy, so group 3 is the longest run of digits; group 4 is empty
    at the end of the text and otherwise one whole character other than a line
    feed; the rest must be digits.  Backtracking to a shorter group 3 cannot
    help, because the character after the longest run is not a digit. *)
Definition rex (s : list Z) : option captures :=
  let minus := starts_with [45] s in
  let t := if minus then tl s else s in
  let (d, r) := span_digits t in
  match d, r with
  | [], _ => None
  | _, [] => Some (Caps minus d [] [])
  | _, c :: _ =>
      if c =? 10 then None else
      let n := char_len c in
      if forallb is_digit (skipn n r) then Some (Caps minus d (firstn n r) (skipn n r)) else None
  end.

(** [str::ends_with(".")] *)
Definition ends_with_dot (s : list Z) : bool := last s 0 =? 46.

(** string_compaction.rs L110-149: sign, dot position, number *)
Definition get_number (s : list Z) : option (bool * option Z * Z) :=
  match rex s with
  | None => None
  | Some c =>
      let start := (if c_minus c then 1 else 0) + zlen (c_int c) in
      let pos := zlen s - start - 1 in
      match (match c_sep c with
             | [] => Some None
             | _ => if pos <? 256 then Some (Some pos) else None
             end) with
      | None => None
      | Some dot =>
          match parse_i128 (c_minus c) (c_int c ++ c_frac c) with
          | None => None
          | Some number =>
              let g2 := c_int c ++ c_sep c ++ c_frac c in
              if ends_with_dot g2 then None
              else if starts_with [48] g2 then
                (if starts_with [48; 46] g2 then Some (c_minus c, dot, number) else None)
              else Some (c_minus c, dot, number)
          end
      end
  end.

(** string_compaction.rs L86-94 *)
Definition get_str (s : list Z) : kval :=
  if zlen s <? 16 then KStr16 s else if zlen s <? 256 then KStr256 s else KBigStr s.

Fixpoint eqb_bytes (a b : list Z) : bool :=
  match a, b with
  | [], [] => true
  | x :: a, y :: b => (x =? y) && eqb_bytes a b
  | _, _ => false
  end.

Definition txt_true : list Z := [116; 114; 117; 101].
Definition txt_false : list Z := [102; 97; 108; 115; 101].

(** string_compaction.rs L56-84 *)
Definition to_enum (s : list Z) : kval :=
  if eqb_bytes s [48] then KBit false
  else if eqb_bytes s [49] then KBit true
  else if eqb_bytes s txt_true then KBool true
  else if eqb_bytes s txt_false then KBool false
  else match get_number s with
       | Some (minus, dot, number) =>
           if (number =? 0) && minus then get_str s
           else match dot with
                | Some dot => KDecimal number dot
                | None =>
                    if to_signed 64 number =? number then
                      (if to_signed 8 number =? number then KByte number else KInt number)
                    else KDecimal number 0
                end
       | None => get_str s
       end.

(** enc_dec/decimal_lib.rs L1-30 *)
Definition decimal_to_string (num dot : Z) : list Z :=
  let s := print_int num in
  if dot =? 0 then s else
  let sign := negb (num <? 0) in
  let s := if sign then s else tl s in
  let zeros := dot - zlen s in
  let result :=
    if 0 <=? zeros then [48; 46] ++ repeat 48 (Z.to_nat zeros) ++ s
    else let index := Z.to_nat (zlen s - dot) in firstn index s ++ [46] ++ skipn index s in
  if sign then result else 45 :: result.

(** string_compaction.rs L32-54, for the kinds [to_enum] produces.  The text of
    the other kinds (floats, binaries) is not modelled. *)
Definition to_string (k : kval) : option (list Z) :=
  match k with
  | KBit b => Some [if b then 49 else 48]
  | KBool b => Some (if b then txt_true else txt_false)
  | KByte i => Some (print_int i)
  | KStr16 s => Some s
  | KInt i => Some (print_int i)
  | KStr256 s => Some s
  | KDecimal i dot => Some (decimal_to_string i dot)
  | KBigStr s => Some s
  | _ => None
  end.

(** string_compaction.rs L17-21 *)
Definition compress_strings (strs : list (list Z)) : res (list Z) := encode (map to_enum strs).

(** string_compaction.rs L23-26 *)
Definition decompress (bytes : list Z) : res (list (option (list Z)) * Z) :=
  '(ks, size, _) <- decode bytes ; Ok (map to_string ks, size).

(* ------------------------------------------------------------------ *)
(** * URL strings *)

(** url_string/b8s_and_b6s.rs L9-23: two zero bits before every six bits *)
Fixpoint b6_loop (bits : list bool) (count6 : nat) : list bool :=
  match bits with
  | [] => []
  | b :: r =>
      if (count6 =? 6)%nat then false :: false :: b :: b6_loop r 1
      else b :: b6_loop r (S count6)
  end.

(** url_string/b8s_and_b6s.rs L4-25 *)
Definition to_b6s (b8s : list Z) : list Z := pack_bits (b6_loop (unpack_bits b8s) 6).

(** url_string/b8s_and_b6s.rs L33-36 *)
Definition get_bit (b6 bit : Z) : bool := negb (Z.land b6 (2 ^ (bit - 1)) =? 0).

(** url_string/b8s_and_b6s.rs L28-52: the popped [vec] is not the returned value *)
Definition to_b8s (b6s : list Z) : list Z :=
  pack_bits (flat_map (fun b => [get_bit b 6; get_bit b 5; get_bit b 4;
                                 get_bit b 3; get_bit b 2; get_bit b 1]) b6s).

(** url_string/char_and_b6.rs L3-15; characters are code points *)
Definition char_to_b6 (c : Z) : option Z :=
  if (65 <=? c) && (c <=? 90) then Some (c - 65)
  else if (97 <=? c) && (c <=? 122) then Some (c - 97 + 26)
  else if (48 <=? c) && (c <=? 57) then Some (c - 48 + 52)
  else if c =? 45 then Some 62
  else if c =? 95 then Some 63
  else None.

(** url_string/char_and_b6.rs L18-32 *)
Definition b6_to_char (b : Z) : option Z :=
  if b <=? 25 then Some (65 + b)
  else if b <=? 51 then Some (97 + (b - 26))
  else if b <=? 61 then Some (48 + (b - 52))
  else if b =? 62 then Some 45
  else if b =? 63 then Some 95
  else None.

(** the [?] loops of url_string/char_and_b6.rs L36-44 and L48-55 *)
Fixpoint map_opt {A B} (f : A -> option B) (l : list A) : option (list B) :=
  match l with
  | [] => Some []
  | x :: r => match f x with
              | None => None
              | Some y => match map_opt f r with None => None | Some ys => Some (y :: ys) end
              end
  end.

(** url_string/mod.rs L5-8; [None] is the panic of [unwrap] *)
Definition get_url_string (bytes : list Z) : option (list Z) := map_opt b6_to_char (to_b6s bytes).

(** url_string/mod.rs L11-14 *)
Definition get_bytes (url : list Z) : option (list Z) :=
  match map_opt char_to_b6 url with None => None | Some b6s => Some (to_b8s b6s) end.
