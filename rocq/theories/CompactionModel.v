(** Model of dochy_compaction: values, bit-packed encoder, decoder, integers.
    Citations are relative to /repo/dochy_compaction/src. *)
From Verif Require Import Base.

(** kval_enum.rs L5-23 (KVal) and L28-37 (Decimal).  Strings are their UTF-8
    bytes; f32/f64 are their bit patterns (0 <= bits < 2^32 resp. 2^64). *)
Inductive kval : Type :=
| KNull
| KBit (b : bool)
| KBool (b : bool)
| KByte (i : Z)
| KStr16 (s : list Z)
| KInt (i : Z)
| KFloat (bits : Z)
| KStr256 (s : list Z)
| KDouble (bits : Z)
| KDecimal (int dot : Z)
| KBigStr (s : list Z)
| KBinary (v : list Z)
| KBinaryArc (v : list Z)
| KBinary8 (v : list Z)
| KBinary4 (v : list Z)
| KBinary2 (v : list Z)
| KUndefined (i : Z).

(* ------------------------------------------------------------------ *)
(** * Variable length integers *)

(** enc_dec/var_int.rs L44-58 (to_bytes), L61-72 (to_bytes128): the loop.
    [cap] is the capacity of the ArrayVec (8 or 16); for arguments of the
    matching width the loop ends before the capacity is exceeded
    ([to_bytes_loop_stop] in CompactionProofs). *)
Fixpoint to_bytes_loop (cap : nat) (val : Z) : list Z :=
  match cap with
  | O => []
  | S c => if val =? 0 then [] else val mod 256 :: to_bytes_loop c (val / 256)
  end.

(** enc_dec/var_int.rs L44-58 / L61-72 *)
Definition to_bytes (cap : nat) (val : Z) : list Z :=
  if val =? 0 then [0] else to_bytes_loop cap val.

(** enc_dec/signed_bytes.rs L4-12 / L17-25: the loop ([fuel] bounds the number
    of iterations; 16 suffice for u128). *)
Fixpoint signed_bytes_loop (fuel : nat) (val : Z) (size : nat) : nat :=
  match fuel with
  | O => size
  | S f => if val <? 128 then size else signed_bytes_loop f (val / 256) (S size)
  end.

(** enc_dec/signed_bytes.rs L4-12 / L17-25 *)
Definition signed_bytes (cap : nat) (val : Z) : nat :=
  signed_bytes_loop cap (if val <? 0 then (val + 1) * -1 else val) 1.

(** [*bytes.last_mut().unwrap() |= 0b1000_0000]: var_int.rs L26, L111 *)
Definition or_last (l : list Z) : list Z := removelast l ++ [Z.lor (last l 0) 128].

(** enc_dec/var_int.rs L9-29 (encode, cap 8) and L95-114 (encode128, cap 16) *)
Definition vi_encode (cap : nat) (val : Z) : list Z :=
  let neg := val <? 0 in
  let value := if neg then (val + 1) * -1 else val in
  let sb := signed_bytes cap val in
  let bytes := to_bytes cap value in
  let bytes := if (length bytes <? sb)%nat then bytes ++ [0] else bytes in
  if neg then or_last bytes else bytes.

(** enc_dec/var_int.rs L75-82 / L85-92 (from_bytes): iterates from the last
    byte; [result *= 256] overflows (panics) when it leaves [w] bits. *)
Fixpoint from_bytes (w : Z) (vec : list Z) : res Z :=
  match vec with
  | [] => Ok 0
  | b :: rest =>
      r <- from_bytes w rest ;
      if r * 256 <? 2 ^ w then Ok (r * 256 + b) else Panic
  end.

(** enc_dec/var_int.rs L32-41 (decode, w = 64) / L117-126 (decode128, w = 128).
    The shift panics when the amount reaches the width. *)
Definition vi_decode (w : Z) (vec : list Z) : res Z :=
  match vec with
  | [] => Ok 0
  | _ =>
      u <- from_bytes w vec ;
      let ans := to_signed w u in
      let amount := 8 * (zlen vec - 1) in
      if w <=? amount then Panic else
      let sign_bit := to_signed w (128 * 2 ^ amount) in
      if Z.land sign_bit ans =? 0 then Ok ans
      else
        let ans := Z.lxor ans sign_bit in
        if ans =? - 2 ^ (w - 1) then Panic else Ok (ans * -1 - 1)
  end.

(** enc_dec/var_int.rs L129-135 (write) *)
Definition vi_write (int : Z) : list Z :=
  let bytes := vi_encode 8 int in zlen bytes :: bytes.

(* ------------------------------------------------------------------ *)
(** * Reader: the remaining input and the number of bytes read so far *)

(** enc_dec/reader.rs L5-9; [buf] is scratch space and not modelled. *)
Definition reader : Type := (list Z * Z)%type.

(** enc_dec/reader.rs L13-18 *)
Definition read_byte (r : reader) : res (Z * reader) :=
  match fst r with
  | [] => Err
  | b :: rest => Ok (b, (rest, snd r + 1))
  end.

(** [read_exact] of [n] bytes: an error when the input is shorter. *)
Definition read_exact (n : Z) (r : reader) : res (list Z * reader) :=
  if zlen (fst r) <? n then Err
  else Ok (firstn (Z.to_nat n) (fst r), (skipn (Z.to_nat n) (fst r), snd r + n)).

(** enc_dec/reader.rs L19-24 and set_buf_len L72-80: [reserve] panics with
    "capacity overflow" above isize::MAX.  Running out of memory below that is
    not modelled. *)
Definition read (n : Z) (r : reader) : res (list Z * reader) :=
  if 2 ^ 63 <=? n then Panic else read_exact n r.

(** String::from_utf8: the UTF-8 well-formedness of the standard library
    (Unicode table 3-7). *)
Definition is_cont (b : Z) : bool := (128 <=? b) && (b <? 192).
Fixpoint utf8_valid (l : list Z) : bool :=
  match l with
  | [] => true
  | b0 :: l1 =>
      if b0 <? 128 then utf8_valid l1 else
      match l1 with
      | [] => false
      | b1 :: l2 =>
          if (194 <=? b0) && (b0 <? 224) then is_cont b1 && utf8_valid l2 else
          match l2 with
          | [] => false
          | b2 :: l3 =>
              if (224 <=? b0) && (b0 <? 240) then
                (if b0 =? 224 then (160 <=? b1) && (b1 <? 192)
                 else if b0 =? 237 then (128 <=? b1) && (b1 <? 160)
                 else is_cont b1) && is_cont b2 && utf8_valid l3
              else
              match l3 with
              | [] => false
              | b3 :: l4 =>
                  if (240 <=? b0) && (b0 <? 245) then
                    (if b0 =? 240 then (144 <=? b1) && (b1 <? 192)
                     else if b0 =? 244 then (128 <=? b1) && (b1 <? 144)
                     else is_cont b1) && is_cont b2 && is_cont b3 && utf8_valid l4
                  else false
              end
          end
      end
  end.

(** enc_dec/reader.rs L25-31.  [vec_with_capacity_safe] returns an error when
    the capacity is not representable; the argument is [n as usize]. *)
Definition read_string (n : Z) (r : reader) : res (list Z * reader) :=
  if 2 ^ 63 <=? to_unsigned 64 n then Err else
  '(s, r) <- read_exact n r ;
  if utf8_valid s then Ok (s, r) else Err.

(** enc_dec/reader.rs L32-38 *)
Definition read_binary (n : Z) (r : reader) : res (list Z * reader) :=
  if 2 ^ 63 <=? to_unsigned 64 n then Err else read_exact n r.

(** little endian value of a byte list (uN::from_le_bytes) *)
Fixpoint le_value (l : list Z) : Z :=
  match l with [] => 0 | b :: r => b + 256 * le_value r end.
(** uN::to_le_bytes with [k] bytes *)
Fixpoint le_bytes (k : nat) (v : Z) : list Z :=
  match k with O => [] | S k => v mod 256 :: le_bytes k (v / 256) end.
(** to_be_bytes / from_be_bytes *)
Definition be_bytes (k : nat) (v : Z) : list Z := rev (le_bytes k v).
Definition be_value (l : list Z) : Z := le_value (rev l).

(** the loops of enc_dec/reader.rs L42-46, L52-56, L62-66: [count] words of [k] bytes *)
Fixpoint read_words (k : nat) (count : nat) (r : reader) : res (list Z * reader) :=
  match count with
  | O => Ok ([], r)
  | S c =>
      '(t, r) <- read_exact (Z.of_nat k) r ;
      '(ws, r) <- read_words k c r ;
      Ok (le_value t :: ws, r)
  end.

(** enc_dec/reader.rs L39-48 (k = 8), L49-58 (k = 4), L59-68 (k = 2).  The
    first line of the test is the capacity error of [vec_with_capacity_safe];
    the second returns the end-of-input error early (the loop would reach it
    after reading the available words), so that the count is small when the
    loop is run. *)
Definition read_binary_words (k : nat) (n : Z) (r : reader) : res (list Z * reader) :=
  if 2 ^ 63 <=? to_unsigned 64 n * Z.of_nat k then Err else
  if zlen (fst r) <? n * Z.of_nat k then Err else
  read_words k (Z.to_nat n) r.

(** enc_dec/var_int.rs L137-141 (read) *)
Definition vi_read (r : reader) : res (Z * reader) :=
  '(n, r) <- read_byte r ;
  '(bytes, r) <- read n r ;
  v <- vi_decode 64 bytes ;
  Ok (v, r).

(* ------------------------------------------------------------------ *)
(** * Tags *)

(** enc_dec/tag_storage.rs L13-26 (append): [n] bits of [val], most significant first *)
Fixpoint bits_of (n : nat) (val : Z) : list bool :=
  match n with O => [] | S m => Z.testbit val (Z.of_nat m) :: bits_of m val end.

(** value of a list of bits, most significant first *)
Definition bits_value (bs : list bool) : Z :=
  fold_left (fun r (b : bool) => r * 2 + (if b then 1 else 0)) bs 0.

(** enc_dec/tag_storage.rs L28-30 (BitVec::to_bytes of the bit-vec crate): eight
    bits per byte, most significant first, the last byte zero padded. *)
Fixpoint pack_bits (bs : list bool) : list Z :=
  match bs with
  | [] => []
  | b7 :: b6 :: b5 :: b4 :: b3 :: b2 :: b1 :: b0 :: rest =>
      bits_value [b7; b6; b5; b4; b3; b2; b1; b0] :: pack_bits rest
  | short => [bits_value (short ++ repeat false (8 - length short))]
  end.

(** enc_dec/tag_reader.rs L11-13 (BitVec::from_bytes) *)
Definition unpack_bits (bytes : list Z) : list bool := flat_map (bits_of 8) bytes.

(** enc_dec/kihon_from_tag.rs L2-19 *)
Inductive ktag : Type :=
| TNull | TBit (b : bool) | TBool (b : bool) | TByte | TStr16 (len : Z)
| TInt (size : Z) | TFloat | TStr256 | TDouble | TDecimal (size : Z)
| TBigStr (size : Z) | TBinary (size : Z) | TBinary8 (size : Z)
| TBinary4 (size : Z) | TBinary2 (size : Z) | TUndefined (i : Z).

(** enc_dec/tag_reader.rs L15-23 (read_bit); the reader state is the list of
    bits not yet read. *)
Definition read_bit (bs : list bool) : res (bool * list bool) :=
  match bs with [] => Err | b :: r => Ok (b, r) end.

(** enc_dec/tag_reader.rs L25-32 (read_bits) *)
Fixpoint read_bits_acc (n : nat) (acc : Z) (bs : list bool) : res (Z * list bool) :=
  match n with
  | O => Ok (acc, bs)
  | S m => '(b, bs) <- read_bit bs ;
           read_bits_acc m (acc * 2 + (if b : bool then 1 else 0)) bs
  end.
Definition read_bits (n : nat) (bs : list bool) : res (Z * list bool) := read_bits_acc n 0 bs.

(** enc_dec/tag_reader.rs L34-41 (read_next_1): number of zeros before the next one *)
Fixpoint read_next_1 (bs : list bool) (count : Z) : res (Z * list bool) :=
  match bs with
  | [] => Err
  | true :: r => Ok (count, r)
  | false :: r => read_next_1 r (count + 1)
  end.

(** enc_dec/tag_reader.rs L43-106 (read_tag); [count as u8] of L102 is the wrap mod 256 *)
Definition read_tag (bs : list bool) : res (ktag * list bool) :=
  '(count, bs) <- read_next_1 bs 0 ;
  if count =? 0 then '(b, bs) <- read_bit bs ; Ok (TBit b, bs)
  else if count =? 1 then
    '(count, bs) <- read_next_1 bs 0 ;
    if count =? 0 then Ok (TByte, bs)
    else if count =? 1 then '(n, bs) <- read_bits 4 bs ; Ok (TStr16 n, bs)
    else if count =? 2 then Ok (TNull, bs)
    else if count =? 3 then '(b, bs) <- read_bit bs ; Ok (TBool b, bs)
    else if count =? 4 then '(n, bs) <- read_bits 4 bs ; Ok (TDecimal (n + 1), bs)
    else Err
  else if count =? 2 then
    '(count, bs) <- read_next_1 bs 0 ;
    if count =? 0 then '(n, bs) <- read_bits 3 bs ; Ok (TInt (n + 1), bs)
    else if count =? 1 then Ok (TStr256, bs)
    else if count =? 2 then Ok (TDouble, bs)
    else if count =? 3 then '(n, bs) <- read_bits 3 bs ; Ok (TBigStr (n + 1), bs)
    else if count =? 4 then Ok (TFloat, bs)
    else Err
  else if count =? 3 then
    '(count, bs) <- read_next_1 bs 0 ;
    if count =? 0 then '(n, bs) <- read_bits 3 bs ; Ok (TBinary (n + 1), bs)
    else if count =? 1 then '(n, bs) <- read_bits 3 bs ; Ok (TBinary8 (n + 1), bs)
    else if count =? 2 then '(n, bs) <- read_bits 3 bs ; Ok (TBinary4 (n + 1), bs)
    else if count =? 3 then '(n, bs) <- read_bits 3 bs ; Ok (TBinary2 (n + 1), bs)
    else Err
  else if count =? 4 then
    '(count, bs) <- read_next_1 bs 0 ;
    Ok (TUndefined (count mod 256), bs)
  else Err.

(** enc_dec/decode.rs L19-21: the first loop *)
Fixpoint read_tags (count : nat) (bs : list bool) : res (list ktag) :=
  match count with
  | O => Ok []
  | S c => '(t, bs) <- read_tag bs ; ts <- read_tags c bs ; Ok (t :: ts)
  end.

(* ------------------------------------------------------------------ *)
(** * Encoder *)

(** the two parts one value contributes: tag bits and data bytes *)
Definition enc_sized (tagval : Z) (tagbits : nat) (len : Z) (payload : list Z)
  : list bool * list Z :=
  let vec := vi_encode 8 len in
  (bits_of tagbits tagval ++ bits_of 3 (zlen vec - 1), vec ++ payload).

(** enc_dec/encode.rs L14-127: the body of the loop for one item *)
Definition encode_item (k : kval) : res (list bool * list Z) :=
  match k with
  | KNull => Ok (bits_of 5 9, [])
  | KBit b => Ok (bits_of 2 (2 + (if b then 1 else 0)), [])
  | KBool b => Ok (bits_of 7 (34 + (if b then 1 else 0)), [])
  | KByte i => Ok (bits_of 3 3, [to_unsigned 8 i])
  | KStr16 s =>
      if zlen s <? 16 then Ok (bits_of 4 5 ++ bits_of 4 (zlen s), s) else Panic
  | KInt i =>
      let ans := vi_encode 8 i in
      let size := zlen ans in
      if (size =? 0) || (9 <=? size) then Panic
      else Ok (bits_of 4 3 ++ bits_of 3 (size - 1), ans)
  | KFloat f => Ok (bits_of 8 33, be_bytes 4 f)
  | KStr256 s =>
      if 256 <=? zlen s then Panic else Ok (bits_of 5 5, zlen s :: s)
  | KDouble d => Ok (bits_of 6 9, be_bytes 8 d)
  | KDecimal i dot =>
      let ans := vi_encode 16 i in
      let size := zlen ans in
      if (size =? 0) || (17 <=? size) then Panic
      else Ok (bits_of 7 33 ++ bits_of 4 (size - 1), ans ++ [dot])
  | KBigStr s => Ok (enc_sized 17 7 (zlen s) s)
  | KBinary v => Ok (enc_sized 3 5 (zlen v) v)
  | KBinaryArc v => Ok (enc_sized 3 5 (zlen v) v)
  | KBinary8 v => Ok (enc_sized 5 6 (zlen v) (flat_map (le_bytes 8) v))
  | KBinary4 v => Ok (enc_sized 9 7 (zlen v) (flat_map (le_bytes 4) v))
  | KBinary2 v => Ok (enc_sized 17 8 (zlen v) (flat_map (le_bytes 2) v))
  | KUndefined i =>
      if 8 <=? i then Panic
      else Ok (bits_of 5 1 ++ bits_of (Z.to_nat i) 0 ++ bits_of 1 1, [])
  end.

(** enc_dec/encode.rs L14-128: the loop; returns the tag bits and the data *)
Fixpoint encode_items (vec : list kval) : res (list bool * list Z) :=
  match vec with
  | [] => Ok ([], [])
  | k :: rest =>
      '(t, d) <- encode_item k ;
      '(ts, ds) <- encode_items rest ;
      Ok (t ++ ts, d ++ ds)
  end.

(** enc_dec/encode.rs L8-137: the bytes written (the number returned is their
    count).  Errors of the underlying writer are not modelled. *)
Definition encode (vec : list kval) : res (list Z) :=
  '(tag, data) <- encode_items vec ;
  let tag_vec := pack_bits tag in
  Ok (vi_write (zlen vec) ++ vi_write (zlen tag_vec) ++ tag_vec ++ data).

(* ------------------------------------------------------------------ *)
(** * Decoder *)

(** enc_dec/decode.rs L25-90: one tag and the data it needs *)
Definition decode_item (t : ktag) (r : reader) : res (kval * reader) :=
  match t with
  | TNull => Ok (KNull, r)
  | TBit b => Ok (KBit b, r)
  | TBool b => Ok (KBool b, r)
  | TByte => '(b, r) <- read_byte r ; Ok (KByte (to_signed 8 b), r)
  | TStr16 l => '(s, r) <- read_string l r ; Ok (KStr16 s, r)
  | TInt size =>
      '(bytes, r) <- read size r ; v <- vi_decode 64 bytes ; Ok (KInt v, r)
  | TFloat => '(v, r) <- read 4 r ; Ok (KFloat (be_value v), r)
  | TStr256 =>
      '(n, r) <- read_byte r ; '(s, r) <- read_string n r ; Ok (KStr256 s, r)
  | TDouble => '(v, r) <- read 8 r ; Ok (KDouble (be_value v), r)
  | TDecimal size =>
      '(bytes, r) <- read size r ; v <- vi_decode 128 bytes ;
      '(dot, r) <- read_byte r ; Ok (KDecimal v dot, r)
  | TBigStr size =>
      '(bytes, r) <- read size r ; len <- vi_decode 64 bytes ;
      '(s, r) <- read_string len r ; Ok (KBigStr s, r)
  | TBinary size =>
      '(bytes, r) <- read size r ; len <- vi_decode 64 bytes ;
      '(v, r) <- read_binary len r ; Ok (KBinary v, r)
  | TBinary8 size =>
      '(bytes, r) <- read size r ; len <- vi_decode 64 bytes ;
      '(v, r) <- read_binary_words 8 len r ; Ok (KBinary8 v, r)
  | TBinary4 size =>
      '(bytes, r) <- read size r ; len <- vi_decode 64 bytes ;
      '(v, r) <- read_binary_words 4 len r ; Ok (KBinary4 v, r)
  | TBinary2 size =>
      '(bytes, r) <- read size r ; len <- vi_decode 64 bytes ;
      '(v, r) <- read_binary_words 2 len r ; Ok (KBinary2 v, r)
  | TUndefined i => Ok (KUndefined i, r)
  end.

(** enc_dec/decode.rs L24-92: the second loop *)
Fixpoint decode_items (ts : list ktag) (r : reader) : res (list kval * reader) :=
  match ts with
  | [] => Ok ([], r)
  | t :: ts =>
      '(k, r) <- decode_item t r ;
      '(ks, r) <- decode_items ts r ;
      Ok (k :: ks, r)
  end.

(** enc_dec/decode.rs L10-95.  Returns the values, the number of bytes read and
    the input left unread.  A negative count is an unrepresentable capacity for
    [vec_with_capacity_safe] (an error); a count above the number of tag bits
    is the end-of-tags error of the first loop (the early test keeps the loop
    count small). *)
Definition decode (input : list Z) : res (list kval * Z * list Z) :=
  '(count, r) <- vi_read (input, 0) ;
  '(tag_len, r) <- vi_read r ;
  '(tag_bytes, r) <- read (to_unsigned 64 tag_len) r ;
  if (count <? 0) || (8 * zlen tag_bytes <? count) then Err else
  ts <- read_tags (Z.to_nat count) (unpack_bits tag_bytes) ;
  '(ks, r) <- decode_items ts r ;
  Ok (ks, snd r, fst r).

(* ------------------------------------------------------------------ *)
(** * Scalar accessors and compaction of integers and strings *)

(** kval_enum.rs L82-90 *)
Definition as_i64 (k : kval) : option Z :=
  match k with
  | KBit b => Some (if b then 1 else 0)
  | KByte i => Some i
  | KInt i => Some i
  | _ => None
  end.

(** kval_enum.rs L93-102 *)
Definition as_string (k : kval) : option (list Z) :=
  match k with
  | KBit _ => Some []
  | KStr16 s | KStr256 s | KBigStr s => Some s
  | _ => None
  end.

(** kval_enum.rs L105-111 *)
Definition as_bool (k : kval) : option bool :=
  match k with KBool b => Some b | KBit b => Some b | _ => None end.

(** kval_enum.rs L114-119 *)
Definition as_null (k : kval) : option unit :=
  match k with KNull => Some tt | _ => None end.

(** kval_enum.rs L124-129 *)
Definition as_undefined (k : kval) : option Z :=
  match k with KUndefined u => Some u | _ => None end.

(** basic_compaction.rs L43-48; [int as i8 as i64] is the wrap to 8 bits *)
Definition comp_int (int : Z) : kval :=
  if int =? 0 then KBit false
  else if int =? 1 then KBit true
  else if to_signed 8 int =? int then KByte int
  else KInt int.

(** basic_compaction.rs L51-57 *)
Definition comp_str (s : list Z) : kval :=
  let len := zlen s in
  if len =? 0 then KBit false
  else if len <? 16 then KStr16 s
  else if len <? 256 then KStr256 s
  else KBigStr s.
