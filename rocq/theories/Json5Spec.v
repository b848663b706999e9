(** The texts of source files and their values, as a grammar: JSON5 with [undefined], with
    [!] and [?] after keys, and with keys taken as they are written.  A text is the list of
    its characters. *)
From Coq Require Import String.
From Verif Require Import Base FloatModel CompactionSpec DocModel JsonModel LoadSpec Json5Model.

(** the characters of Unicode *)
Definition scalar (c : Z) : Prop := 0 <= c < 55296 \/ 57344 <= c < 1114112.

(** the characters that can be left out, and those of them that end a line *)
Definition line_ends : list Z := [10; 13; 8232; 8233].
Definition blanks : list Z :=
  line_ends ++ [9; 11; 12; 32; 160; 5760; 8192; 8193; 8194; 8195; 8196; 8197; 8198; 8199; 8200; 8201; 8202; 8239; 8287; 12288; 65279].

(** blanks and comments *)
Inductive gap : list Z -> Prop :=
| gap_none : gap []
| gap_blank c w : In c blanks -> gap w -> gap (c :: w)
| gap_block body w : (forall a b, body <> a ++ [42; 47] ++ b) -> gap w -> gap ([47; 42] ++ body ++ [42; 47] ++ w)
| gap_line body c w : (forall x, In x body -> ~ In x line_ends) -> In c line_ends -> gap w -> gap ([47; 47] ++ body ++ [c] ++ w).
(** at the end of a text a comment need not be closed by the end of a line *)
Definition last_gap (w : list Z) : Prop :=
  gap w \/ exists w' body, w = w' ++ [47; 47] ++ body /\ gap w' /\ forall x, In x body -> ~ In x line_ends.

(* ------------------------------------------------------------------ *)
(** * Numbers *)

Definition is_digit (c : Z) : Prop := 48 <= c <= 57.
Definition digit_value (c x : Z) : Prop :=
  (is_digit c /\ x = c - 48) \/ (97 <= c <= 102 /\ x = c - 87) \/ (65 <= c <= 70 /\ x = c - 55).
(** the number with these digits in base [b] *)
Inductive reads (b : Z) : list Z -> Z -> Prop :=
| reads_none : reads b [] 0
| reads_digit ds v c x : reads b ds v -> digit_value c x -> x < b -> reads b (ds ++ [c]) (v * b + x).

Definition sign (sg : list Z) : Prop := sg = [] \/ sg = [43] \/ sg = [45].
Definition with_sign (sg : list Z) (v : Z) : Z := match sg with [45] => - v | _ => v end.
(** digits without a leading zero *)
Definition whole_number (ds : list Z) : Prop :=
  ds = [48] \/ exists c r, ds = c :: r /\ is_digit c /\ c <> 48 /\ Forall is_digit r.

(** integers: decimal, or hexadecimal without a sign and with 32 bits *)
Inductive int_text : list Z -> Z -> Prop :=
| int_decimal sg ds v : sign sg -> whole_number ds -> reads 10 ds v -> i64_range (with_sign sg v) -> int_text (sg ++ ds) (with_sign sg v)
| int_hex x ds v : x = 120 \/ x = 88 -> ds <> [] -> reads 16 ds v -> v < 2 ^ 32 -> int_text (48 :: x :: ds) v.

(** an exponent and its value *)
Definition exponent (ex : list Z) (e : Z) : Prop :=
  (ex = [] /\ e = 0) \/
  exists c sg ds v, ex = c :: sg ++ ds /\ (c = 101 \/ c = 69) /\ sign sg /\ ds <> [] /\ reads 10 ds v /\ e = with_sign sg v.

(** The bits of the double nearest to [n / d], in units of 2^-1074, with the sign [s]; of
    two it is the even one.  From half a step above the largest double on there is none. *)
Definition nearest_double (s : bool) (n d : Z) (bits : Z) : Prop :=
  u64_range bits /\ exists m, fdec F64 bits = FNum s m /\
    (forall bits' m', u64_range bits' -> fdec F64 bits' = FNum s m' -> Z.abs (m * d - n) <= Z.abs (m' * d - n)) /\
    (forall bits' m', u64_range bits' -> fdec F64 bits' = FNum s m' -> m' <> m -> Z.abs (m' * d - n) = Z.abs (m * d - n) -> Z.even bits = true) /\
    2 * n < (2 * 2 ^ 2098 - 2 ^ 2045) * d.

(** doubles have a point or an exponent: [m] are all their digits, [x] is the exponent when
    the point is behind them *)
Inductive double_text : list Z -> Z -> Prop :=
| double_is sg i dot f ex e m x bits : sign sg -> Forall is_digit f -> exponent ex e ->
    (dot = [46] /\ (whole_number i \/ i = [] /\ f <> [])) \/ (dot = [] /\ whole_number i /\ f = [] /\ ex <> []) ->
    reads 10 (i ++ f) m -> x = e - zlen f ->
    nearest_double (match sg with [45] => true | _ => false end) (m * 10 ^ Z.max 0 x * 2 ^ 1074) (10 ^ Z.max 0 (- x)) bits ->
    double_text (sg ++ i ++ dot ++ f ++ ex) bits.

(* ------------------------------------------------------------------ *)
(** * Strings *)

(** a character after a backslash that stands for a character *)
Definition escapes (c c' : Z) : Prop :=
  (c = 98 /\ c' = 8) \/ (c = 102 /\ c' = 12) \/ (c = 110 /\ c' = 10) \/ (c = 114 /\ c' = 13) \/ (c = 116 /\ c' = 9) \/ (c = 118 /\ c' = 11) \/
  (~ In c [98; 102; 110; 114; 116; 118; 120; 117] /\ ~ is_digit c /\ ~ In c line_ends /\ c' = c).

(** a part of a string between quotation marks [q], and the characters it stands for *)
Inductive piece (q : Z) : list Z -> list Z -> Prop :=
| piece_char c : c <> q -> c <> 92 -> ~ In c line_ends -> piece q [c] [c]
| piece_escape c c' : escapes c c' -> piece q [92; c] [c']
| piece_zero : piece q [92; 48] [0]
| piece_hex a b v : reads 16 [a; b] v -> piece q [92; 120; a; b] [v]
| piece_unicode a b c d v : reads 16 [a; b; c; d] v -> ~ (55296 <= v < 57344) -> piece q [92; 117; a; b; c; d] [v]
| piece_line c : In c line_ends -> piece q [92; c] []
| piece_crlf : piece q [92; 13; 10] [].
Inductive pieces (q : Z) : list Z -> list Z -> Prop :=
| pieces_none : pieces q [] []
| pieces_more t s t' s' : piece q t s -> pieces q t' s' -> pieces q (t ++ t') (s ++ s').
(** a string: the text between the quotation marks, and the characters *)
Definition string_text (t body s : list Z) : Prop :=
  exists q, (q = 34 \/ q = 39) /\ t = [q] ++ body ++ [q] /\ pieces q body s.

(* ------------------------------------------------------------------ *)
(** * Values *)

Section Unicode.
Variable letter part : Z -> bool.

Definition unicode_text (t : list Z) : Prop := exists a b c d v, t = [92; 117; a; b; c; d] /\ reads 16 [a; b; c; d] v.
Definition name_start (t : list Z) : Prop :=
  (exists c, t = [c] /\ (letter c = true \/ In c [36; 95; 64]) /\ c <> 92 /\ ~ In c line_ends) \/ unicode_text t.
Definition name_part (t : list Z) : Prop :=
  name_start t \/ exists c, t = [c] /\ (part c = true \/ In c [8204; 8205]) /\ c <> 92 /\ ~ In c line_ends.
(** an identifier, perhaps with [!] and [?] *)
Definition name_text (t : list Z) : Prop :=
  exists a l b c, t = a ++ concat l ++ b ++ c /\ name_start a /\ Forall name_part l /\ (b = [] \/ b = [33]) /\ (c = [] \/ c = [63]).

(** A key and its name: as it is written.  In a string that is a key every [\u] with four
    digits is allowed. *)
Definition key_text (t k : list Z) : Prop :=
  (name_text t /\ k = t) \/
  exists q l, (q = 34 \/ q = 39) /\ t = [q] ++ k ++ [q] /\ k = concat l /\ Forall (fun a => (exists s, piece q a s) \/ unicode_text a) l.

Inductive value_text : list Z -> jval -> Prop :=
| text_null : value_text (txt "null") JNull
| text_undefined : value_text (txt "undefined") JUndefined
| text_true : value_text (txt "true") (JBool true)
| text_false : value_text (txt "false") (JBool false)
| text_string t body s : string_text t body s -> value_text t (JString (to_bytes s))
| text_int t i : int_text t i -> value_text t (JInt i)
| text_double t bits : double_text t bits -> value_text t (JDouble bits)
| text_array t l : elements t l -> value_text ([91] ++ t ++ [93]) (JArray l)
| text_map t m : members t m -> NoDup (map fst m) -> value_text ([123] ++ t ++ [125]) (JMap m)
(** what is between the brackets; there may be a comma at the end *)
with elements : list Z -> list jval -> Prop :=
| elements_none w : gap w -> elements w []
| elements_one w1 t v w2 : gap w1 -> value_text t v -> gap w2 -> elements (w1 ++ t ++ w2) [v]
| elements_more w1 t v w2 t' l : gap w1 -> value_text t v -> gap w2 -> elements t' l -> elements (w1 ++ t ++ w2 ++ [44] ++ t') (v :: l)
with members : list Z -> list (name * jval) -> Prop :=
| members_none w : gap w -> members w []
| members_one t k v : member t k v -> members t [(k, v)]
| members_more t k v t' l : member t k v -> members t' l -> members (t ++ [44] ++ t') ((k, v) :: l)
with member : list Z -> name -> jval -> Prop :=
| member_is w1 t k w2 w3 t' v w4 : gap w1 -> key_text t k -> gap w2 -> gap w3 -> value_text t' v -> gap w4 ->
    member (w1 ++ t ++ w2 ++ [58] ++ w3 ++ t' ++ w4) (to_bytes k) v.

(** a text and its value *)
Definition text_of (s : list Z) (v : jval) : Prop :=
  exists w1 t w2, s = w1 ++ t ++ w2 /\ gap w1 /\ value_text t v /\ last_gap w2.

(** No letter of a name is a blank, a quotation mark, or one of [! ? : /] or the closing
    bracket of an object. *)
Definition letters_apart : Prop := forall c, letter c = true \/ part c = true -> ~ In c (blanks ++ [33; 63; 58; 47; 34; 39; 125]).
End Unicode.

(** What the Unicode tables say about ASCII characters: letters are A-Z and a-z; parts are
    the digits, [_], and [^] and the grave accent, which are diacritics *)
Definition ascii_letter (c : Z) : bool := ((65 <=? c) && (c <=? 90)) || ((97 <=? c) && (c <=? 122)).
Definition ascii_part (c : Z) : bool := ((48 <=? c) && (c <=? 57)) || (c =? 95) || (c =? 94) || (c =? 96).
Definition unicode_tables (letter part : Z -> bool) : Prop :=
  letters_apart letter part /\ forall c, 0 <= c < 128 -> letter c = ascii_letter c /\ part c = ascii_part c.

(** A value as the Rust types admit it, with distinct keys that are strings of Rust, and no
    number that is infinite or not a number *)
Definition read_node (v : jval) : Prop :=
  rust_node v /\
  match v with
  | JDouble b => exists s m, fdec F64 b = FNum s m
  | JMap m => NoDup (map fst m) /\ Forall (fun km => rust_string (2 ^ 63) (fst km)) m
  | _ => True
  end.

(* ------------------------------------------------------------------ *)
(** * JSON (RFC 8259) *)

Definition json_blank (w : list Z) : Prop := Forall (fun c => In c [9; 10; 13; 32]) w.
(** Left out: U+2028, U+2029, and [\u] with a surrogate *)
Inductive json_piece : list Z -> list Z -> Prop :=
| json_char c : 32 <= c -> c <> 34 -> c <> 92 -> c <> 8232 -> c <> 8233 -> json_piece [c] [c]
| json_escape c c' : In (c, c') [(34, 34); (92, 92); (47, 47); (98, 8); (102, 12); (110, 10); (114, 13); (116, 9)] -> json_piece [92; c] [c']
| json_unicode a b c d v : reads 16 [a; b; c; d] v -> ~ (55296 <= v < 57344) -> json_piece [92; 117; a; b; c; d] [v].
Definition json_string (t s : list Z) : Prop :=
  exists l, t = [34] ++ concat (map fst l) ++ [34] /\ s = concat (map snd l) /\ Forall (fun p => json_piece (fst p) (snd p)) l.
(** Left out: keys with escapes *)
Definition json_key (t k : list Z) : Prop := t = [34] ++ k ++ [34] /\ Forall (fun c => json_piece [c] [c]) k.
Definition json_sign (sg : list Z) : Prop := sg = [] \/ sg = [45].
(** Left out: integers beyond 64 bits and numbers from half a step above the largest double on *)
Inductive json_number : list Z -> jval -> Prop :=
| json_int sg ds v : json_sign sg -> whole_number ds -> reads 10 ds v -> i64_range (with_sign sg v) -> json_number (sg ++ ds) (JInt (with_sign sg v))
| json_double sg i fr f ex e m x bits : json_sign sg -> whole_number i -> (fr = [] /\ f = [] /\ ex <> []) \/ (fr = 46 :: f /\ f <> []) -> Forall is_digit f -> exponent ex e ->
    reads 10 (i ++ f) m -> x = e - zlen f ->
    nearest_double (match sg with [45] => true | _ => false end) (m * 10 ^ Z.max 0 x * 2 ^ 1074) (10 ^ Z.max 0 (- x)) bits ->
    json_number (sg ++ i ++ fr ++ ex) (JDouble bits).
(** Left out: objects with a name twice *)
Inductive json_value : list Z -> jval -> Prop :=
| json_null : json_value (txt "null") JNull
| json_true : json_value (txt "true") (JBool true)
| json_false : json_value (txt "false") (JBool false)
| json_text t s : json_string t s -> json_value t (JString (to_bytes s))
| json_num t v : json_number t v -> json_value t v
| json_no_elements w : json_blank w -> json_value ([91] ++ w ++ [93]) (JArray [])
| json_array t l : json_elements t l -> json_value ([91] ++ t ++ [93]) (JArray l)
| json_no_members w : json_blank w -> json_value ([123] ++ w ++ [125]) (JMap [])
| json_object t m : json_members t m -> NoDup (map fst m) -> json_value ([123] ++ t ++ [125]) (JMap m)
with json_elements : list Z -> list jval -> Prop :=
| json_element w1 t v w2 : json_blank w1 -> json_value t v -> json_blank w2 -> json_elements (w1 ++ t ++ w2) [v]
| json_more_elements w1 t v w2 t' l : json_blank w1 -> json_value t v -> json_blank w2 -> json_elements t' l -> json_elements (w1 ++ t ++ w2 ++ [44] ++ t') (v :: l)
with json_members : list Z -> list (name * jval) -> Prop :=
| json_last t k v : json_member t k v -> json_members t [(k, v)]
| json_more_members t k v t' l : json_member t k v -> json_members t' l -> json_members (t ++ [44] ++ t') ((k, v) :: l)
with json_member : list Z -> name -> jval -> Prop :=
| json_pair w1 t k w2 w3 t' v w4 : json_blank w1 -> json_key t k -> json_blank w2 -> json_blank w3 -> json_value t' v -> json_blank w4 ->
    json_member (w1 ++ t ++ w2 ++ [58] ++ w3 ++ t' ++ w4) (to_bytes k) v.
Definition json_of (s : list Z) (v : jval) : Prop :=
  exists w1 t w2, s = w1 ++ t ++ w2 /\ json_blank w1 /\ json_value t v /\ json_blank w2.
