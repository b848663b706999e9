(** Model of history file names, hash folder names and creation time files.
    Citations are relative to /repo/dochy_fs/src/imp.  Text is a list of UTF-8
    bytes. *)
From Verif Require Import Base CompactionModel TextModel StringCompactionModel.

(* ------------------------------------------------------------------ *)
(** * History file names *)

(** history/file_name/file_name_props.rs L7-13 *)
Record props : Type := Props { p_control : Z; p_prev : Z; p_order : list Z; p_tag : option (list Z) }.

(** history/file_name/file_name_props.rs L18-23 *)
Definition props_new (control prev : Z) (order : list Z) (tag : option (list Z)) : option props :=
  match order with [] => None | _ => Some (Props control prev order tag) end.

(** ".his" *)
Definition txt_his : list Z := [46; 104; 105; 115].

(** history/file_name/calc_filename.rs L8-29 *)
Definition calc_filename (tag : option (list Z)) (control : Z) (prev : option Z) (order : list Z) : list Z :=
  (match tag with Some t => 35 :: t ++ [35] | None => [] end) ++
  (match prev with Some p => 40 :: print_uint p ++ [41] | None => [] end) ++
  95 :: print_uint control ++ flat_map (fun n => 95 :: print_uint n) order ++ txt_his.

(** history/file_name/file_name_props.rs L57-61 *)
Definition filename (p : props) : list Z :=
  calc_filename (p_tag p) (p_control p) (if p_control p =? p_prev p then None else Some (p_prev p)) (p_order p).

(** [str::is_char_boundary] on valid UTF-8 *)
Definition char_boundary (s : list Z) (i : nat) : bool :=
  match i with
  | O => true
  | _ => match nth_error s i with
         | None => (i =? length s)%nat
         | Some b => (b <? 128) || (192 <=? b)
         end
  end.

(** [&s[a..b]] *)
Definition slice (s : list Z) (a b : nat) : res (list Z) :=
  if (a <=? b)%nat && char_boundary s a && char_boundary s b then Ok (firstn (b - a) (skipn a s)) else Panic.

(** index of the first [c] *)
Fixpoint index_of (c : Z) (s : list Z) : option nat :=
  match s with [] => None | x :: r => if x =? c then Some O else option_map S (index_of c r) end.

(** history/file_name/analyze_file_name.rs L93-106 get_tag: [i] counts from the
    second byte, and the slice ends at [i], not at [i + 1] *)
Definition get_tag (s : list Z) : res (option (list Z)) :=
  if zlen s <=? 1 then Ok None else
  match s with
  | first :: r =>
      if negb (first =? 35) then Ok None else
      match index_of 35 r with
      | Some i => t <- slice s 1 i ; Ok (Some t)
      | None => Ok None
      end
  | [] => Ok None
  end.

(** history/file_name/analyze_file_name.rs L108-121 get_prev_ctl *)
Definition get_prev_ctl (s : list Z) : res (option (list Z)) :=
  if zlen s <=? 1 then Ok None else
  match s with
  | first :: r =>
      if negb (first =? 40) then Ok None else
      match index_of 41 r with
      | Some i => t <- slice s 1 (i + 1) ; Ok (Some t)
      | None => Ok None
      end
  | [] => Ok None
  end.

(** the loop of history/file_name/analyze_file_name.rs L130-142; [fuel] is
    [10 - i], so it is used up exactly when [i == 10].  The rest of the input is
    returned in place of the number of bytes read. *)
Fixpoint get_num_loop (fuel : nat) (s : list Z) (result : Z) : option (Z * list Z) :=
  match fuel with
  | O => None
  | S f =>
      match s with
      | [] => None
      | b :: r => if is_digit b then get_num_loop f r (result * 10 + (b - 48)) else Some (result, s)
      end
  end.

(** history/file_name/analyze_file_name.rs L124-145 get_num *)
Definition get_num (s : list Z) : option (Z * list Z) :=
  match s with
  | [] => None
  | c :: r => if c =? 95 then get_num_loop 9 r 0 else None
  end.

(** [u32::from_str]: an optional plus sign and at least one digit *)
Definition parse_u32 (s : list Z) : option Z :=
  let d := match s with c :: r => if c =? 43 then r else s | [] => s end in
  match d with
  | [] => None
  | _ => if forallb is_digit d && (digits_value d <? 2 ^ 32) then Some (digits_value d) else None
  end.

(** [str::ends_with] *)
Definition ends_with (suffix s : list Z) : bool := starts_with (rev suffix) (rev s).

(** the loop of history/file_name/analyze_file_name.rs L76-89.  [Err] is running
    out of fuel, which does not happen ([analyze_total]). *)
Fixpoint read_order (fuel : nat) (s : list Z) (order : list Z) : res (option (list Z)) :=
  match fuel with
  | O => Err
  | S f =>
      match get_num s with
      | Some (n, rest) => read_order f rest (order ++ [n])
      | None => Ok (if eqb_bytes s txt_his then Some order else None)
      end
  end.

(** history/file_name/analyze_file_name.rs L46-90.  The capacity hint has no
    influence on the result. *)
Definition analyze_file_name (s : list Z) : res (option props) :=
  if negb (ends_with txt_his s) then Ok None else
  tag <- get_tag s ;
  s <- (match tag with Some t => slice s (length t + 2) (length s) | None => Ok s end) ;
  prev_ctl <- get_prev_ctl s ;
  s <- (match prev_ctl with Some t => slice s (length t + 2) (length s) | None => Ok s end) ;
  match get_num s with
  | None => Ok None
  | Some (n, s) =>
      let prev := match prev_ctl with
                  | Some t => match parse_u32 t with Some p => p | None => n end
                  | None => n
                  end in
      order <- read_order (S (length s)) s [] ;
      match order with
      | None => Ok None
      | Some order => Ok (props_new n prev order tag)
      end
  end.

(* ------------------------------------------------------------------ *)
(** * Hash folder names *)

(** common/path/hash.rs L54-61 get_char_and_shift: the character *)
Definition hex_char (hex : Z) : Z := if hex <? 10 then 48 + hex else 97 + (hex - 10).

(** common/path/hash.rs L46-52 u64_to_hex_file_name with L54-61: the top four
    bits of a 64-bit number, [k] times *)
Fixpoint u64_to_hex (k : nat) (num : Z) : list Z :=
  match k with
  | O => []
  | S k => hex_char (num / 2 ^ 60) :: u64_to_hex k ((num * 16) mod 2 ^ 64)
  end.

(** common/path/hash.rs L37-44 hash_to_folder_name *)
Definition hash_to_folder_name (hash : Z) : list Z :=
  u64_to_hex 16 (hash / 2 ^ 64) ++ u64_to_hex 16 (hash mod 2 ^ 64).

(** common/path/hash.rs L14-35 hex_to_u64 over its 16 bytes.  [b - '0'] and
    [b - 'a'] are u8 subtractions and panic below zero (overflow checks on). *)
Fixpoint hex_to_u64 (s : list Z) (r : Z) : res (option Z) :=
  match s with
  | [] => Ok (Some r)
  | b :: rest =>
      let r := (r * 16) mod 2 ^ 64 in
      if b <? 48 then Panic
      else if b - 48 <=? 9 then hex_to_u64 rest (r + (b - 48))
      else if b <? 97 then Panic
      else if b - 97 <=? 5 then hex_to_u64 rest (r + (10 + (b - 97)))
      else Ok None
  end.

(** common/path/hash.rs L3-12 folder_name_to_hash; the argument is the text
    [to_string_lossy] returns *)
Definition folder_name_to_hash (s : list Z) : res (option Z) :=
  if negb (zlen s =? 32) then Ok None else
  upper <- hex_to_u64 (firstn 16 s) 0 ;
  match upper with
  | None => Ok None
  | Some upper =>
      lower <- hex_to_u64 (skipn 16 s) 0 ;
      match lower with
      | None => Ok None
      | Some lower => Ok (Some (upper * 2 ^ 64 + lower))
      end
  end.

(* ------------------------------------------------------------------ *)
(** * Creation times *)

(** std::time::SystemTime on Unix: seconds since the epoch (i64) and nanoseconds *)
Definition systime : Type := (Z * Z)%type.

(** common/path/created_time_file.rs L6-13 create_time_dat; [duration_since]
    fails before the epoch.  Write errors are not modelled. *)
Definition create_time_dat (t : systime) : res (list Z) :=
  if fst t <? 0 then Err else Ok (le_bytes 8 (fst t) ++ le_bytes 4 (snd t)).

(** common/path/created_time_file.rs L15-24 from_time_dat; adding the durations
    panics when the seconds leave i64 *)
Definition from_time_dat (bytes : list Z) : res systime :=
  '(secs, r) <- read_exact 8 (bytes, 0) ;
  '(nanos, _) <- read_exact 4 r ;
  let s := le_value secs in
  let n := le_value nanos in
  if 2 ^ 63 <=? s then Panic
  else if 2 ^ 63 <=? s + n / 10 ^ 9 then Panic
  else Ok (s + n / 10 ^ 9, n mod 10 ^ 9).
