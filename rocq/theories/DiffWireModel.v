(** Model of writing differences as compacted values and reading them back.
    Citations are relative to /repo/dochy_diff/src/imp. *)
From Verif Require Import Base CompactionModel FloatModel StringCompactionModel LinkedModel LinkedSpec DocModel DiffModel.

(* ------------------------------------------------------------------ *)
(** * Sets of member numbers *)

(** write/store_ids.rs L6-11 *)
Inductive stored_ids : Type := SZero | SU64 (b : Z) | SBits (v : list Z) | SNumbers (v : list Z).

(** write/store_ids.rs L172-178: the last key of a BTreeMap is its largest *)
Definition max_and_len (keys : list Z) : Z * Z :=
  match keys with [] => (0, 0) | _ => (last keys 0, zlen keys) end.

(** write/store_ids.rs L13-15 *)
Inductive ids_type : Type := TyZero | TyU64 | TyBits | TyNumbers.

(** write/store_ids.rs L118-164 *)
Definition calc_type (max len : Z) : ids_type :=
  if len =? 0 then TyZero
  else if max <? 64 then (if len >? max / 11 then TyU64 else TyNumbers)
  else if max <? 32768 then (if len >? max / 24 then TyBits else TyNumbers)
  else if max <? 8388608 then (if len >? max / 32 then TyBits else TyNumbers)
  else if max <? 2147483648 then (if len >? max / 40 then TyBits else TyNumbers)
  else (if len >? max / 48 then TyBits else TyNumbers).

(** write/store_ids.rs L59-63; [1 << i] on u64 panics from 64 on *)
Definition update_u64 (keys : list Z) (r : Z) : res Z :=
  mfold (fun r i => if i <? 64 then Ok (Z.lor r (Z.shiftl 1 i)) else Panic) keys r.

(** write/store_ids.rs L88-97; an index out of range (unchecked there) is a panic *)
Definition update_bits (keys : list Z) (r : list Z) : res (list Z) :=
  mfold (fun r i =>
    match zget r (i / 64) with
    | Some w => vec_set r (i / 64) (Z.lor w (Z.shiftl 1 (i mod 64)))
    | None => Panic
    end) keys r.

(** write/store_ids.rs L17-30 with L52-57, L65-75, L99-104 (and L32-49 for
    references, with the second list empty); the maps enter by their keys *)
Definition store_ids (params lists : list Z) : res stored_ids :=
  let '(max1, len1) := max_and_len params in
  let '(max2, len2) := max_and_len lists in
  let max := Z.max (Z.max 0 max1) max2 in
  match calc_type max (len1 + len2) with
  | TyZero => Ok SZero
  | TyU64 => r <- update_u64 params 0 ; r <- update_u64 lists r ; Ok (SU64 r)
  | TyBits =>
      r <- update_bits params (repeat 0 (Z.to_nat (max / 64 + 1))) ;
      r <- update_bits lists r ; Ok (SBits r)
  | TyNumbers => Ok (SNumbers (params ++ lists))
  end.

(** [x as i64] *)
Definition i64 (x : Z) : Z := to_signed 64 x.
(** [x as u64], [x as usize] *)
Definition u64 (x : Z) : Z := to_unsigned 64 x.

(** write/write_store_ids.rs L5-32 *)
Definition write_stored_ids (s : stored_ids) : list kval :=
  match s with
  | SZero => [KBit true; KBit false]
  | SU64 b => [KBit true; comp_int (i64 b)]
  | SBits b => [KBit false; KBit true; comp_int (i64 (zlen b))] ++ map (fun s => comp_int (i64 s)) b
  | SNumbers n => [KBit false; KBit false; comp_int (i64 (zlen n))] ++ map (fun s => comp_int (i64 s)) n
  end.

(* ------------------------------------------------------------------ *)
(** * Writing *)

(** write/write_param.rs L68-92; [unwrap] panics without a value *)
Definition write_param2 (p : param) : res (list kval) :=
  match p with
  | PBool (Val b) => Ok [KBit b]
  | PInt (Val i) => Ok [comp_int i]
  | PFloat (Val f) => Ok [comp_double f]
  | PString (Val s) => Ok [comp_str (snd s)]
  | PIntArray (Val a) => Ok [KBinary8 (map u64 (snd a))]
  | PFloatArray (Val a) => Ok [KBinary8 a]
  | PBinary (Val a) => Ok [KBinaryArc (snd a)]
  | _ => Panic
  end.

(** the flags before a value: write/write_param.rs L6-66 and, except for the
    plain kind, write/write_refs.rs L26-70 *)
Definition write_flags (vt : var_type) (t : qv_type) : res (list kval) :=
  match vt, t with
  | Normal, QVal => Ok []
  | Nullable, QVal => Ok [KBit true]
  | Nullable, QNull => Ok [KBit false]
  | Undefiable, QVal => Ok [KBit true]
  | Undefiable, QUndefined => Ok [KBit false]
  | UndefNullable, QVal => Ok [KBit true]
  | UndefNullable, QNull => Ok [KBit false; KBit true]
  | UndefNullable, QUndefined => Ok [KBit false; KBit false]
  | _, _ => Err
  end.

(** write/write_param.rs L6-66 *)
Definition write_param (p : param) (vt : var_type) : res (list kval) :=
  flags <- write_flags vt (param_qv_type p) ;
  match param_qv_type p with
  | QVal => v <- write_param2 p ; Ok (flags ++ v)
  | _ => Ok flags
  end.

(** write/write_refs.rs L26-70 with write_val L75-82, whose error for the plain
    kind is the one of [write_flags] *)
Definition write_ref (q : qv (list Z)) (vt : var_type) : res (list kval) :=
  flags <- write_flags vt (qv_type_of q) ;
  match q with
  | Val s => Ok (flags ++ [comp_str s])
  | _ => Ok flags
  end.

(** write/write_root.rs L45-54 *)
Definition write_params {M} (params : bmap param) (meta : metatable M) : res (list kval) :=
  mfold (fun r e => let '(id, p) := e in
    match meta_get meta id with
    | Some (_, MParam _ vt) => v <- write_param p vt ; Ok (r ++ v)
    | _ => Panic
    end) params [].

(** write/write_refs.rs L23-73 *)
Definition write_refs2 {M} (refs : bmap (qv (list Z))) (meta : metatable M) : res (list kval) :=
  mfold (fun r e => let '(id, q) := e in
    match meta_get meta id with
    | Some (_, MParam _ vt) => v <- write_ref q vt ; Ok (r ++ v)
    | _ => Panic
    end) refs [].

(** write/write_refs.rs L9-21 *)
Definition write_refs {M} (refs : bmap (qv (list Z))) (meta : metatable M) : res (list kval) :=
  ids <- store_ids (map fst refs) [] ;
  match ids with
  | SZero => Ok (write_stored_ids ids)
  | _ => v <- write_refs2 refs meta ; Ok (write_stored_ids ids ++ v)
  end.

(** write/write_list.rs L74-99; [inner] is write_list *)
Definition write_ld_lists {LD M} (inner : LD -> M -> res (list kval)) (lists : bmap (option LD)) (meta : metatable M)
    : res (list kval) :=
  mfold (fun r e => let '(id, op) := e in
    match meta_get meta id with
    | None => Panic
    | Some (_, MMList tables) =>
        match op with
        | Some op => v <- inner op tables ; Ok (r ++ v)
        | None => Err
        end
    | Some (_, MOptMil tables) =>
        match op with
        | Some l => v <- inner l tables ; Ok (r ++ KBit true :: v)
        | None => Ok (r ++ [KBit false])
        end
    | Some (_, MParam _ _) => Panic
    end) lists [].

Section Write.
Context {LD M : Type}.
Variable inner : LD -> M -> res (list kval).

(** write/write_list.rs L54-72 *)
Definition write_list_item2 (ld : itemdiff LD) (meta : metatables M) : res (list kval) :=
  ids <- store_ids (map fst (df_params ld)) (map fst (df_lists ld)) ;
  match ids with
  | SZero => v <- write_refs (df_refs ld) (mt_refs meta) ; Ok (write_stored_ids ids ++ v)
  | _ =>
      v1 <- write_params (df_params ld) (mt_items meta) ;
      v2 <- write_ld_lists inner (df_lists ld) (mt_items meta) ;
      v3 <- write_refs (df_refs ld) (mt_refs meta) ;
      Ok (write_stored_ids ids ++ v1 ++ v2 ++ v3)
  end.

(** write/write_list.rs L25-42 with write_bs L44-52 *)
Definition write_list_item (it : enumdiff LD) (meta : metatables M) : res (list kval) :=
  match it with
  | Modify ld => v <- write_list_item2 ld meta ; Ok (KBit true :: v)
  | Create prev_id ld =>
      v <- write_list_item2 ld meta ;
      Ok ([KBit false; KBit true]
          ++ match prev_id with Some id => [KBit true; comp_int (i64 id)] | None => [KBit false] end ++ v)
  | Delete => Ok [KBit false; KBit false]
  end.

(** write/write_list.rs L13-23 *)
Definition write_list (l : listdiff LD) (meta : metatables M) : res (list kval) :=
  let '(items, next_id) := l in
  mfold (fun r e => let '(id, diff) := e in
           v <- write_list_item diff meta ; Ok (r ++ comp_int (i64 id) :: v))
        items [comp_int (i64 (zlen items)); comp_int (i64 next_id)].

End Write.

Fixpoint write_listT (n : nat) : ldiffT n -> metaT n -> res (list kval) :=
  match n with
  | O => fun (d : Empty_set) _ => match d with end
  | S n => write_list (write_listT n)
  end.

(** write/write_root.rs L24-43 *)
Definition write_root {n} (root : rootdiff (ldiffT n)) (meta : metatable (metaT n)) : res (list kval) :=
  ids <- store_ids (map fst (rd_params root)) (map fst (rd_lists root)) ;
  match ids with
  | SZero => Ok (write_stored_ids ids)
  | _ =>
      v1 <- write_params (rd_params root) meta ;
      v2 <- write_ld_lists (write_listT n) (rd_lists root) meta ;
      Ok (write_stored_ids ids ++ v1 ++ v2)
  end.

(* ------------------------------------------------------------------ *)
(** * Reading *)

(** read/reader.rs L14-19: the reader is the list of the values left *)
Definition next (r : list kval) : res (kval * list kval) :=
  match r with k :: r => Ok (k, r) | [] => Err end.

(** a missing conversion result is an error: ../diff_error.rs L9-35 *)
Definition or_err {A} (o : option A) : res A := match o with Some a => Ok a | None => Err end.

(** [r.read()?.ast_bool()?] and the like *)
Definition read_bool (r : list kval) : res (bool * list kval) :=
  '(k, r) <- next r ; b <- or_err (as_bool k) ; Ok (b, r).
Definition read_i64 (r : list kval) : res (Z * list kval) :=
  '(k, r) <- next r ; i <- or_err (as_i64 k) ; Ok (i, r).
Definition read_string (r : list kval) : res (list Z * list kval) :=
  '(k, r) <- next r ; s <- or_err (as_string k) ; Ok (s, r).
Definition read_f64 (r : list kval) : res (Z * list kval) :=
  '(k, r) <- next r ; f <- or_err (as_f64 k) ; Ok (f, r).

(** [n] readings in a row *)
Fixpoint read_n {A} (f : list kval -> res (A * list kval)) (n : nat) (r : list kval) : res (list A * list kval) :=
  match n with
  | O => Ok ([], r)
  | S n => '(a, r) <- f r ; '(v, r) <- read_n f n r ; Ok (a :: v, r)
  end.

(** How often a loop over [0..len] that reads at least one value in each round can
    run: after as many rounds as there are values the next one fails, so the
    remaining rounds need not be counted. *)
Definition rounds (len : Z) (r : list kval) : nat := Z.to_nat (Z.min len (zlen r + 1)).

(** read/reader.rs L21-37.  [vec_with_capacity_safe] fails only for lengths that
    the data cannot have. *)
Definition read_array (r : list kval) : res (list Z * list kval) :=
  '(len, r) <- read_i64 r ;
  '(v, r) <- read_n read_i64 (rounds (u64 len) r) r ;
  Ok (map u64 v, r).

(** read/read_store_ids.rs L5-22 *)
Definition read_stored_ids (r : list kval) : res (stored_ids * list kval) :=
  '(b, r) <- read_bool r ;
  if b then
    '(i, r) <- read_i64 r ;
    let bits := u64 i in
    if bits =? 0 then Ok (SZero, r) else Ok (SU64 bits, r)
  else
    '(b, r) <- read_bool r ;
    '(v, r) <- read_array r ;
    Ok (if b then SBits v else SNumbers v, r).

(** read/get_null.rs L3-13 *)
Definition get_null (pt : param_type) : param :=
  match pt with
  | TBool => PBool Null | TInt => PInt Null | TFloat => PFloat Null | TString => PString Null
  | TIntArray => PIntArray Null | TFloatArray => PFloatArray Null | TBinary => PBinary Null
  end.

(** read/get_undefined.rs L3-13 *)
Definition get_undefined (pt : param_type) : param :=
  match pt with
  | TBool => PBool Undefined | TInt => PInt Undefined | TFloat => PFloat Undefined | TString => PString Undefined
  | TIntArray => PIntArray Undefined | TFloatArray => PFloatArray Undefined | TBinary => PBinary Undefined
  end.

(** read/read_param.rs L39-84.  What is read is in [Arc]s of its own; address 0
    stands for all of them.  [Vec<u64>] memory read as [Vec<i64>] is [as i64]. *)
Definition read_param2 (pt : param_type) (r : list kval) : res (param * list kval) :=
  match pt with
  | TBool => '(b, r) <- read_bool r ; Ok (PBool (Val b), r)
  | TInt => '(i, r) <- read_i64 r ; Ok (PInt (Val i), r)
  | TFloat => '(f, r) <- read_f64 r ; Ok (PFloat (Val f), r)
  | TString => '(s, r) <- read_string r ; Ok (PString (Val (0, s)), r)
  | TIntArray =>
      '(k, r) <- next r ;
      match k with KBinary8 b => Ok (PIntArray (Val (0, map i64 b)), r) | _ => Err end
  | TFloatArray =>
      '(k, r) <- next r ;
      match k with KBinary8 b => Ok (PFloatArray (Val b), r) | _ => Err end
  | TBinary =>
      '(k, r) <- next r ;
      match k with KBinary b => Ok (PBinary (Val (0, b)), r) | _ => Err end
  end.

(** the flags before a value: read/read_param.rs L8-37, read/read_refs.rs L59-88 *)
Definition read_flags (vt : var_type) (r : list kval) : res (qv_type * list kval) :=
  match vt with
  | Normal => Ok (QVal, r)
  | Nullable => '(b, r) <- read_bool r ; Ok (if b then QVal else QNull, r)
  | Undefiable => '(b, r) <- read_bool r ; Ok (if b then QVal else QUndefined, r)
  | UndefNullable =>
      '(b, r) <- read_bool r ;
      if b then Ok (QVal, r)
      else '(b, r) <- read_bool r ; Ok (if b then QNull else QUndefined, r)
  end.

(** read/read_param.rs L8-37 *)
Definition read_param (pt : param_type) (vt : var_type) (r : list kval) : res (param * list kval) :=
  '(t, r) <- read_flags vt r ;
  match t with
  | QVal => read_param2 pt r
  | QNull => Ok (get_null pt, r)
  | QUndefined => Ok (get_undefined pt, r)
  end.

(** read/read_refs.rs L59-92 *)
Definition read_a_ref (vt : var_type) (r : list kval) : res (qv (list Z) * list kval) :=
  '(t, r) <- read_flags vt r ;
  match t with
  | QVal => '(s, r) <- read_string r ; Ok (Val s, r)
  | QNull => Ok (Null, r)
  | QUndefined => Ok (Undefined, r)
  end.

(** The loop over the bits of a word, common to read/read_params.rs L12-19,
    read/read_lists.rs L11-21 and read/read_refs.rs L42-54: [n] rounds are left,
    [index] is the number of the bit and [flag] has that bit set. *)
Fixpoint bit_loop {A} (f : Z -> A -> list kval -> res (A * list kval)) (bits : Z) (n : nat) (flag index : Z)
    (a : A) (r : list kval) : res (A * list kval) :=
  match n with
  | O => Ok (a, r)
  | S n =>
      '(a, r) <- (if negb (Z.land bits flag =? 0) then f index a r else Ok (a, r)) ;
      let flag := to_unsigned 64 (Z.shiftl flag 1) in
      let index := index + 1 in
      if bits <? flag then Ok (a, r) else bit_loop f bits n flag index a r
  end.

Definition read_bits {A} (f : Z -> A -> list kval -> res (A * list kval)) (bits : Z) (a : A) (r : list kval) :=
  bit_loop f bits 64 1 0 a r.

(** the loops over the words: read/read_root.rs L26-35, read/read_list.rs L69-78,
    read/read_refs.rs L17-21 *)
Fixpoint words_loop {A} (f : Z -> A -> list kval -> res (A * list kval)) (words : list Z) (offset : Z)
    (a : A) (r : list kval) : res (A * list kval) :=
  match words with
  | [] => Ok (a, r)
  | w :: words =>
      '(a, r) <- read_bits (fun index => f (index + offset)) w a r ;
      words_loop f words (offset + 64) a r
  end.

(** the loops over numbers: read/read_root.rs L41-45, read/read_list.rs L87-93,
    read/read_lists_numbers.rs L9-25, read/read_refs.rs L25-32 *)
Fixpoint numbers_loop {A} (f : Z -> A -> list kval -> res (A * list kval)) (ids : list Z)
    (a : A) (r : list kval) : res (A * list kval) :=
  match ids with
  | [] => Ok (a, r)
  | id :: ids => '(a, r) <- f id a r ; numbers_loop f ids a r
  end.

(** read/read_params.rs L23-35 (read_a_param, when the bit is set) with L13-15;
    also read/read_root.rs L42-44 *)
Definition step_param {M} (meta : metatable M) (id : Z) (params : bmap param) (r : list kval)
    : res (bmap param * list kval) :=
  match meta_get meta id with
  | Some (_, MParam pt vt) => '(p, r) <- read_param pt vt r ; Ok (params ++ [(id, p)], r)
  | _ => Ok (params, r)
  end.

(** read/read_list.rs L88-92 *)
Definition step_param_strict {M} (meta : metatable M) (id : Z) (params : bmap param) (r : list kval)
    : res (bmap param * list kval) :=
  match meta_get meta id with
  | Some (_, MParam pt vt) => '(p, r) <- read_param pt vt r ; Ok (params ++ [(id, p)], r)
  | _ => Err
  end.

(** read/read_refs.rs L25-31, L44-49 *)
Definition step_ref {M} (meta : metatable M) (id : Z) (refs : bmap (qv (list Z))) (r : list kval)
    : res (bmap (qv (list Z)) * list kval) :=
  match meta_get meta id with
  | Some (_, MParam _ vt) => '(q, r) <- read_a_ref vt r ; Ok (refs ++ [(id, q)], r)
  | _ => Panic
  end.

(** read/read_refs.rs L7-36 *)
Definition read_refs {M} (meta : metatable M) (r : list kval) : res (bmap (qv (list Z)) * list kval) :=
  '(ids, r) <- read_stored_ids r ;
  match ids with
  | SZero => Ok ([], r)
  | SU64 b => read_bits (step_ref meta) b [] r
  | SBits b => words_loop (step_ref meta) b 0 [] r
  | SNumbers n => numbers_loop (step_ref meta) n [] r
  end.

Section Read.
Context {LD M : Type}.
Variable inner : M -> list kval -> res (LD * list kval).

(** a list behind its flag: read/read_lists.rs L33-42, read/read_lists_numbers.rs L12-21 *)
Definition read_op_list (optional : bool) (tables : M) (r : list kval) : res (option LD * list kval) :=
  if optional then
    '(b, r) <- read_bool r ;
    if b then '(d, r) <- inner tables r ; Ok (Some d, r) else Ok (None, r)
  else '(d, r) <- inner tables r ; Ok (Some d, r).

(** read/read_lists.rs L13-15 with read_a_list L29-48 *)
Definition step_list (meta : metatable M) (id : Z) (lists : bmap (option LD)) (r : list kval)
    : res (bmap (option LD) * list kval) :=
  match meta_get meta id with
  | Some (_, MMList tables) => '(d, r) <- read_op_list false tables r ; Ok (lists ++ [(id, d)], r)
  | Some (_, MOptMil tables) => '(d, r) <- read_op_list true tables r ; Ok (lists ++ [(id, d)], r)
  | Some (_, MParam _ _) => Ok (lists, r)
  | None => Panic
  end.

(** read/read_lists_numbers.rs L10-24 *)
Definition step_list_numbers (meta : metatable M) (id : Z) (lists : bmap (option LD)) (r : list kval)
    : res (bmap (option LD) * list kval) :=
  match meta_get meta id with
  | None => Ok (lists, r)
  | _ => step_list meta id lists r
  end.

(** read/read_list.rs L46-99 *)
Definition read_list_item2 (meta : metatables M) (r : list kval) : res (itemdiff LD * list kval) :=
  '(ids, r) <- read_stored_ids r ;
  match ids with
  | SZero => '(refs, r) <- read_refs (mt_refs meta) r ; Ok (IDiff [] [] refs, r)
  | SU64 bits =>
      '(params, r) <- read_bits (step_param (mt_items meta)) bits [] r ;
      '(lists, r) <- read_bits (step_list (mt_items meta)) bits [] r ;
      '(refs, r) <- read_refs (mt_refs meta) r ;
      Ok (IDiff params lists refs, r)
  | SBits bits =>
      '(params, r) <- words_loop (step_param (mt_items meta)) bits 0 [] r ;
      '(lists, r) <- words_loop (step_list (mt_items meta)) bits 0 [] r ;
      '(refs, r) <- read_refs (mt_refs meta) r ;
      Ok (IDiff params lists refs, r)
  | SNumbers n =>
      '(params, r) <- numbers_loop (step_param_strict (mt_items meta)) n [] r ;
      '(lists, r) <- numbers_loop (step_list_numbers (mt_items meta)) n [] r ;
      '(refs, r) <- read_refs (mt_refs meta) r ;
      Ok (IDiff params lists refs, r)
  end.

(** read/read_list.rs L27-35 with read_cs L37-44 *)
Definition read_list_item (meta : metatables M) (r : list kval) : res (enumdiff LD * list kval) :=
  '(b, r) <- read_bool r ;
  if b then '(d, r) <- read_list_item2 meta r ; Ok (Modify d, r)
  else
    '(b, r) <- read_bool r ;
    if b then
      '(p, r) <- read_bool r ;
      '(prev_id, r) <- (if p then '(i, r) <- read_i64 r ; Ok (Some (u64 i), r) else Ok (None, r)) ;
      '(d, r) <- read_list_item2 meta r ;
      Ok (Create prev_id d, r)
    else Ok (Delete, r).

(** read/read_list.rs L14-25 *)
Definition read_list (meta : metatables M) (r : list kval) : res (listdiff LD * list kval) :=
  '(len, r) <- read_i64 r ;
  '(next_id, r) <- read_i64 r ;
  '(vec, r) <- read_n (fun r => '(id, r) <- read_i64 r ; '(d, r) <- read_list_item meta r ; Ok ((u64 id, d), r))
                 (rounds (u64 len) r) r ;
  Ok ((vec, u64 next_id), r).

End Read.

Fixpoint read_listT (n : nat) : metaT n -> list kval -> res (ldiffT n * list kval) :=
  match n with
  | O => fun (m : Empty_set) _ => match m with end
  | S n => read_list (read_listT n)
  end.

(** read/read_root.rs L12-50 *)
Definition read_root {n} (meta : metatable (metaT n)) (r : list kval) : res (rootdiff (ldiffT n) * list kval) :=
  '(ids, r) <- read_stored_ids r ;
  match ids with
  | SZero => Ok (RDiff [] [], r)
  | SU64 b =>
      '(params, r) <- read_bits (step_param meta) b [] r ;
      '(lists, r) <- read_bits (step_list (read_listT n) meta) b [] r ;
      Ok (RDiff params lists, r)
  | SBits b =>
      '(params, r) <- words_loop (step_param meta) b 0 [] r ;
      '(lists, r) <- words_loop (step_list (read_listT n) meta) b 0 [] r ;
      Ok (RDiff params lists, r)
  | SNumbers n' =>
      '(params, r) <- numbers_loop (step_param meta) n' [] r ;
      '(lists, r) <- numbers_loop (step_list_numbers (read_listT n) meta) n' [] r ;
      Ok (RDiff params lists, r)
  end.

(* ------------------------------------------------------------------ *)
(** * Diff files *)

(** get_diff.rs L25-34: both documents have the definition [def]
    (L13-14 of that file) and its meta table *)
Definition get_diff {n} (from to : sabun n) (def : rootdef n) : res (list Z) :=
  meta <- root_table def ;
  d <- get_root_diff from to def meta ;
  kvals <- write_root d meta ;
  encode kvals.

(** apply_diff.rs L12-18 *)
Definition apply_diff {n} (root : sabun n) (def : rootdef n) (bytes : list Z) : res (sabun n) :=
  meta <- root_table def ;
  '(kvals, _, _) <- decode bytes ;
  '(d, _) <- read_root meta kvals ;
  apply_root_diff root d meta.
