(** What C49 speaks about: texts of numbers, what a printed value means, and what is left
    of a document that is printed and read. *)
From Coq Require Import String.
From Verif Require Import Base FloatModel CompactionSpec Json5Model Json5Spec DocModel ArchiveModel JsonModel JsonSpec PrintModel.

(* ------------------------------------------------------------------ *)
(** * [f64::to_string] *)

(** A text of the finite double [bits]: a minus sign, digits, and a fraction unless it is a
    whole number; of all doubles [bits] is nearest to it.  Whole numbers up to 2^53 are
    written exactly (larger ones end in zeros).  This is what the standard library says
    about its shortest texts. *)
Definition shown (t : list Z) (bits : Z) : Prop :=
  exists s n i dot f m, fdec F64 bits = FNum s n /\
    t = (if s then [45] else []) ++ i ++ dot ++ f /\ whole_number i /\ Forall is_digit f /\
    (if n mod 2 ^ 1074 =? 0 then dot = [] /\ f = [] else dot = [46] /\ f <> []) /\
    reads 10 (i ++ f) m /\ nearest_double s (m * 2 ^ 1074) (10 ^ zlen f) bits /\
    (n mod 2 ^ 1074 = 0 -> n / 2 ^ 1074 <= 2 ^ 53 -> m = n / 2 ^ 1074).

Definition shows (show : Z -> list Z) : Prop :=
  forall bits, u64_range bits ->
    match fdec F64 bits with
    | FNum _ _ => shown (show bits) bits
    | FInf s => show bits = if s then txt "-inf" else txt "inf"
    | FNaN => show bits = txt "NaN"
    end.

(* ------------------------------------------------------------------ *)
(** * Values *)

(** a string without quotation marks, backslashes and ends of lines *)
Definition clean (s : list Z) : Prop :=
  exists cs, s = to_bytes cs /\ Forall (fun c => scalar c /\ c <> 34 /\ c <> 92 /\ ~ In c line_ends) cs.

(** a finite number that is no whole number of 64 bits or more *)
Definition clean_number (bits : Z) : Prop :=
  u64_range bits /\ exists s n, fdec F64 bits = FNum s n /\ (n mod 2 ^ 1074 = 0 -> n < 2 ^ 63 * 2 ^ 1074).

Inductive printable : mval -> Prop :=
| printable_bool b : printable (MBool b)
| printable_string s : clean s -> printable (MString s)
| printable_number bits : clean_number bits -> printable (MNumber bits)
| printable_array l : (forall x, In x l -> printable x) -> printable (MArray l)
| printable_map m : NoDup (map fst m) -> (forall k x, In (k, x) m -> clean k) -> (forall k x, In (k, x) m -> printable x) -> printable (MMap m)
| printable_null : printable MNull
| printable_undefined : printable MUndefined.

(** The value that a printed value is read as.  Whole numbers are read as integers; this is
    where the sign of zero is lost. *)
Inductive means : mval -> jval -> Prop :=
| means_bool b : means (MBool b) (JBool b)
| means_string s : means (MString s) (JString s)
| means_int bits s n i : fdec F64 bits = FNum s n -> n mod 2 ^ 1074 = 0 ->
    i64_to_f64 i = bits \/ (s = true /\ n = 0 /\ i = 0) ->
    (n / 2 ^ 1074 <= 2 ^ 53 -> i = signed s (n / 2 ^ 1074)) -> means (MNumber bits) (JInt i)
| means_double bits s n : fdec F64 bits = FNum s n -> n mod 2 ^ 1074 <> 0 -> means (MNumber bits) (JDouble bits)
| means_array l l' : Forall2 means l l' -> means (MArray l) (JArray l')
| means_map m m' : Forall2 (fun a b => fst a = fst b /\ means (snd a) (snd b)) m m' -> means (MMap m) (JMap m')
| means_null : means MNull JNull
| means_undefined : means MUndefined JUndefined.

(* ------------------------------------------------------------------ *)
(** * Documents *)

(** the same value, in an allocation of its own *)
Definition content {T} (q : qv (arc T)) : qv T := match q with Val a => Val (snd a) | Undefined => Undefined | Null => Null end.
Definition same_param (p q : param) : Prop :=
  match p, q with
  | PBool a, PBool b => a = b
  | PFloat a, PFloat b => a = b
  | PInt a, PInt b => a = b
  | PString a, PString b => content a = content b
  | PIntArray a, PIntArray b => content a = content b
  | PFloatArray a, PFloatArray b => a = b
  | PBinary a, PBinary b => content a = content b
  | _, _ => False
  end.

Definition on_val {T} (P : T -> Prop) (q : qv T) : Prop := match q with Val a => P a | _ => True end.
(** whole numbers that are doubles *)
Definition small (n : Z) : Prop := - 2 ^ 53 <= n <= 2 ^ 53.
(** numbers without the negative zero *)
Definition clean_float (bits : Z) : Prop := clean_number bits /\ bits <> 2 ^ 63.
Definition printable_param (p : param) : Prop :=
  match p with
  | PBool _ => True
  | PFloat q => on_val clean_float q
  | PInt q => on_val small q
  | PString q => on_val clean (content q)
  | PIntArray q => on_val (Forall small) (content q)
  | PFloatArray q => on_val (Forall clean_float) q
  | PBinary q => on_val (Forall (fun b => 0 <= b < 256)) (content q)
  end.

(** definitions with proper names, as they are in loaded documents *)
Definition proper_names (l : list name) : Prop := NoDup l /\ Forall plain_name l.
Inductive printable_def : def -> Prop :=
| printable_ldef l : proper_names (map fst (ld_members l)) -> proper_names (map fst (ld_refs l)) -> proper_names (ld_old l) ->
    (forall key id p vt, In (key, (id, DParam p vt)) (ld_members l) -> printable_param p) ->
    (forall key id d, In (key, (id, DCil d)) (ld_members l) -> printable_def d) ->
    (forall key id d u, In (key, (id, DMil d u)) (ld_members l) -> printable_def d) ->
    (forall key id q vt, In (key, (id, (q, vt))) (ld_refs l) -> on_val (fun s => plain_name s \/ s = []) q) ->
    printable_def (Def l).

(** The same definition: the numbers of members may be others; old names of references are
    lost. *)
Inductive same_def : def -> def -> Prop :=
| same_ldef l l' :
    (forall key, same_member (option_map snd (hget key (ld_members l))) (option_map snd (hget key (ld_members l')))) ->
    (forall key, option_map snd (hget key (ld_refs l')) = option_map snd (hget key (ld_refs l))) ->
    (ld_refs l <> [] -> ld_enum l' = ld_enum l) ->
    (forall n, In n (ld_old l') <-> In n (ld_old l)) -> ld_ref_old l' = [] ->
    same_def (Def l) (Def l')
with same_member : option (ldefval def) -> option (ldefval def) -> Prop :=
| same_none : same_member None None
| same_dparam p p' vt : same_param p p' -> same_member (Some (DParam p vt)) (Some (DParam p' vt))
| same_dcil d d' : same_def d d' -> same_member (Some (DCil d)) (Some (DCil d'))
| same_dmil d d' u : same_def d d' -> same_member (Some (DMil d u)) (Some (DMil d' u)).

(** the value of a member of the root, and what it has to be *)
Definition current (p : param) (sab : option (rootsab mutlist)) : param := match sab with Some (RParam q) => q | _ => p end.
Definition printable_member (w : rootvalue) (sab : option (rootsab mutlist)) : Prop :=
  match w with
  | WParam p _ => printable_param (current p sab)
  | WMList d _ => printable_def d /\ (sab = Some (RMut None) \/ exists next, sab = Some (RMut (Some ([], next))) /\ 0 <= next <= 2 ^ 53)
  | WTable _ _ _ | WCList _ _ => sab = None
  end.
Definition printable_root (r : root_obj) : Prop :=
  proper_names (map fst (ro_default r)) /\ proper_names (ro_old r) /\
  forall key id w, In (key, (id, w)) (ro_default r) -> printable_member w (hget key (ro_sabun r)).

(** A member of the root, its value, and what is read.  Values become defaults; tables and
    constant lists are not printed; a list that can be undefined becomes one that cannot. *)
Inductive read_back : option rootvalue -> option (rootsab mutlist) -> option rootvalue -> option (rootsab mutlist) -> Prop :=
| back_none s : read_back None s None None
| back_param p vt s p' : same_param (current p s) p' -> read_back (Some (WParam p vt)) s (Some (WParam p' vt)) None
| back_list d u l d' : same_def d d' ->
    read_back (Some (WMList d u)) (Some (RMut l)) (Some (WMList d' false)) (Some (RMut (Some ([], match l with Some (_, next) => next | None => 0 end))))
| back_table d rows old s : read_back (Some (WTable d rows old)) s None None
| back_const d l s : read_back (Some (WCList d l)) s None None.

(** The document is printed as a text, the text is read, and its value is a document. *)
Definition printed_and_read (letter part : Z -> bool) (show : Z -> list Z) (addr : list Z -> Z) (iter : forall A, hmap A -> hmap A) (r r' : root_obj) : Prop :=
  exists v j, root_to_json r = Ok v /\ parse_file letter part (to_string_pretty show v) = Some j /\ json_root_to_rust addr iter j = Ok r'.
