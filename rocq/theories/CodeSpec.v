(** What C66 speaks about: the tokens of a Rust text, the part of Rust generated accessors are
    written in, and the Rust that belongs to the declarations of GenModel. *)
From Coq Require Import String.
From Verif Require Import Base TextModel DocModel DiffSpec JsonModel JsonSpec IntfModel GenModel GenSpec.

Local Notation text := (list Z).

(* ------------------------------------------------------------------ *)
(** * Tokens *)

(** identifiers, keywords and numbers; texts between quotation marks; lifetimes; marks *)
Inductive tok : Type := Word (s : text) | Quoted (s : text) | Life (s : text) | Mark (s : text).

Definition word_char (c : Z) : bool :=
  ((97 <=? c) && (c <=? 122)) || ((65 <=? c) && (c <=? 90)) || ((48 <=? c) && (c <=? 57)) || (c =? 95).
Definition blank (c : Z) : bool := (c =? 32) || (c =? 9) || (c =? 10).
(** marks that never begin a longer one here *)
Definition lone_mark (c : Z) : bool := existsb (Z.eqb c) (txt "(){}[]<>&*.,;|!#").
Definition half_mark (c : Z) : bool := existsb (Z.eqb c) (txt "-=:").
Definition joined (h c : Z) : bool := ((h =? 45) && (c =? 62)) || ((h =? 61) && (c =? 62)) || ((h =? 58) && (c =? 58)).

(** where in a token one is *)
Inductive cur : Type := Between | InWord (s : text) | InQuote (s : text) | InLife (s : text) | Half (c : Z).

Definition start (c : Z) : option (list tok * cur) :=
  if blank c then Some ([], Between)
  else if word_char c then Some ([], InWord [c])
  else if c =? 34 then Some ([], InQuote [])
  else if c =? 39 then Some ([], InLife [])
  else if half_mark c then Some ([], Half c)
  else if lone_mark c then Some ([Mark [c]], Between)
  else None.
Definition after (t : tok) (o : option (list tok * cur)) : option (list tok * cur) :=
  match o with Some (ts, s) => Some (t :: ts, s) | None => None end.

(** Escapes, texts over several lines, characters between apostrophes, comments and prefixed
    texts are not read. *)
Definition step (s : cur) (c : Z) : option (list tok * cur) :=
  match s with
  | Between => start c
  | InWord w => if word_char c then Some ([], InWord (w ++ [c])) else if (c =? 34) || (c =? 39) then None else after (Word w) (start c)
  | InQuote w => if c =? 34 then Some ([Quoted w], Between) else if (c =? 92) || (c =? 10) || (c =? 13) then None else Some ([], InQuote (w ++ [c]))
  | InLife w => if word_char c then Some ([], InLife (w ++ [c])) else if c =? 39 then None else after (Life w) (start c)
  | Half h => if joined h c then Some ([Mark [h; c]], Between) else after (Mark [h]) (start c)
  end.

Fixpoint run (s : cur) (t : text) : option (list tok * cur) :=
  match t with
  | [] => Some ([], s)
  | c :: r => match step s c with
              | Some (a, s') => match run s' r with Some (b, e) => Some (a ++ b, e) | None => None end
              | None => None
              end
  end.

(** the end of the text ends a token *)
Definition whole (s : cur) : option (list tok) :=
  match s with Between => Some [] | InWord w => Some [Word w] | InLife w => Some [Life w] | Half h => Some [Mark [h]] | InQuote _ => None end.
Definition lex (t : text) : option (list tok) :=
  match run Between t with Some (a, s) => match whole s with Some b => Some (a ++ b) | None => None end | None => None end.

(* ------------------------------------------------------------------ *)
(** * A part of Rust *)

Inductive ty : Type :=
| TyName (n : text)
| TyApp (n : text) (t : ty)              (* N<T> *)
| TyRef (t : ty) | TyMut (t : ty) | TyStatic (t : ty)   (* &T, &mut T, &'static T *)
| TyPair (a b : ty)
| TySlice (t : ty).                      (* [T] *)

Inductive pat : Type :=
| PVar (x : text) | PAny
| PText (s : text) | PNum (n : Z)
| PPath (n v : text)                     (* N::V *)
| PTuple (n v : text) (x : text)         (* N::V(x) *)
| PPair (a b : pat).

Inductive expr : Type :=
| EVar (x : text)
| EText (s : text) | ENum (n : Z)
| EPath (m f : text)                     (* m::f *)
| ECall (f : expr) (args : list expr)
| EMethod (e : expr) (f : text) (args : list expr)
| EField (e : expr) (x : text)
| ERef (e : expr) | EDeref (e : expr)
| EPair (a b : expr)
| EStruct (n : text) (fields : list text)       (* N{ x, y } *)
| EClosure (moved : bool) (x : text) (e : expr)
| EMatch (e : expr) (arms : list (pat * expr))
| EIfLet (p : pat) (e : expr) (a b : expr)      (* if let p = e { a } else { b } *)
| EMacro (n : text) (args : list expr)          (* n!(..) *)
| EUnsafe (e : expr)
| EIndex (e i : expr)
| EArray (es : list expr)                       (* every element followed by a comma *)
| EBlock (e : expr).                            (* { e } *)

Inductive stmt : Type :=
| SLet (mut_ : bool) (p : pat) (e : expr)
| SExpr (e : expr).

Inductive receiver : Type := NoSelf | ByValue | ByRef | ByMut.

Record fn : Type := Fn {
  f_pub : bool; f_unsafe : bool; f_name : text; f_self : receiver; f_args : list (text * ty); f_ret : option ty;
  f_lets : list stmt; f_value : option expr }.

Inductive item : Type :=
| IUse (path : list text)                       (* use a::b::*; *)
| IUnsafeImpl (trait n : text)                  (* unsafe impl T for N {} *)
| IStruct (derives : list text) (n : text) (fields : list (text * ty))
| IEnum (repr : option text) (n : text) (variants : list (text * option ty))
| IImpl (n : text) (fns : list fn)
| IImplFor (trait : ty) (n : text) (fns : list fn).

(* ------------------------------------------------------------------ *)
(** * How it is written *)

Local Notation "'kw' s" := (Word (txt s%string)) (at level 0, s at level 0).
Local Notation "'mk' s" := (Mark (txt s%string)) (at level 0, s at level 0).

Fixpoint commas (l : list (list tok)) : list tok :=
  match l with [] => [] | [x] => x | x :: r => x ++ mk"," :: commas r end.
Definition parens (l : list tok) : list tok := mk"(" :: l ++ [mk")"].
Definition braces (l : list tok) : list tok := mk"{" :: l ++ [mk"}"].

Fixpoint ty_toks (t : ty) : list tok :=
  match t with
  | TyName n => [Word n]
  | TyApp n t => Word n :: mk"<" :: ty_toks t ++ [mk">"]
  | TyRef t => mk"&" :: ty_toks t
  | TyMut t => mk"&" :: kw"mut" :: ty_toks t
  | TyStatic t => mk"&" :: Life (txt "static") :: ty_toks t
  | TyPair a b => parens (ty_toks a ++ mk"," :: ty_toks b)
  | TySlice t => mk"[" :: ty_toks t ++ [mk"]"]
  end.

Fixpoint pat_toks (p : pat) : list tok :=
  match p with
  | PVar x => [Word x]
  | PAny => [kw"_"]
  | PText s => [Quoted s]
  | PNum n => [Word (print_uint n)]
  | PPath n v => [Word n; mk"::"; Word v]
  | PTuple n v x => [Word n; mk"::"; Word v; mk"("; Word x; mk")"]
  | PPair a b => parens (pat_toks a ++ mk"," :: pat_toks b)
  end.

(** a comma follows an arm unless it is a block *)
Definition arm_end (e : expr) : list tok := match e with EBlock _ => [] | _ => [mk","] end.

Fixpoint expr_toks (e : expr) : list tok :=
  match e with
  | EVar x => [Word x]
  | EText s => [Quoted s]
  | ENum n => [Word (print_uint n)]
  | EPath a f => [Word a; mk"::"; Word f]
  | ECall f args => expr_toks f ++ parens (commas (map expr_toks args))
  | EMethod e f args => expr_toks e ++ mk"." :: Word f :: parens (commas (map expr_toks args))
  | EField e x => expr_toks e ++ [mk"."; Word x]
  | ERef e => mk"&" :: expr_toks e
  | EDeref e => mk"*" :: expr_toks e
  | EPair a b => parens (expr_toks a ++ mk"," :: expr_toks b)
  | EStruct n fields => Word n :: braces (commas (map (fun x => [Word x]) fields))
  | EClosure moved x e => (if moved then [kw"move"] else []) ++ mk"|" :: Word x :: mk"|" :: expr_toks e
  | EMatch e arms => kw"match" :: expr_toks e ++ braces (flat_map (fun a => pat_toks (fst a) ++ mk"=>" :: expr_toks (snd a) ++ arm_end (snd a)) arms)
  | EIfLet p e a b => kw"if" :: kw"let" :: pat_toks p ++ mk"=" :: expr_toks e ++ braces (expr_toks a) ++ kw"else" :: braces (expr_toks b)
  | EMacro n args => Word n :: mk"!" :: parens (commas (map expr_toks args))
  | EUnsafe e => kw"unsafe" :: braces (expr_toks e)
  | EIndex e i => expr_toks e ++ mk"[" :: expr_toks i ++ [mk"]"]
  | EArray es => mk"[" :: flat_map (fun e => expr_toks e ++ [mk","]) es ++ [mk"]"]
  | EBlock e => braces (expr_toks e)
  end.

Definition stmt_toks (s : stmt) : list tok :=
  match s with
  | SLet mut_ p e => kw"let" :: (if mut_ then [kw"mut"] else []) ++ pat_toks p ++ mk"=" :: expr_toks e ++ [mk";"]
  | SExpr e => expr_toks e ++ [mk";"]
  end.

Definition typed_toks (a : text * ty) : list tok := Word (fst a) :: mk":" :: ty_toks (snd a).

Definition self_toks (r : receiver) : list (list tok) :=
  match r with NoSelf => [] | ByValue => [[kw"self"]] | ByRef => [[mk"&"; kw"self"]] | ByMut => [[mk"&"; kw"mut"; kw"self"]] end.

Definition fn_toks (f : fn) : list tok :=
  (if f_pub f then [kw"pub"] else []) ++ (if f_unsafe f then [kw"unsafe"] else []) ++
  kw"fn" :: Word (f_name f) :: parens (commas (self_toks (f_self f) ++ map typed_toks (f_args f))) ++
  (match f_ret f with Some t => mk"->" :: ty_toks t | None => [] end) ++
  braces (flat_map stmt_toks (f_lets f) ++ match f_value f with Some e => expr_toks e | None => [] end).

Definition variant_toks (v : text * option ty) : list tok :=
  Word (fst v) :: (match snd v with Some t => parens (ty_toks t) | None => [] end) ++ [mk","].

Definition attribute (l : list tok) : list tok := mk"#" :: mk"[" :: l ++ [mk"]"].

Definition item_toks (i : item) : list tok :=
  match i with
  | IUse path => kw"use" :: flat_map (fun n => [Word n; mk"::"]) path ++ [mk"*"; mk";"]
  | IUnsafeImpl trait n => [kw"unsafe"; kw"impl"; Word trait; kw"for"; Word n; mk"{"; mk"}"]
  | IStruct derives n fields =>
      attribute (kw"derive" :: parens (commas (map (fun d => [Word d]) derives))) ++
      kw"pub" :: kw"struct" :: Word n :: braces (flat_map (fun f => typed_toks f ++ [mk","]) fields)
  | IEnum repr n variants =>
      (match repr with Some r => attribute (kw"repr" :: parens [Word r]) | None => [] end) ++
      kw"pub" :: kw"enum" :: Word n :: braces (flat_map variant_toks variants)
  | IImpl n fns => kw"impl" :: Word n :: braces (flat_map fn_toks fns)
  | IImplFor trait n fns => kw"impl" :: ty_toks trait ++ kw"for" :: Word n :: braces (flat_map fn_toks fns)
  end.

(** the text is a way to write the program *)
Definition writes (t : text) (p : list item) : Prop := lex t = Some (flat_map item_toks p).

(* ------------------------------------------------------------------ *)
(** * The functions that belong to a method *)

Local Notation "'var' s" := (EVar (txt s%string)) (at level 0, s at level 0).
Local Notation self_ptr := (EField (EVar (txt "self")) (txt "ptr")).
Local Notation unwrap e := (EMethod e (txt "unwrap") []).

Definition param_ty (t : param_type) : ty :=
  match t with
  | TBool => TyName (txt "bool") | TInt => TyName (txt "i64") | TFloat => TyName (txt "f64") | TString => TyName (txt "String")
  | TIntArray => TyApp (txt "Vec") (TyName (txt "i64")) | TFloatArray => TyApp (txt "Vec") (TyName (txt "f64"))
  | TBinary => TyApp (txt "Vec") (TyName (txt "u8"))
  end.
(** the end of the names of the functions of dochy_core for parameters of a type *)
Definition nick (t : param_type) : text :=
  txt (match t with TBool => "bool" | TInt => "int" | TFloat => "float" | TString => "str"
                  | TIntArray => "int_array" | TFloatArray => "float_array" | TBinary => "binary" end)%string.
Definition marked (vt : var_type) (t : ty) : ty :=
  match vt with Normal => t | Nullable => TyApp (txt "NullOr") t | Undefiable => TyApp (txt "UndefOr") t | UndefNullable => TyApp (txt "Qv") t end.
Definition module (at_ : place) : text := txt (match at_ with AtRoot => "root" | AtMItem => "mitem" | AtCItem => "citem" end)%string.

(** from [Qv] to what the marks say *)
Definition unmark (vt : var_type) : expr :=
  match vt with
  | Normal => unwrap (EMethod var"qv" (txt "into_value") [])
  | Undefiable => unwrap (ECall (EPath (txt "UndefOr") (txt "from_qv")) [var"qv"])
  | Nullable => unwrap (ECall (EPath (txt "NullOr") (txt "from_qv")) [var"qv"])
  | UndefNullable => var"qv"
  end.
(** and back *)
Definition mark (vt : var_type) (x : text) : expr :=
  match vt with Normal => ECall (EPath (txt "Qv") (txt "Val")) [EVar x] | _ => EMethod (EVar x) (txt "into_qv") [] end.

(** [at_::f(self.ptr, "key")] *)
Definition asked (at_ : place) (f : text) (key : name) : expr := ECall (EPath (module at_) f) [self_ptr; EText key].
Definition public (nm : text) (r : receiver) (args : list (text * ty)) (ret : option ty) (lets : list stmt) (value : option expr) : fn :=
  Fn true false nm r args ret lets value.
Definition let_qv (e : expr) : stmt := SLet false (PVar (txt "qv")) e.

(** [pub fn nm(&self) -> ret { let qv = at_::f(self.ptr, "key").unwrap(); .. }] *)
Definition getter (nm : text) (r : receiver) (at_ : place) (f : text) (vt : var_type) (key : name) (t : ty) : fn :=
  public nm r [] (Some (marked vt t)) [let_qv (unwrap (asked at_ f key))] (Some (unmark vt)).

Definition call0 (e : expr) (f : string) : expr := EMethod e (txt f) [].
Definition path (a f : text) (args : list expr) : expr := ECall (EPath a f) args.
(** [T::new(e, self)] *)
Definition guarded (n : text) (e : expr) : expr := path n (txt "new") [e; var"self"].

(** one method, one function; [nm] is any name *)
Inductive written : meth -> fn -> Prop :=
| w_read nm at_ t vt key : by_reference t = false ->
    written (Meth nm [] (CRead at_ t vt key) [] []) (getter nm ByRef at_ (txt "get_" ++ nick t) vt key (param_ty t))
| w_read_ref nm at_ t vt key : by_reference t = true ->
    written (Meth nm [] (CRead at_ t vt key) [] []) (getter nm ByRef at_ (txt "get_immutable_" ++ nick t) vt key (TyRef (param_ty t)))
| w_default nm at_ t vt key : by_reference t = false ->
    written (Meth nm [] (CDefault at_ t vt key) [] []) (getter nm ByRef at_ (txt "get_" ++ nick t ++ txt "_def") vt key (param_ty t))
| w_default_ref nm at_ t vt key : by_reference t = true ->
    written (Meth nm [] (CDefault at_ t vt key) [] []) (getter nm ByRef at_ (txt "get_" ++ nick t ++ txt "_def") vt key (TyRef (param_ty t)))
| w_write nm at_ t vt key :
    written (Meth nm [] (CWrite at_ t vt key) [] []) (getter nm ByMut at_ (txt "get_mutable_" ++ nick t) vt key (TyMut (param_ty t)))
| w_set nm x at_ t vt key :
    written (Meth nm [x] (CSet at_ t vt key) [] [])
      (public nm ByMut [(x, marked vt (param_ty t))] None [SExpr (path (module at_) (txt "set_" ++ nick t) [self_ptr; EText key; mark vt x])] None)
| w_table nm key n :
    written (Meth nm [] (CTable key) [n] [])
      (public nm ByRef [] (Some (TyApp (txt "CTableConst") (TyName n)))
        [SLet false (PVar (txt "t")) (path n (txt "new") [unwrap (path (txt "root") (txt "get_table") [call0 self_ptr "def"; EText key])])]
        (Some (guarded (txt "CTableConst") var"t")))
| w_const nm at_ key n : at_ <> AtMItem ->
    written (Meth nm [] (CConstList at_ key) [n] [])
      (public nm ByRef [] (Some (TyApp (txt "CListConst") (TyName n))) []
        (Some (guarded (txt "CListConst") (unwrap (asked at_ (match at_ with AtRoot => txt "get_clist" | _ => txt "get_cil" end) key)))))
| w_list_maybe nm at_ key n : at_ <> AtCItem ->
    written (Meth nm [] (CList at_ true key) [n] [])
      (public nm ByRef [] (Some (TyApp (txt "Option") (TyApp (txt "MListConst") (TyName n))))
        [SLet false (PVar (txt "mil")) (unwrap (asked at_ (match at_ with AtRoot => txt "get_mlist_const" | _ => txt "get_mil_const" end) key))]
        (Some (EMethod var"mil" (txt "map") [EClosure true (txt "p") (guarded (txt "MListConst") var"p")])))
| w_list nm at_ key n : at_ <> AtCItem ->
    written (Meth nm [] (CList at_ false key) [n] [])
      (public nm ByRef [] (Some (TyApp (txt "MListConst") (TyName n)))
        [SLet false (PVar (txt "mil")) (unwrap (unwrap (asked at_ (match at_ with AtRoot => txt "get_mlist_const" | _ => txt "get_mil_const" end) key)))]
        (Some (guarded (txt "MListConst") var"mil")))
| w_list_mut nm at_ key n x : at_ <> AtCItem -> In x [txt "mil"; txt "p"] ->
    written (Meth nm [] (CListMut at_ key) [n] [])
      (public nm ByMut [] (Some (TyApp (txt "MListMut") (TyName n)))
        [SLet false (PVar x) (unwrap (asked at_ (match at_ with AtRoot => txt "get_mlist_mut" | _ => txt "get_mil_mut" end) key))]
        (Some (guarded (txt "MListMut") (EVar x))))
| w_ref nm at_ vt key n :
    written (Meth nm [] (CRef at_ vt key) [n] [n])
      (public nm ByRef [] (Some (marked vt (TyName n))) [let_qv (unwrap (asked at_ (txt "get_ref") key))]
        (Some (match vt with
               | Normal => path n (txt "from") [unmark vt]
               | _ => EMethod (unmark vt) (txt "map") [EClosure false (txt "p") (path n (txt "from") [var"p"])]
               end)))
| w_ref_id nm at_ vt key :
    written (Meth nm [] (CRefId at_ vt key) [] []) (getter nm ByRef at_ (txt "get_ref_id") vt key (TyRef (TyName (txt "String"))))
| w_set_ref nm vt key n :
    written (Meth nm [txt "id"] (CSetRef vt key) [n] [])
      (public nm ByMut [(txt "id", marked vt (TyName n))] None
        [SExpr (path (txt "mitem") (txt "set_ref") [self_ptr; EText key;
           match vt with
           | Normal => path (txt "Qv") (txt "Val") [call0 (call0 var"id" "to_str") "to_string"]
           | _ => EMethod (call0 var"id" "into_qv") (txt "map") [EClosure false (txt "v") (call0 (call0 var"v" "to_str") "to_string")]
           end])] None)
| w_enum nm at_ n :
    written (Meth nm [] (CEnum at_) [n] [])
      (public nm ByRef [] (Some (TyName n))
        [SLet false (PPair (PVar (txt "list_name")) PAny) (unwrap (path (module at_) (txt "get_enum") [self_ptr]));
         SLet false (PVar (txt "p"))
           (EIfLet (PTuple (txt "Qv") (txt "Val") (txt "p")) (unwrap (path (module at_) (txt "get_ref") [self_ptr; ERef var"list_name"]))
              var"p" (EMacro (txt "unreachable") []))]
        (Some (path n (txt "new") [ERef var"list_name"; var"p"])))
| w_enum_ids nm at_ :
    written (Meth nm [] (CEnumIds at_) [] [])
      (public nm ByRef [] (Some (TyPair (TyName (txt "String")) (TyName (txt "String")))) []
        (Some (unwrap (path (module at_) (txt "get_enum") [self_ptr]))))
| w_set_enum nm n :
    written (Meth nm [txt "kind"] CSetEnum [n] [])
      (public nm ByMut [(txt "kind", TyName n)] None
        [SLet false (PPair (PVar (txt "list_name")) (PVar (txt "id"))) (call0 var"kind" "id");
         SExpr (path (txt "mitem") (txt "set_enum") [self_ptr; var"list_name"; var"id"])] None)
(** the row itself, unsafe, and with the table it lies in *)
| w_row_us nm key n :
    written (Meth (nm ++ txt "_us") [] (CRow true key) [n] [n])
      (Fn true true (nm ++ txt "_us") ByRef [] (Some (TyName n))
        [SLet false (PVar (txt "ptr")) (unwrap (path (txt "table") (txt "get_value") [self_ptr; EText key]))]
        (Some (path n (txt "from") [var"ptr"])))
| w_row nm key n :
    written (Meth nm [] (CRow false key) [n] [n])
      (public nm ByRef [] (Some (TyApp (txt "CItemConst") (TyName n)))
        [SLet false (PVar (txt "ptr")) (unwrap (path (txt "table") (txt "get_value") [self_ptr; EText key]))]
        (Some (guarded (txt "CItemConst") (path n (txt "from") [var"ptr"]))))
| w_by_id_us arms ids n :
    written (Meth (txt "get_by_id_us") [txt "id"] (CById arms) [ids; n] [])
      (Fn true true (txt "get_by_id_us") ByRef [(txt "id", TyName ids)] (Some (TyName n)) []
        (Some (EMatch var"id" (map (fun a => (PPath ids (fst a), EMethod var"self" (snd a) [])) arms))))
| w_by_id arms ids n :
    written (Meth (txt "get_by_id") [txt "id"] (CById arms) [ids; n] [])
      (public (txt "get_by_id") ByRef [(txt "id", TyName ids)] (Some (TyApp (txt "CItemConst") (TyName n))) []
        (Some (guarded (txt "CItemConst") (EUnsafe (EMethod var"self" (txt "get_by_id_us") [var"id"])))))
(** what every root has *)
| w_root_new n :
    written (Meth (txt "new") [txt "obj"] COther [n] [])
      (public (txt "new") NoSelf [(txt "obj", TyName (txt "RootObject"))] (Some (TyName n))
        [SLet true (PVar (txt "root")) (path (txt "Box") (txt "new") [var"obj"]);
         SLet false (PVar (txt "ptr")) (path (txt "RootObjectPtr") (txt "new") [call0 var"root" "as_mut"])]
        (Some (EStruct n [txt "root"; txt "ptr"])))
| w_root_ref :
    written (Meth (txt "root_obj_ref") [] COther [] [])
      (public (txt "root_obj_ref") ByRef [] (Some (TyRef (TyName (txt "RootObject")))) [] (Some (call0 (EField var"self" (txt "root")) "as_ref")))
| w_root_ref_mut :
    written (Meth (txt "root_obj_ref_mut") [] COther [] [])
      (public (txt "root_obj_ref_mut") ByMut [] (Some (TyMut (TyName (txt "RootObject")))) [] (Some (call0 (EField var"self" (txt "root")) "as_mut")))
| w_root_deconstruct :
    written (Meth (txt "deconstruct") [] COther [] [])
      (public (txt "deconstruct") ByValue [] (Some (TyName (txt "RootObject"))) [] (Some (EDeref (EField var"self" (txt "root")))))
(** and every table *)
| w_table_new n :
    written (Meth (txt "new") [txt "ptr"] COther [n] [])
      (public (txt "new") NoSelf [(txt "ptr", TyName (txt "TablePtr"))] (Some (TyName n)) [] (Some (EStruct n [txt "ptr"]))).

(* ------------------------------------------------------------------ *)
(** * The items that belong to a declaration *)

(** a struct around a pointer to an item, made from the pointer *)
Definition wrapper (n p : text) (fns : list fn) : list item :=
  [IStruct (map txt ["Debug"; "PartialEq"; "Clone"; "Copy"]%string) n [(txt "ptr", TyName p)];
   IImplFor (TyApp (txt "From") (TyName p)) n
     [Fn false false (txt "from") NoSelf [(txt "ptr", TyName p)] (Some (TyName (txt "Self"))) [] (Some (EStruct (txt "Self") [txt "ptr"]))];
   IImpl n fns].

Definition static_str : ty := TyStatic (TyName (txt "str")).

Inductive declares : decl -> list item -> Prop :=
| d_root ms fns : Forall2 written ms fns ->
    declares (DStruct (txt "RootIntf") ms)
      [IUse (map txt ["dochy"; "core"; "intf"]%string); IUse (map txt ["dochy"; "core"; "structs"]%string);
       IUnsafeImpl (txt "Send") (txt "RootIntf"); IUnsafeImpl (txt "Sync") (txt "RootIntf");
       IStruct [txt "Debug"] (txt "RootIntf") [(txt "root", TyApp (txt "Box") (TyName (txt "RootObject"))); (txt "ptr", TyName (txt "RootObjectPtr"))];
       IImpl (txt "RootIntf") fns]
| d_mitem x ms fns : Forall2 written ms fns -> declares (DStruct (x ++ txt "MItem") ms) (wrapper (x ++ txt "MItem") (txt "MItemPtr") fns)
| d_citem x ms fns : Forall2 written ms fns -> declares (DStruct (x ++ txt "CItem") ms) (wrapper (x ++ txt "CItem") (txt "CItemPtr") fns)
| d_table x ms fns : Forall2 written ms fns ->
    declares (DStruct (x ++ txt "Table") ms)
      [IStruct (map txt ["Debug"; "PartialEq"]%string) (x ++ txt "Table") [(txt "ptr", TyName (txt "TablePtr"))]; IImpl (x ++ txt "Table") fns]
| d_ids n vs from_str from_num to_num len metadata :
    declares (DIds n vs from_str from_num to_num len metadata)
      [IEnum (Some (txt "u64")) n (map (fun v => (v, None)) vs);
       IImpl n [
         public (txt "from_str") NoSelf [(txt "id", TyRef (TyName (txt "str")))] (Some (TyApp (txt "Option") (TyName (txt "Self")))) []
           (Some (EMatch var"id" (map (fun a => (PText (fst a), ECall var"Some" [EPath (txt "Self") (snd a)])) from_str ++ [(PAny, EBlock var"None")])));
         public (txt "from_num") NoSelf [(txt "id", TyName (txt "usize"))] (Some (TyName (txt "Self"))) []
           (Some (EMatch var"id" (map (fun a => (PNum (fst a), EPath (txt "Self") (snd a))) from_num ++
                                [(PAny, EMacro (txt "panic") [EText (txt "invalid ID num {} " ++ n); var"id"])])));
         public (txt "len") NoSelf [] (Some (TyName (txt "usize"))) [] (Some (ENum len));
         public (txt "to_num") ByRef [] (Some (TyName (txt "usize"))) []
           (Some (EMatch var"self" (map (fun a => (PPath n (fst a), ENum (snd a))) to_num)));
         public (txt "metadata") NoSelf [] (Some (TyStatic (TySlice static_str))) [] (Some (ERef (EArray (map EText metadata))));
         public (txt "to_str") ByRef [] (Some static_str) [] (Some (EIndex (path (txt "Self") (txt "metadata") []) (call0 var"self" "to_num")))]]
| d_enum n vs new : Forall2 (fun a v => snd a = fst v) new vs ->
    declares (DEnum n vs new)
      [IEnum None n (map (fun v => (fst v, Some (TyName (snd v)))) vs);
       IImpl n [
         public (txt "new") NoSelf [(txt "list_name", TyRef (TyName (txt "str"))); (txt "ptr", TyName (txt "CItemPtr"))] (Some (TyName n)) []
           (Some (EMatch var"list_name" (map (fun e => (PText (fst (fst e)), path n (snd (fst e)) [path (snd (snd e)) (txt "from") [var"ptr"]])) (combine new vs) ++
                                       [(PAny, EMacro (txt "panic") [EText (n ++ txt " there's no enum type named {}"); ERef var"list_name"])])))]]
| d_kind n vs id :
    declares (DKind n vs id)
      [IEnum None n (map (fun v => (fst v, Some (TyName (snd v)))) vs);
       IImpl n [
         public (txt "id") ByRef [] (Some (TyPair static_str static_str)) []
           (Some (EMatch var"self" (map (fun a => (PTuple n (fst a) (txt "v"), EPair (EText (snd a)) (call0 var"v" "to_str"))) id)))]].

(** the items of the declarations, one after another *)
Definition declared (ds : list decl) (p : list item) : Prop := exists parts, Forall2 declares ds parts /\ p = concat parts.

(* ------------------------------------------------------------------ *)
(** * Names that can be said in Rust *)

(** a letter, [_] or [@], then letters, digits and [_] *)
Definition sayable (s : text) : Prop :=
  exists c r, s = c :: r /\ (lower c \/ upper c \/ c = 95 \/ c = 64) /\ Forall (fun c => lower c \/ upper c \/ digit c \/ c = 95) r.

Record speakable (root : hmap (Z * rootvalue)) : Prop := Speakable {
  s_names : forall key v, In (key, v) root -> sayable key;
  s_members : forall stem l, listed root stem l -> forall key v, In (key, v) (ld_members l) -> sayable key;
  s_refs : forall stem l, listed root stem l -> forall key v, In (key, v) (ld_refs l) -> sayable key;
  s_rows : forall key id d rows old, In (key, (id, WTable d rows old)) root -> forall row it, In (row, it) rows -> sayable row }.
