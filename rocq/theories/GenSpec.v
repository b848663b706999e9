(** What C54 speaks about: texts that compile, and documents whose names cause no trouble. *)
From Coq Require Import String.
From Verif Require Import Base DocModel DiffSpec JsonModel JsonSpec IntfModel GenModel.

(* ------------------------------------------------------------------ *)
(** * What the compiler asks for *)

(** the words of Rust (2018) that name nothing *)
Definition keywords : list (list Z) := map txt
  ["as"; "break"; "const"; "continue"; "crate"; "else"; "enum"; "extern"; "false"; "fn"; "for"; "if"; "impl"; "in"; "let"; "loop";
   "match"; "mod"; "move"; "mut"; "pub"; "ref"; "return"; "self"; "Self"; "static"; "struct"; "super"; "trait"; "true"; "type";
   "unsafe"; "use"; "where"; "while"; "async"; "await"; "dyn"; "abstract"; "become"; "box"; "do"; "final"; "macro"; "override";
   "priv"; "typeof"; "unsized"; "virtual"; "yield"; "try"]%string.

(** a letter or [_], then letters, digits and [_] *)
Definition ident (s : list Z) : Prop :=
  (exists c r, s = c :: r /\ (lower c \/ upper c \/ c = 95) /\ Forall (fun c => lower c \/ upper c \/ digit c \/ c = 95) r) /\
  s <> [95] /\ ~ In s keywords.

(** between quotation marks the text stands for itself *)
Definition literal (s : list Z) : Prop := Forall (fun c => c <> 34 /\ c <> 92 /\ c <> 10 /\ c <> 13) s.

(** the texts in a body *)
Definition call_texts (c : call) : list name :=
  match c with
  | CRead _ _ _ k | CDefault _ _ _ k | CWrite _ _ _ k | CSet _ _ _ k | CTable k | CConstList _ k | CList _ _ k | CListMut _ k
  | CRef _ _ k | CRefId _ _ k | CSetRef _ k | CRow _ k => [k]
  | _ => []
  end.

Record well_formed (ds : list decl) : Prop := WellFormed {
  (** nothing is declared twice *)
  wf_names : NoDup (map decl_name ds);
  wf_idents : forall d, In d ds -> ident (decl_name d);
  (** no struct has two methods of one name *)
  wf_methods : forall nm ms, In (DStruct nm ms) ds -> NoDup (map m_name ms) /\
    forall m, In m ms -> ident (m_name m) /\ Forall ident (m_args m) /\ Forall literal (call_texts (m_call m));
  (** types that are named are declared *)
  wf_types : forall nm ms m t, In (DStruct nm ms) ds -> In m ms -> In t (m_types m) -> In t (map decl_name ds);
  (** [T::from] is the function of the trait: [T] has no method of that name *)
  wf_from : forall nm ms m t, In (DStruct nm ms) ds -> In m ms -> In t (m_from m) ->
    exists ms', In (DStruct t ms') ds /\ ~ In (txt "from") (map m_name ms');
  (** matches on ids name the methods of the struct and all variants *)
  wf_by_id : forall nm ms m arms, In (DStruct nm ms) ds -> In m ms -> m_call m = CById arms ->
    (forall v f, In (v, f) arms -> In f (map m_name ms)) /\
    exists ids vs a b c len md, In ids (m_types m) /\ In (DIds ids vs a b c len md) ds /\ forall v, In v vs <-> In v (map fst arms);
  (** an enum with a representation has variants; the arms of its matches name them *)
  wf_ids : forall nm vs from_str from_num to_num len md, In (DIds nm vs from_str from_num to_num len md) ds ->
    vs <> [] /\ NoDup vs /\ Forall ident vs /\ Forall literal md /\ Forall literal (map fst from_str) /\
    incl (map snd from_str) vs /\ incl (map snd from_num) vs /\ (forall v, In v vs <-> In v (map fst to_num));
  wf_enum : forall nm vs arms, In (DEnum nm vs arms) ds ->
    NoDup (map fst vs) /\ Forall ident (map fst vs) /\ Forall literal (map fst arms) /\ incl (map snd arms) (map fst vs) /\
    forall t, In t (map snd vs) -> exists ms, In (DStruct t ms) ds /\ ~ In (txt "from") (map m_name ms);
  wf_kind : forall nm vs arms, In (DKind nm vs arms) ds ->
    vs <> [] /\ NoDup (map fst vs) /\ Forall ident (map fst vs) /\ Forall literal (map snd arms) /\
    (forall v, In v (map fst vs) <-> In v (map fst arms)) /\
    forall t, In t (map snd vs) -> exists ws a b c len md, In (DIds t ws a b c len md) ds }.

(* ------------------------------------------------------------------ *)
(** * Names that cause no trouble *)

Definition starts (p s : list Z) : Prop := exists x, s = p ++ x.
Definition ends (p s : list Z) : Prop := exists x, s = x ++ p.

(** small letters and digits, and [_] before a small letter *)
Inductive snake_tail : list Z -> Prop :=
| tail_nil : snake_tail []
| tail_char c r : lower c \/ digit c -> snake_tail r -> snake_tail (c :: r)
| tail_word c r : lower c -> snake_tail r -> snake_tail (95 :: c :: r).
Definition snake (s : list Z) : Prop := exists c r, s = c :: r /\ lower c /\ snake_tail r.

(** not what is made from other names *)
Definition unadorned (s : list Z) : Prop :=
  snake s /\ ~ starts (txt "set_") s /\ ~ starts (txt "ref_") s /\
  ~ ends (txt "_old") (95 :: s) /\ ~ ends (txt "_mut") (95 :: s) /\ ~ ends (txt "_def_val") (95 :: s) /\ ~ ends (txt "_us") (95 :: s).

(** the names of methods that are always there, and [from] *)
Definition taken : list (list Z) := map txt ["new"; "root_obj_ref"; "deconstruct"; "get_enum"; "get_enum_ids"; "get_by_id"; "from"]%string.

Definition ordinary (s : list Z) : Prop := unadorned s /\ ~ In s keywords /\ ~ In s taken.

(** [stem] is a list or table of the document, or a list inside one, and [l] its definition *)
Inductive listed (root : hmap (Z * rootvalue)) : name -> ldef def -> Prop :=
| listed_table key id l rows old : In (key, (id, WTable (Def l) rows old)) root -> listed root key l
| listed_clist key id l items : In (key, (id, WCList (Def l) items)) root -> listed root key l
| listed_mlist key id l u : In (key, (id, WMList (Def l) u)) root -> listed root key l
| listed_cil stem l key id l' : listed root stem l -> In (key, (id, DCil (Def l'))) (ld_members l) -> listed root key l'
| listed_mil stem l key id l' u : listed root stem l -> In (key, (id, DMil (Def l') u)) (ld_members l) -> listed root key l'.

(** those with constant items (tables among them), and those with mutable ones: in the items of
    the former are lists of the former, in those of the latter lists of the latter *)
Inductive clisted (root : hmap (Z * rootvalue)) : name -> ldef def -> Prop :=
| clisted_table key id l rows old : In (key, (id, WTable (Def l) rows old)) root -> clisted root key l
| clisted_clist key id l items : In (key, (id, WCList (Def l) items)) root -> clisted root key l
| clisted_cil stem l key id l' : clisted root stem l -> In (key, (id, DCil (Def l'))) (ld_members l) -> clisted root key l'.
Inductive mlisted (root : hmap (Z * rootvalue)) : name -> ldef def -> Prop :=
| mlisted_mlist key id l u : In (key, (id, WMList (Def l) u)) root -> mlisted root key l
| mlisted_mil stem l key id l' u : mlisted root stem l -> In (key, (id, DMil (Def l') u)) (ld_members l) -> mlisted root key l'.

(** the names of the lists in a definition, and in a document *)
Fixpoint lists_in (d : def) : list name :=
  let 'Def l := d in
  flat_map (fun e => let '(key, (_, v)) := e in match v with DParam _ _ => [] | DCil d' => key :: lists_in d' | DMil d' _ => key :: lists_in d' end) (ld_members l).
Definition list_names (root : hmap (Z * rootvalue)) : list name :=
  flat_map (fun e => let '(key, (_, v)) := e in match v with WParam _ _ => [] | WTable d _ _ | WCList d _ | WMList d _ => key :: lists_in d end) root.

Record tame (root : hmap (Z * rootvalue)) : Prop := Tame {
  t_keys : NoDup (map fst root);
  t_names : forall key v, In (key, v) root -> ordinary key;
  t_members : forall stem l, listed root stem l -> NoDup (map fst (ld_members l)) /\ forall key v, In (key, v) (ld_members l) -> ordinary key;
  (** references name tables of the document *)
  t_refs : forall stem l, listed root stem l -> NoDup (map fst (ld_refs l)) /\ (ld_enum l = true -> ld_refs l <> []) /\
    forall key v, In (key, v) (ld_refs l) -> ~ starts (txt "id_") key /\ exists id d rows old, In (key, (id, WTable d rows old)) root;
  (** tables have rows *)
  t_rows : forall key id d rows old, In (key, (id, WTable d rows old)) root ->
    rows <> [] /\ NoDup (map fst rows) /\ forall row it, In (row, it) rows -> ordinary row;
  (** no two lists of the document have one name, at whatever depth *)
  t_lists : NoDup (list_names root) }.

(* ------------------------------------------------------------------ *)
(** * Calls that fit the document *)

(** a call with the root: there is such a member, and of this type *)
Definition root_call (root : hmap (Z * rootvalue)) (c : call) : Prop :=
  match c with
  | CRead AtRoot t vt k | CDefault AtRoot t vt k | CSet AtRoot t vt k => exists id p, In (k, (id, WParam p vt)) root /\ type_of p = t
  | CWrite AtRoot t vt k => by_reference t = true /\ exists id p, In (k, (id, WParam p vt)) root /\ type_of p = t
  | CTable k => exists id d rows old, In (k, (id, WTable d rows old)) root
  | CConstList AtRoot k => exists id d items, In (k, (id, WCList d items)) root
  | CList AtRoot u k => exists id d, In (k, (id, WMList d u)) root
  | CListMut AtRoot k => exists id d u, In (k, (id, WMList d u)) root
  | COther => True
  | _ => False
  end.
(** a call with an item whose definition is [l] *)
Definition item_call (at_ : place) (l : ldef def) (c : call) : Prop :=
  match c with
  | CRead a t vt k | CDefault a t vt k => a = at_ /\ exists id p, In (k, (id, DParam p vt)) (ld_members l) /\ type_of p = t
  | CSet a t vt k => a = AtMItem /\ a = at_ /\ exists id p, In (k, (id, DParam p vt)) (ld_members l) /\ type_of p = t
  | CWrite a t vt k => a = AtMItem /\ a = at_ /\ by_reference t = true /\ exists id p, In (k, (id, DParam p vt)) (ld_members l) /\ type_of p = t
  | CConstList a k => a = AtCItem /\ a = at_ /\ exists id d, In (k, (id, DCil d)) (ld_members l)
  | CList a u k => a = AtMItem /\ a = at_ /\ exists id d, In (k, (id, DMil d u)) (ld_members l)
  | CListMut a k => a = AtMItem /\ a = at_ /\ exists id d u, In (k, (id, DMil d u)) (ld_members l)
  | CRef a vt k | CRefId a vt k => a = at_ /\ ld_enum l = false /\ exists id q, In (k, (id, (q, vt))) (ld_refs l)
  | CSetRef vt k => at_ = AtMItem /\ ld_enum l = false /\ exists id q, In (k, (id, (q, vt))) (ld_refs l)
  | CEnum a | CEnumIds a => a = at_ /\ ld_enum l = true
  | CSetEnum => at_ = AtMItem /\ ld_enum l = true
  | _ => False
  end.
(** a call with a table *)
Definition table_call (rows : hmap citem) (c : call) : Prop :=
  match c with CRow _ k => In k (map fst rows) | CById _ | COther => True | _ => False end.

(** the struct [nm] of the generated text has a method [m] that is called by [f] *)
Definition has_method (ds : list decl) (nm f : list Z) (m : meth) : Prop :=
  exists d, In d ds /\ decl_name d = nm /\ method d f = Some m.
