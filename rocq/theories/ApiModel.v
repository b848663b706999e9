(** The functions generated accessors call: the signatures of dochy_core, word for word, and
    how they are read.  Citations are relative to /repo/dochy_core/src/imp. *)
From Coq Require Import String.
From Verif Require Import Base StringCompactionModel DocModel JsonModel CodeSpec.

Local Notation text := (list Z).

(* ------------------------------------------------------------------ *)
(** * The signatures *)

(** The modules that [use dochy::core::intf::*] brings into scope and accessors call.  Left out:
    functions no accessor calls ([get_param], [set_sabun], [is_unmodified] and the like). *)
Definition core_modules : list (string * list string) := [
  (** intf/root.rs L26-364 *)
  ("root", [
    "pub fn get_bool(root : RootObjectPtr, name : &str) -> Option<Qv<bool>>";
    "pub fn get_bool_def(root : RootObjectPtr, name : &str) -> Option<Qv<bool>>";
    "pub fn get_float(root : RootObjectPtr, name : &str) -> Option<Qv<f64>>";
    "pub fn get_float_def(root : RootObjectPtr, name : &str) -> Option<Qv<f64>>";
    "pub fn get_int(root : RootObjectPtr, name : &str) -> Option<Qv<i64>>";
    "pub fn get_int_def(root : RootObjectPtr, name : &str) -> Option<Qv<i64>>";
    "pub fn get_str(root : RootObjectPtr, name : &str) -> Option<Qv<String>>";
    "pub fn get_str_def<'a, 'b>(root : RootObjectPtr, name : &'a str) -> Option<Qv<&'b String>>";
    "pub fn get_int_array(root : RootObjectPtr, name : &str) -> Option<Qv<Vec<i64>>>";
    "pub fn get_int_array_def<'a, 'b>(root : RootObjectPtr, name : &'a str) -> Option<Qv<&'b Vec<i64>>>";
    "pub fn get_float_array(root : RootObjectPtr, name : &str) -> Option<Qv<Vec<f64>>>";
    "pub fn get_float_array_def<'a, 'b>(root : RootObjectPtr, name : &'a str) -> Option<Qv<&'b Vec<f64>>>";
    "pub fn get_binary(root : RootObjectPtr, name : &str) -> Option<Qv<Vec<u8>>>";
    "pub fn get_binary_def<'a, 'b>(root : RootObjectPtr, name : &'a str) -> Option<Qv<&'b Vec<u8>>>";
    "pub fn get_immutable_binary<'a, 'b>(root : RootObjectPtr, name : &'a str) -> Option<Qv<&'b Vec<u8>>>";
    "pub fn get_immutable_str<'a, 'b>(root : RootObjectPtr, name : &'a str) -> Option<Qv<&'b String>>";
    "pub fn get_immutable_int_array<'a, 'b>(root : RootObjectPtr, name : &'a str) -> Option<Qv<&'b Vec<i64>>>";
    "pub fn get_immutable_float_array<'a, 'b>(root : RootObjectPtr, name : &'a str) -> Option<Qv<&'b Vec<f64>>>";
    "pub fn get_mutable_binary<'a, 'b>(ps : RootObjectPtr, name : &'a str) -> Option<Qv<&'b mut Vec<u8>>>";
    "pub fn get_mutable_str<'a, 'b>(ps : RootObjectPtr, name : &'a str) -> Option<Qv<&'b mut String>>";
    "pub fn get_mutable_int_array<'a, 'b>(ps : RootObjectPtr, name : &'a str) -> Option<Qv<&'b mut Vec<i64>>>";
    "pub fn get_mutable_float_array<'a, 'b>(ps : RootObjectPtr, name : &'a str) -> Option<Qv<&'b mut Vec<f64>>>";
    "pub fn get_table(root_def : *const RootDefObj, name : &str) -> Option<TablePtr>";
    "pub fn get_clist<T : From<CItemPtr>>(root_ptr : RootObjectPtr, name : &str) -> Option<CListPtr<T>>";
    "pub fn get_mlist_mut<T : From<MItemPtr>>(root : RootObjectPtr, name : &str) -> Option<MListPtr<T>>";
    "pub fn get_mlist_const<T : From<MItemPtr>>(root : RootObjectPtr, name : &str) -> Option<Option<MListPtr<T>>>";
    "pub fn set_bool(root : RootObjectPtr, name : &str, val : Qv<bool>) -> bool";
    "pub fn set_float(root : RootObjectPtr, name : &str, val : Qv<f64>) -> bool";
    "pub fn set_int(root : RootObjectPtr, name : &str, val : Qv<i64>) -> bool";
    "pub fn set_str(root : RootObjectPtr, name : &str, val : Qv<String>) -> bool";
    "pub fn set_int_array(root : RootObjectPtr, name : &str, val : Qv<Vec<i64>>) -> bool";
    "pub fn set_float_array(root : RootObjectPtr, name : &str, val : Qv<Vec<f64>>) -> bool";
    "pub fn set_binary(root : RootObjectPtr, name : &str, val : Qv<Vec<u8>>) -> bool"]);
  (** intf/mitem.rs L43-399 *)
  ("mitem", [
    "pub fn get_mil_mut<T : From<MItemPtr>>(ps : MItemPtr, name : &str) -> Option<MListPtr<T>>";
    "pub fn get_mil_const<T : From<MItemPtr>>(ps : MItemPtr, name : &str) -> Option<Option<MListPtr<T>>>";
    "pub fn get_bool(ps : MItemPtr, name : &str) -> Option<Qv<bool>>";
    "pub fn get_bool_def(ps : MItemPtr, name : &str) -> Option<Qv<bool>>";
    "pub fn get_int(ps : MItemPtr, name : &str) -> Option<Qv<i64>>";
    "pub fn get_int_def(ps : MItemPtr, name : &str) -> Option<Qv<i64>>";
    "pub fn get_float(ps : MItemPtr, name : &str) -> Option<Qv<f64>>";
    "pub fn get_float_def(ps : MItemPtr, name : &str) -> Option<Qv<f64>>";
    "pub fn get_str(ps : MItemPtr, name : &str) -> Option<Qv<String>>";
    "pub fn get_str_def<'a, 'b>(ps : MItemPtr, name : &'a str) -> Option<Qv<&'b String>>";
    "pub fn get_int_array(ps : MItemPtr, name : &str) -> Option<Qv<Vec<i64>>>";
    "pub fn get_int_array_def<'a, 'b>(ps : MItemPtr, name : &'a str) -> Option<Qv<&'b Vec<i64>>>";
    "pub fn get_float_array(ps : MItemPtr, name : &str) -> Option<Qv<Vec<f64>>>";
    "pub fn get_float_array_def<'a, 'b>(ps : MItemPtr, name : &'a str) -> Option<Qv<&'b Vec<f64>>>";
    "pub fn get_binary(ps : MItemPtr, name : &str) -> Option<Qv<Vec<u8>>>";
    "pub fn get_binary_def<'a, 'b>(ps : MItemPtr, name : &'a str) -> Option<Qv<&'b Vec<u8>>>";
    "pub fn get_immutable_binary<'a, 'b>(ps : MItemPtr, name : &'a str) -> Option<Qv<&'b Vec<u8>>>";
    "pub fn get_immutable_str<'a, 'b>(ps : MItemPtr, name : &'a str) -> Option<Qv<&'b String>>";
    "pub fn get_immutable_int_array<'a, 'b>(ps : MItemPtr, name : &'a str) -> Option<Qv<&'b Vec<i64>>>";
    "pub fn get_immutable_float_array<'a, 'b>(ps : MItemPtr, name : &'a str) -> Option<Qv<&'b Vec<f64>>>";
    "pub fn get_mutable_binary<'a, 'b>(ps : MItemPtr, name : &'a str) -> Option<Qv<&'b mut Vec<u8>>>";
    "pub fn get_mutable_str<'a, 'b>(ps : MItemPtr, name : &'a str) -> Option<Qv<&'b mut String>>";
    "pub fn get_mutable_int_array<'a, 'b>(ps : MItemPtr, name : &'a str) -> Option<Qv<&'b mut Vec<i64>>>";
    "pub fn get_mutable_float_array<'a, 'b>(ps : MItemPtr, name : &'a str) -> Option<Qv<&'b mut Vec<f64>>>";
    "pub fn set_bool(ps : MItemPtr, name : &str, val : Qv<bool>) -> bool";
    "pub fn set_int(ps : MItemPtr, name : &str, val : Qv<i64>) -> bool";
    "pub fn set_float(ps : MItemPtr, name : &str, val : Qv<f64>) -> bool";
    "pub fn set_str(ps : MItemPtr, name : &str, val : Qv<String>) -> bool";
    "pub fn set_int_array(ps : MItemPtr, name : &str, val : Qv<Vec<i64>>) -> bool";
    "pub fn set_float_array(ps : MItemPtr, name : &str, val : Qv<Vec<f64>>) -> bool";
    "pub fn set_binary(ps : MItemPtr, name : &str, val : Qv<Vec<u8>>) -> bool";
    "pub fn set_ref(ps : MItemPtr, list_name : &str, id : Qv<String>) -> bool";
    "pub fn get_ref(ps : MItemPtr, list_name : &str) -> Option<Qv<CItemPtr>>";
    "pub fn get_ref_id<'a>(ps : MItemPtr, list_name : &str) -> Option<Qv<&'a String>>";
    "pub fn get_enum(ps : MItemPtr) -> Option<(String, String)>";
    "pub fn set_enum(ps : MItemPtr, list_name : &str, id : &str) -> bool"]);
  (** intf/citem.rs L27-238 *)
  ("citem", [
    "pub fn get_cil<T : From<CItemPtr>>(ps : CItemPtr, name : &str) -> Option<CListPtr<T>>";
    "pub fn get_bool(ps : CItemPtr, name : &str) -> Option<Qv<bool>>";
    "pub fn get_bool_def(ps : CItemPtr, name : &str) -> Option<Qv<bool>>";
    "pub fn get_float(ps : CItemPtr, name : &str) -> Option<Qv<f64>>";
    "pub fn get_float_def(ps : CItemPtr, name : &str) -> Option<Qv<f64>>";
    "pub fn get_int(ps : CItemPtr, name : &str) -> Option<Qv<i64>>";
    "pub fn get_int_def(ps : CItemPtr, name : &str) -> Option<Qv<i64>>";
    "pub fn get_str(ps : CItemPtr, name : &str) -> Option<Qv<String>>";
    "pub fn get_str_def<'a, 'b>(ps : CItemPtr, name : &'a str) -> Option<Qv<&'b String>>";
    "pub fn get_int_array(ps : CItemPtr, name : &str) -> Option<Qv<Vec<i64>>>";
    "pub fn get_int_array_def<'a, 'b>(ps : CItemPtr, name : &'a str) -> Option<Qv<&'b Vec<i64>>>";
    "pub fn get_float_array(ps : CItemPtr, name : &str) -> Option<Qv<Vec<f64>>>";
    "pub fn get_float_array_def<'a, 'b>(ps : CItemPtr, name : &'a str) -> Option<Qv<&'b Vec<f64>>>";
    "pub fn get_binary(ps : CItemPtr, name : &str) -> Option<Qv<Vec<u8>>>";
    "pub fn get_binary_def<'a, 'b>(ps : CItemPtr, name : &'a str) -> Option<Qv<&'b Vec<u8>>>";
    "pub fn get_immutable_binary<'a, 'b>(ps : CItemPtr, name : &'a str) -> Option<Qv<&'b Vec<u8>>>";
    "pub fn get_immutable_str<'a, 'b>(ps : CItemPtr, name : &'a str) -> Option<Qv<&'b String>>";
    "pub fn get_immutable_int_array<'a, 'b>(ps : CItemPtr, name : &'a str) -> Option<Qv<&'b Vec<i64>>>";
    "pub fn get_immutable_float_array<'a, 'b>(ps : CItemPtr, name : &'a str) -> Option<Qv<&'b Vec<f64>>>";
    "pub fn get_ref(ps : CItemPtr, list_name : &str) -> Option<Qv<CItemPtr>>";
    "pub fn get_ref_id<'a>(ps : CItemPtr, list_name : &str) -> Option<Qv<&'a String>>";
    "pub fn get_enum(ps : CItemPtr) -> Option<(String, String)>"]);
  (** intf/table.rs L54 *)
  ("table", [
    "pub fn get_value(data : TablePtr, id : &str) -> Option<CItemPtr>"])]%string.

(** Functions of types: of the guards (intf/clist_const.rs L13-16, L37-40, intf/ctable_const.rs
    L12-15, intf/mlist_const.rs L15-18, intf/mlist_mut.rs L15-19), of the pointer to the root
    (intf/root.rs L19-23), of values with marks (structs/qv.rs L6-63, structs/null_or.rs L47-129),
    and of the standard library, the last four.  Left out: what accessors do not call. *)
Definition core_impls : list (string * list string) := [
  ("impl<'a, V : From<CItemPtr>> CListConst<'a, V>", ["pub fn new<T>(ptr : CListPtr<V>, _src : &'a T) -> CListConst<'a, V>"]);
  ("impl<'a, V> CItemConst<'a, V>", ["pub fn new<T>(item : V, _src : &'a T) -> CItemConst<'a, V>"]);
  ("impl<'a, T> CTableConst<'a, T>", ["pub fn new<U>(ptr : T, _src : &'a U) -> CTableConst<'a, T>"]);
  ("impl<'a, V : From<MItemPtr>> MListConst<'a, V>", ["pub fn new<T>(ptr : MListPtr<V>, _src : &'a T) -> MListConst<'a, V>"]);
  ("impl<'a, V : From<MItemPtr>> MListMut<'a, V>", ["pub fn new<T>(ptr : MListPtr<V>, _src : &'a mut T) -> MListMut<'a, V>"]);
  ("impl RootObjectPtr", ["pub fn new(ptr: *mut RootObject) -> RootObjectPtr"; "pub fn def(&self) -> *const RootDefObj"]);
  ("impl<T> Qv<T>", ["pub fn map<U>(self, f : impl Fn(T) -> U) -> Qv<U>"; "pub fn into_value(self) -> Option<T>"; "pub fn into_qv(self) -> Qv<T>"]);
  ("impl<T> NullOr<T>", ["pub fn map<U>(self, f : impl FnOnce(T) -> U) -> NullOr<U>"; "pub fn from_qv(v : Qv<T>) -> Option<NullOr<T>>"; "pub fn into_qv(self) -> Qv<T>"]);
  ("impl<T> UndefOr<T>", ["pub fn map<U>(self, f : impl FnOnce(T) -> U) -> UndefOr<U>"; "pub fn from_qv(v : Qv<T>) -> Option<UndefOr<T>>"; "pub fn into_qv(self) -> Qv<T>"]);
  ("impl<T> Option<T>", ["pub fn unwrap(self) -> T"; "pub fn map<U>(self, f : impl FnOnce(T) -> U) -> Option<U>"]);
  ("impl<T> Box<T>", ["pub fn new(x: T) -> Box<T>"; "fn as_ref(&self) -> &T"; "fn as_mut(&mut self) -> &mut T"]);
  ("impl str", ["fn to_string(&self) -> String"])]%string.

(** Types with one parameter, and what the parameter has to be made from (the heads of the
    structs of the files above). *)
Definition core_generics : list (string * option string) := [
  ("Option", None); ("Box", None); ("Vec", None); ("Qv", None); ("NullOr", None); ("UndefOr", None); ("CTableConst", None); ("CItemConst", None);
  ("CListConst", Some "CItemPtr"); ("CListPtr", Some "CItemPtr"); ("MListConst", Some "MItemPtr"); ("MListMut", Some "MItemPtr"); ("MListPtr", Some "MItemPtr")]%string.

(** Types without parameters, and the traits they implement of those accessors derive
    (intf/root.rs L15-16, intf/mitem.rs L17-18, intf/citem.rs L14-15, intf/table.rs L8-9,
    structs/root_obj.rs L11-12; the others are of the standard library). *)
Definition core_types : list (string * list string) := [
  ("RootObjectPtr", ["Debug"; "PartialEq"; "Clone"; "Copy"]); ("MItemPtr", ["Debug"; "PartialEq"; "Clone"; "Copy"]);
  ("CItemPtr", ["Debug"; "PartialEq"; "Clone"; "Copy"]); ("TablePtr", ["Debug"; "PartialEq"; "Clone"; "Copy"]);
  ("RootObject", ["Debug"]); ("bool", ["Debug"; "PartialEq"; "Clone"; "Copy"]); ("i64", ["Debug"; "PartialEq"; "Clone"; "Copy"]);
  ("f64", ["Debug"; "PartialEq"; "Clone"; "Copy"]); ("u8", ["Debug"; "PartialEq"; "Clone"; "Copy"]); ("usize", ["Debug"; "PartialEq"; "Clone"; "Copy"]);
  ("String", ["Debug"; "PartialEq"; "Clone"]); ("str", ["Debug"; "PartialEq"])]%string.

(** structs/qv.rs L4: the variants of [Qv], and whether they hold a value *)
Definition qv_variants : list (string * bool) := [("Val", true); ("Undefined", false); ("Null", false)]%string.

(* ------------------------------------------------------------------ *)
(** * How they are read *)

(** types, without their lifetimes *)
Inductive rt : Type :=
| RVar (x : text)                 (* a parameter *)
| RName (n : text)
| RApp (n : text) (t : rt)        (* N<T> *)
| RRef (t : rt) | RMut (t : rt)   (* &T, &mut T *)
| RPtr (t : rt) | RPtrMut (t : rt)(* *const T, *mut T *)
| RPair (a b : rt)
| RSlice (t : rt)
| RFun (a b : rt).                (* impl Fn(A) -> B, impl FnOnce(A) -> B *)

Definition word_is (s : string) (t : tok) : bool := match t with Word w => eqb_bytes w (txt s) | _ => false end.
Definition mark_is (s : string) (t : tok) : bool := match t with Mark w => eqb_bytes w (txt s) | _ => false end.
(** the rest if the text begins with such a token *)
Definition eat (is_ : tok -> bool) (ts : list tok) : option (list tok) := match ts with t :: r => if is_ t then Some r else None | [] => None end.
Definition may_eat (is_ : tok -> bool) (ts : list tok) : list tok := match eat is_ ts with Some r => r | None => ts end.
Definition is_life (t : tok) : bool := match t with Life _ => true | _ => false end.

(** a type at the beginning; [vars] are parameters *)
Fixpoint read_ty (fuel : nat) (vars : list text) (ts : list tok) : option (rt * list tok) :=
  match fuel with O => None | S fuel =>
  let under (f : rt -> rt) ts := match read_ty fuel vars ts with Some (t, r) => Some (f t, r) | None => None end in
  match ts with
  | Mark m :: r =>
      if eqb_bytes m (txt "&") then
        let r := may_eat is_life r in match eat (word_is "mut") r with Some r => under RMut r | None => under RRef r end
      else if eqb_bytes m (txt "*") then
        match eat (word_is "const") r with Some r => under RPtr r | None => match eat (word_is "mut") r with Some r => under RPtrMut r | None => None end end
      else if eqb_bytes m (txt "(") then
        match read_ty fuel vars r with
        | Some (a, r) => match eat (mark_is ",") r with
                         | Some r => match read_ty fuel vars r with
                                     | Some (b, r) => match eat (mark_is ")") r with Some r => Some (RPair a b, r) | None => None end
                                     | None => None
                                     end
                         | None => None
                         end
        | None => None
        end
      else None
  | Word w :: r =>
      if eqb_bytes w (txt "impl") then
        match eat (fun t => word_is "Fn" t || word_is "FnOnce" t) r with
        | Some r => match eat (mark_is "(") r with
                    | Some r => match read_ty fuel vars r with
                                | Some (a, r) => match eat (mark_is ")") r with
                                                 | Some r => match eat (mark_is "->") r with Some r => under (RFun a) r | None => None end
                                                 | None => None
                                                 end
                                | None => None
                                end
                    | None => None
                    end
        | None => None
        end
      else match eat (mark_is "<") r with
           | Some r => let r := match eat is_life r with Some r => may_eat (mark_is ",") r | None => r end in
                       match read_ty fuel vars r with
                       | Some (t, r) => match eat (mark_is ">") r with Some r => Some (RApp w t, r) | None => None end
                       | None => None
                       end
           | None => Some (if existsb (eqb_bytes w) vars then RVar w else RName w, r)
           end
  | _ => None
  end end.

(** parameters between [<] and [>], with the type they have to be made from *)
Fixpoint read_params (fuel : nat) (ts : list tok) : option (list (text * option rt) * list tok) :=
  match fuel with O => None | S fuel =>
  let more v ts :=
    match eat (mark_is ",") ts with
    | Some r => match read_params fuel r with Some (vs, r) => Some (v ++ vs, r) | None => None end
    | None => match eat (mark_is ">") ts with Some r => Some (v, r) | None => None end
    end in
  match ts with
  | Life _ :: r => more [] r
  | Word w :: r => match eat (mark_is ":") r with
                   | Some r => match read_ty fuel [] r with Some (RApp n t, r) => if eqb_bytes n (txt "From") then more [(w, Some t)] r else None | _ => None end
                   | None => more [(w, None)] r
                   end
  | _ => None
  end end.
Definition maybe_params (ts : list tok) : option (list (text * option rt) * list tok) :=
  match eat (mark_is "<") ts with Some r => read_params 50 r | None => Some ([], ts) end.

(** arguments up to [)] *)
Fixpoint read_args (fuel : nat) (vars : list text) (ts : list tok) : option (list rt * list tok) :=
  match fuel with O => None | S fuel =>
  match eat (mark_is ")") ts with
  | Some r => Some ([], r)
  | None => match ts with
            | Word _ :: r => match eat (mark_is ":") r with
                             | Some r => match read_ty 50 vars r with
                                         | Some (t, r) => match read_args fuel vars (may_eat (mark_is ",") r) with Some (l, r) => Some (t :: l, r) | None => None end
                                         | None => None
                                         end
                             | None => None
                             end
            | _ => None
            end
  end end.
Definition read_self (ts : list tok) : receiver * list tok :=
  match eat (word_is "self") ts with
  | Some r => (ByValue, may_eat (mark_is ",") r)
  | None => match eat (mark_is "&") ts with
            | Some r => match eat (word_is "self") r with
                        | Some r => (ByRef, may_eat (mark_is ",") r)
                        | None => match eat (word_is "mut") r with
                                  | Some r => match eat (word_is "self") r with Some r => (ByMut, may_eat (mark_is ",") r) | None => (NoSelf, ts) end
                                  | None => (NoSelf, ts)
                                  end
                        end
            | None => (NoSelf, ts)
            end
  end.

Record sig : Type := Sig { g_vars : list (text * option rt); g_self : receiver; g_args : list rt; g_ret : rt }.

(** [pub fn name<..>(..) -> type]; [outer] are the parameters of the [impl] around it *)
Definition read_fn (outer : list (text * option rt)) (s : string) : option (text * sig) :=
  match lex (txt s) with
  | None => None
  | Some ts =>
      match eat (word_is "fn") (may_eat (word_is "pub") ts) with
      | Some (Word f :: r) =>
          match maybe_params r with
          | Some (vs, r) =>
              let vs := outer ++ vs in
              match eat (mark_is "(") r with
              | Some r => let '(self_, r) := read_self r in
                          match read_args 50 (map fst vs) r with
                          | Some (args, r) => match eat (mark_is "->") r with
                                              | Some r => match read_ty 50 (map fst vs) r with Some (t, []) => Some (f, Sig vs self_ args t) | _ => None end
                                              | None => None
                                              end
                          | None => None
                          end
              | None => None
              end
          | None => None
          end
      | _ => None
      end
  end.
(** [impl<..> type] *)
Definition read_impl (s : string) : option (list (text * option rt) * rt) :=
  match lex (txt s) with
  | None => None
  | Some ts => match eat (word_is "impl") ts with
               | Some r => match maybe_params r with
                           | Some (vs, r) => match read_ty 50 (map fst vs) r with Some (t, []) => Some (vs, t) | _ => None end
                           | None => None
                           end
               | None => None
               end
  end.

(** [m::f] *)
Fixpoint find_fn (outer : list (text * option rt)) (f : text) (l : list string) : option sig :=
  match l with
  | [] => None
  | s :: r => match read_fn outer s with Some (f', g) => if eqb_bytes f' f then Some g else find_fn outer f r | None => None end
  end.
Definition module_fn (m f : text) : option sig :=
  match find (fun e => eqb_bytes (txt (fst e)) m) core_modules with Some (_, fns) => find_fn [] f fns | None => None end.

(** the name at the head of a type *)
Definition head (t : rt) : option text := match t with RName n | RApp n _ => Some n | _ => None end.
(** [N::f], or the method [f] of values of a type [N<..>]; with the type *)
Fixpoint find_impl (n f : text) (l : list (string * list string)) : option (rt * sig) :=
  match l with
  | [] => None
  | (s, fns) :: r =>
      match read_impl s with
      | Some (vs, t) => if match head t with Some n' => eqb_bytes n' n | None => false end
                        then match find_fn vs f fns with Some g => Some (t, g) | None => None end
                        else find_impl n f r
      | None => None
      end
  end.
Definition type_fn (n f : text) : option (rt * sig) := find_impl n f core_impls.

(** parameters replaced *)
Fixpoint subst (s : text -> rt) (t : rt) : rt :=
  match t with
  | RVar x => s x
  | RName n => RName n
  | RApp n t => RApp n (subst s t)
  | RRef t => RRef (subst s t) | RMut t => RMut (subst s t)
  | RPtr t => RPtr (subst s t) | RPtrMut t => RPtrMut (subst s t)
  | RPair a b => RPair (subst s a) (subst s b)
  | RSlice t => RSlice (subst s t)
  | RFun a b => RFun (subst s a) (subst s b)
  end.
