(** What C65 speaks about: the same answers, and programs made of generated functions. *)
From Verif Require Import Base LinkedModel LinkedSpec DocModel ArchiveModel JsonModel IntfModel DiffSpec ReadModel AgainModel.

(** the same, but for the sign of zeros *)
Definition same_content (a b : content) : Prop :=
  match a, b with
  | CFloat x, CFloat y => same_float x y
  | CFloats x, CFloats y => Forall2 same_float x y
  | CFloat _, _ | CFloats _, _ => False
  | _, _ => a = b
  end.
Definition same_answer (a b : answer) : Prop :=
  match a, b with
  | Value x, Value y => same_qv same_content x y
  | Value _, _ => False
  | _, _ => a = b
  end.
(** both are told the same, or the function panics for both *)
Definition same_told (a b : res answer) : Prop :=
  match a, b with
  | Ok x, Ok y => same_answer x y
  | Err, Err | Panic, Panic => True
  | _, _ => False
  end.

(** every item a way leads to has at most one reference if it is an enum *)
Definition single_variants (r : root_obj) : Prop :=
  forall iter w s, visit iter r w = Ok (Some s) -> ld_enum (undef (snd s)) = true -> (length (ci_refs (fst s)) <= 1)%nat.

(** The calls of a program that the generated functions make: there is [set_enum] for the items
    of enums, and [set_ref_*] for the others (GenSpec, C57). *)
Definition generated_op {D} (d : ldef D) (o : item_op) : Prop :=
  match o with
  | IRef _ _ => ld_enum d = false
  | IEnum _ _ => ld_enum d = true
  | _ => True
  end.
Fixpoint generated_step (n : nat) : step -> defT n -> Prop :=
  match n with
  | O => fun _ _ => True
  | S n => fun s d =>
      match s with
      | OnList _ => True
      | OnItem _ o => generated_op d o
      | Into _ key s => forall id d' u, hget key (ld_members d) = Some (id, DMil d' u) -> generated_step n s d'
      end
  end.
Definition generated_root_step {n} (def : rootdef n) (o : root_step) : Prop :=
  match o with
  | OInto key s => forall id d u, hget key def = Some (id, RVMList d u) -> generated_step n s d
  | _ => True
  end.
