(** Code that is written beside that of another: what C82 says. *)
From Coq Require Import String.
From Verif Require Import Base StringCompactionModel JsonModel IntfModel CodeSpec TypeSpec.

Local Notation text := (list Z).

(** No item of [q] is a type of the name of one of [p], or implements something for one of [p]. *)
Definition apart (p q : list CodeSpec.item) : Prop :=
  forall i n, In i q -> In n (type_names p) ->
    match i with IStruct _ m _ | IEnum _ m _ | IImpl m _ | IImplFor _ m _ => m <> n | IUse _ | IUnsafeImpl _ _ => True end.
