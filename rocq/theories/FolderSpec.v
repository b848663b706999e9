(** What C36 and C37 speak about. *)
From Verif Require Import Base FolderModel.

(** a file name that is not a path *)
Definition plain (name : list Z) : Prop := ~ In 47 name /\ ~ In 0 name /\ name <> [] /\ name <> [46] /\ name <> [46; 46].
