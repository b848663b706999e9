(** What C57 speaks about. *)
From Verif Require Import Base DocModel RemoveModel FolderModel ThreadsModel.

Section Spec.
Context {doc : Type}.
Variable mkdiff : doc -> doc -> res (list Z).
Variable cur : source doc.
Notation save_one := (fun o fs => save_dochy_file doc mkdiff (sv_now o) cur (sv_name o) (sv_doc o) (sv_overwrite o) fs).

(** saves one after the other (by the function of C37): their results and the folders that
    come out *)
Fixpoint one_by_one (l : list (save doc)) (fs : project) : list (save doc * res unit) * project :=
  match l with
  | [] => ([], fs)
  | o :: l => let '(r, fs) := save_one o fs in let '(rs, fs) := one_by_one l fs in ((o, r) :: rs, fs)
  end.

(** no file is open *)
Definition none_open (s : state doc) : Prop := forall o h f diff, ~ In (o, Opened h f diff) (th_threads s).
(** saves that were asked for and are not over *)
Definition unfinished (s : state doc) : nat := length (th_threads s).
(** the results of threads that have not returned *)
Definition pending (s : state doc) : list (save doc * res unit) :=
  flat_map (fun t => match snd t with Performed r | Uncounted r => [(fst t, r)] | _ => [] end) (th_threads s).
(** the threads between the two changes of the counter *)
Definition counted (p : phase) : bool := match p with Counted | Opened _ _ _ | Performed _ => true | _ => false end.
End Spec.
