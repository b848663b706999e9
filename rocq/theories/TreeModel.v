(** Model of the tree of history files of one source folder.  Citations are
    relative to /repo/dochy_fs/src/imp/history. *)
From Verif Require Import Base FileNameModel.

(* ------------------------------------------------------------------ *)
(** * std::collections::BTreeMap with u32 keys: entries in ascending key order *)

Definition btree (A : Type) : Type := list (Z * A).

Fixpoint bt_insert {A} (k : Z) (v : A) (m : btree A) : btree A :=
  match m with
  | [] => [(k, v)]
  | (x, a) :: r =>
      if k <? x then (k, v) :: m
      else if k =? x then (k, v) :: r
      else (x, a) :: bt_insert k v r
  end.

Fixpoint bt_get {A} (k : Z) (m : btree A) : option A :=
  match m with [] => None | (x, a) :: r => if k =? x then Some a else bt_get k r end.

(** [iter().last()] *)
Fixpoint bt_last {A} (m : btree A) : option (Z * A) :=
  match m with [] => None | [e] => Some e | _ :: r => bt_last r end.

(* ------------------------------------------------------------------ *)
(** * The tree *)

(** file_hist/file_history_item.rs L8-11.  [FileHistory] (file_hist/file_history.rs
    L12-16) is a node without items whose children are the control numbers. *)
Inductive tree : Type := Node (children : list (Z * tree)) (items : list (Z * props)).

(** file_hist/file_history_item.rs L14-26 *)
Definition t_empty : tree := Node [] [].
Definition children (t : tree) : btree tree := let (c, _) := t in c.
Definition items (t : tree) : btree props := let (_, i) := t in i.

(** file_hist/file_history.rs L107-114 and L116-123 add, with
    file_hist/file_history_item.rs L28-39: down the path, making nodes where there
    are none, then the item *)
Fixpoint insert_at (path : list Z) (index : Z) (p : props) (t : tree) : tree :=
  match path with
  | [] => Node (children t) (bt_insert index p (items t))
  | k :: path =>
      let child := match bt_get k (children t) with Some c => c | None => t_empty end in
      Node (bt_insert k (insert_at path index p child) (children t)) (items t)
  end.

(** file_name/file_name_props.rs L48-52; the order is never empty *)
Definition order_base (p : props) : list Z := removelast (p_order p).
Definition order_last (p : props) : Z := last (p_order p) 0.
(** file_name/file_name_props.rs L44 *)
Definition phase (p : props) : nat := (length (p_order p) - 1)%nat.

(** file_hist/file_history.rs L116-123 add *)
Definition add (p : props) (h : tree) : tree := insert_at (p_control p :: order_base p) (order_last p) p h.

(** file_hist/file_history_item.rs L79-93 get_props *)
Fixpoint item_get (order : list Z) (t : tree) : option props :=
  match order with
  | [] => None
  | ind :: rest =>
      match rest with
      | [] => bt_get ind (items t)
      | _ => match bt_get ind (children t) with Some c => item_get rest c | None => None end
      end
  end.

(** file_hist/file_history.rs L129-135 get_props *)
Definition get_props (h : tree) (ctl : Z) (order : list Z) : option props :=
  match bt_get ctl (children h) with Some t => item_get order t | None => None end.

(** file_hist/file_history.rs L145-147 get_parent *)
Definition get_parent (h : tree) (p : props) : option props := get_props h (p_prev p) (order_base p).

(** file_hist/file_history_item.rs L49-65 get_newest_prop *)
Fixpoint item_newest (t : tree) : option props :=
  match t with
  | Node ch it =>
      match bt_last it, bt_last (map (fun e => (fst e, item_newest (snd e))) ch) with
      | Some (item_ind, p), Some (child_ind, newest) => if child_ind <? item_ind then Some p else newest
      | Some (_, p), None => Some p
      | None, Some (_, newest) => newest
      | None, None => None
      end
  end.

(** file_hist/file_history.rs L91-103 get_newest_prop *)
Definition get_newest (h : tree) : option props :=
  match bt_last (children h) with Some (_, t) => item_newest t | None => None end.

(* ------------------------------------------------------------------ *)
(** * The zipper *)

(** remove/btree_zipper.rs L10-19; the iterators are the entries left *)
Record zipper (A B : Type) : Type := Zipper {
  z_props : list (Z * A); z_his : list (Z * B); cur_props : Z; cur_his : Z;
  r_props : option A; r_his : option B }.
Arguments Zipper {A B}. Arguments z_props {A B}. Arguments z_his {A B}. Arguments cur_props {A B}.
Arguments cur_his {A B}. Arguments r_props {A B}. Arguments r_his {A B}.

(** [i64::MAX] *)
Definition i64_max : Z := 2 ^ 63 - 1.

(** remove/btree_zipper.rs L57-65 *)
Definition move_props {A B} (z : zipper A B) : zipper A B :=
  match z_props z with
  | (cur, p) :: r => Zipper r (z_his z) cur (cur_his z) (Some p) (r_his z)
  | [] => Zipper [] (z_his z) i64_max (cur_his z) None (r_his z)
  end.
(** remove/btree_zipper.rs L66-74 *)
Definition move_his {A B} (z : zipper A B) : zipper A B :=
  match z_his z with
  | (cur, h) :: r => Zipper (z_props z) r (cur_props z) cur (r_props z) (Some h)
  | [] => Zipper (z_props z) [] (cur_props z) i64_max (r_props z) None
  end.

(** remove/btree_zipper.rs L39-88 next; [cur as u32] is exact for u32 keys *)
Definition z_next {A B} (z : zipper A B) : option ((Z * option B * option A) * zipper A B) :=
  if (cur_props z =? cur_his z) && (cur_props z =? i64_max) then None else
  let z := if cur_props z =? cur_his z then move_his (move_props z)
           else if cur_props z <? cur_his z then move_props z
           else move_his z in
  if cur_props z =? cur_his z then
    if cur_props z =? i64_max then None else Some ((cur_props z, r_his z, r_props z), z)
  else if cur_props z <? cur_his z then Some ((cur_props z, None, r_props z), z)
  else Some ((cur_his z, r_his z, None), z).

Fixpoint z_run {A B} (fuel : nat) (z : zipper A B) : list (Z * option B * option A) :=
  match fuel with
  | O => []
  | S f => match z_next z with Some (e, z) => e :: z_run f z | None => [] end
  end.

(** remove/btree_zipper.rs L22-33 new, with the iteration; every step moves an
    iterator, so there are at most as many steps as entries *)
Definition zip {A B} (props : list (Z * A)) (his : list (Z * B)) : list (Z * option B * option A) :=
  z_run (S (length props + length his)) (Zipper props his (-1) (-1) None None).

(* ------------------------------------------------------------------ *)
(** * Listing *)

(** file_hist/file_history_item.rs L67-77 flatten.  The zipper hands the children
    on unchanged, so they are flattened before they are zipped. *)
Fixpoint flatten (t : tree) : list props :=
  match t with
  | Node ch it =>
      flat_map (fun e => match e with
                         | (_, child, p) =>
                             (match p with Some p => [p] | None => [] end) ++
                             (match child with Some l => l | None => [] end)
                         end)
        (zip it (map (fun e => (fst e, flatten (snd e))) ch))
  end.

(** file_hist/file_history.rs L32-38 list_files *)
Definition list_files (h : tree) : list props := flat_map (fun e => flatten (snd e)) (children h).

(** file_hist/create_file_history.rs L7-20.  The names are those the directory
    lists, in any order; errors of reading the directory are not modelled. *)
Fixpoint add_names (names : list (list Z)) (h : tree) : res tree :=
  match names with
  | [] => Ok h
  | n :: r => p <- analyze_file_name n ; add_names r (match p with Some p => add p h | None => h end)
  end.
Definition create_file_history (names : list (list Z)) : res tree := add_names names t_empty.
