(** Model of removing old history files.  Citations are relative to
    /repo/dochy_fs/src/imp/history. *)
From Verif Require Import Base CompactionModel StringCompactionModel FileNameModel DocModel TreeModel.

(* ------------------------------------------------------------------ *)
(** * The remover: remove/ *)

(** remove/history_remover_item.rs L8-13.  The flag [removable] of an item is kept
    outside: the state of a remover is the list of the paths of the items whose
    flag was set to false. *)
Inductive ritem : Type := RItem (cumulative : bool) (prop : option props) (children : list (Z * ritem)).
Definition r_cumulative (it : ritem) : bool := let (c, _, _) := it in c.
Definition r_prop (it : ritem) : option props := let (_, p, _) := it in p.
Definition r_children (it : ritem) : btree ritem := let (_, _, c) := it in c.

(** remove/composite_remover.rs L7-28, with remove/history_remover_item.rs L80-86
    from.  The zipper hands the children on unchanged, so they are converted
    before they are zipped; those of L21 that are not inserted are dropped.  The
    hash map is the list of its entries. *)
Fixpoint composite_remover (max_phase : nat) (cumulative_option : bool) (cur_phase : nat) (t : tree) : list (Z * ritem) :=
  match t with
  | Node ch it =>
      flat_map (fun e => match e with
                         | (ind, Some sub, p) =>
                             if (cur_phase <=? max_phase)%nat
                             then [(ind, RItem ((S cur_phase =? max_phase)%nat && cumulative_option) p sub)] else []
                         | (ind, None, p) => [(ind, RItem (cumulative_option && (cur_phase =? max_phase)%nat) p [])]
                         end)
        (zip it (map (fun e => (fst e, composite_remover max_phase cumulative_option (S cur_phase) (snd e))) ch))
  end.

(** remove/history_remover.rs L54-61 and L65-69 from *)
Definition remover : Type := list (Z * list (Z * ritem)).
Definition remover_from (max_phase : nat) (cumulative_option : bool) (h : tree) : remover :=
  map (fun e => (fst e, composite_remover max_phase cumulative_option 0 (snd e))) (children h).

(** remove/history_remover_item.rs L15-19 *)
Record cue : Type := Cue { c_ctl : Z; c_order : list Z; c_last : option Z }.

(** the path of the item a cue leads to *)
Definition cue_order (c : cue) : list Z := c_order c ++ match c_last c with Some i => [i] | None => [] end.
Definition cue_path (c : cue) : list Z := c_ctl c :: cue_order c.

Fixpoint descend (path : list Z) (it : ritem) : option ritem :=
  match path with
  | [] => Some it
  | k :: r => match bt_get k (r_children it) with Some c => descend r c | None => None end
  end.

(** remove/history_remover.rs L72-83 get_item_from_cue *)
Definition get_item_from_cue (items : list (Z * ritem)) (c : cue) : option ritem :=
  match c_order c with
  | [] => None
  | k :: r =>
      match bt_get k items with
      | Some it => descend (r ++ match c_last c with Some i => [i] | None => [] end) it
      | None => None
      end
  end.

(** remove/history_remover.rs L24-25 *)
Definition cue_item (r : remover) (c : cue) : option ritem :=
  match bt_get (c_ctl c) r with Some items => get_item_from_cue items c | None => None end.

Definition path_dec : forall a b : list Z, {a = b} + {a <> b} := list_eq_dec Z.eq_dec.
Definition is_kept (kept : list (list Z)) (path : list Z) : bool := if in_dec path_dec path kept then true else false.

(** remove/history_remover_item.rs L56-66 *)
Definition next_cue (it : ritem) (p : props) : option cue :=
  if r_cumulative it && negb (order_last p =? 0) then Some (Cue (p_control p) (order_base p) (Some (order_last p - 1)))
  else if negb (length (p_order p) =? 1)%nat then Some (Cue (p_prev p) (order_base p) None)
  else None.

(** remove/history_remover_item.rs L47-67 keep; [path]: that of the item *)
Definition item_keep (kept : list (list Z)) (path : list Z) (it : ritem) : list (list Z) * option cue :=
  match r_prop it with
  | None => (kept, None)
  | Some p => if is_kept kept path then (kept, None) else (path :: kept, next_cue it p)
  end.

(** the loop of remove/history_remover.rs L23-31.  Every turn but the last
    clears a flag, so there are at most as many turns as items and one more. *)
Fixpoint keep_loop (fuel : nat) (r : remover) (kept : list (list Z)) (c : cue) : res (list (list Z)) :=
  match fuel with
  | O => Panic
  | S f =>
      match cue_item r c with
      | None => Ok kept
      | Some it =>
          match item_keep kept (cue_path c) it with
          | (kept, Some c) => keep_loop f r kept c
          | (kept, None) => Ok kept
          end
      end
  end.

Fixpoint count_items (it : ritem) : nat :=
  match it with RItem _ _ ch => S (list_sum (map (fun e => count_items (snd e)) ch)) end.
Definition count_all (r : remover) : nat := list_sum (map (fun e => list_sum (map (fun i => count_items (snd i)) (snd e))) r).

(** remove/history_remover.rs L21-33 keep; the result is not used by callers in
    the repository *)
Definition keep (r : remover) (kept : list (list Z)) (p : props) : res (list (list Z)) :=
  keep_loop (S (S (count_all r))) r kept (Cue (p_control p) (p_order p) None).

Fixpoint keep_each (r : remover) (kept : list (list Z)) (l : list props) : res (list (list Z)) :=
  match l with [] => Ok kept | p :: l => kept <- keep r kept p ; keep_each r kept l end.

(** remove/history_remover_item.rs L69-78 get_removable_props *)
Fixpoint item_removable (kept : list (list Z)) (path : list Z) (it : ritem) : list props :=
  match it with
  | RItem _ p ch =>
      (if is_kept kept path then [] else match p with Some p => [p] | None => [] end) ++
      flat_map (fun e => item_removable kept (path ++ [fst e]) (snd e)) ch
  end.

(** remove/history_remover.rs L37-44 and L85-89; hash maps are iterated in any
    order, so the order of the result has no meaning *)
Definition get_removable (r : remover) (kept : list (list Z)) : list props :=
  flat_map (fun e => flat_map (fun i => item_removable kept [fst e; fst i] (snd i)) (snd e)) r.

(** file_hist/file_history.rs L41-50 get_removable_old_items *)
Definition get_removable_old_items (max_phase : nat) (cumulative : bool) (h : tree) (keep_latest : nat) : res (list props) :=
  let files := list_files h in
  let r := remover_from max_phase cumulative h in
  kept <- keep_each r [] (skipn (length files - keep_latest) files) ;
  Ok (get_removable r kept).

(** removing a file *)
Definition hdel {A} (name : list Z) (dir : hmap A) : hmap A := filter (fun e => negb (eqb_bytes name (fst e))) dir.

(** file_hist/file_history.rs L68-79 remove_files; failures are collected and do
    not stop the loop *)
Definition remove_files {A} (l : list props) (dir : hmap A) : hmap A := fold_left (fun dir p => hdel (filename p) dir) l dir.

(* ------------------------------------------------------------------ *)
(** * All source folders: file_hist/file_histories.rs *)

(** A history folder: the hash folders with their files. *)
Definition folders (A : Type) : Type := list (Z * hmap A).

Definition get_folder {A} (hash : Z) (fs : folders A) : option (hmap A) := bt_get hash fs.

(** ../common/path/remove_hash_dir.rs L6-8: an error if there is none *)
Definition remove_hash_dir {A} (hash : Z) (fs : folders A) : option (folders A) :=
  match bt_get hash fs with
  | Some _ => Some (filter (fun e => negb (hash =? fst e)) fs)
  | None => None
  end.

(** L91-97 remove_hash_dirs *)
Fixpoint remove_hash_dirs {A} (hashes : list Z) (fs : folders A) : res unit * folders A :=
  match hashes with
  | [] => (Ok tt, fs)
  | x :: r => match remove_hash_dir x fs with Some fs => remove_hash_dirs r fs | None => (Err, fs) end
  end.

(** the loop of L73-86: the index from which folders are kept *)
Fixpoint first_kept (vec : list (Z * tree)) (keep_latest sum ind : nat) : option nat :=
  match ind with
  | O => None
  | S i =>
      match nth_error vec ind with
      | None => None
      | Some (_, h) =>
          let sum := (sum + length (list_files h))%nat in
          if (keep_latest <? sum)%nat then Some ind else first_kept vec keep_latest sum i
      end
  end.

(** the files of one folder removed, the others as they are *)
Definition in_folder {A} (hash : Z) (f : hmap A -> hmap A) (fs : folders A) : folders A :=
  map (fun e => if fst e =? hash then (fst e, f (snd e)) else e) fs.

(** L46-88 remove_old_files_us; the histories were made with the options *)
Definition remove_old_files {A} (max_phase : nat) (cumulative : bool) (vec : list (Z * tree)) (keep_latest : nat) (fs : folders A) :
  res unit * folders A :=
  match rev vec with
  | [] => (Ok tt, fs)
  | (hash, h) :: _ =>
      match keep_latest with
      | O => remove_hash_dirs (map fst vec) fs
      | _ =>
          if (keep_latest <? length (list_files h))%nat then
            match remove_hash_dirs (map fst (removelast vec)) fs with
            | (Ok _, fs) =>
                match get_removable_old_items max_phase cumulative h keep_latest with
                | Ok l => (Ok tt, in_folder hash (remove_files l) fs)
                | Err => (Err, fs)
                | Panic => (Panic, fs)
                end
            | (r, fs) => (r, fs)
            end
          else
            match first_kept vec keep_latest 0 (length vec - 1) with
            | Some index => remove_hash_dirs (map fst (firstn index vec)) fs
            | None => (Ok tt, fs)
            end
      end
  end.

(** L19-25 list_files *)
Definition all_files (vec : list (Z * tree)) : list (Z * props) :=
  flat_map (fun e => map (fun p => (fst e, p)) (list_files (snd e))) vec.
(** L28-32 get_newest_file_data *)
Definition all_newest (vec : list (Z * tree)) : option (Z * props) :=
  match rev vec with
  | [] => None
  | (hash, h) :: _ => match get_newest h with Some p => Some (hash, p) | None => None end
  end.
