(** Model of saving named files from several threads: the lock of a folder, its counter, and
    what others see meanwhile.  Citations are relative to /repo/dochy_fs/src/imp. *)
From Verif Require Import Base StringCompactionModel FileNameModel DocModel PhaseModel TreeModel HistModel RemoveModel FolderModel.

Section Threads.
Context {doc : Type}.
Variable mkdiff : doc -> doc -> res (list Z).
(** what the map of folders holds for the folder (SourceModel).  It stays: the unsafe
    [force_update_and_get_info_us] (filesys/save_cache_map.rs L32-40) is not called. *)
Variable cur : source doc.

(** the arguments of a save, with the time at which it makes a folder *)
Record save : Type := Save { sv_now : systime; sv_name : list Z; sv_doc : doc; sv_overwrite : bool }.

(** filesys/save_dochy_file.rs L16-27: up to [File::create], which empties the file.  [inl]: the
    file and what is to be written. *)
Definition begin_save (o : save) (fs : project) : (Z * list Z * list Z) + res unit :=
  match prepare_hash_dir (sv_now o) (so_archive cur) (so_hash cur) fs with
  | (Ok _, fs) =>
      let target := resolve (so_hash cur) (sv_name o) fs in
      let exists_ := match target with Some (h, f) => match read_at h f fs with Some _ => true | None => false end | None => false end in
      if exists_ && negb (sv_overwrite o) then inr Err else
      match mkdiff (so_root cur) (sv_doc o) with
      | Ok diff => match target with Some (h, f) => inl (h, f, diff) | None => inr Err end
      | Err => inr Err
      | Panic => inr Panic
      end
  | (Err, _) => inr Err
  | (Panic, _) => inr Panic
  end.

(** A thread inside save_dochy_file: before [get_mutex] (filesys/save_cache_map.rs L57-60) has
    the lock; with the lock before the counter is raised (filesys/dochy_mutex.rs L12); with the
    counter raised; with the file empty; when the result is known; after the counter is lowered
    (filesys/dochy_mutex.rs L19, before the guard inside is dropped, also while a panic unwinds). *)
Inductive phase : Type :=
| Waiting
| Locked
| Counted
| Opened (h : Z) (f : list Z) (diff : list Z)
| Performed (r : res unit)
| Uncounted (r : res unit).

(** [th_started]: all saves so far; [th_log]: the results in the order in which they became
    known; [th_returned]: those that were returned, or passed to the callback of
    filesys/save_dochy_file.rs L46-53; [th_crashed]: those that panicked; [th_lost]: those that found
    the lock poisoned. *)
Record state : Type := State {
  th_started : list save;
  th_threads : list (save * phase);
  th_lock : bool;
  th_poisoned : bool;
  th_counter : Z;
  th_fs : project;
  th_log : list (save * res unit);
  th_returned : list (save * res unit);
  th_crashed : list save;
  th_lost : list save }.

Definition start (fs : project) : state := State [] [] false false 0 fs [] [] [] [].

(** One step.  A new save: in the thread of the caller, or in a thread of its own
    (filesys/save_dochy_file.rs L36-55). *)
Inductive step : state -> state -> Prop :=
| step_start s o :
    step s (State (th_started s ++ [o]) (th_threads s ++ [(o, Waiting)]) (th_lock s) (th_poisoned s) (th_counter s) (th_fs s) (th_log s) (th_returned s) (th_crashed s) (th_lost s))
(** filesys/save_cache_map.rs L59 [lock()] *)
| step_lock s a o b : th_threads s = a ++ (o, Waiting) :: b -> th_lock s = false -> th_poisoned s = false ->
    step s (State (th_started s) (a ++ (o, Locked) :: b) true (th_poisoned s) (th_counter s) (th_fs s) (th_log s) (th_returned s) (th_crashed s) (th_lost s))
(** filesys/save_cache_map.rs L59 [unwrap()] of a poisoned lock *)
| step_poisoned s a o b : th_threads s = a ++ (o, Waiting) :: b -> th_lock s = false -> th_poisoned s = true ->
    step s (State (th_started s) (a ++ b) (th_lock s) (th_poisoned s) (th_counter s) (th_fs s) (th_log s) (th_returned s) (th_crashed s) (th_lost s ++ [o]))
| step_count s a o b : th_threads s = a ++ (o, Locked) :: b ->
    step s (State (th_started s) (a ++ (o, Counted) :: b) (th_lock s) (th_poisoned s) (th_counter s + 1) (th_fs s) (th_log s) (th_returned s) (th_crashed s) (th_lost s))
(** filesys/save_dochy_file.rs L19-27 *)
| step_open s a o b h f diff : th_threads s = a ++ (o, Counted) :: b -> begin_save o (th_fs s) = inl (h, f, diff) ->
    step s (State (th_started s) (a ++ (o, Opened h f diff) :: b) (th_lock s) (th_poisoned s) (th_counter s)
      (write_at h f [] (snd (prepare_hash_dir (sv_now o) (so_archive cur) (so_hash cur) (th_fs s)))) (th_log s) (th_returned s) (th_crashed s) (th_lost s))
| step_fail s a o b r : th_threads s = a ++ (o, Counted) :: b -> begin_save o (th_fs s) = inr r ->
    step s (State (th_started s) (a ++ (o, Performed r) :: b) (th_lock s) (th_poisoned s) (th_counter s)
      (snd (prepare_hash_dir (sv_now o) (so_archive cur) (so_hash cur) (th_fs s))) (th_log s ++ [(o, r)]) (th_returned s) (th_crashed s) (th_lost s))
(** filesys/save_dochy_file.rs L28 *)
| step_write s a o b h f diff : th_threads s = a ++ (o, Opened h f diff) :: b ->
    step s (State (th_started s) (a ++ (o, Performed (Ok tt)) :: b) (th_lock s) (th_poisoned s) (th_counter s) (write_at h f diff (th_fs s)) (th_log s ++ [(o, Ok tt)]) (th_returned s) (th_crashed s) (th_lost s))
| step_uncount s a o b r : th_threads s = a ++ (o, Performed r) :: b ->
    step s (State (th_started s) (a ++ (o, Uncounted r) :: b) (th_lock s) (th_poisoned s) (th_counter s - 1) (th_fs s) (th_log s) (th_returned s) (th_crashed s) (th_lost s))
(** the guard is dropped; a guard that is dropped while a panic unwinds poisons the lock *)
| step_unlock s a o b r : th_threads s = a ++ (o, Uncounted r) :: b -> r <> Panic ->
    step s (State (th_started s) (a ++ b) false (th_poisoned s) (th_counter s) (th_fs s) (th_log s) (th_returned s ++ [(o, r)]) (th_crashed s) (th_lost s))
| step_unwind s a o b : th_threads s = a ++ (o, Uncounted Panic) :: b ->
    step s (State (th_started s) (a ++ b) false true (th_counter s) (th_fs s) (th_log s) (th_returned s) (th_crashed s ++ [o]) (th_lost s)).

Inductive steps : state -> state -> Prop :=
| steps_refl s : steps s s
| steps_step s s1 s2 : steps s s1 -> step s1 s2 -> steps s s2.

(** filesys/save_dir_info.rs L31-33 queued_threads *)
Definition queued_threads (s : state) : Z := th_counter s.
End Threads.
Arguments save : clear implicits.
Arguments state : clear implicits.
