(** Model of applying several difference files on several threads.  Citations
    are relative to /repo/dochy_fs/src/imp. *)
From Verif Require Import Base DocModel HistModel.

Section Apply.
(** documents, prepared differences *)
Context {doc D : Type}.
(** history/diff_and_cache/dochy_diff.rs L34-37 prepare, with the meta table of
    the document (the same for all documents of a source): decoding the bytes and
    reading a difference.  dochy_diff/src/imp/apply_diff.rs L25-27
    apply_root_diff_r. *)
Variable prepare : list Z -> res D.
Variable apply : doc -> D -> res doc.
(** the folder while the files are read *)
Variable dir : hmap (list Z).

(** dochy_diff/src/imp/apply_diff.rs L12-18 apply_diff *)
Definition appdiff (root : doc) (bytes : list Z) : res doc := d <- prepare bytes ; apply root d.

(** common/apply_items.rs L10-20 apply_items_st, with the documents handed to
    [func] in order *)
Fixpoint apply_items_st (root : doc) (paths : list (list Z)) : res doc * list doc :=
  match paths with
  | [] => (Ok root, [])
  | p :: r =>
      match apply_item doc appdiff dir root p with
      | Ok root => let '(x, seen) := apply_items_st root r in (x, root :: seen)
      | Err => (Err, [])
      | Panic => (Panic, [])
      end
  end.

(** The threads of apply_items_mt (L23-52).
    [m_reader]: the index of the path the reading thread (L32-43) handles next,
    [None] once it has ended or panicked; [m_workers]: the tasks (L38-41) that
    were spawned and have not sent; [m_queue]: the channel; [m_received]: [t_i] of
    L46; [m_map], [m_index], [m_root], [m_seen]: the variables of L44-50;
    [m_result]: what the function has returned, after which the receiver is
    gone. *)
Record mt : Type := Mt {
  m_reader : option nat;
  m_workers : list (nat * list Z);
  m_queue : list (nat * D);
  m_received : nat;
  m_map : list (nat * D);
  m_index : nat;
  m_root : doc;
  m_seen : list doc;
  m_result : option (res doc) }.

Definition mt_start (root : doc) : mt := Mt (Some 0%nat) [] [] 0 [] 0 root [] None.

(** the hash map of L44 *)
Definition map_get (i : nat) (m : list (nat * D)) : option D :=
  match find (fun e => (fst e =? i)%nat) m with Some e => Some (snd e) | None => None end.
Definition map_remove (i : nat) (m : list (nat * D)) : list (nat * D) := filter (fun e => negb (fst e =? i)%nat) m.
Definition map_insert (i : nat) (d : D) (m : list (nat * D)) : list (nat * D) := (i, d) :: map_remove i m.

(** common/apply_items.rs L54-68 apply_several_items.  Every turn but the last
    removes an entry, so there is at most one turn more than entries. *)
Fixpoint apply_several (fuel : nat) (root : doc) (index : nat) (m : list (nat * D)) (seen : list doc) : res unit * (doc * nat * list (nat * D) * list doc) :=
  match fuel with
  | O => (Panic, (root, index, m, seen))
  | S f =>
      match map_get index m with
      | None => (Ok tt, (root, index, m, seen))
      | Some d =>
          match apply root d with
          | Ok root => apply_several f root (S index) (map_remove index m) (seen ++ [root])
          | Err => (Err, (root, index, map_remove index m, seen))
          | Panic => (Panic, (root, index, map_remove index m, seen))
          end
      end
  end.

(** L46-50: one turn of the receiving loop *)
Definition receive (s : mt) (i : nat) (d : D) (queue : list (nat * D)) : mt :=
  let m := map_insert i d (m_map s) in
  let '(r, (root, index, m, seen)) := apply_several (S (length m)) (m_root s) (m_index s) m (m_seen s) in
  Mt (m_reader s) (m_workers s) queue (S (m_received s)) m index root seen
    (match r with Ok _ => None | Err => Some Err | Panic => Some Panic end).

(** One step of one of the threads; [Aborted]: the process.  A task that panics
    aborts the process, as rayon does when no panic handler is set; the repository
    sets none. *)
Inductive outcome : Type := Running (s : mt) | Aborted (s : mt).

Inductive step (paths : list (list Z)) : mt -> outcome -> Prop :=
(** L33-42 *)
| step_read s i p v : m_reader s = Some i -> nth_error paths i = Some p -> open_diff_file dir p = Ok v ->
    step paths s (Running (Mt (Some (S i)) (m_workers s ++ [(i, v)]) (m_queue s) (m_received s) (m_map s) (m_index s) (m_root s) (m_seen s) (m_result s)))
(** the [unwrap]s of L34-35 *)
| step_read_fails s i p : m_reader s = Some i -> nth_error paths i = Some p -> (forall v, open_diff_file dir p <> Ok v) ->
    step paths s (Running (Mt None (m_workers s) (m_queue s) (m_received s) (m_map s) (m_index s) (m_root s) (m_seen s) (m_result s)))
| step_read_ends s i : m_reader s = Some i -> nth_error paths i = None ->
    step paths s (Running (Mt None (m_workers s) (m_queue s) (m_received s) (m_map s) (m_index s) (m_root s) (m_seen s) (m_result s)))
(** L39-40; tasks end in any order *)
| step_send s a i v b d : m_workers s = a ++ (i, v) :: b -> prepare v = Ok d -> m_result s = None ->
    step paths s (Running (Mt (m_reader s) (a ++ b) (m_queue s ++ [(i, d)]) (m_received s) (m_map s) (m_index s) (m_root s) (m_seen s) (m_result s)))
(** the [unwrap] of L40 *)
| step_send_fails s a i v b d r : m_workers s = a ++ (i, v) :: b -> prepare v = Ok d -> m_result s = Some r -> step paths s (Aborted s)
(** the [unwrap] of L39 *)
| step_prepare_fails s a i v b : m_workers s = a ++ (i, v) :: b -> (forall d, prepare v <> Ok d) -> step paths s (Aborted s)
(** L46-50 *)
| step_receive s i d queue : m_result s = None -> (m_received s < length paths)%nat -> m_queue s = (i, d) :: queue ->
    step paths s (Running (receive s i d queue))
(** L47: the channel is empty and no sender is left *)
| step_disconnected s : m_result s = None -> (m_received s < length paths)%nat -> m_queue s = [] -> m_reader s = None -> m_workers s = [] ->
    step paths s (Running (Mt (m_reader s) [] [] (m_received s) (m_map s) (m_index s) (m_root s) (m_seen s) (Some Err)))
(** L51 *)
| step_return s : m_result s = None -> m_received s = length paths ->
    step paths s (Running (Mt (m_reader s) (m_workers s) (m_queue s) (m_received s) (m_map s) (m_index s) (m_root s) (m_seen s) (Some (Ok (m_root s))))).

(** [run paths root n o]: [o] after [n] steps in some order *)
Inductive run (paths : list (list Z)) (root : doc) : nat -> outcome -> Prop :=
| run_start : run paths root 0 (Running (mt_start root))
| run_step n s o : run paths root n (Running s) -> step paths s o -> run paths root (S n) o.

End Apply.
Arguments outcome : clear implicits.
Arguments mt : clear implicits.

(** The differences of DiffWireModel: history/diff_and_cache/dochy_diff.rs L34-37
    and dochy_diff/src/imp/apply_diff.rs L20-27 *)
From Verif Require Import CompactionModel DiffModel DiffWireModel.
Definition dochy_prepare {n} (def : rootdef n) (bytes : list Z) : res (rootdiff (ldiffT n)) :=
  meta <- root_table def ;
  '(kvals, _, _) <- decode bytes ;
  '(d, _) <- read_root meta kvals ;
  Ok d.
Definition dochy_apply {n} (def : rootdef n) (root : sabun n) (d : rootdiff (ldiffT n)) : res (sabun n) :=
  meta <- root_table def ;
  apply_root_diff root d meta.
