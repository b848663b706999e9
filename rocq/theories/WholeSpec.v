(** Sessions: several objects of one source in a process, edited by programs, saved to and
    loaded from a history, with the differences of C14. *)
From Verif Require Import Base CompactionModel CompactionSpec StringCompactionModel LinkedModel LinkedSpec DocModel DiffModel DiffWireModel DiffSpec DiffEditSpec
  FileNameModel FileNameSpec PhaseModel PhaseSpec TreeModel TreeSpec HistModel HistSpec IntfModel IntfSpec SizeSpec.

(* ------------------------------------------------------------------ *)
(** * Documents in memory *)

(** every text, array and binary of a document is where its address says *)
Section Held.
Variable mem : Z -> list Z.

Definition held_param (p : param) : Prop :=
  match p with
  | PString (Val a) | PIntArray (Val a) | PBinary (Val a) => snd a = mem (fst a)
  | _ => True
  end.
Definition held_item {L} (inner : L -> Prop) (it : item L) : Prop :=
  forall key v, hget key (it_values it) = Some v ->
    match v with LParam p => held_param p | LMil (Some l) => inner l | _ => True end.
Definition held_list {L} (inner : L -> Prop) (l : mlist (item L)) : Prop :=
  forall id it, lookup id (fst l) = Some it -> held_item inner it.
Fixpoint heldT (n : nat) : mlistT n -> Prop := match n with O => fun _ => True | S n => held_list (heldT n) end.
Definition held_root {n} (s : sabun n) : Prop :=
  forall key v, hget key s = Some v -> match v with RParam p => held_param p | RMut (Some l) => heldT n l | RMut None => True end.
End Held.

(** an empty list starts with the id 0, at every depth; for other lists the next id is lost
    (see C09) *)
Definition unemptied_item {L} (inner : L -> Prop) (it : item L) : Prop :=
  forall key l, hget key (it_values it) = Some (LMil (Some l)) -> inner l.
Definition unemptied_list {L} (inner : L -> Prop) (l : mlist (item L)) : Prop :=
  (fst l = [] -> snd l = 0) /\ forall id it, lookup id (fst l) = Some it -> unemptied_item inner it.
Fixpoint unemptiedT (n : nat) : mlistT n -> Prop := match n with O => fun _ => True | S n => unemptied_list (unemptiedT n) end.
Definition unemptied_root {n} (s : sabun n) : Prop :=
  forall key l, hget key s = Some (RMut (Some l)) -> unemptiedT n l.

(** [appdiff] applies differences as C14 says, to documents whose lists are not emptied, and
    places the result anywhere in the memory. *)
Definition applies (mem : Z -> list Z) {n} (def : rootdef n) (appdiff : sabun n -> list Z -> res (sabun n)) : Prop :=
  forall f v r, typed_root mem f def -> unemptied_root f -> apply_diff f def v = Ok r -> unemptied_root r ->
    exists r', appdiff f v = Ok r' /\ same_root true true r' r /\ clean_root r' /\ held_root mem r'.

(* ------------------------------------------------------------------ *)
(** * Sessions *)

(** The documents [docs] of a source can be kept in one history: their lists are not
    emptied, they are smaller than 32 GiB, and where two of them differ in nothing else
    they do not differ in a next id. *)
Definition keepable {n} (docs : sabun n -> Prop) : Prop :=
  (forall d, docs d -> unemptied_root d /\ size_root d < 2 ^ 35) /\
  (forall a b, docs a -> docs b -> next_root true a b).

Section Sessions.
Variable mem : Z -> list Z.
Context {n : nat}.
Variable def : rootdef n.
Variable appdiff : sabun n -> list Z -> res (sabun n).
Variable src : sabun n.
Variable op : options.
Variable docs : sabun n -> Prop.
Variable junk : list (list Z).

Notation doc := (sabun n).
Notation st := (st doc).
Notation save := (save_history_file doc (fun f t => get_diff f t def) appdiff src op).
Notation load := (load_history_file doc appdiff src op).

(** the objects of a process *)
Definition objects : Type := Z -> option doc.
Definition put (id : Z) (d : doc) (o : objects) : objects := fun k => if k =? id then Some d else o k.

(** [session k s F o]: the process has made [k] saves, its history is [s], [F] are the files
    with the documents that were saved, [o] its objects. *)
Inductive session : nat -> st -> list (props * doc) -> objects -> Prop :=
| ses_start dir : folder dir [] junk -> session 0 (St doc dir [] None) [] (fun _ => None)
(** a new object of the source; the last one saved or loaded is another *)
| ses_new k s F o id d : session k s F o -> same_root true true d src -> clean_root d -> held_root mem d ->
    (forall base, s_cur doc s <> Some (id, base)) -> session k s F (put id d o)
(** a program edits an object (see C41) *)
| ses_edit k s F o id d ops d' : session k s F o -> o id = Some d -> Forall (ok_root_step mem def) ops ->
    calm_program true def d ops -> program_run def d ops = Ok d' -> session k s F (put id d' o)
(** a file is loaded *)
| ses_load k s F o id p d r s' : session k s F o -> In (p, d) F -> load id p s = (Ok r, s') -> session k s' F (put id r o)
(** an object is saved; the saves excepted are those of C28_branch_refuted *)
| ses_save k s F o greater id d p s' : session k s F o -> o id = Some d -> docs d -> sound_save op s F id ->
    save greater None id d s = (Ok p, s') -> session (S k) s' (F ++ [(p, d)]) o
| ses_failed k s F o greater id d s' : session k s F o -> o id = Some d -> docs d ->
    save greater None id d s = (Err, s') -> session k s' F o
(** the process ends and another one starts *)
| ses_restart k s F o : session k s F o -> session k (St doc (s_dir doc s) [] None) F (fun _ => None)
| ses_order k s F o dir : session k s F o -> Permutation dir (s_dir doc s) -> session k (St doc dir (s_cache doc s) (s_cur doc s)) F o
(** files are removed that no file left depends on, as in HistSpec *)
| ses_remove k s F o gone : session k s F o ->
    Forall (fun name => gone name = false) junk ->
    (forall p d h l, In (p, d) F -> gone (filename p) = false ->
       create_file_history (map fst (s_dir doc s)) = Ok h ->
       create_ancestors h p (max_phase op) (is_cumulative op) = Ok l ->
       Forall (fun q => gone (filename q) = false) l) ->
    (forall id base, s_cur doc s = Some (id, base) -> gone (filename base) = false) ->
    session k (St doc (filter (fun e => negb (gone (fst e))) (s_dir doc s)) (s_cache doc s) (s_cur doc s))
      (filter (fun e => negb (gone (filename (fst e)))) F) o.

End Sessions.

(* ------------------------------------------------------------------ *)
(** * An implementation of [applies] *)

(** what was read, every text, array and binary with the address [addr] gives it *)
Section Place.
Variable addr : list Z -> Z.
Definition place_qv (q : qv (arc (list Z))) : qv (arc (list Z)) :=
  match q with Val a => Val (addr (snd a), snd a) | Null => Null | Undefined => Undefined end.
Definition place_param (p : param) : param :=
  match p with
  | PString q => PString (place_qv q)
  | PIntArray q => PIntArray (place_qv q)
  | PBinary q => PBinary (place_qv q)
  | p => p
  end.
Definition place_value {L} (inner : L -> L) (v : lval L) : lval L :=
  match v with LParam p => LParam (place_param p) | LMil (Some l) => LMil (Some (inner l)) | v => v end.
Definition place_item {L} (inner : L -> L) (it : item L) : item L :=
  Item (map (fun e => (fst e, place_value inner (snd e))) (it_values it)) (it_refs it).
Definition place_list {L} (inner : L -> L) (l : mlist (item L)) : mlist (item L) :=
  (map (fun e => (fst e, place_item inner (snd e))) (fst l), snd l).
Fixpoint placeT (n : nat) : mlistT n -> mlistT n :=
  match n with O => fun l => l | S n => place_list (placeT n) end.
Definition place_rootval {n} (v : rootsab (mlistT n)) : rootsab (mlistT n) :=
  match v with RParam p => RParam (place_param p) | RMut (Some l) => RMut (Some (placeT n l)) | v => v end.
Definition place_root {n} (s : sabun n) : sabun n := map (fun e => (fst e, place_rootval (snd e))) s.

Definition apply_placed {n} (def : rootdef n) (f : sabun n) (v : list Z) : res (sabun n) :=
  r <- apply_diff f def v ; Ok (place_root r).
End Place.
