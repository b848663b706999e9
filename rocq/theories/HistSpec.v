(** What a history of saves and loads is, independent of how the files depend on
    each other. *)
From Verif Require Import Base CompactionModel FileNameModel FileNameSpec DocModel PhaseModel PhaseSpec
  TreeModel TreeSpec HistModel.

(** The files of a folder: [fs] are the history files, [junk] the other names
    (src.archive, created_time.dat).  A folder lists its names in any order. *)
Definition folder {A} (dir : hmap A) (fs : list props) (junk : list (list Z)) : Prop :=
  NoDup (map fst dir) /\ Permutation (map fst dir) (map filename fs ++ junk) /\
  Forall valid_props fs /\ Forall readable fs /\ Forall (fun n => analyze_file_name n = Ok None) junk.

(** Numbers that leave room for one more save (names of files with numbers of
    nine digits are not read, see C21). *)
Definition room (p : props) : Prop := p_control p < 99999999 /\ Forall (fun n => n < 99999999) (p_order p).

(** An implementation of differences that satisfies C14: between a document and a
    later version there is a difference, and applying it to the same document
    gives the later version.  Differences are smaller than 64 GiB. *)
Record reproduces {doc : Type} (mkdiff : doc -> doc -> res (list Z)) (appdiff : doc -> list Z -> res doc)
  (same later : doc -> doc -> Prop) : Prop := {
  same_refl : forall a, same a a;
  same_sym : forall a b, same a b -> same b a;
  same_trans : forall a b c, same a b -> same b c -> same a c;
  later_same : forall a b c, same a b -> later b c -> later a c;
  later_trans : forall a b c, later a b -> later b c -> later a c;
  difference : forall a b, later a b -> exists v, mkdiff a b = Ok v /\ zlen v < 2 ^ 36 /\
    forall a', same a' a -> exists r, appdiff a' v = Ok r /\ same r b }.

Section Histories.
Context {doc : Type}.
Variable mkdiff : doc -> doc -> res (list Z).
Variable appdiff : doc -> list Z -> res doc.
Variable same later : doc -> doc -> Prop.
Variable src : doc.
Variable op : options.

Notation st := (st doc).
Notation save := (save_history_file doc mkdiff appdiff src op).
Notation load := (load_history_file doc appdiff src op).

(** Documents that may be saved: they come from the source by edits, and if the
    object was last saved to or loaded from the file [base], from the document of
    that file. *)
Definition edited (s : st) (F : list (props * doc)) (id : Z) (d : doc) : Prop :=
  later src d /\
  forall base d0, s_cur doc s = Some (id, base) -> In (base, d0) F -> later d0 d.

(** Without cumulative files, and with more than one phase, the newest file must
    not be continued if it is of the last phase and branched off from another
    control number (see C28_branch_refuted). *)
Definition sound_save (s : st) (F : list (props * doc)) (id : Z) : Prop :=
  is_cumulative op = true \/ max_phase op = 0%nat \/
  forall base, s_cur doc s = Some (id, base) ->
    (phase base < max_phase op)%nat \/ p_prev base = p_control base \/
    exists q, In q (map fst F) /\ earlier (position base) (position q).

(** [reach sound junk n s F]: the state [s] is reached by saves without tags, loads,
    restarts and removals, [n] of them successful saves.  [F]: the files with the
    documents saved into them, in the order of saving.  [sound]: the saves that
    may be made. *)
Inductive reach (sound : st -> list (props * doc) -> Z -> Prop) (junk : list (list Z)) : nat -> st -> list (props * doc) -> Prop :=
| reach_start dir : folder dir [] junk -> reach sound junk 0 (St doc dir [] None) []
(** a new process: the cache is empty, no object is known *)
| reach_restart n s F : reach sound junk n s F -> reach sound junk n (St doc (s_dir doc s) [] None) F
(** the folder lists its names in another order *)
| reach_order n s F dir : reach sound junk n s F -> Permutation dir (s_dir doc s) ->
    reach sound junk n (St doc dir (s_cache doc s) (s_cur doc s)) F
| reach_load n s F id p d r s' : reach sound junk n s F -> In (p, d) F -> load id p s = (r, s') -> reach sound junk n s' F
| reach_save n s F greater id d p s' : reach sound junk n s F -> edited s F id d -> sound s F id ->
    save greater None id d s = (Ok p, s') -> reach sound junk (S n) s' (F ++ [(p, d)])
| reach_failed n s F greater id d s' : reach sound junk n s F -> edited s F id d ->
    save greater None id d s = (Err, s') -> reach sound junk n s' F
(** files are removed that no file left depends on and that the object in use is
    not based on; [gone]: the removed names *)
| reach_remove n s F gone : reach sound junk n s F ->
    Forall (fun name => gone name = false) junk ->
    (forall p d h l, In (p, d) F -> gone (filename p) = false ->
       create_file_history (map fst (s_dir doc s)) = Ok h ->
       create_ancestors h p (max_phase op) (is_cumulative op) = Ok l ->
       Forall (fun q => gone (filename q) = false) l) ->
    (forall id base, s_cur doc s = Some (id, base) -> gone (filename base) = false) ->
    reach sound junk n (St doc (filter (fun e => negb (gone (fst e))) (s_dir doc s)) (s_cache doc s) (s_cur doc s))
      (filter (fun e => negb (gone (filename (fst e)))) F).

(** A file can be continued: it is not of the last phase, or it is the newest, or
    there is a file at the position one phase up. *)
Definition continuable (files : list props) (p : props) : Prop :=
  (phase p < max_phase op)%nat \/
  (forall q, In q files -> q = p \/ earlier (position q) (position p)) \/
  exists q, In q files /\ position q = p_prev p :: order_base p.

(** the options do not ask for more sizes than there are phases (see C25) *)
Definition limited : Prop :=
  forall c nth, cumul op = Some c -> limit_nth c = Some nth -> 1 <= nth <= Z.of_nat (max_phase op) + 1.

End Histories.

(** An example of documents with differences: a text that only grows, the
    difference being what was added. *)
Definition added (a b : list Z) : res (list Z) := Ok (skipn (length a) b).
Definition extend (a v : list Z) : res (list Z) := Ok (a ++ v).
Definition extends (a b : list Z) : Prop := zlen b < 2 ^ 36 /\ exists t, b = a ++ t.
