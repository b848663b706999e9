(** What C55 speaks about. *)
From Verif Require Import Base FolderModel FolderSpec SourceModel.

Section Spec.
Context {doc V opt : Type}.
Notation event := (@event doc V opt).
Variable read : current_src -> V -> res (doc * Z).
Variable pack : current_src -> V -> archive.

(** No source is edited after the running process was told of it, and documents are saved under
    plain names other than that of the archive.  [used]: the sources it was told of, [d]: what
    lies at the paths of sources. *)
Fixpoint calm (used : list current_src) (d : current_src -> V) (es : list event) : Prop :=
  match es with
  | [] => True
  | Edit d' :: r => (forall s, In s used -> d' s = d s) /\ calm used d' r
  | Restart :: r => calm [] d r
  | Create _ s :: r | Force _ s :: r | CreateHist _ s _ :: r | ForceHist _ s _ :: r => calm (s :: used) d r
  | Save _ _ name _ _ :: r => plain name /\ name <> archive_name /\ calm used d r
  | Prepare _ _ :: r => calm used d r
  end.

(** the archive in a folder is that of a source with the hash of the folder *)
Definition right_archives (fs : project) : Prop := forall hash bytes, read_at hash archive_name fs = Some bytes ->
  exists s v root, read s v = Ok (root, hash) /\ bytes = a_bytes (pack s v).

(** sources with one hash have one document, which is also that of their archives *)
Record coherent (archive_root : list Z -> res doc) (same : doc -> doc -> Prop) : Prop := Coherent {
  co_archive : forall s v root hash, read s v = Ok (root, hash) -> exists r, archive_root (a_bytes (pack s v)) = Ok r /\ same r root;
  co_hash : forall s v root s' v' root' hash, read s v = Ok (root, hash) -> read s' v' = Ok (root', hash) -> same root root' }.

Definition restarts (es : list event) : bool := existsb (fun e => match e with Restart => true | _ => false end) es.
End Spec.
