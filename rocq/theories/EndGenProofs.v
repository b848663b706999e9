(** Proof of C81: generated programs. *)
From Coq Require Import String.
From Verif Require Import Base StringCompactionModel StringCompactionProofs LinkedModel LinkedSpec DocModel DiffSpec DiffProofs ArchiveModel JsonModel JsonSpec ValidSpec IntfModel IntfProofs
  GenModel GenSpec GenNameProofs GenProofs GenWellProofs CodeModel CodeSpec CodeNameProofs ApiModel TypeSpec TypeProofs TypeFnProofs TypeItemProofs TypeGenProofs ReadModel RunModel RunSpec RunProofs RunGenProofs
  SoundSpec SoundProofs SoundStepProofs SoundGenProofs.

Local Notation text := (list Z).

(** what [From] is implemented with *)
Lemma from_leaf ds parts : Forall2 declares ds parts -> forall n f, In f (trait_fns (concat parts) n) -> f_lets f = [] /\ exists a fs, f_value f = Some (EStruct a fs).
Proof.
  intros D n f I. unfold trait_fns in I. apply in_flat_map in I as (i & I & J). apply in_concat in I as (part & P & I).
  assert (X : exists d, declares d part).
  { clear - D P. induction D as [|d q ds parts H D IH]; [destruct P|]. destruct P as [->|P]; [exists d; exact H|exact (IH P)]. }
  destruct X as (d & X). destruct i; try contradiction J. destruct (eqb_bytes n0 n); [|destruct J].
  inversion X; subst; unfold wrapper in I; cbn [In] in I; repeat match type of I with _ \/ _ => destruct I as [I|I] end; try discriminate I; try contradiction I; injection I as <- <- <-; destruct J as [<-|[]]; (split; [reflexivity|]); do 2 eexists; reflexivity.
Qed.
