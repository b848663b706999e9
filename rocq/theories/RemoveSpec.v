(** When removing old files keeps what the kept files need. *)
From Verif Require Import Base FileNameModel PhaseModel TreeModel TreeSpec HistModel HistSpec RemoveModel.

(** With cumulative files: more than one phase; a file that continues another of
    the last phase has that one's control number; a file of the phase above the
    last that is not the first among its siblings has a sibling before it with
    the same parent. *)
Definition regular (max_phase : nat) (cumulative : bool) (files : list props) : Prop :=
  cumulative = true ->
  (1 <= max_phase)%nat /\
  (forall p, In p files -> phase p = max_phase -> 0 < order_last p -> p_prev p = p_control p) /\
  (forall p, In p files -> S (phase p) = max_phase -> (1 <= phase p)%nat -> 0 < order_last p ->
     exists q, In q files /\ position q = p_control p :: order_base p ++ [order_last p - 1] /\ p_prev q = p_prev p).

(** the last [n] of a list *)
Definition lastn {A} (n : nat) (l : list A) : list A := skipn (length l - n) l.

(** The files that removing old files keeps for a file with the ancestors [anc]:
    these, and with cumulative files also those before an ancestor of the phase
    above the last. *)
Definition kept_for (max_phase : nat) (cumulative : bool) (anc : list props) (q : props) : Prop :=
  In q anc \/
  (cumulative = true /\ exists a, In a anc /\ S (phase a) = max_phase /\ p_control q = p_control a /\
     order_base q = order_base a /\ phase q = phase a /\ order_last q < order_last a).

(** An object that was saved or loaded before is based on the newest file. *)
Definition continues {doc} (s : st doc) (F : list (props * doc)) (id : Z) : Prop :=
  forall base, s_cur doc s = Some (id, base) -> last_of (map fst F) = Some base.

(** The histories of the source folders of a history folder, oldest first
    (hash_dir/get_hash_times.rs: by time of creation). *)
Definition histories_of {A} (fs : folders A) (vec : list (Z * tree)) : Prop :=
  NoDup (map fst vec) /\
  forall hash h, In (hash, h) vec -> exists dir files junk names,
    get_folder hash fs = Some dir /\ folder dir files junk /\ Permutation names (map fst dir) /\ create_file_history names = Ok h.
