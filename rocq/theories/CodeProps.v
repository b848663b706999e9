(** C66: the text of accessors. *)
From Coq Require Import String.
From Verif Require Import Base StringCompactionModel StringCompactionProofs DocModel DiffSpec DiffProofs ArchiveModel JsonModel JsonSpec JsonProofs JsonProps ValidModel ValidSpec IntfModel IntfSpec
  GenModel GenSpec GenProps CodeModel CodeSpec CodeLexProofs CodeProofs CodeNameProofs.

(** The text is read, token by token, as the items of the declarations: every method is the
    function that belongs to it, with its arguments, types and body. *)
Theorem C66_written : forall old root, speakable root -> exists p, declared (generate old root) p /\ writes (root_text old root) p.
Proof.
  intros old root Sp. destruct (root_telling root Sp old) as (parts & F & L). exists (concat parts). split; [exists parts; auto|]. apply line_lexes. exact L.
Qed.
Print Assumptions C66_written.

(** This holds for every document that is loaded, from whatever source, if the ids of its rows
    are words of Rust: names of members and of references always are. *)
Theorem C66_loaded : forall addr iter parse files validation r, iterates iter -> load_root addr iter parse files validation = Ok r ->
  (forall key id d rows old, In (key, (id, WTable d rows old)) (ro_default r) -> forall row it, In (row, it) rows -> sayable row) ->
  exists p, declared (generate (ro_old r) (ro_default r)) p /\ writes (root_text (ro_old r) (ro_default r)) p.
Proof.
  intros addr iter parse files validation r It E R. apply C66_written, named_speakable; [|exact R]. exact (when_use _ _ _ (load_named addr iter It parse files validation) E).
Qed.
Print Assumptions C66_loaded.

(** If moreover the names cause no trouble, what is written is well formed (C54). *)
Theorem C66_well_formed : forall old root, tame root -> exists p, declared (generate old root) p /\ writes (root_text old root) p /\ well_formed (generate old root).
Proof.
  intros old root T. destruct (C66_written old root (tame_speakable root T)) as (p & D & W). exists p. split; [exact D|]. split; [exact W|]. apply C54_compiles_partial. exact T.
Qed.
Print Assumptions C66_well_formed.

(** Nothing checks the ids of rows: this document is loaded, and its text is no Rust at all. *)
Definition odd_row : jval := JMap [(txt "t", JArray [str "Table"; JArray [JMap [(txt "x", JInt 1)]]; JMap [(txt "ID", JString [92])]])].
Definition odd_doc : res root_obj := Eval vm_compute in load_doc odd_row.
Lemma odd_loaded : load_doc odd_row = odd_doc.
Proof. vm_compute. reflexivity. Qed.
Theorem C66_rows_refuted : exists addr iter parse files r, iterates iter /\ load_root addr iter parse files true = Ok r /\
  forall p, ~ writes (root_text (ro_old r) (ro_default r)) p.
Proof.
  exists sample_addr, in_place, (texts [odd_row]), [(txt "src/root.json5", [0])]. eexists. split; [exact in_place_iterates|]. split; [exact odd_loaded|].
  intros p W. unfold writes in W. vm_compute in W. discriminate W.
Qed.
Print Assumptions C66_rows_refuted.

(* ------------------------------------------------------------------ *)
(** * Cases *)

Example C66_written_case : speakable game_root /\ zlen (root_text game_old game_root) = 10000.
Proof. split; [exact (tame_speakable _ game_tame)|vm_compute; reflexivity]. Qed.
Example C66_well_formed_case : tame game_root /\ exists ts, lex (root_text game_old game_root) = Some ts /\ zlen ts = 2801 /\ firstn 6 ts = [Word (txt "use"); Word (txt "dochy"); Mark (txt "::"); Word (txt "core"); Mark (txt "::"); Word (txt "intf")].
Proof. split; [exact game_tame|]. eexists. split; [vm_compute; reflexivity|]. split; vm_compute; reflexivity. Qed.

(** a document with a member [@x] and a row [Long_Name] *)
Definition plain_doc : jval := JMap [(txt "@x?", JInt 1); (txt "t", JArray [str "Table"; JArray [JMap [(txt "aB", JInt 1)]]; row "Long_Name" []])].
Definition plain_out : res root_obj := Eval vm_compute in load_doc plain_doc.
Lemma plain_loaded : load_doc plain_doc = plain_out.
Proof. vm_compute. reflexivity. Qed.
Example C66_loaded_case : exists r, load_doc plain_doc = Ok r /\
  (forall key id d rows old, In (key, (id, WTable d rows old)) (ro_default r) -> forall row it, In (row, it) rows -> sayable row) /\
  firstn 46 (skipn (Z.to_nat 1220) (root_text (ro_old r) (ro_default r))) = txt "pub unsafe fn long__name_us(&self) -> TCItem {".
Proof.
  eexists. split; [exact plain_loaded|]. split.
  - intros key id d rows old H row it Hr. vm_compute in H. destruct H as [H|[H|[]]]; [discriminate H|]. apply pair_equal_spec in H as [_ H]. apply pair_equal_spec in H as [_ H].
    injection H as <- <- <-. destruct Hr as [Hr|[]]. apply pair_equal_spec in Hr as [<- _]. exists 76, (txt "ong_Name"). split; [reflexivity|]. split; [right; left; unfold upper; lia|].
    apply Forall_forall. intros c C. vm_compute in C. unfold lower, upper, digit. repeat destruct C as [C|C]; try destruct C; lia.
  - vm_compute. reflexivity.
Qed.
