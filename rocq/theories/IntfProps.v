(** C41: the accessors. *)
From Coq Require Import String.
From Verif Require Import Base CompactionSpec StringCompactionModel LinkedModel LinkedSpec DocModel DiffModel DiffWireModel DiffSpec DiffEditSpec DiffProofs DiffSamples DiffProps
  ArchiveModel JsonModel JsonSpec JsonProofs JsonProps ValidModel ValidSpec ValidProps LoadSpec EmbedSpec EmbedProofs EmbedProps IntfModel IntfSpec IntfProofs IntfLoadProofs.

(* ------------------------------------------------------------------ *)
(** * C41: setting and reading parameters *)

(** Setting a parameter of an item succeeds exactly if the member is declared with this
    type and allows null or undefined if it is that.  Afterwards the member has the value
    and nothing else differs; if it fails, nothing differs. *)
Theorem C41_set_item : forall D L (it : item L) (d : ldef D) key p, item_kinds it d ->
  exists it' b, item_set it d key p = Ok (it', b) /\ (b = true <-> declared d key p) /\
    (b = false -> it' = it) /\
    (b = true -> item_param it' d key = Some p /\ hget key (it_values it') = Some (LParam p) /\ only_value key it it').
Proof. intros. apply set_item; assumption. Qed.
Print Assumptions C41_set_item.

Theorem C41_set_root : forall D L (s : hmap (rootsab L)) (def : hmap (Z * rootval D)) key p, root_kinds s def ->
  exists s' b, root_set s def key p = (s', b) /\ (b = true <-> root_declared def key p) /\
    (b = false -> s' = s) /\
    (b = true -> root_param s' def key = Some p /\ hget key s' = Some (RParam p) /\ only_member key s s').
Proof. intros. apply set_root; assumption. Qed.
Print Assumptions C41_set_root.

(** documents that fit their definition meet the conditions *)
Theorem C41_kinds : forall mem n (s : sabun n) def, typed_root mem s def -> root_kinds s def.
Proof. intros mem n s def. apply typed_root_kinds. Qed.
Print Assumptions C41_kinds.
Theorem C41_item_kinds : forall mem D L (inner : L -> D -> Prop) it d, typed_item mem inner it d -> item_kinds it d.
Proof. intros mem D L inner it d. apply typed_kinds. Qed.
Print Assumptions C41_item_kinds.

(** A member never set reads as declared, and is said to be unmodified; one that was set
    is not. *)
Theorem C41_default : forall D L (it : item L) (d : ldef D) key id p vt, hget key (ld_members d) = Some (id, DParam p vt) ->
  (item_unmodified it key = true <-> hget key (it_values it) = None) /\
  (hget key (it_values it) = None -> item_param it d key = Some p).
Proof.
  intros D L it d key id p vt G. unfold item_unmodified, item_param, item_param_def. rewrite G.
  destruct (hget key (it_values it)); (split; [split; (discriminate || reflexivity)|discriminate || reflexivity]).
Qed.
Print Assumptions C41_default.

Theorem C41_root_default : forall D L (s : hmap (rootsab L)) (def : hmap (Z * rootval D)) key id p vt, hget key def = Some (id, RVParam p vt) ->
  (root_unmodified s key = true <-> hget key s = None) /\
  (hget key s = None -> root_param s def key = Some p).
Proof.
  intros D L s def key id p vt G. unfold root_unmodified, root_param, root_param_def. rewrite G.
  destruct (hget key s); (split; [split; (discriminate || reflexivity)|discriminate || reflexivity]).
Qed.
Print Assumptions C41_root_default.

(** Writing through a reference to a member: it has the new value if it had one, null and
    undefined stay, nothing else differs. *)
Theorem C41_write : forall mem D L (inner : L -> D -> Prop) it (d : ldef D) key id p0 vt t a new, typed_item mem inner it d ->
  hget key (ld_members d) = Some (id, DParam p0 vt) -> type_of p0 = t ->
  exists p, value_of it d key p /\
    let '(it', r) := item_write it d key t a new in
    r = Some (qv_map (fun _ => tt) (contents p)) /\ only_value key it it' /\
    exists p', hget key (it_values it') = Some (LParam p') /\ type_of p' = t /\
      match t, contents p with
      | TString, Val _ => contents p' = Val (CString new)
      | TIntArray, Val _ => contents p' = Val (CInts new)
      | TFloatArray, Val _ => contents p' = Val (CFloats new)
      | TBinary, Val _ => contents p' = Val (CBytes new)
      | _, _ => p' = p
      end.
Proof.
  intros mem D L inner it d key id p0 vt t a new T G Et. destruct (write_item mem inner it d key id p0 vt t a new T G Et) as (p & V & H). exists p. split; [exact V|].
  destruct (item_write it d key t a new) as [it' r]. destruct H as (A & B & C). split; [exact A|]. split; [exact B|]. exists (overwrite t a new p). split; [exact C|].
  assert (Tp : type_of p = t).
  { destruct V as [V|(_ & i & vt1 & V)]; [|congruence]. destruct T as (_ & _ & T & _). destruct (T _ _ V) as (i & p1 & vt1 & G1 & (F & _)). congruence. }
  split; [rewrite overwrite_type; exact Tp|]. destruct p as [q|q|q|q|q|q|q]; cbn in Tp; rewrite <- Tp; destruct q; reflexivity.
Qed.
Print Assumptions C41_write.

Definition item_0 : item (mlistT 1) := Item [([118], LParam (PInt (Val 1)))] [].

Example C41_case :
  item_kinds item_0 it_def /\ typed_item a_mem (typedT a_mem 1) item_0 it_def /\ root_kinds doc_f a_def /\
  item_set item_0 it_def [118] (PInt Null) = Ok (Item [([118], LParam (PInt Null))] [], true) /\
  item_set item_0 it_def [118] (PInt Undefined) = Ok (item_0, false) /\
  item_set item_0 it_def [118] (PFloat (Val 0)) = Ok (item_0, false) /\
  item_set item_0 it_def [119] (PInt (Val 0)) = Ok (item_0, false) /\
  item_param item_0 it_def [118] = Some (PInt (Val 1)) /\ item_param (Item [] [] : item (mlistT 1)) it_def [118] = Some (PInt (Val 7)) /\
  snd (root_set doc_f a_def [115] (PString (Val (2, [104; 105])))) = true /\ snd (root_set doc_f a_def [115] (PString Null)) = false /\
  fst (root_write doc_f a_def [115] TString 2 [104; 105]) = doc_f ++ [([115], RParam (PString (Val (2, [104; 105]))))].
Proof.
  assert (T : typed_item a_mem (typedT a_mem 1) item_0 it_def).
  { destruct doc_f_typed as [_ T]. destruct (T [108] _ eq_refl) as (id & d & u & G & Tl). injection G as <- <- <-.
    destruct Tl as (_ & _ & _ & _ & _ & _ & It). apply (It 0 item_0 eq_refl). }
  split; [apply (C41_item_kinds _ _ _ _ _ _ T)|]. split; [exact T|]. split; [apply (C41_kinds _ _ _ _ doc_f_typed)|].
  repeat split; reflexivity.
Qed.

(* ------------------------------------------------------------------ *)
(** * C41: programs *)

(** Whatever sequence of calls edits a document, it keeps fitting its definition.  The
    references have to be declared (see C41_ref_refuted), and the defaults of the members
    written to have to be allowed. *)
Theorem C41_typed_partial : forall mem n (def : rootdef n) s ops s', few_rootdef def -> Forall (ok_root_step mem def) ops ->
  typed_root mem s def -> program_run def s ops = Ok s' -> typed_root mem s' def.
Proof. intros mem n def s ops s' Few O T E. eapply program_typed; eassumption. Qed.
Print Assumptions C41_typed_partial.

(** No call panics, except for the insertion of an item *)
Theorem C41_total : forall mem n (def : rootdef n) s o, few_rootdef def -> typed_root mem s def -> root_inserts o = false ->
  exists x, root_run def s o = Ok x.
Proof. intros mem n def s o. apply root_run_total. Qed.
Print Assumptions C41_total.

(** which succeeds as long as there is an id left *)
Theorem C41_insert : forall L (l : mlist (item L)), Forall (fun id => id < snd l) (ids (fst l)) -> snd l + 1 < 2 ^ 64 -> zlen (fst l) + 1 < 2 ^ 62 ->
  list_do l LInsertFirst = Ok (((snd l, Item [] []) :: fst l, snd l + 1), true) /\
  list_do l LInsertLast = Ok ((fst l ++ [(snd l, Item [] [])], snd l + 1), true).
Proof. intros L l. apply insert_total. Qed.
Print Assumptions C41_insert.

(** Programs make the edits C14 speaks about, unless an enum leaves its table; with [ord]
    they do not move items. *)
Theorem C41_edits_partial : forall ord mem n (def : rootdef n) s ops s', few_rootdef def ->
  (forall key id d, hget key def <> Some (id, RVMList d true)) -> Forall (ok_root_step mem def) ops ->
  typed_root mem s def -> lists_there def s -> calm_program ord def s ops ->
  program_run def s ops = Ok s' -> reached (edit_root ord) s s'.
Proof. intros ord mem n def s ops s' Few Un O T Th Ca E. eapply program_edit; eassumption. Qed.
Print Assumptions C41_edits_partial.

(** From source files to differences: a validated source, edited by any program that moves
    no items and changes no table of an enum, gives a difference that leads from the loaded
    document to the edited one. *)
Theorem C41_diff_partial : forall addr mem iter parse files r, iterates iter -> (forall s, mem (addr s) = s) ->
  NoDup (source_names parse files) -> zlen (source_names parse files) <= 2 ^ 62 ->
  all_files (everywhere rust_node) parse files -> all_files (everywhere unique_node) parse files -> all_files (everywhere counted_node) parse files ->
  load_root addr iter parse files true = Ok r ->
  exists n (def : rootdef n) (f : sabun n), is_rootdef (ro_default r) def /\ is_sabun (ro_sabun r) f /\
    (small_rootdef def -> (forall key id d, hget key def <> Some (id, RVMList d true)) ->
     forall ops t, Forall (ok_root_step mem def) ops -> calm_program true def f ops -> program_run def f ops = Ok t -> fits_memory f t def ->
     exists bytes, get_diff f t def = Ok bytes /\ wf_bytes bytes /\
       forall f', same_root true false f' f -> exists r', apply_diff f' def bytes = Ok r' /\ same_root true false r' t).
Proof.
  intros addr mem iter parse files r It Hm N L R U C E.
  destruct (loaded_root addr mem iter parse files r true It Hm N L R U ltac:(auto) E) as (n & def & f & A & B & W & T & Hc).
  pose proof E as E0. unfold load_root in E0. apply bind_ok in E0 as (r0 & E1 & E2). apply bind_ok in E2 as ([] & E2 & E3). apply Ok_inj in E3; subst r0.
  pose proof (loaded_few addr mem iter parse files r n def It Hm R U E1 A W) as Few.
  pose proof (loaded_there addr iter parse files r n def f E1 A B) as Th.
  exists n, def, f. split; [exact A|]. split; [exact B|]. intros S Un ops t O Ca Er Fi.
  apply (C14_edits_partial mem n def f t W S Un T); [eapply C41_typed_partial; eassumption|apply (Hc eq_refl)|exact Fi|].
  eapply C41_edits_partial; eassumption.
Qed.
Print Assumptions C41_diff_partial.

(** remove the first item, set "v" of the last to null, insert in front of the list "m" of
    the other one, set its reference, insert an item, write "s" *)
Definition a_program : list root_step :=
  [OInto [108] (OnList (LRemove 0)); OInto [108] (OnItem 2 (ISet [118] (PInt Null)));
   OInto [108] (Into 1 [109] (OnList LInsertFirst)); OInto [108] (OnItem 1 (IRef [114] (Val [122])));
   OInto [108] (OnList LInsertLast); OInto [108] (Into 3 [109] (OnList LInsertLast)); OWrite [115] TString 2 [104; 105]].

Example C41_program_case :
  few_rootdef a_def /\ Forall (ok_root_step a_mem a_def) a_program /\ typed_root a_mem doc_f a_def /\ lists_there a_def doc_f /\
  calm_program true a_def doc_f a_program /\
  program_run a_def doc_f a_program = Ok
    [([97], RParam (PFloat (Val 0)));
     ([108], RMut (Some ([(1, Item [([109], LMil (Some inner_list'))] [([114], Val [122])]); (2, Item [([118], LParam (PInt Null))] []);
                          (3, Item [([109], LMil (Some ([(0, Item [] [])], 1)))] [])], 4)));
     ([115], RParam (PString (Val (2, [104; 105]))))].
Proof.
  split; [|split; [|split; [exact doc_f_typed|split; [|split]]]].
  - intros key id d u H. each H. split; [apply few_it|]. split; [apply few_it|]. intros k i d' u' H. each H. split; [apply few_in|]. split; [apply few_in|]. intros; exact Logic.I.
  - unfold a_program. repeat apply Forall_cons; try apply Forall_nil; cbn [ok_root_step].
    + intros; exact Logic.I.
    + intros id d u H. each H. exact Logic.I.
    + intros id d u H. each H. intros i d' u' H. exact Logic.I.
    + intros id d u H. each H. exists 0, (Val [120]), Normal. split; [reflexivity|]. split; [reflexivity|]. text.
    + intros; exact Logic.I.
    + intros id d u H. each H. intros i d' u' H. exact Logic.I.
    + split; [split; [reflexivity|text]|]. intros id p vt H. each H. split; [reflexivity|]. split; [reflexivity|]. split; [reflexivity|text].
  - intros key id d u H. each H. discriminate.
  - unfold a_program. repeat (cbn [calm_program]; split; [first [exact Logic.I|intros ? ?; first [exact Logic.I|hnf; intros; exact Logic.I]]|intros ? ? E; vm_compute in E; apply Ok_inj, pair_equal_spec in E as [<- _]]).
    exact Logic.I.
  - vm_compute. reflexivity.
Qed.

(* ------------------------------------------------------------------ *)
(** * C41: generated accessors *)

(** On documents that fit their definition, reading through the generated functions gives
    the value set, else the declared one.  It does not panic unless the declared value
    itself is not allowed (see C41_null_refuted). *)
Theorem C41_read_item_partial : forall mem D L (inner : L -> D -> Prop) it (d : ldef D) key id p0 vt, typed_item mem inner it d ->
  hget key (ld_members d) = Some (id, DParam p0 vt) -> allows_param vt p0 ->
  exists p, value_of it d key p /\ read_item (type_of p0) vt it d key = Ok (contents p).
Proof. intros mem D L inner. apply read_item_ok. Qed.
Print Assumptions C41_read_item_partial.

Theorem C41_read_root_partial : forall mem n (s : sabun n) (def : rootdef n) key id p0 vt, typed_root mem s def ->
  hget key def = Some (id, RVParam p0 vt) -> allows_param vt p0 ->
  exists p, root_value_of s def key p /\ read_root (type_of p0) vt s def key = Ok (contents p).
Proof. intros mem n. apply read_root_ok. Qed.
Print Assumptions C41_read_root_partial.

(** References that are null, undefined or the id of a row give that. *)
Theorem C41_read_ref : forall mem D L R (inner : L -> D -> Prop) (tables : hmap (hmap R)) it (d : ldef D) key id q0 vt q r, typed_item mem inner it d ->
  hget key (ld_refs d) = Some (id, (q0, vt)) -> allows vt q0 -> ref_of it d key q -> row_of tables key q r ->
  read_ref tables vt it d key = Ok r.
Proof. intros mem D L R inner. apply read_ref_ok. Qed.
Print Assumptions C41_read_ref.

(** an enum with one reference gives its row, whatever the order of the map *)
Theorem C41_read_enum_partial : forall mem D L R (inner : L -> D -> Prop) iter (tables : hmap (hmap R)) (it : item L) (d : ldef D) key id rows row, iterates iter ->
  typed_item mem inner it d -> it_refs it = [(key, Val id)] -> hget key tables = Some rows -> hget id rows = Some row ->
  read_enum iter tables it d = Ok (key, row).
Proof. intros mem D L R inner. apply read_enum_ok. Qed.
Print Assumptions C41_read_enum_partial.

(** setting an enum leaves one reference *)
Theorem C41_set_enum : forall L (it : item L) key id, item_set_enum it key id = (Item (it_values it) [(key, Val id)], true).
Proof. intros. reflexivity. Qed.
Print Assumptions C41_set_enum.

(** Lists of items read as empty until they are set, lists of the root as they are. *)
Theorem C41_read_list : forall mem n (it : item (mlistT n)) (d : ldef (defT n)) key id d' u, typed_item mem (typedT mem n) it d ->
  hget key (ld_members d) = Some (id, DMil d' u) ->
  read_list u (item_list it d key (empty_list n)) = Ok (match hget key (it_values it) with Some (LMil o) => o | _ => Some (empty_list n d') end).
Proof. intros mem n. apply read_list_ok. Qed.
Print Assumptions C41_read_list.

Theorem C41_read_root_list : forall mem n (s : sabun n) (def : rootdef n) key id d u, typed_root mem s def -> lists_there def s ->
  hget key def = Some (id, RVMList d u) -> exists o, hget key s = Some (RMut o) /\ read_list u (root_list s def key) = Ok o.
Proof. intros mem n. apply read_root_list_ok. Qed.
Print Assumptions C41_read_root_list.

Definition item_1 : item (mlistT 1) := Item [([109], LMil (Some inner_list))] [([114], Val [121])].

Example C41_read_case : exists tables : hmap (hmap Z),
  typed_item a_mem (typedT a_mem 1) item_0 it_def /\ typed_item a_mem (typedT a_mem 1) item_1 it_def /\
  read_item TInt Nullable item_0 it_def [118] = Ok (Val (CInt 1)) /\ read_item TInt Nullable item_1 it_def [118] = Ok (Val (CInt 7)) /\
  read_root TString Normal doc_f a_def [115] = Ok (Val (CString [104])) /\
  read_ref tables Normal item_0 it_def [114] = Ok (Val 1) /\ read_ref tables Normal item_1 it_def [114] = Ok (Val 2) /\
  read_enum in_place tables item_1 it_def = Ok ([114], 2) /\
  read_list false (item_list item_1 it_def [109] (empty_list 1)) = Ok (Some inner_list) /\
  read_list false (item_list item_0 it_def [109] (empty_list 1)) = Ok (Some ([], 0)).
Proof.
  exists [([114], [([120], 1); ([121], 2)])].
  destruct doc_f_typed as [_ T]. destruct (T [108] _ eq_refl) as (id & d & u & G & Tl). injection G as <- <- <-.
  destruct Tl as (_ & _ & _ & _ & _ & _ & It). split; [apply (It 0 item_0 eq_refl)|]. split; [apply (It 1 item_1 eq_refl)|].
  repeat split; reflexivity.
Qed.

(* ------------------------------------------------------------------ *)
(** * C41: what does not hold *)

(** References are set without a check: a name that is not declared is accepted, and so is
    null where it is not allowed.  Reading that panics. *)
Theorem C41_ref_refuted : exists (it : item (mlistT 1)) (d : defT 2), typed_item a_mem (typedT a_mem 1) it d /\
  (exists it', item_set_ref it [120] (Val [121]) = (it', true) /\ hget [120] (ld_refs d) = None /\ ~ typed_item a_mem (typedT a_mem 1) it' d) /\
  (exists it' id q, item_set_ref it [114] Null = (it', true) /\ hget [114] (ld_refs d) = Some (id, (q, Normal)) /\
     forall R (tables : hmap (hmap R)), read_ref tables Normal it' d [114] = Panic).
Proof.
  exists (Item [] []), it_def. split; [apply DiffSamples.empty_typed|]. split.
  - eexists. split; [reflexivity|]. split; [reflexivity|]. intros (_ & _ & _ & T). destruct (T [120] (Val [121]) eq_refl) as (id & v & vt & H & _). discriminate.
  - do 3 eexists. split; [reflexivity|]. split; [reflexivity|]. intros R tables. reflexivity.
Qed.
Print Assumptions C41_ref_refuted.

(** An item just inserted has no reference: the generated function for its enum panics, and
    so does the one for a reference that every item has to have (its declared value is the
    empty text). *)
Theorem C41_inserted_refuted :
  (forall R iter (tables : hmap (hmap R)), iterates iter -> exists d : defT 1, ld_enum d = true /\
     forall (l l' : mlist (item (mlistT 0))) b, list_do l LInsertLast = Ok (l', b) -> exists it : item (mlistT 0), In (snd l, it) (fst l') /\ read_enum iter tables it d = Panic) /\
  (exists d : defT 1, forall R (rows : hmap R), hget [] rows = None ->
     forall (l l' : mlist (item (mlistT 0))) b, list_do l LInsertLast = Ok (l', b) -> exists it : item (mlistT 0), In (snd l, it) (fst l') /\ read_ref [([114], rows)] Normal it d [114] = Panic).
Proof.
  assert (Ins : forall (l l' : mlist (item (mlistT 0))) b, list_do l LInsertLast = Ok (l', b) -> In (snd l, Item [] []) (fst l')).
  { intros [l n] l' b. unfold list_do. cbn [fst snd]. destruct (_ && _); [|discriminate]. cbn. intros E. apply Ok_inj, pair_equal_spec in E as [<- _]. cbn.
    apply in_or_app. right; left; reflexivity. }
  split.
  - intros R iter tables It. exists enum_def. split; [reflexivity|]. intros l l' b E. exists (Item [] []). split; [apply (Ins _ _ _ E)|].
    unfold read_enum, item_enum. cbn [it_refs]. assert (P : iter _ [] = ([] : hmap (qv (list Z)))) by (apply Permutation_nil, Permutation_sym, It).
    rewrite P. reflexivity.
  - exists (LDef [] [([114], (0, (Val [], Normal)))] false [] []). intros R rows H l l' b E. exists (Item [] []). split; [apply (Ins _ _ _ E)|].
    unfold read_ref, item_ref, item_ref_id. cbn [it_refs]. cbn. rewrite H. reflexivity.
Qed.
Print Assumptions C41_inserted_refuted.

(** The declared value of a member may be null although null is not allowed; the generated
    function panics. *)
Theorem C41_null_refuted : exists parse files, forall addr, exists r n (def : rootdef n) (s : sabun n) id p,
  load_root addr in_place parse files true = Ok r /\ is_rootdef (ro_default r) def /\ is_sabun (ro_sabun r) s /\
  hget (txt "a") def = Some (id, RVParam p Normal) /\ read_root (type_of p) Normal s def (txt "a") = Panic.
Proof.
  exists (texts [JMap [(txt "a", JArray [JString (txt "Int"); JNull])]]), [(txt "src/root.json5", [0])].
  intros addr. eexists. exists O, [(txt "a", (0, RVParam (PInt Null) Normal))], []. do 2 eexists. split; [vm_compute; reflexivity|].
  split; [repeat constructor|]. split; [constructor|]. split; reflexivity.
Qed.
Print Assumptions C41_null_refuted.

(** The declared row of a reference need not be there, nor its table. *)
Theorem C41_table_refuted : exists (it : item (mlistT 1)) (d : defT 2), typed_item a_mem (typedT a_mem 1) it d /\
  item_ref (R := Z) [] it d [114] = Panic /\ read_ref (R := Z) [([114], [])] Normal it d [114] = Panic.
Proof. exists (Item [] []), it_def. split; [apply DiffSamples.empty_typed|]. split; reflexivity. Qed.
Print Assumptions C41_table_refuted.

(** With two references set, which one an enum is depends on the order of the map. *)
Theorem C41_enum_refuted : exists (it : item (mlistT 0)) (d : defT 1) (tables : hmap (hmap Z)), typed_item a_mem (typedT a_mem 0) it d /\ ld_enum d = true /\
  iterates in_place /\ iterates backwards /\
  read_enum in_place tables it d = Ok ([120], 1) /\ read_enum backwards tables it d = Ok ([121], 2).
Proof.
  exists (Item [] [([120], Val [112]); ([121], Val [112])]), enum_def, [([120], [([112], 1)]); ([121], [([112], 2)])].
  split; [|split; [reflexivity|split; [exact in_place_iterates|split; [exact backwards_iterates|split; reflexivity]]]].
  split; [nodup|]. split; [nodup|]. split; [discriminate|]. intros key q H. apply hget_in in H. destruct H as [H|[H|[]]]; injection H as <- <-.
  - exists 0, Undefined, Undefiable. split; [reflexivity|]. split; [reflexivity|]. text.
  - exists 1, Undefined, Undefiable. split; [reflexivity|]. split; [reflexivity|]. text.
Qed.
Print Assumptions C41_enum_refuted.

(** Asking for a reference to a member sets it to the declared value, even if the answer is
    that there is no such member of the type asked for. *)
Theorem C41_copied_refuted : exists (it it' : item (mlistT 1)) (d : defT 2) key, typed_item a_mem (typedT a_mem 1) it d /\
  item_unmodified it key = true /\ (forall a new, item_write it d key TString a new = (it', None)) /\ item_unmodified it' key = false.
Proof.
  exists (Item [] []), (Item [([118], LParam (PInt (Val 7)))] []), it_def, [118]. split; [apply DiffSamples.empty_typed|]. repeat split; reflexivity.
Qed.
Print Assumptions C41_copied_refuted.

(** Asking for a list that is undefined, to change it, defines it; the difference then does
    not lead to the edited document (C14_undefiable_list_refuted). *)
Theorem C41_open_refuted : exists (def : rootdef 2) (s s' : sabun 2) key, typed_root a_mem s def /\
  read_list true (root_list s def key) = Ok None /\ root_run def s (OOpen key) = Ok (s', true) /\ read_list true (root_list s' def key) = Ok (Some ([], 0)).
Proof.
  exists [([108], (0, RVMList it_def true))], [([108], RMut None)], [([108], RMut (Some ([], 0)))], [108].
  split; [|repeat split; reflexivity]. split; [nodup|]. intros key v H. apply hget_in in H. destruct H as [H|[]]. injection H as <- <-.
  exists 0, it_def, true. split; reflexivity.
Qed.
Print Assumptions C41_open_refuted.
