(** C68: what the generated functions do when they run. *)
From Coq Require Import String.
From Verif Require Import Base StringCompactionModel LinkedModel LinkedSpec DocModel DiffSpec DiffProofs ArchiveModel JsonModel JsonSpec JsonProofs JsonProps ValidModel ValidSpec ValidProps LoadSpec SaysSpec SaysProps IntfModel ReadModel ReadSpec ReadProps GenModel GenSpec GenProofs GenWellProofs GenRunProofs GenCheckProofs GenProps.
From Verif Require Import CodeSpec CodeNameProofs CodeProps ApiModel TypeSpec TypeProofs TypeGenProofs ReadModel RunModel RunSpec RunProofs RunGenProofs RunWayProofs RunAskProofs RunIdProofs.

Local Notation text := (list Z).
Local Notation "! s" := (txt s%string) (at level 0, s at level 0).
Local Notation "'var' s" := (EVar (txt s%string)) (at level 0, s at level 0).

Lemma allows_unwrapped {A} vt (c : qv A) : allows vt c -> unwrapped vt (Some c) = Ok c.
Proof. destruct c, vt; cbn [allows]; intros H; (reflexivity || (destruct H as [H|H]; discriminate H)). Qed.
Lemma there_bind {A} (o : res (option spot)) (f : spot -> res A) : (o <- o ; match o with None => Ok None | Some s => x <- f s ; Ok (Some x) end) = if_there o f.
Proof. destruct o as [[s|]| |]; reflexivity. Qed.

Lemma evals_EV p iter r told G e w R : EV p iter r told [] G e w R -> evals p iter r told G e w R.
Proof. intros H. exact H. Qed.

Lemma evals_R p iter r told G e w R R' : evals p iter r told G e w R -> R = R' -> evals p iter r told G e w R'.
Proof. intros H <-. exact H. Qed.

Section Props.
Variable old : list name.
Variable iter : forall A, hmap A -> hmap A.
Variable r : root_obj.
Variable told : effect -> bool.
Variable p : list CodeSpec.item.
Variable G : env.
Local Notation evals := (evals p iter r told G).
Local Notation plainly := (plainly p iter r told G).
Local Notation def := (ro_default r).

(** Going along a way of ReadModel with the generated functions gives the item there, as an
    object of the generated type of the list or table; nothing is changed. *)
Theorem C68_way : forall w c stem l e tr, accessible old r p -> has_root G -> goes old def w c stem l e ->
  evals e tr (gives (of_opt (fun s => handed w (item_type c stem) (item_value (item_type c stem) (loc_at w) s))) tr (visit iter r w)).
Proof. intros w c stem l e tr (T & parts & D & ->) HG H. exact (way_rule old iter r told T parts D w c stem l e H G tr HG). Qed.

(** Asking an item for a member gives what is at the member. *)
Theorem C68_read : forall w c stem l e key i p0 vt tr, accessible old r p -> has_root G -> goes old def w c stem l e -> In (key, (i, DParam p0 vt)) (ld_members l) ->
  evals (asks e (with_old key (contains (ld_old l) key))) tr (gives (of_opt (as_marked VOf vt)) tr (read_at iter r w key)).
Proof.
  intros w c stem l e key i p0 vt tr (T & parts & D & ->) HG H I. apply evals_EV. eapply conv_R; [eapply (asks_rule old iter r told T parts D w c stem l e _ G tr (as_marked VOf vt) (fun s => get_param s key) H HG)|reflexivity].
  intros s v S B. eapply (call_read old iter r told T parts D c stem l key i p0 vt); [eapply goes_listed; exact H|exact I|exact B|exact S].
Qed.

(** The function for the default gives the default. *)
Theorem C68_default : forall w c stem l e key i p0 vt tr, accessible old r p -> has_root G -> goes old def w c stem l e -> In (key, (i, DParam p0 vt)) (ld_members l) -> allows vt (contents p0) ->
  evals (asks e (with_old key (contains (ld_old l) key) ++ !"_def_val")) tr (gives (of_opt (as_marked VOf vt)) tr (if_there (visit iter r w) (fun _ => Ok (contents p0)))).
Proof.
  intros w c stem l e key i p0 vt tr (T & parts & D & ->) HG H I A. rewrite <- there_bind. apply evals_EV. eapply conv_R; [eapply (asks_rule old iter r told T parts D w c stem l e _ G tr (as_marked VOf vt) (fun _ => Ok (contents p0)) H HG)|reflexivity].
  intros s v S B. rewrite <- (allows_unwrapped vt _ A). eapply (call_default old iter r told T parts D c stem l key i p0 vt); [eapply goes_listed; exact H|exact I|exact B|exact S].
Qed.

(** The id of the row an item refers to. *)
Theorem C68_ref_id : forall w c stem l e key i q vt tr, accessible old r p -> has_root G -> goes old def w c stem l e -> ld_enum l = false -> In (key, (i, (q, vt))) (ld_refs l) ->
  evals (asks e (!"ref_id_" ++ with_old key (contains (ld_ref_old l) key))) tr (gives (of_opt (as_marked (fun s => VText s) vt)) tr (if_there (visit iter r w) (fun s => unwrapped vt (spot_ref_id s key)))).
Proof.
  intros w c stem l e key i q vt tr (T & parts & D & ->) HG H E I. rewrite <- there_bind. apply evals_EV. eapply conv_R; [eapply (asks_rule old iter r told T parts D w c stem l e _ G tr (as_marked (fun s => VText s) vt) (fun s => unwrapped vt (spot_ref_id s key)) H HG)|reflexivity].
  intros s v S B. eapply (call_ref_id old iter r told T parts D c stem l key i q vt); [eapply goes_listed; exact H|exact E|exact I|exact B].
Qed.

(** The table and the id of the variant of an enum. *)
Theorem C68_enum_ids : forall w c stem l e tr, accessible old r p -> has_root G -> goes old def w c stem l e -> ld_enum l = true ->
  evals (asks e !"get_enum_ids") tr (gives (of_opt (fun x => VPair (VText (fst x)) (VText (snd x)))) tr (if_there (visit iter r w) (fun s => need (spot_enum iter s)))).
Proof.
  intros w c stem l e tr (T & parts & D & ->) HG H E. rewrite <- there_bind.
  apply evals_EV. eapply conv_R; [eapply (asks_rule old iter r told T parts D w c stem l e _ G tr (fun x => VPair (VText (fst x)) (VText (snd x))) (fun s => need (spot_enum iter s)) H HG)|reflexivity].
  intros s v S B. eapply conv_R; [eapply (call_enum_ids old iter r told T parts D c stem l); [eapply goes_listed; exact H|exact E|exact B]|]. destruct (spot_enum iter s); reflexivity.
Qed.

(** The root. *)
Theorem C68_root : forall key i p0 vt tr, accessible old r p -> has_root G -> In (key, (i, WParam p0 vt)) def ->
  evals (do var"root" (with_old key (contains old key)) []) tr (gives (as_marked VOf vt) tr (get_root_param r key)) /\
  (allows vt (contents p0) -> evals (do var"root" (with_old key (contains old key) ++ !"_def_val") []) tr (Ok (as_marked VOf vt (contents p0), tr))).
Proof.
  intros key i p0 vt tr (T & parts & D & ->) HG I. split; [|intros A].
  - apply evals_EV. unfold do. eapply ev_call0; [apply ev_var; [shut|exact HG]|]. cbn [and_then]. apply (RunAskProofs.root_read old iter r told T parts D key i p0 vt tr I).
  - apply evals_EV. unfold do. eapply ev_call0; [apply ev_var; [shut|exact HG]|]. cbn [and_then]. eapply conv_R; [apply (root_default old iter r told T parts D key i p0 vt tr I)|]. rewrite (allows_unwrapped vt _ A). reflexivity.
Qed.
Theorem C68_new : forall f tr, accessible old r p -> hget !"obj" G = Some (VPtr PRoot) -> has_root G -> In f [!"root_obj_ref"; !"root_obj_ref_mut"; !"deconstruct"] ->
  evals (path !"RootIntf" !"new" [var"obj"]) tr (Ok (root_value, tr)) /\ evals (do var"root" f []) tr (Ok (VPtr PRoot, tr)).
Proof.
  intros f tr (T & parts & D & ->) HO HG I. split.
  - apply evals_EV. unfold path. eapply ev_assoc; [eapply evs_ok; [apply ev_var; [shut|exact HO]|apply evs_nil]|]. cbn [and_then]. rewrite named_other by discriminate. apply (root_new old iter r told T parts D).
  - apply evals_EV. unfold do. eapply ev_call0; [apply ev_var; [shut|exact HG]|]. cbn [and_then]. apply (root_object old iter r told T parts D f tr I).
Qed.

(** Ids are numbered as the rows are; numbers and texts that are not those of a row are
    refused, numbers by a panic. *)
Theorem C68_ids : forall t j d rows o, accessible old r p -> In (t, (j, WTable d rows o)) def ->
  (forall i row it, zget rows i = Some (row, it) ->
    plainly (id_text t o row) (id_value t o row) /\
    plainly (path (ids_type t) !"from_str" [EText row]) (some (id_value t o row)) /\
    plainly (path (ids_type t) !"from_num" [ENum i]) (id_value t o row) /\
    plainly (do (id_text t o row) !"to_num" []) (VNum i) /\
    plainly (do (id_text t o row) !"to_str" []) (VText row)) /\
  (forall s, ~ In s (map fst rows) -> plainly (path (ids_type t) !"from_str" [EText s]) none) /\
  (forall i tr, zget rows i = None -> evals (path (ids_type t) !"from_num" [ENum i]) tr Panic) /\
  plainly (path (ids_type t) !"len" []) (VNum (zlen rows)) /\
  plainly (path (ids_type t) !"metadata" []) (VList (map (fun s => VText s) (map fst rows))).
Proof.
  intros t j d rows o (T & parts & D & ->) I. pose proof (ids_not_self old r t j d rows o I) as NS. destruct (run_ids old def T t j d rows o I) as (_ & _ & _ & X & _ & Y).
  assert (P : forall f es vs R tr, EVs (concat parts) iter r told [] G es tr (Ok (vs, tr)) -> Assoc (concat parts) iter r told (ids_type t) f vs tr R -> RunSpec.evals (concat parts) iter r told G (path (ids_type t) f es) tr R).
  { intros f es vs R tr E A. apply evals_EV. unfold path. eapply ev_assoc; [exact E|]. cbn [and_then]. rewrite named_other by exact NS. exact A. }
  split; [|split; [|split; [|split]]].
  - intros i row it Z. assert (J : In (row, it) rows) by (unfold zget in Z; destruct (i <? 0); [discriminate Z|eapply nth_error_In; exact Z]).
    destruct (id_row old r T t j d rows o row it I J) as (F & S & N). specialize (N i Z) as (N & M). split; [|split; [|split; [|split]]]; intros tr.
    + apply evals_EV. eapply (id_rule old iter r told T parts D); [exact I|exact J].
    + eapply P; [eapply evs_ok; [apply ev_text|apply evs_nil]|]. eapply conv_R; [apply (from_str_rule old iter r told T parts D t j d rows o I)|]. rewrite F. reflexivity.
    + eapply P; [eapply evs_ok; [apply ev_num|apply evs_nil]|]. eapply conv_R; [apply (from_num_rule old iter r told T parts D t j d rows o I)|]. rewrite M. reflexivity.
    + apply evals_EV. unfold do. eapply method_rule; [eapply (id_rule old iter r told T parts D); [exact I|exact J]|]. apply (to_num_rule old iter r told T parts D t j d rows o I). exact N.
    + apply evals_EV. unfold do. eapply method_rule; [eapply (id_rule old iter r told T parts D); [exact I|exact J]|]. apply (to_str_rule old iter r told T parts D t j d rows o I). exact S.
  - intros s N tr. eapply P; [eapply evs_ok; [apply ev_text|apply evs_nil]|]. eapply conv_R; [apply (from_str_rule old iter r told T parts D t j d rows o I)|]. rewrite (X s N). reflexivity.
  - intros i tr Z. eapply P; [eapply evs_ok; [apply ev_num|apply evs_nil]|]. eapply conv_R; [apply (from_num_rule old iter r told T parts D t j d rows o I)|]. rewrite Y; [reflexivity|].
    intros B. unfold zget in Z. destruct (Z.ltb_spec i 0); [lia|]. apply nth_error_None in Z. unfold zlen in B. lia.
  - intros tr. eapply P; [apply evs_nil|]. apply (len_rule old iter r told T parts D t j d rows o I).
  - intros tr. eapply P; [apply evs_nil|]. apply (metadata_rule old iter r told T parts D t j d rows o I).
Qed.

(** A row by its id is the row. *)
Theorem C68_by_id : forall t j l rows o row it, accessible old r p -> has_root G -> In (t, (j, WTable (Def l) rows o)) def -> In (row, it) rows ->
  let v := item_value (citem_type t) [] (it, Def l) in
  plainly (do (do var"root" (with_old t (contains old t)) []) (with_old row (contains o row)) []) (VGuard !"CItemConst" (Some (citem_type t)) v) /\
  plainly (do (do var"root" (with_old t (contains old t)) []) !"get_by_id" [id_text t o row]) (VGuard !"CItemConst" (Some (citem_type t)) v) /\
  plainly (EUnsafe (do (do var"root" (with_old t (contains old t)) []) !"get_by_id_us" [id_text t o row])) v /\
  plainly (EUnsafe (do (do var"root" (with_old t (contains old t)) []) (with_old row (contains o row) ++ !"_us") [])) v.
Proof.
  intros t j l rows o row it (T & parts & D & ->) HG I J v.
  assert (X : forall tr, EV (concat parts) iter r told [] G (do var"root" (with_old t (contains old t)) []) tr (Ok (table_value' t rows l, tr))).
  { intros tr. unfold do. eapply method_rule; [apply ev_var; [shut|exact HG]|]. eapply (call_table old iter r told T parts D); exact I. }
  split; [|split; [|split]]; intros tr.
  - apply evals_EV. unfold do at 1. eapply method_rule; [apply X|]. eapply (call_row old iter r told T parts D); [exact I|exact J].
  - apply evals_EV. unfold do at 1. eapply ev_call1; [apply X|eapply (id_rule old iter r told T parts D); [exact I|exact J]|]. eapply (call_by_id old iter r told T parts D); [exact I|exact J|reflexivity].
  - apply evals_EV, ev_unsafe. unfold do at 1. eapply ev_call1; [apply X|eapply (id_rule old iter r told T parts D); [exact I|exact J]|]. eapply (call_by_id_us old iter r told T parts D); [exact I|exact J|reflexivity].
  - apply evals_EV, ev_unsafe. unfold do at 1. eapply method_rule; [apply X|]. eapply (call_row_us old iter r told T parts D); [exact I|exact J|reflexivity].
Qed.

(* ------------------------------------------------------------------ *)
(** * Writing *)

Lemma write_one a stem l e f ea arg eff tr : accessible old r p -> has_root G -> seizes old def a stem l e -> plainly ea arg ->
  (forall parts s v w, p = concat parts -> Forall2 declares (generate old def) parts -> tame def -> mlisted def stem l -> snd s = Def l -> bare v = item_value (mitem_type stem) a s ->
     Method p iter r told v f [arg] w (Ok (VUnit, w ++ [eff]))) ->
  evals (do e f [ea]) tr (changed r a [eff] tr).
Proof.
  intros (T & parts & D & E) HG H A K. subst p. pose proof (seizes_rule old iter r told T parts D a stem l e H G tr HG) as X. pose proof (seizes_spot old r T a stem l e H) as S.
  destruct (seizes_listed old r a stem l e H) as (_ & C). apply evals_EV. unfold changed, do. destruct (item_at r a) as [s|].
  - eapply ev_call1; [exact X|apply A|]. eapply conv_R; [eapply (K parts s); [reflexivity|exact D|exact T|exact C|exact S|reflexivity]|]. rewrite app_assoc. reflexivity.
  - eapply ev_method; [exact X|reflexivity].
Qed.

(** Setting a member of an item of a mutable list opens the lists on the way, and does just one
    call of dochy_core after that, with the value that was given; if there is no item with one
    of the ids the program panics, as [unwrap] says. *)
Theorem C68_set : forall a stem l e key i p0 vt c ea tr, accessible old r p -> has_root G -> seizes old def a stem l e -> In (key, (i, DParam p0 vt)) (ld_members l) ->
  allows vt c -> plainly ea (as_marked VOf vt c) ->
  evals (do e (!"set_" ++ with_old key (contains (ld_old l) key)) [ea]) tr (changed r a [ESet a (type_of p0) key (of_qv VOf c)] tr).
Proof.
  intros a stem l e key i p0 vt c ea tr A HG H I Al Ea. eapply write_one; [exact A|exact HG|exact H|exact Ea|]. intros parts s v w E D T C S B. subst p.
  eapply (call_set old iter r told T parts D); [exact C|exact I|apply allows_unwrapped, Al|exact B].
Qed.
(** The functions that give references to write to. *)
Theorem C68_mut : forall a stem l e key i p0 vt tr, accessible old r p -> has_root G -> seizes old def a stem l e -> In (key, (i, DParam p0 vt)) (ld_members l) -> by_reference (type_of p0) = true ->
  evals (do e (with_old key (contains (ld_old l) key) ++ !"_mut") []) tr
    (match item_at r a with Some s => gives (as_marked VOf vt) (tr ++ opens a ++ [EWrite a (type_of p0) key]) (get_param s key) | None => Panic end).
Proof.
  intros a stem l e key i p0 vt tr (T & parts & D & ->) HG H I Y. pose proof (seizes_rule old iter r told T parts D a stem l e H G tr HG) as X. pose proof (seizes_spot old r T a stem l e H) as S.
  destruct (seizes_listed old r a stem l e H) as (_ & C). apply evals_EV. unfold do. eapply ev_call0; [exact X|]. destruct (item_at r a) as [s|]; [|reflexivity]. cbn [and_then].
  eapply conv_R; [eapply (call_write old iter r told T parts D); [exact C|exact I|exact Y|reflexivity|exact S]|]. rewrite app_assoc. reflexivity.
Qed.
(** A reference is set to the row whose id is given. *)
Theorem C68_set_ref : forall a stem l e key i q vt j d rows o (c : qv name) ea tr, accessible old r p -> has_root G -> seizes old def a stem l e -> ld_enum l = false -> In (key, (i, (q, vt))) (ld_refs l) ->
  In (key, (j, WTable d rows o)) def -> (forall row, c = Val row -> In row (map fst rows)) -> allows vt c -> plainly ea (as_marked (id_value key o) vt c) ->
  evals (do e (!"set_ref_" ++ with_old key (contains (ld_ref_old l) key)) [ea]) tr (changed r a [ESetRef a key (of_qv (fun s => VText s) c)] tr).
Proof.
  intros a stem l e key i q vt j d rows o c ea tr A HG H E I J R Al Ea. eapply write_one; [exact A|exact HG|exact H|exact Ea|]. intros parts s v w Ep D T C S B. subst p.
  eapply (call_set_ref old iter r told T parts D); [exact C|exact E|exact I|exact J|exact R|apply allows_unwrapped, Al|exact B].
Qed.
(** An enum is set to the variant and the row that are given. *)
Theorem C68_set_enum : forall a stem l e key x j d rows o row it tr, accessible old r p -> has_root G -> seizes old def a stem l e -> ld_enum l = true -> In (key, x) (ld_refs l) ->
  In (key, (j, WTable d rows o)) def -> In (row, it) rows ->
  evals (do e !"set_enum" [path (kind_type stem) (to_type_name key) [id_text key o row]]) tr (changed r a [ESetEnum a key row] tr).
Proof.
  intros a stem l e key x j d rows o row it tr A HG H E I J R. pose proof A as (T & parts & D & Ep). destruct (seizes_listed old r a stem l e H) as (_ & C).
  eapply write_one; [exact A|exact HG|exact H| |].
  - intros tr'. apply evals_EV. subst p. eapply (kind_rule old iter r told T parts D); [exact C|exact E|exact I|exact J|exact R].
  - intros parts' s v w Ep' D' T' C' S B. rewrite Ep'. eapply (call_set_enum old iter r told T parts' D'); [exact C|exact E|exact I|exact J|exact R|exact B].
Qed.
(** Members of the root. *)
Theorem C68_root_set : forall key i p0 vt c ea tr, accessible old r p -> has_root G -> In (key, (i, WParam p0 vt)) def -> allows vt c -> plainly ea (as_marked VOf vt c) ->
  evals (do var"root" (!"set_" ++ with_old key (contains old key)) [ea]) tr (Ok (VUnit, tr ++ [ESet [] (type_of p0) key (of_qv VOf c)])).
Proof.
  intros key i p0 vt c ea tr (T & parts & D & ->) HG I A Ea. apply evals_EV. unfold do. eapply ev_call1; [apply ev_var; [shut|exact HG]|apply Ea|]. apply (root_set old iter r told T parts D key i p0 vt c tr I). apply allows_unwrapped, A.
Qed.
Theorem C68_root_mut : forall key i p0 vt tr, accessible old r p -> has_root G -> In (key, (i, WParam p0 vt)) def -> by_reference (type_of p0) = true ->
  evals (do var"root" (with_old key (contains old key) ++ !"_mut") []) tr (gives (as_marked VOf vt) (tr ++ [EWrite [] (type_of p0) key]) (get_root_param r key)).
Proof.
  intros key i p0 vt tr (T & parts & D & ->) HG I Y. apply evals_EV. unfold do. eapply ev_call0; [apply ev_var; [shut|exact HG]|]. cbn [and_then]. apply (root_write old iter r told T parts D key i p0 vt tr I Y).
Qed.
End Props.
Print Assumptions C68_way.
Print Assumptions C68_read.
Print Assumptions C68_default.
Print Assumptions C68_ref_id.
Print Assumptions C68_enum_ids.
Print Assumptions C68_root.
Print Assumptions C68_new.
Print Assumptions C68_ids.
Print Assumptions C68_by_id.
Print Assumptions C68_set.
Print Assumptions C68_mut.
Print Assumptions C68_set_ref.
Print Assumptions C68_set_enum.
Print Assumptions C68_root_set.
Print Assumptions C68_root_mut.

(** Together with C64: the generated functions of a loaded source give what is written there. *)
Theorem C68_source_partial : forall addr iter parse files r told p G w c stem l e x m n i vt vt' v0 p0 p1 v q tr, iterates iter -> clean_source parse files -> load_root addr iter parse files true = Ok r ->
  accessible (ro_old r) r p -> has_root G -> goes (ro_old r) (ro_default r) w c stem l e -> In (n, (i, DParam p1 vt')) (ld_members l) ->
  leads parse files w x m -> member x n vt v0 -> writes_param v0 p0 -> has_value x m n v -> writes_param v q -> (exists vt', member m n vt' v) \/ allows_param vt q ->
  evals p iter r told G (asks e (with_old n (contains (ld_old l) n))) tr (Ok (some (as_marked VOf vt' (contents q)), tr)).
Proof.
  intros addr iter parse files r told p G w c stem l e x m n i vt vt' v0 p0 p1 v q tr It C E A HG H I L M W HV Wq O.
  pose proof (C68_read (ro_old r) iter r told p G w c stem l e n i p1 vt' tr A HG H I) as X.
  rewrite (C64_value_partial addr iter parse files r w x m n vt v0 p0 v q It C E L M W HV Wq O) in X. exact X.
Qed.
Print Assumptions C68_source_partial.

(* ------------------------------------------------------------------ *)
(** * Cases *)

(** the document of C64 without words of Rust among its names *)
Definition run_source : jval :=
  JMap [(txt "n?", JInt 5); (txt "Old", JArray [str "n"]);
        (txt "list", tagged_with "MList" [
           JArray [JMap [(txt "x", JInt 1); (txt "Ref", JMap [(txt "t?", JNull)]);
                         (txt "l", tagged_with "MilDef" [JArray [JMap [(txt "y", JInt 0); (txt "s", JString (txt "")); (txt "Enum", JMap [(txt "t", JNull); (txt "u", JNull)])]]])]];
           JMap [(txt "x", JInt 3)];
           JMap [(txt "ID", JDouble 4619567317775286272); (txt "Ref", JMap [(txt "t", JString (txt "r"))]);
                 (txt "l", tagged_with "Mil" [JMap [(txt "y", JInt 4); (txt "Enum", JMap [(txt "u", JString (txt "b"))])]])]]);
        (txt "c", tagged_with "CList" [
           JArray [JMap [(txt "z", JInt 8); (txt "inner", tagged_with "CilDef" [JArray [JMap [(txt "s", JString (txt "none"))]]])]];
           JMap [(txt "inner", tagged_with "Cil" [JMap []; JMap [(txt "s", JString (txt "here"))]])]; JMap [(txt "z", JInt 9)]]);
        (txt "u", tagged_with "Table" [JArray [JMap [(txt "Ref", JMap [(txt "t", JString (txt "r"))])]]; JMap [(txt "ID", JString (txt "a"))]; JMap [(txt "ID", JString (txt "b"))]])].
Definition run_texts := texts [run_source; target_table].
Definition run_doc : root_obj := Eval vm_compute in
  match load_root sample_addr in_place run_texts read_files true with Ok r => r | _ => RootObj [] [] [] [] end.
Lemma run_loaded : load_root sample_addr in_place run_texts read_files true = Ok run_doc.
Proof. vm_compute. reflexivity. Qed.
Lemma run_tame : tame (ro_default run_doc).
Proof. apply tameb_tame. vm_compute. reflexivity. Qed.
Lemma run_accessible : exists p, accessible (ro_old run_doc) run_doc p.
Proof. destruct (C66_written (ro_old run_doc) _ (tame_speakable _ run_tame)) as (p & D & _). exists p. split; [exact run_tame|exact D]. Qed.

Definition list_def : ldef def := match hget !"list" (ro_default run_doc) with Some (_, WMList (Def l) _) => l | _ => LDef [] [] false [] [] end.
Definition l_def : ldef def := match hget !"l" (ld_members list_def) with Some (_, DMil (Def l) _) => l | _ => LDef [] [] false [] [] end.
Definition u_def : ldef def := match hget !"u" (ro_default run_doc) with Some (_, WTable (Def l) _ _) => l | _ => LDef [] [] false [] [] end.
Definition t_def : ldef def := match hget !"t" (ro_default run_doc) with Some (_, WTable (Def l) _ _) => l | _ => LDef [] [] false [] [] end.

(** [if let Option::Some(x) = (if let Option::Some(x) = root.list().get_item(7) { x.l().get_item(0) } else { None }) ...] *)
Definition l_expr : expr := if_some !"x" (do (do var"root" !"list" []) !"get_item" [ENum 7]) (do (do var"x" !"l" []) !"get_item" [ENum 0]).
Definition u_expr : expr := if_some !"x" l_expr (EIfLet (PTuple !"LEnum" !"U" !"y") (do var"x" !"get_enum" []) (some_of var"y") var"None").
Definition t_expr : expr := if_some !"x" u_expr (some_of (do var"x" !"ref_t" [])).

Ltac found := vm_compute; repeat ((left; reflexivity) || right).
Lemma goes_l : goes (ro_old run_doc) (ro_default run_doc) (Mil (Entry !"list" 7) !"l" 0) false !"l" l_def l_expr.
Proof.
  eapply (goes_mil (ro_old run_doc) (ro_default run_doc) (Entry !"list" 7) !"list" list_def _ !"l" _ l_def false 0); [eapply (goes_entry (ro_old run_doc) (ro_default run_doc) !"list" _ list_def false 7)|]; found.
Qed.
Lemma goes_t : goes (ro_old run_doc) (ro_default run_doc) long_way true !"t" t_def t_expr.
Proof.
  eapply (goes_ref (ro_old run_doc) (ro_default run_doc) _ true !"u" u_def u_expr !"t" _ _ Normal); [eapply (goes_enum (ro_old run_doc) (ro_default run_doc) _ false !"l" l_def l_expr !"u"); [exact goes_l|reflexivity|found|found]|reflexivity|found|found].
Qed.

(** a member of the row that the row refers to which the enum of an item in the list of an item
    with the number 7 has; a member of the root; and the item with the number 8, which is not there *)
Example C68_read_case : exists p, accessible (ro_old run_doc) run_doc p /\ forall told tr, let G := [(!"root", root_value)] in
  evals p in_place run_doc told G (asks t_expr !"v") tr (Ok (some (VOf (CBool true)), tr)) /\
  evals p in_place run_doc told G (asks l_expr !"y") tr (Ok (some (VOf (CInt 4)), tr)) /\
  evals p in_place run_doc told G (do var"root" !"n_old" []) tr (Ok (VMake !"NullOr" !"Val" [VOf (CInt 5)], tr)) /\
  evals p in_place run_doc told G (asks (do (do var"root" !"list" []) !"get_item" [ENum 8]) !"x") tr (Ok (none, tr)).
Proof.
  destruct run_accessible as (p & A). exists p. split; [exact A|]. intros told tr G.
  assert (HG : has_root G) by reflexivity. split; [|split; [|split]].
  - eapply evals_R; [eapply (C68_read (ro_old run_doc) in_place run_doc told p G long_way true !"t" t_def t_expr !"v"); [exact A|exact HG|exact goes_t|found]|]. vm_compute. reflexivity.
  - eapply evals_R; [eapply (C68_read (ro_old run_doc) in_place run_doc told p G _ false !"l" l_def l_expr !"y"); [exact A|exact HG|exact goes_l|found]|]. vm_compute. reflexivity.
  - edestruct (C68_root (ro_old run_doc) in_place run_doc told p G !"n") as [X _]; [exact A|exact HG|found|]. eapply evals_R; [exact X|]. vm_compute. reflexivity.
  - eapply evals_R; [eapply (C68_read (ro_old run_doc) in_place run_doc told p G (Entry !"list" 8) false !"list" list_def _ !"x"); [exact A|exact HG|eapply (goes_entry (ro_old run_doc) (ro_default run_doc) !"list" _ list_def false 8); found|found]|]. vm_compute. reflexivity.
Qed.

Lemma seizes_l id : seizes (ro_old run_doc) (ro_default run_doc) [(!"list", 7); (!"l", id)] !"l" l_def
  (do (do (do (do (do (do var"root" !"list_mut" []) !"get_mut" [ENum 7]) !"unwrap" []) !"l_mut" []) !"get_mut" [ENum id]) !"unwrap" []).
Proof. eapply (seizes_item (ro_old run_doc) (ro_default run_doc) [(!"list", 7)] !"list" list_def _ !"l" _ l_def false id); [eapply (seizes_root (ro_old run_doc) (ro_default run_doc) !"list" _ list_def false 7); found|found]. Qed.

(** [root.list_mut().get_mut(7).unwrap().l_mut().get_mut(0).unwrap().set_y(v)], the same with an
    id that is not there, and the enum of that item *)
Example C68_write_case : exists p, accessible (ro_old run_doc) run_doc p /\ forall told tr, let G := [(!"root", root_value); (!"v", VOf (CInt 9))] in
  let item id := do (do (do (do (do (do var"root" !"list_mut" []) !"get_mut" [ENum 7]) !"unwrap" []) !"l_mut" []) !"get_mut" [ENum id]) !"unwrap" [] in
  let a := [(!"list", 7); (!"l", 0)] in
  evals p in_place run_doc told G (do (item 0) !"set_y" [var"v"]) tr
    (Ok (VUnit, tr ++ [EOpen [] !"list"; EOpen [(!"list", 7)] !"l"; ESet a TInt !"y" (VMake !"Qv" !"Val" [VOf (CInt 9)])])) /\
  evals p in_place run_doc told G (do (item 1) !"set_y" [var"v"]) tr Panic /\
  evals p in_place run_doc told G (do (item 0) !"set_enum" [path !"LKind" !"U" [EPath !"UTableID" !"B"]]) tr
    (Ok (VUnit, tr ++ [EOpen [] !"list"; EOpen [(!"list", 7)] !"l"; ESetEnum a !"u" !"b"])) /\
  evals p in_place run_doc told G (do (item 0) !"s_mut" []) tr
    (Ok (VOf (CString []), tr ++ [EOpen [] !"list"; EOpen [(!"list", 7)] !"l"; EWrite a TString !"s"])).
Proof.
  destruct run_accessible as (p & A). exists p. split; [exact A|]. intros told tr G item a.
  assert (HG : has_root G) by reflexivity.
  assert (V : plainly p in_place run_doc told G var"v" (as_marked VOf Normal (Val (CInt 9)))) by (intros tr'; apply evals_EV, ev_var; [shut|look]).
  split; [|split; [|split]].
  - eapply evals_R; [eapply (C68_set (ro_old run_doc) in_place run_doc told p G _ !"l" l_def _ !"y" _ _ Normal (Val (CInt 9)) _ tr A HG (seizes_l 0)); [found|exact Logic.I|exact V]|]. vm_compute. reflexivity.
  - eapply evals_R; [eapply (C68_set (ro_old run_doc) in_place run_doc told p G _ !"l" l_def _ !"y" _ _ Normal (Val (CInt 9)) _ tr A HG (seizes_l 1)); [found|exact Logic.I|exact V]|]. vm_compute. reflexivity.
  - eapply evals_R; [eapply (C68_set_enum (ro_old run_doc) in_place run_doc told p G _ !"l" l_def _ !"u" _ _ _ _ [] !"b" _ tr A HG (seizes_l 0)); [reflexivity|found|found|found]|]. vm_compute. reflexivity.
  - eapply evals_R; [eapply (C68_mut (ro_old run_doc) in_place run_doc told p G _ !"l" l_def _ !"s" _ _ _ tr A HG (seizes_l 0)); [found|reflexivity]|]. vm_compute. reflexivity.
Qed.

(** the ids of the table [u] *)
Example C68_ids_case : exists p, accessible (ro_old run_doc) run_doc p /\ forall told tr,
  evals p in_place run_doc told [] (path !"UTableID" !"from_num" [ENum 1]) tr (Ok (VMake !"UTableID" !"B" [], tr)) /\
  evals p in_place run_doc told [] (do (EPath !"UTableID" !"B") !"to_str" []) tr (Ok (VText !"b", tr)) /\
  evals p in_place run_doc told [] (path !"UTableID" !"from_str" [EText !"c"]) tr (Ok (none, tr)) /\
  evals p in_place run_doc told [] (path !"UTableID" !"from_num" [ENum 2]) tr Panic.
Proof.
  destruct run_accessible as (p & A). exists p. split; [exact A|]. intros told tr.
  edestruct (C68_ids (ro_old run_doc) in_place run_doc told p [] !"u") as (R & N & O & _); [exact A|found|]. cbv iota in R, N, O.
  edestruct (R 1 !"b") as (_ & _ & F & _ & S); [vm_compute; reflexivity|]. split; [exact (F tr)|]. split; [exact (S tr)|]. split.
  - apply N. vm_compute. intros [H|[H|[]]]; discriminate H.
  - apply O. vm_compute. reflexivity.
Qed.
