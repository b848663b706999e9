(** Proof of C66: the text of accessors is a way to write what is declared. *)
From Coq Require Import String.
From Verif Require Import Base TextModel TextProofs FileNameProofs DocModel JsonModel JsonSpec IntfModel GenModel GenSpec GenProofs CodeModel CodeSpec CodeLexProofs CodeFnProofs CodeItemProofs.

Local Notation "'var' s" := (EVar (txt s%string)) (at level 0, s at level 0).

Local Notation "! s" := (txt s%string) (at level 0, s at level 0).

(** lines some of which are known *)
Ltac known :=
  lazymatch goal with
  | |- line [] _ => apply line_nil
  | |- line (?x ++ ?r) _ =>
      first [ match goal with H : line x _ |- _ => eapply line_app; [exact H|known] end
            | lazymatch x with push _ _ => eapply line_app; [apply line_push; by_pieces|known] end
            | lazymatch r with context [flat_map] => idtac | context [push] => idtac end; merge x r
            | by_pieces ]
  | |- line (push _ _) _ => apply line_push; by_pieces
  | |- line ?x _ => first [match goal with H : line x _ |- _ => exact H end | by_pieces]
  end
(** texts before a part that is known or a line of its own *)
with merge x r :=
  lazymatch r with
  | ?y ++ ?r' =>
      first [ match goal with H : line y _ |- _ => idtac end; eapply line_app; [by_pieces|known]
            | lazymatch y with push _ _ => eapply line_app; [by_pieces|known] end
            | rewrite (app_assoc x y r'); known ]
  | _ => eapply line_app; [by_pieces|known]
  end.

Lemma combine_maps {A B C} (f : A -> B) (g : A -> C) l : combine (map f l) (map g l) = map (fun x => (f x, g x)) l.
Proof. induction l as [|x l IH]; [reflexivity|]. cbn [map combine]. rewrite IH. reflexivity. Qed.

Definition arms_toks (arms : list (pat * expr)) : list tok := flat_map (fun a => pat_toks (fst a) ++ Mark !"=>" :: expr_toks (snd a) ++ arm_end (snd a)) arms.
Lemma match_toks e arms : expr_toks (EMatch e arms) = Word !"match" :: expr_toks e ++ braces (arms_toks arms).
Proof. reflexivity. Qed.
Lemma arms_app a b : arms_toks (a ++ b) = arms_toks a ++ arms_toks b.
Proof. apply flat_map_app. Qed.
Lemma arms_map {A} (f : A -> pat * expr) l : arms_toks (map f l) = flat_map (fun x => pat_toks (fst (f x)) ++ Mark !"=>" :: expr_toks (snd (f x)) ++ arm_end (snd (f x))) l.
Proof. apply flat_mapped. Qed.
Lemma flat_one {A B} (f : A -> list B) x : flat_map f [x] = f x.
Proof. apply app_nil_r. Qed.
Lemma flat_two {A B} (f : A -> list B) x y : flat_map f [x; y] = f x ++ f y.
Proof. cbn [flat_map]. now rewrite app_nil_r. Qed.
Lemma flat_three {A B} (f : A -> list B) x y z : flat_map f [x; y; z] = f x ++ f y ++ f z.
Proof. cbn [flat_map]. now rewrite app_nil_r. Qed.

(** tokens with unknown parts *)
Ltac spread := unfold item_toks; rewrite ?flat_one; unfold fn_toks, public; cbn [f_pub f_unsafe f_name f_self f_args f_ret f_lets f_value];
  rewrite ?match_toks, ?arms_app, ?arms_map, ?flat_mapped; cbn [fst snd].
Ltac parts := repeat match goal with |- context [@flat_map ?A ?B ?f ?l] => lazymatch l with @nil _ => fail | _ :: _ => fail | firstn _ _ => fail | _ => generalize (@flat_map A B f l); intros ? end end.
Ltac same := parts; unfold braces, parens; cbn; rewrite <- ?app_assoc; cbn; rewrite <- ?app_assoc; cbn; reflexivity.

(* ------------------------------------------------------------------ *)
(** * Enums of items and of ids *)

Section Enum.
Variable stem : name.
Variable keys : list name.
Hypothesis St : sayable stem.
Hypothesis Ks : forall key, In key keys -> sayable key.

Definition enum_items : list item :=
  let n := enum_type stem in
  let vs := map (fun key => (to_type_name key, citem_type key)) keys in
  [IEnum None n (map (fun v => (fst v, Some (TyName (snd v)))) vs);
   IImpl n [
     public (txt "new") NoSelf [(txt "list_name", TyRef (TyName (txt "str"))); (txt "ptr", TyName (txt "CItemPtr"))] (Some (TyName n)) []
       (Some (EMatch var"list_name" (map (fun e => (PText (fst (fst e)), path n (snd (fst e)) [path (snd (snd e)) (txt "from") [var"ptr"]])) (combine (map (fun key => (key, to_type_name key)) keys) vs) ++
                                   [(PAny, EMacro (txt "panic") [EText (n ++ txt " there's no enum type named {}"); ERef var"list_name"])])))]].
Definition kind_items : list item :=
  let n := kind_type stem in
  [IEnum None n (map (fun v => (fst v, Some (TyName (snd v)))) (map (fun key => (to_type_name key, ids_type key)) keys));
   IImpl n [
     public (txt "id") ByRef [] (Some (TyPair static_str static_str)) []
       (Some (EMatch var"self" (map (fun a => (PTuple n (fst a) (txt "v"), EPair (EText (snd a)) (call0 var"v" "to_str"))) (map (fun key => (to_type_name key, key)) keys))))]].

Lemma items_enum_line : line (items_enum_text stem keys) (flat_map item_toks enum_items).
Proof.
  unfold items_enum_text, enum_items. cbv zeta. pose proof (enum_wordy stem St) as E. revert E. generalize (enum_type stem). intros n E.
  assert (V : line (flat_map (fun key : name => to_type_name key ++ !"(" ++ citem_type key ++ !"), ") keys) (flat_map (fun key : name => variant_toks (to_type_name key, Some (TyName (citem_type key)))) keys)).
  { apply line_flat. intros key I. pose proof (type_wordy key (Ks key I)). pose proof (citem_wordy key (Ks key I)). unknown. as_lines. }
  assert (A : line (flat_map (fun key : name => push 3 (!"""" ++ key ++ !""" => " ++ n ++ !"::" ++ to_type_name key ++ !"(" ++ citem_type key ++ !"::from(ptr)),")) keys)
    (flat_map (fun key : name => pat_toks (PText key) ++ Mark !"=>" :: expr_toks (path n (to_type_name key) [path (citem_type key) (txt "from") [var"ptr"]]) ++
                          arm_end (path n (to_type_name key) [path (citem_type key) (txt "from") [var"ptr"]])) keys)).
  { apply line_flat. intros key I. pose proof (sayable_quotable key (Ks key I)). pose proof (type_wordy key (Ks key I)). pose proof (citem_wordy key (Ks key I)). unknown. as_lines. }
  eapply line_eq; [known|]. rewrite flat_two, combine_maps, !map_map. cbn [fst snd]. spread. same.
Qed.

Lemma ids_enum_line : line (ids_enum_text stem keys) (flat_map item_toks kind_items).
Proof.
  unfold ids_enum_text, kind_items. cbv zeta. pose proof (kind_wordy stem St) as E. revert E. generalize (kind_type stem). intros n E.
  assert (V : line (flat_map (fun key : name => to_type_name key ++ !"(" ++ ids_type key ++ !"), ") keys) (flat_map (fun key : name => variant_toks (to_type_name key, Some (TyName (ids_type key)))) keys)).
  { apply line_flat. intros key I. pose proof (type_wordy key (Ks key I)). pose proof (ids_wordy key (Ks key I)). unknown. as_lines. }
  assert (A : line (flat_map (fun key : name => push 3 (n ++ !"::" ++ to_type_name key ++ !"(v) => (""" ++ key ++ !""", v.to_str()),")) keys)
    (flat_map (fun key : name => pat_toks (PTuple n (to_type_name key) !"v") ++ Mark !"=>" :: expr_toks (EPair (EText key) (call0 var"v" "to_str")) ++ arm_end (EPair (EText key) (call0 var"v" "to_str"))) keys)).
  { apply line_flat. intros key I. pose proof (sayable_quotable key (Ks key I)). pose proof (type_wordy key (Ks key I)). unknown. as_lines. }
  eapply line_eq; [known|]. rewrite flat_two, !map_map. cbn [fst snd]. spread. same.
Qed.

Lemma enum_declares : declares (DEnum (enum_type stem) (map (fun key => (to_type_name key, citem_type key)) keys) (map (fun key => (key, to_type_name key)) keys)) enum_items.
Proof. apply d_enum. clear. induction keys as [|k l IH]; constructor; [reflexivity|exact IH]. Qed.
Lemma kind_declares : declares (DKind (kind_type stem) (map (fun key => (to_type_name key, ids_type key)) keys) (map (fun key => (to_type_name key, key)) keys)) kind_items.
Proof. apply d_kind. Qed.
End Enum.

(* ------------------------------------------------------------------ *)
(** * Items *)

(** parts and what they declare *)
Definition telling (ds : list decl) (parts : list (list item)) (t : text) : Prop := Forall2 declares ds parts /\ line t (flat_map item_toks (concat parts)).

Lemma telling_nil : telling [] [] [].
Proof. split; [constructor|apply line_nil]. Qed.
Lemma telling_app d1 p1 t1 d2 p2 t2 : telling d1 p1 t1 -> telling d2 p2 t2 -> telling (d1 ++ d2) (p1 ++ p2) (t1 ++ t2).
Proof. intros [A B] [C D]. split; [apply Forall2_app; assumption|]. rewrite concat_app, flat_map_app. apply line_app; assumption. Qed.
Lemma telling_one d p t : declares d p -> line t (flat_map item_toks p) -> telling [d] [p] t.
Proof. intros A B. split; [constructor; [exact A|constructor]|]. cbn [concat]. rewrite app_nil_r. exact B. Qed.
Lemma telling_flat {A} (f : A -> list decl) (g : A -> list (list item)) (h : A -> text) l :
  (forall x, In x l -> telling (f x) (g x) (h x)) -> telling (flat_map f l) (flat_map g l) (flat_map h l).
Proof.
  induction l as [|x l IH]; intros H; [apply telling_nil|]. cbn [flat_map]. apply telling_app; [apply H; left; reflexivity|]. apply IH. intros y Y. apply H. right. exact Y.
Qed.
Lemma telling_pushed n d p t : telling d p t -> telling d p (push_without_newline n t).
Proof. intros [A B]. split; [exact A|apply line_pushed; exact B]. Qed.
Lemma telling_push n d p t : telling d p t -> telling d p (push n t).
Proof. intros [A B]. split; [exact A|apply line_push, line_lexes; exact B]. Qed.

Lemma refs_telling {D} from_citem stem (d : ldef D) : sayable stem -> (forall key v, In (key, v) (ld_refs d) -> sayable key) ->
  exists parts, telling (refs_decls from_citem stem d) parts (refs_text from_citem stem d).
Proof.
  intros St Rf. unfold refs_decls, refs_text, enum_text. destruct (ld_enum d); [|exists []; apply telling_nil].
  assert (Ks : forall key, In key (map fst (ld_refs d)) -> sayable key). { intros key I. apply in_map_iff in I as [[k v] [<- I]]. exact (Rf k v I). }
  cbv zeta. revert Ks. generalize (map fst (ld_refs d)). intros keys Ks.
  exists (enum_items stem keys :: if from_citem then [] else [kind_items stem keys]). apply telling_pushed.
  match goal with |- telling (?a :: ?r) (?x :: ?y) _ => change (a :: r) with ([a] ++ r); change (x :: y) with ([x] ++ y) end.
  apply telling_app; [apply telling_one; [apply enum_declares|apply items_enum_line; assumption]|].
  destruct from_citem; [apply telling_nil|]. apply telling_one; [apply kind_declares|apply ids_enum_line; assumption].
Qed.

(** a struct around a pointer *)
Lemma wrapper_toks n p fns : flat_map item_toks (wrapper n p fns) =
  flat_map item_toks (firstn 2 (wrapper n p [])) ++ Word !"impl" :: Word n :: Mark !"{" :: flat_map fn_toks fns ++ [Mark !"}"].
Proof. unfold wrapper. cbn [flat_map firstn]. rewrite !app_nil_r, <- app_assoc. reflexivity. Qed.

Definition mitem_fns {D} (stem : name) (d : ldef D) : list fn :=
  flat_map (fun e => let '(key, (_, v)) := e in
              let old := contains (ld_old d) key in
              match v with
              | DParam p vt => param_fns AtMItem (type_of p) vt key old
              | DCil _ => []
              | DMil _ undefiable => list_fns key old AtMItem undefiable
              end) (ld_members d) ++
  refs_get_fns stem d AtMItem ++ refs_set_fns stem d.
Definition citem_fns {D} (stem : name) (d : ldef D) : list fn :=
  flat_map (fun e => let '(key, (_, v)) := e in
              let old := contains (ld_old d) key in
              match v with
              | DParam p vt => param_fns AtCItem (type_of p) vt key old
              | DCil _ => [const_fn key old AtCItem]
              | DMil _ _ => []
              end) (ld_members d) ++
  refs_get_fns stem d AtCItem.

Section Heads.
Context {D : Type}.
Variable stem : name.
Variable d : ldef D.
Hypothesis St : sayable stem.
Hypothesis Ms : forall key v, In (key, v) (ld_members d) -> sayable key.
Hypothesis Rf : forall key v, In (key, v) (ld_refs d) -> sayable key.

Lemma mitem_head_telling : telling [DStruct (mitem_type stem) (mitem_methods stem d)] [wrapper (mitem_type stem) (txt "MItemPtr") (mitem_fns stem d)] (mitem_head stem d).
Proof.
  apply telling_one.
  - apply d_mitem. unfold mitem_methods, mitem_fns. apply Forall2_app; [|apply Forall2_app; [apply refs_get_written|apply refs_set_written]].
    apply forall2_flat. intros [key [id v]] I. destruct v as [p vt|c|c u]; [apply param_written|constructor|apply list_written; discriminate].
  - rewrite wrapper_toks. unfold mitem_head, mitem_fns. rewrite !flat_map_app, flat_flat.
    pose proof (line_pushed 1 _ _ (refs_get_line stem d St Rf AtMItem)) as G. pose proof (line_pushed 1 _ _ (refs_set_line stem d St Rf)) as W.
    assert (M : line (flat_map (fun e => let '(key, (_, v)) := e in
              let old := contains (ld_old d) key in
              match v with
              | DParam p vt => param_text AtMItem (type_of p) vt key old
              | DCil _ => []
              | DMil _ undefiable => push_without_newline 1 (list_text AtMItem undefiable key old)
              end) (ld_members d)) (flat_map (fun x => flat_map fn_toks (let '(key, (_, v)) := x in
              let old := contains (ld_old d) key in
              match v with
              | DParam p vt => param_fns AtMItem (type_of p) vt key old
              | DCil _ => []
              | DMil _ undefiable => list_fns key old AtMItem undefiable
              end)) (ld_members d))).
    { apply line_flat. intros [key [id v]] I. pose proof (Ms _ _ I) as K. destruct v as [p vt|c|c u]; cbv zeta; [apply param_line; exact K|apply line_nil|apply line_pushed, list_line; [exact K|discriminate]]. }
    pose proof (mitem_wordy stem St) as N. revert N. generalize (mitem_type stem). intros n N.
    cbv zeta in M |- *. eapply line_eq; [known|]. rewrite <- !app_assoc. parts. cbn. rewrite <- ?app_assoc. reflexivity.
Qed.

Lemma citem_head_telling : telling [DStruct (citem_type stem) (citem_methods stem d)] [wrapper (citem_type stem) (txt "CItemPtr") (citem_fns stem d)] (citem_head stem d).
Proof.
  apply telling_one.
  - apply d_citem. unfold citem_methods, citem_fns. apply Forall2_app; [|apply refs_get_written].
    apply forall2_flat. intros [key [id v]] I. destruct v as [p vt|c|c u]; [apply param_written| |constructor]. constructor; [apply const_written; discriminate|constructor].
  - rewrite wrapper_toks. unfold citem_head, citem_fns. rewrite !flat_map_app, flat_flat.
    pose proof (line_pushed 1 _ _ (refs_get_line stem d St Rf AtCItem)) as G.
    assert (M : line (flat_map (fun e => let '(key, (_, v)) := e in
              let old := contains (ld_old d) key in
              match v with
              | DParam p vt => param_text AtCItem (type_of p) vt key old
              | DCil _ => push_without_newline 1 (const_text AtCItem key old)
              | DMil _ _ => []
              end) (ld_members d)) (flat_map (fun x => flat_map fn_toks (let '(key, (_, v)) := x in
              let old := contains (ld_old d) key in
              match v with
              | DParam p vt => param_fns AtCItem (type_of p) vt key old
              | DCil _ => [const_fn key old AtCItem]
              | DMil _ _ => []
              end)) (ld_members d))).
    { apply line_flat. intros [key [id v]] I. pose proof (Ms _ _ I) as K. destruct v as [p vt|c|c u]; cbv zeta; [apply param_line; exact K| |apply line_nil].
      rewrite flat_one. apply line_pushed, const_line; [exact K|discriminate]. }
    pose proof (citem_wordy stem St) as N. revert N. generalize (citem_type stem). intros n N.
    cbv zeta in M |- *. eapply line_eq; [known|]. rewrite <- !app_assoc. parts. cbn. rewrite <- ?app_assoc. reflexivity.
Qed.
End Heads.

Lemma telling_some {A} (f : A -> list decl) (h : A -> text) l :
  (forall x, In x l -> exists parts, telling (f x) parts (h x)) -> exists parts, telling (flat_map f l) parts (flat_map h l).
Proof.
  induction l as [|x l IH]; intros H; [exists []; apply telling_nil|]. destruct (H x (or_introl eq_refl)) as [p P].
  destruct IH as [q Q]; [intros y Y; apply H; right; exact Y|]. exists (p ++ q). cbn [flat_map]. apply telling_app; assumption.
Qed.

Section Document.
Variable root : hmap (Z * rootvalue).
Hypothesis Sp : speakable root.

Lemma mitem_telling d : forall stem, sayable stem -> mlisted root stem (undef d) -> exists parts, telling (mitem_decls stem d) parts (mitem_text stem d).
Proof.
  induction d as [l IH] using def_induct. intros stem St L. cbn [undef] in L. pose proof (mlisted_listed _ _ _ L) as L'.
  assert (Ms : forall key v, In (key, v) (ld_members l) -> sayable key) by (intros key v; apply (s_members root Sp stem l L')).
  assert (Rf : forall key v, In (key, v) (ld_refs l) -> sayable key) by (intros key v; apply (s_refs root Sp stem l L')).
  cbn [mitem_decls mitem_text].
  destruct (refs_telling false stem l St Rf) as [rp R].
  destruct (telling_some (fun e => let '(key, (_, v)) := e in match v with DMil d' _ => mitem_decls key d' | _ => [] end)
    (fun e => let '(key, (_, v)) := e in match v with DMil d' _ => push_without_newline 0 (push_without_newline 0 (mitem_text key d')) | _ => [] end) (ld_members l)) as [ip I].
  { intros [key [id v]] I. destruct v as [p vt|c|c u]; [exists []; apply telling_nil|exists []; apply telling_nil|].
    destruct (IH _ _ _ I key (Ms _ _ I)) as [parts P].
    - destruct c as [l']. cbn [undef]. eapply mlisted_mil; eassumption.
    - exists parts. apply telling_pushed, telling_pushed. exact P. }
  exists ([wrapper (mitem_type stem) (txt "MItemPtr") (mitem_fns stem l)] ++ ip ++ rp).
  match goal with |- telling (?a :: ?r) _ _ => change (a :: r) with ([a] ++ r) end.
  apply telling_app; [apply mitem_head_telling; assumption|]. apply telling_app; [exact I|exact R].
Qed.

Lemma citem_telling d : forall stem, sayable stem -> clisted root stem (undef d) -> exists parts, telling (citem_decls stem d) parts (citem_text stem d).
Proof.
  induction d as [l IH] using def_induct. intros stem St L. cbn [undef] in L. pose proof (clisted_listed _ _ _ L) as L'.
  assert (Ms : forall key v, In (key, v) (ld_members l) -> sayable key) by (intros key v; apply (s_members root Sp stem l L')).
  assert (Rf : forall key v, In (key, v) (ld_refs l) -> sayable key) by (intros key v; apply (s_refs root Sp stem l L')).
  cbn [citem_decls citem_text].
  destruct (refs_telling true stem l St Rf) as [rp R].
  destruct (telling_some (fun e => let '(key, (_, v)) := e in match v with DCil d' => citem_decls key d' | _ => [] end)
    (fun e => let '(key, (_, v)) := e in match v with DCil d' => push_without_newline 0 (push_without_newline 0 (citem_text key d')) | _ => [] end) (ld_members l)) as [ip I].
  { intros [key [id v]] I. destruct v as [p vt|c|c u]; [exists []; apply telling_nil| |exists []; apply telling_nil].
    destruct (IH _ _ _ I key (Ms _ _ I)) as [parts P].
    - destruct c as [l']. cbn [undef]. eapply clisted_cil; eassumption.
    - exists parts. apply telling_pushed, telling_pushed. exact P. }
  exists ([wrapper (citem_type stem) (txt "CItemPtr") (citem_fns stem l)] ++ ip ++ rp).
  match goal with |- telling (?a :: ?r) _ _ => change (a :: r) with ([a] ++ r) end.
  apply telling_app; [apply citem_head_telling; assumption|]. apply telling_app; [exact I|exact R].
Qed.

(* ------------------------------------------------------------------ *)
(** * Tables *)

Section Table.
Variable stem : name.
Variable keys : list (name * bool).
Hypothesis St : sayable stem.
Hypothesis Ks : forall k, In k keys -> sayable (fst k).
Local Notation self_ptr := (EField (EVar (txt "self")) (txt "ptr")).
Local Notation unwrap e := (EMethod e (txt "unwrap") []).
Local Notation n := (citem_type stem).
Local Notation ids := (ids_type stem).

Definition row_fns (k : name * bool) : list fn :=
  [Fn true true (key_name (fst k) (snd k) ++ txt "_us") ByRef [] (Some (TyName n))
     [SLet false (PVar (txt "ptr")) (unwrap (path (txt "table") (txt "get_value") [self_ptr; EText (fst k)]))]
     (Some (path n (txt "from") [var"ptr"]));
   public (key_name (fst k) (snd k)) ByRef [] (Some (TyApp (txt "CItemConst") (TyName n)))
     [SLet false (PVar (txt "ptr")) (unwrap (path (txt "table") (txt "get_value") [self_ptr; EText (fst k)]))]
     (Some (guarded (txt "CItemConst") (path n (txt "from") [var"ptr"])))].
Definition by_id_fns : list fn :=
  match keys with
  | [] => []
  | _ =>
    [Fn true true (txt "get_by_id_us") ByRef [(txt "id", TyName ids)] (Some (TyName n)) []
       (Some (EMatch var"id" (map (fun a => (PPath ids (fst a), EMethod var"self" (snd a) [])) (map (fun k => (variant_name (fst k) (snd k), key_name (fst k) (snd k) ++ txt "_us")) keys))));
     public (txt "get_by_id") ByRef [(txt "id", TyName ids)] (Some (TyApp (txt "CItemConst") (TyName n))) []
       (Some (guarded (txt "CItemConst") (EUnsafe (EMethod var"self" (txt "get_by_id_us") [var"id"]))))]
  end.
Definition table_fns : list fn :=
  public (txt "new") NoSelf [(txt "ptr", TyName (txt "TablePtr"))] (Some (TyName (table_type stem))) [] (Some (EStruct (table_type stem) [txt "ptr"]))
  :: flat_map row_fns keys ++ by_id_fns.
Definition table_items : list item :=
  [IStruct (map txt ["Debug"; "PartialEq"]%string) (table_type stem) [(txt "ptr", TyName (txt "TablePtr"))]; IImpl (table_type stem) table_fns].

Lemma rows_line : line (flat_map (fun k : name * bool =>
    push 1 (!"pub unsafe fn " ++ key_name (fst k) (snd k) ++ !"_us(&self) -> " ++ n ++ !" {") ++
    push 2 (!"let ptr = table::get_value(self.ptr, """ ++ fst k ++ !""").unwrap();") ++
    push 2 (n ++ !"::from(ptr)") ++
    push 1 !"}" ++
    push 1 (!"pub fn " ++ key_name (fst k) (snd k) ++ !"(&self) -> CItemConst<" ++ n ++ !"> {") ++
    push 2 (!"let ptr = table::get_value(self.ptr, """ ++ fst k ++ !""").unwrap();") ++
    push 2 (!"CItemConst::new(" ++ n ++ !"::from(ptr), self)") ++
    push 1 !"}") keys) (flat_map fn_toks (flat_map row_fns keys)).
Proof.
  rewrite flat_flat. apply line_flat. intros k I. unfold row_fns. pose proof (sayable_quotable _ (Ks k I)). pose proof (old_wordy _ (snd k) (snake_wordy _ (Ks k I))) as N. fold (key_name (fst k) (snd k)) in N.
  pose proof (citem_wordy stem St). unknown. as_lines.
Qed.

Lemma by_id_line : line (match keys with
   | [] => []
   | _ =>
     push 1 (!"pub unsafe fn get_by_id_us(&self, id : " ++ ids ++ !") -> " ++ n ++ !"{") ++
     push 2 !"match id{" ++
     flat_map (fun k : name * bool => push 3 (ids ++ !"::" ++ variant_name (fst k) (snd k) ++ !" => self." ++ key_name (fst k) (snd k) ++ !"_us(),")) keys ++
     push 2 !"}" ++
     push 1 !"}" ++
     push 1 (!"pub fn get_by_id(&self, id : " ++ ids ++ !") -> CItemConst<" ++ n ++ !">{") ++
     push 2 !"CItemConst::new(unsafe{ self.get_by_id_us(id) }, self)" ++
     push 1 !"}"
   end) (flat_map fn_toks by_id_fns).
Proof.
  unfold by_id_fns.
  assert (A : line (flat_map (fun k : name * bool => push 3 (ids ++ !"::" ++ variant_name (fst k) (snd k) ++ !" => self." ++ key_name (fst k) (snd k) ++ !"_us(),")) keys)
    (flat_map (fun k : name * bool => pat_toks (PPath ids (variant_name (fst k) (snd k))) ++ Mark !"=>" ::
                        expr_toks (EMethod var"self" (key_name (fst k) (snd k) ++ txt "_us") []) ++ arm_end (EMethod var"self" (key_name (fst k) (snd k) ++ txt "_us") [])) keys)).
  { apply line_flat. intros k I. pose proof (old_wordy _ (snd k) (snake_wordy _ (Ks k I))) as N. fold (key_name (fst k) (snd k)) in N.
    pose proof (variant_wordy _ (snd k) (Ks k I)). pose proof (ids_wordy stem St). unknown. as_lines. }
  destruct keys as [|k0 ks] eqn:E; [apply line_nil|]. rewrite <- E in *. clear E.
  rewrite flat_two, map_map. cbn [fst snd]. pose proof (ids_wordy stem St) as W. pose proof (citem_wordy stem St) as W'. revert A W W'. generalize (ids_type stem) (citem_type stem). intros i c A W W'.
  eapply line_eq; [known|]. spread. same.
Qed.

Lemma table_telling : telling [DStruct (table_type stem)
    (Meth (txt "new") [txt "ptr"] COther [table_type stem] []
     :: flat_map (fun k : name * bool => row_methods stem (fst k) (snd k)) keys ++ by_id_methods stem keys)] [table_items] (table_struct_text stem keys).
Proof.
  apply telling_one.
  - apply d_table. constructor; [apply w_table_new|]. apply Forall2_app.
    + apply forall2_flat. intros k I. constructor; [apply w_row_us|]. constructor; [apply w_row|constructor].
    + unfold by_id_methods, by_id_fns. cbv zeta. destruct keys as [|k0 ks] eqn:E; [constructor|]. rewrite <- E. constructor; [apply w_by_id_us|]. constructor; [apply w_by_id|constructor].
  - unfold table_struct_text, table_items. pose proof rows_line as R. pose proof by_id_line as B. pose proof (table_wordy stem St) as T.
    unfold table_fns. revert T. generalize (table_type stem). intros t T. revert R B. generalize (ids_type stem) (citem_type stem). intros i c R B.
    eapply line_eq; [known|]. unfold item_toks. cbn [flat_map]. rewrite flat_map_app. parts. same.
Qed.

Lemma uint_wordy k : 0 <= k -> wordy (print_uint k).
Proof.
  intros H. pose proof (print_uint_digits k H) as D. pose proof (print_uint_nonempty k H) as N. destruct (print_uint k) as [|c r]; [congruence|]. exists c, r. split; [reflexivity|].
  apply forallb_forall. intros x X. apply (proj1 (Forall_forall _ _) D) in X. cbn beta in X. apply wordish_char. unfold is_digit in X. unfold wordish, digit. lia.
Qed.
Lemma enumerate_from_in {A} (l : list A) : forall i e, In e (enumerate_from i l) -> i <= fst e /\ In (snd e) l.
Proof.
  induction l as [|x l IH]; intros i e H; [destruct H|]. cbn [enumerate_from] in H. destruct H as [<-|H]; [cbn; split; [lia|left; reflexivity]|].
  apply IH in H as [H H']. split; [lia|right; exact H'].
Qed.

Definition ids_items : list item :=
  let from_str := map (fun k => (fst k, variant_name (fst k) (snd k))) keys in
  let from_num := map (fun e => (fst e, variant_name (fst (snd e)) (snd (snd e)))) (enumerate keys) in
  let to_num := map (fun e => (variant_name (fst (snd e)) (snd (snd e)), fst e)) (enumerate keys) in
  [IEnum (Some (txt "u64")) ids (map (fun v => (v, None)) (map (fun k => variant_name (fst k) (snd k)) keys));
   IImpl ids [
     public (txt "from_str") NoSelf [(txt "id", TyRef (TyName (txt "str")))] (Some (TyApp (txt "Option") (TyName (txt "Self")))) []
       (Some (EMatch var"id" (map (fun a => (PText (fst a), ECall var"Some" [EPath (txt "Self") (snd a)])) from_str ++ [(PAny, EBlock var"None")])));
     public (txt "from_num") NoSelf [(txt "id", TyName (txt "usize"))] (Some (TyName (txt "Self"))) []
       (Some (EMatch var"id" (map (fun a => (PNum (fst a), EPath (txt "Self") (snd a))) from_num ++
                            [(PAny, EMacro (txt "panic") [EText (txt "invalid ID num {} " ++ ids); var"id"])])));
     public (txt "len") NoSelf [] (Some (TyName (txt "usize"))) [] (Some (ENum (zlen keys)));
     public (txt "to_num") ByRef [] (Some (TyName (txt "usize"))) []
       (Some (EMatch var"self" (map (fun a => (PPath ids (fst a), ENum (snd a))) to_num)));
     public (txt "metadata") NoSelf [] (Some (TyStatic (TySlice static_str))) [] (Some (ERef (EArray (map EText (map fst keys)))));
     public (txt "to_str") ByRef [] (Some static_str) [] (Some (EIndex (path (txt "Self") (txt "metadata") []) (call0 var"self" "to_num")))]].

Definition elements_toks (es : list expr) : list tok := flat_map (fun e => expr_toks e ++ [Mark !","]) es.
Lemma array_toks es : expr_toks (ERef (EArray es)) = Mark !"&" :: Mark !"[" :: elements_toks es ++ [Mark !"]"].
Proof. reflexivity. Qed.

Lemma ids_line : line (ids_text stem keys) (flat_map item_toks ids_items).
Proof.
  unfold ids_text, ids_items. cbv zeta. pose proof (ids_wordy stem St) as W. revert W. generalize (ids_type stem). intros i W.
  assert (V : line (flat_map (fun k : name * bool => variant_name (fst k) (snd k) ++ !", ") keys) (flat_map (fun k : name * bool => variant_toks (variant_name (fst k) (snd k), None)) keys)).
  { apply line_flat. intros k I. pose proof (variant_wordy _ (snd k) (Ks k I)). unknown. as_lines. }
  assert (A : line (flat_map (fun k : name * bool => push 3 (!"""" ++ fst k ++ !""" => Some(Self::" ++ variant_name (fst k) (snd k) ++ !"),")) keys)
    (flat_map (fun k : name * bool => pat_toks (PText (fst k)) ++ Mark !"=>" :: expr_toks (ECall var"Some" [EPath (txt "Self") (variant_name (fst k) (snd k))]) ++
                        arm_end (ECall var"Some" [EPath (txt "Self") (variant_name (fst k) (snd k))])) keys)).
  { apply line_flat. intros k I. pose proof (sayable_quotable _ (Ks k I)). pose proof (variant_wordy _ (snd k) (Ks k I)). unknown. as_lines. }
  assert (B : line (flat_map (fun e : Z * (name * bool) => push 3 (print_uint (fst e) ++ !" => Self::" ++ variant_name (fst (snd e)) (snd (snd e)) ++ !",")) (enumerate keys))
    (flat_map (fun e : Z * (name * bool) => pat_toks (PNum (fst e)) ++ Mark !"=>" :: expr_toks (EPath (txt "Self") (variant_name (fst (snd e)) (snd (snd e)))) ++
                        arm_end (EPath (txt "Self") (variant_name (fst (snd e)) (snd (snd e))))) (enumerate keys))).
  { apply line_flat. intros e I. apply enumerate_from_in in I as [I1 I2]. pose proof (uint_wordy _ I1). pose proof (variant_wordy _ (snd (snd e)) (Ks _ I2)). cbn [pat_toks]. unknown. as_lines. }
  assert (C : line (flat_map (fun e : Z * (name * bool) => push 3 (i ++ !"::" ++ variant_name (fst (snd e)) (snd (snd e)) ++ !" => " ++ print_uint (fst e) ++ !",")) (enumerate keys))
    (flat_map (fun e : Z * (name * bool) => pat_toks (PPath i (variant_name (fst (snd e)) (snd (snd e)))) ++ Mark !"=>" :: expr_toks (ENum (fst e)) ++ arm_end (ENum (fst e))) (enumerate keys))).
  { apply line_flat. intros e I. apply enumerate_from_in in I as [I1 I2]. pose proof (uint_wordy _ I1). pose proof (variant_wordy _ (snd (snd e)) (Ks _ I2)). cbn [expr_toks arm_end]. unknown. as_lines. }
  assert (M : line (flat_map (fun k : name * bool => !"""" ++ fst k ++ !""", ") keys) (flat_map (fun k : name * bool => expr_toks (EText (fst k)) ++ [Mark !","]) keys)).
  { apply line_flat. intros k I. pose proof (sayable_quotable _ (Ks k I)). unknown. as_lines. }
  assert (L : line (push 2 (!"&[" ++ flat_map (fun k : name * bool => !"""" ++ fst k ++ !""", ") keys ++ !"]"))
    (expr_toks (ERef (EArray (map EText (map fst keys)))))).
  { apply line_push, line_lexes. rewrite array_toks. unfold elements_toks. rewrite !flat_mapped. eapply line_eq; [known|]. parts. cbn. reflexivity. }
  pose proof (uint_wordy (zlen keys) ltac:(unfold zlen; lia)) as Z0.
  assert (N : line (push 1 (!"pub fn len() -> usize{ " ++ print_uint (zlen keys) ++ !" }"))
    (fn_toks (public (txt "len") NoSelf [] (Some (TyName (txt "usize"))) [] (Some (ENum (zlen keys)))))).
  { unfold fn_toks, public. cbn [f_pub f_unsafe f_name f_self f_args f_ret f_lets f_value expr_toks]. unknown. eapply line_eq; [by_lines|]. vm_compute. reflexivity. }
  eapply line_eq; [known|]. clear. rewrite flat_two. unfold item_toks. cbn [flat_map].
  generalize (fn_toks (public (txt "len") NoSelf [] (Some (TyName (txt "usize"))) [] (Some (ENum (zlen keys))))). intros ln.
  rewrite !map_map. unfold fn_toks, public. cbn [f_pub f_unsafe f_name f_self f_args f_ret f_lets f_value fst snd].
  generalize (expr_toks (ERef (EArray (map (fun k : name * bool => EText (fst k)) keys)))). intros me.
  rewrite ?match_toks, ?arms_app, ?arms_map, ?flat_mapped. cbn [fst snd]. parts. unfold braces, parens. do 6 (cbn; rewrite <- ?app_assoc). cbn. reflexivity.
Qed.
End Table.

Lemma table_text_telling stem id d rows old : In (stem, (id, WTable d rows old)) root -> exists parts, telling (table_decls stem d rows old) parts (table_text stem d rows old).
Proof.
  intros I. pose proof (s_names root Sp _ _ I) as St. unfold table_decls, table_text. cbv zeta.
  assert (Ks : forall k : name * bool, In k (map (fun e => (fst e, contains old (fst e))) rows) -> sayable (fst k)).
  { intros k K. apply in_map_iff in K as [[row it] [<- K]]. exact (s_rows root Sp _ _ _ _ _ I row it K). }
  revert Ks. generalize (map (fun e : name * citem => (fst e, contains old (fst e))) rows). intros keys Ks.
  destruct (citem_telling d stem St) as [cp C]. { destruct d as [l]. cbn [undef]. eapply clisted_table; exact I. }
  exists ([table_items stem keys] ++ [ids_items stem keys] ++ cp).
  match goal with |- telling (?a :: ?b :: ?r) _ _ => change (a :: b :: r) with ([a] ++ [b] ++ r) end.
  apply telling_app; [apply table_telling; assumption|]. apply telling_app; [|apply telling_pushed; exact C].
  apply telling_one; [apply d_ids|apply ids_line; assumption].
Qed.

Definition root_fns (old : list name) : list fn :=
  [public (txt "new") NoSelf [(txt "obj", TyName (txt "RootObject"))] (Some (TyName (txt "RootIntf")))
     [SLet true (PVar (txt "root")) (path (txt "Box") (txt "new") [var"obj"]);
      SLet false (PVar (txt "ptr")) (path (txt "RootObjectPtr") (txt "new") [call0 var"root" "as_mut"])]
     (Some (EStruct (txt "RootIntf") [txt "root"; txt "ptr"]));
   public (txt "root_obj_ref") ByRef [] (Some (TyRef (TyName (txt "RootObject")))) [] (Some (call0 (EField var"self" (txt "root")) "as_ref"));
   public (txt "root_obj_ref_mut") ByMut [] (Some (TyMut (TyName (txt "RootObject")))) [] (Some (call0 (EField var"self" (txt "root")) "as_mut"));
   public (txt "deconstruct") ByValue [] (Some (TyName (txt "RootObject"))) [] (Some (EDeref (EField var"self" (txt "root"))))] ++
  flat_map (fun e => let '(key, (_, v)) := e in
              let old := contains old key in
              match v with
              | WParam p vt => param_fns AtRoot (type_of p) vt key old
              | WTable _ _ _ => [table_fn key old]
              | WCList _ _ => [const_fn key old AtRoot]
              | WMList _ undefiable => list_fns key old AtRoot undefiable
              end) root.
Definition root_items (old : list name) : list item :=
  [IUse (map txt ["dochy"; "core"; "intf"]%string); IUse (map txt ["dochy"; "core"; "structs"]%string);
   IUnsafeImpl (txt "Send") (txt "RootIntf"); IUnsafeImpl (txt "Sync") (txt "RootIntf");
   IStruct [txt "Debug"] (txt "RootIntf") [(txt "root", TyApp (txt "Box") (TyName (txt "RootObject"))); (txt "ptr", TyName (txt "RootObjectPtr"))];
   IImpl (txt "RootIntf") (root_fns old)].

Definition root_members_text (old : list name) : text :=
  flat_map (fun e => let '(key, (_, v)) := e in
              let old := contains old key in
              match v with
              | WParam p vt => param_text AtRoot (type_of p) vt key old
              | WTable _ _ _ => push_without_newline 1 (table_get_text key old)
              | WCList _ _ => push_without_newline 1 (const_text AtRoot key old)
              | WMList _ undefiable => push_without_newline 1 (list_text AtRoot undefiable key old)
              end) root.

Lemma root_head_telling old : telling [DStruct (txt "RootIntf") (root_methods old (strip_root root))] [root_items old] (root_head ++ root_members_text old ++ push 0 !"}").
Proof.
  apply telling_one.
  - apply d_root. unfold root_methods, root_fns. apply Forall2_app.
    + constructor; [apply w_root_new|]. constructor; [apply w_root_ref|]. constructor; [apply w_root_ref_mut|]. constructor; [apply w_root_deconstruct|constructor].
    + unfold strip_root. rewrite flat_mapped. apply forall2_flat. intros [key [id v]] I.
      destruct v as [p vt|d rows o|d items|d u]; [apply param_written| | |apply list_written; discriminate]; (constructor; [|constructor]); [apply table_get_written|apply const_written; discriminate].
  - assert (M : line (root_members_text old) (flat_map fn_toks (flat_map (fun e : name * (Z * rootvalue) => let '(key, (_, v)) := e in
              let old := contains old key in
              match v with
              | WParam p vt => param_fns AtRoot (type_of p) vt key old
              | WTable _ _ _ => [table_fn key old]
              | WCList _ _ => [const_fn key old AtRoot]
              | WMList _ undefiable => list_fns key old AtRoot undefiable
              end) root))).
    { rewrite flat_flat. apply line_flat. intros [key [id v]] I. pose proof (s_names root Sp _ _ I) as K. cbv zeta.
      destruct v as [p vt|d rows o|d items|d u]; [apply param_line; exact K| | |apply line_pushed, list_line; [exact K|discriminate]]; rewrite flat_one; apply line_pushed; [apply table_get_line|apply const_line; [|discriminate]]; exact K. }
    unfold root_items, root_fns. generalize dependent (root_members_text old). intros t M.
    assert (R : line root_head (flat_map item_toks (firstn 5 (root_items [])) ++ Word !"impl" :: Word !"RootIntf" :: Mark !"{" :: flat_map fn_toks (firstn 4 (root_fns [])))).
    { unfold line. vm_compute. reflexivity. }
    eapply line_eq; [known|]. clear. unfold item_toks. cbn [flat_map]. rewrite flat_map_app. generalize (flat_map fn_toks (flat_map (fun e : name * (Z * rootvalue) => let '(key, (_, v)) := e in
              let old := contains old key in
              match v with
              | WParam p vt => param_fns AtRoot (type_of p) vt key old
              | WTable _ _ _ => [table_fn key old]
              | WCList _ _ => [const_fn key old AtRoot]
              | WMList _ undefiable => list_fns key old AtRoot undefiable
              end) root)). intros ms. cbn. rewrite <- ?app_assoc. cbn. reflexivity.
Qed.

Theorem root_telling old : exists parts, telling (generate old root) parts (root_text old root).
Proof.
  unfold generate, root_text.
  destruct (telling_some (fun e : name * (Z * rootvalue) => let '(key, (_, v)) := e in
                 match v with
                 | WParam _ _ => []
                 | WTable d rows old => table_decls key d rows old
                 | WCList d _ => citem_decls key d
                 | WMList d _ => mitem_decls key d
                 end)
    (fun e => let '(key, (_, v)) := e in
              match v with
              | WParam _ _ => []
              | WTable d rows old => push 0 (table_text key d rows old)
              | WCList d _ => push 0 (push_without_newline 0 (citem_text key d))
              | WMList d _ => push 0 (push_without_newline 0 (mitem_text key d))
              end) root) as [mp M].
  { intros [key [id v]] I. pose proof (s_names root Sp _ _ I) as K. destruct v as [p vt|d rows o|d items|d u]; [exists []; apply telling_nil| | |].
    - destruct (table_text_telling _ _ _ _ _ I) as [parts P]. exists parts. apply telling_push. exact P.
    - destruct (citem_telling d key K) as [parts P]; [destruct d as [l]; cbn [undef]; eapply clisted_clist; exact I|]. exists parts. apply telling_push, telling_pushed. exact P.
    - destruct (mitem_telling d key K) as [parts P]; [destruct d as [l]; cbn [undef]; eapply mlisted_mlist; exact I|]. exists parts. apply telling_push, telling_pushed. exact P. }
  exists ([root_items old] ++ mp).
  match goal with |- telling (?a :: ?r) _ _ => change (a :: r) with ([a] ++ r) end.
  pose proof (telling_app _ _ _ _ _ _ (root_head_telling old) M) as T. rewrite <- !app_assoc in T. exact T.
Qed.
End Document.
