(** Proof of C67: the parts together. *)
From Coq Require Import String.
From Verif Require Import Base StringCompactionModel StringCompactionProofs TextModel DocModel DiffSpec DiffProofs JsonModel JsonSpec IntfModel GenModel GenSpec GenNameProofs GenProofs GenWellProofs.
From Verif Require Import CodeSpec ApiModel TypeSpec TypeProofs TypeFnProofs TypeItemProofs.

Local Notation text := (list Z).
Local Notation "! s" := (txt s%string) (at level 0, s at level 0).

(* ------------------------------------------------------------------ *)
(** * The items of a declaration *)

Lemma declares_types d part : declares d part -> type_names part = [decl_name d] /\ impl_names part = [decl_name d].
Proof. intros []; split; reflexivity. Qed.

Lemma written_name m f : written m f -> f_name f = m_name m.
Proof. intros []; reflexivity. Qed.
Lemma written_names ms fns : Forall2 written ms fns -> map f_name fns = map m_name ms.
Proof. induction 1 as [|m f ms fns W F IH]; [reflexivity|]. cbn [map]. rewrite (written_name m f W), IH. reflexivity. Qed.

Ltac apart E := apply (f_equal (@rev Z)) in E; rewrite ?rev_app_distr in E; vm_compute in E; discriminate E.

Lemma declares_root ms part : declares (DStruct !"RootIntf" ms) part -> exists fns, Forall2 written ms fns /\
  part = [IUse (map txt ["dochy"; "core"; "intf"]%string); IUse (map txt ["dochy"; "core"; "structs"]%string); IUnsafeImpl !"Send" !"RootIntf"; IUnsafeImpl !"Sync" !"RootIntf";
          IStruct [!"Debug"] !"RootIntf" root_fields; IImpl !"RootIntf" fns].
Proof.
  intros H. remember (DStruct !"RootIntf" ms) as d eqn:E. destruct H as [ms' fns F|x ms' fns F|x ms' fns F|x ms' fns F| | | ]; try discriminate E.
  - injection E as ->. exists fns. split; [exact F|reflexivity].
  - exfalso. apply (f_equal decl_name) in E. cbn [decl_name] in E. apart E.
  - exfalso. apply (f_equal decl_name) in E. cbn [decl_name] in E. apart E.
  - exfalso. apply (f_equal decl_name) in E. cbn [decl_name] in E. apart E.
Qed.
Definition methods_of (d : decl) : list meth := match d with DStruct _ ms => ms | _ => [] end.
Lemma declares_mitem x ms part : declares (DStruct (x ++ !"MItem") ms) part -> exists fns, Forall2 written ms fns /\ part = wrapper (x ++ !"MItem") !"MItemPtr" fns.
Proof.
  intros H. remember (DStruct (x ++ !"MItem") ms) as d eqn:E. destruct H as [ms' fns F|y ms' fns F|y ms' fns F|y ms' fns F| | | ]; try discriminate E;
    pose proof (f_equal decl_name E) as N; pose proof (f_equal methods_of E) as M; cbn [decl_name methods_of] in N, M; subst ms'; clear E.
  - exfalso. apart N.
  - rewrite N. exists fns. split; [exact F|reflexivity].
  - exfalso. apart N.
  - exfalso. apart N.
Qed.
Lemma declares_citem x ms part : declares (DStruct (x ++ !"CItem") ms) part -> exists fns, Forall2 written ms fns /\ part = wrapper (x ++ !"CItem") !"CItemPtr" fns.
Proof.
  intros H. remember (DStruct (x ++ !"CItem") ms) as d eqn:E. destruct H as [ms' fns F|y ms' fns F|y ms' fns F|y ms' fns F| | | ]; try discriminate E;
    pose proof (f_equal decl_name E) as N; pose proof (f_equal methods_of E) as M; cbn [decl_name methods_of] in N, M; subst ms'; clear E.
  - exfalso. apart N.
  - exfalso. apart N.
  - rewrite N. exists fns. split; [exact F|reflexivity].
  - exfalso. apart N.
Qed.
Lemma declares_table x ms part : declares (DStruct (x ++ !"Table") ms) part -> exists fns, Forall2 written ms fns /\
  part = [IStruct (map txt ["Debug"; "PartialEq"]%string) (x ++ !"Table") [(!"ptr", TyName !"TablePtr")]; IImpl (x ++ !"Table") fns].
Proof.
  intros H. remember (DStruct (x ++ !"Table") ms) as d eqn:E. destruct H as [ms' fns F|y ms' fns F|y ms' fns F|y ms' fns F| | | ]; try discriminate E;
    pose proof (f_equal decl_name E) as N; pose proof (f_equal methods_of E) as M; cbn [decl_name methods_of] in N, M; subst ms'; clear E.
  - exfalso. apart N.
  - exfalso. apart N.
  - exfalso. apart N.
  - rewrite N. exists fns. split; [exact F|reflexivity].
Qed.
Lemma declares_impl d part n ms fns : declares d part -> d = DStruct n ms -> In (IImpl n fns) part -> Forall2 written ms fns.
Proof.
  intros H. destruct H as [ms' fns' F|y ms' fns' F|y ms' fns' F|y ms' fns' F| | | ]; intros E I; try discriminate E;
    pose proof (f_equal methods_of E) as M; cbn [methods_of] in M; subst ms'; unfold wrapper in I; cbn [In] in I;
    repeat (destruct I as [I|I]; [try discriminate I; injection I as <- <- || injection I as _ <-; exact F|]); destruct I.
Qed.

Section Whole.
Variable old : list name.
Variable root : hmap (Z * rootvalue).
Hypothesis T : tame root.
Hypothesis B : forall key id d rows o, In (key, (id, WTable d rows o)) root -> zlen rows < 2 ^ 64.
Variable parts : list (list item).
Hypothesis D : Forall2 declares (generate old root) parts.
Let p : list item := concat parts.

Lemma part_of d : generated old root d -> exists part, declares d part /\ incl part p.
Proof.
  assert (X : forall ds q, Forall2 declares ds q -> In d ds -> exists part, declares d part /\ incl part (concat q)).
  { induction 1 as [|d' part ds parts' H F IH]; intros G; [destruct G|]. cbn [concat]. destruct G as [->|G].
    - exists part. split; [exact H|]. intros i I. apply in_or_app. left. exact I.
    - destruct (IH G) as (q & Q & I). exists q. split; [exact Q|]. intros i J. apply in_or_app. right. exact (I i J). }
  intros G. apply (X _ _ D). apply generated_generate, G.
Qed.
Lemma part_in i : In i p -> exists d part, generated old root d /\ declares d part /\ In i part /\ incl part p.
Proof.
  assert (X : forall ds q, Forall2 declares ds q -> In i (concat q) -> exists d part, In d ds /\ declares d part /\ In i part /\ incl part (concat q)).
  { induction 1 as [|d' part ds parts' H F IH]; intros I; [destruct I|]. cbn [concat] in *. apply in_app_iff in I as [I|I].
    - exists d', part. split; [left; reflexivity|]. split; [exact H|]. split; [exact I|]. intros j J. apply in_or_app. left. exact J.
    - destruct (IH I) as (d & q & G & H' & J & K). exists d, q. split; [right; exact G|]. split; [exact H'|]. split; [exact J|]. intros j L. apply in_or_app. right. exact (K j L). }
  intros I. destruct (X _ _ D I) as (d & part & G & H). exists d, part. split; [apply generate_declared; exact G|exact H].
Qed.
Lemma names_p : type_names p = map decl_name (generate old root) /\ impl_names p = map decl_name (generate old root).
Proof.
  assert (X : forall ds q, Forall2 declares ds q -> type_names (concat q) = map decl_name ds /\ impl_names (concat q) = map decl_name ds).
  { unfold type_names, impl_names. induction 1 as [|d' part ds parts' H F IH]; [split; reflexivity|]. cbn [concat map]. rewrite !flat_map_app.
    destruct IH as [-> ->]. destruct (declares_types d' part H) as [X Y]. unfold type_names, impl_names in X, Y. rewrite X, Y. split; reflexivity. }
  exact (X _ _ D).
Qed.
Lemma generated_type d : generated old root d -> In (decl_name d) (type_names p).
Proof. intros G. rewrite (proj1 names_p). apply in_map, generated_generate, G. Qed.
Lemma generated_unique d d' : generated old root d -> generated old root d' -> decl_name d = decl_name d' -> d = d'.
Proof.
  intros G G' E. apply generated_generate in G. apply generated_generate in G'. pose proof (generate_names old root T) as N. revert N G G'.
  generalize (generate old root). induction l as [|x l IH]; intros N G G'; [destruct G|]. cbn [map] in N. apply NoDup_cons_iff in N as [N M].
  destruct G as [->|G], G' as [->|G']; [reflexivity| | |exact (IH M G G')].
  - exfalso. apply N. rewrite E. apply in_map, G'.
  - exfalso. apply N. rewrite <- E. apply in_map, G.
Qed.
Lemma impl_written n ms fns : generated old root (DStruct n ms) -> In (IImpl n fns) p -> Forall2 written ms fns.
Proof.
  intros G I. destruct (part_in _ I) as (d & part & G' & H & J & _). eapply (declares_impl d part n ms); [exact H| |exact J].
  apply generated_unique; [exact G'|exact G|]. destruct (declares_types d part H) as [_ Y]. assert (X : In n (impl_names part)).
  { unfold impl_names. apply in_flat_map. exists (IImpl n fns). split; [exact J|left; reflexivity]. }
  rewrite Y in X. destruct X as [X|[]]. exact X.
Qed.

(* ------------------------------------------------------------------ *)
(** * Names *)

Definition ends_in (c s : text) : bool := eqb_bytes (skipn (List.length c - List.length s) c) s.
Lemma ends_in_app x s : ends_in (x ++ s) s = true.
Proof.
  unfold ends_in. rewrite app_length. replace (List.length x + List.length s - List.length s)%nat with (List.length x) by lia.
  rewrite skipn_app, skipn_all, Nat.sub_diag. cbn [app skipn]. apply eqb_bytes_refl.
Qed.
Lemma not_core n : (n = !"RootIntf" \/ exists x s, In s suffixes /\ n = x ++ s) -> ~ In n core_names.
Proof.
  intros [->|(x & s & I & ->)] H.
  - assert (E : existsb (eqb_bytes !"RootIntf") core_names = false) by (vm_compute; reflexivity). rewrite <- Bool.not_true_iff_false in E. apply E. apply existsb_exists. eexists. split; [exact H|apply eqb_bytes_refl].
  - assert (E : existsb (fun c => existsb (ends_in c) suffixes) core_names = false) by (vm_compute; reflexivity). rewrite <- Bool.not_true_iff_false in E. apply E.
    apply existsb_exists. eexists. split; [exact H|]. apply existsb_exists. exists s. split; [exact I|apply ends_in_app].
Qed.
Lemma generated_core d : generated old root d -> ~ In (decl_name d) core_names.
Proof.
  intros G. apply not_core. destruct G; [left; reflexivity|right..]; cbn [decl_name ids_decl enum_decl kind_decl]; eexists; eexists; (split; [|reflexivity]); unfold suffixes; among.
Qed.
Lemma not_self d : generated old root d -> decl_name d <> !"Self".
Proof. intros G E. apply (generated_core d G). rewrite E. unfold core_names. apply in_map_iff. exists "Self"%string. split; [reflexivity|]. apply in_or_app. right. apply in_or_app. right. apply in_or_app. right. left. reflexivity. Qed.
Lemma flat_ident s : ident s -> flat s.
Proof.
  intros ((c & r & -> & C & F) & _) x [<-|I].
  - unfold lower, upper in C. lia.
  - rewrite Forall_forall in F. specialize (F x I). unfold lower, upper, digit in F. lia.
Qed.
Lemma generated_flat d : generated old root d -> flat (decl_name d).
Proof. intros G. apply flat_ident. apply (wf_idents _ (generate_well_formed old root T)). apply generated_generate, G. Qed.

(* ------------------------------------------------------------------ *)
(** * What is there *)

Lemma mitem_part stem l : mlisted root stem l -> exists fns, Forall2 written (mitem_methods stem l) fns /\ incl (wrapper (mitem_type stem) !"MItemPtr" fns) p.
Proof. intros M. destruct (part_of _ (generated_mitem old root stem l M)) as (part & H & I). apply declares_mitem in H as (fns & F & ->). exists fns. split; [exact F|exact I]. Qed.
Lemma citem_part stem l : clisted root stem l -> exists fns, Forall2 written (citem_methods stem l) fns /\ incl (wrapper (citem_type stem) !"CItemPtr" fns) p.
Proof. intros M. destruct (part_of _ (generated_citem old root stem l M)) as (part & H & I). apply declares_citem in H as (fns & F & ->). exists fns. split; [exact F|exact I]. Qed.

Lemma wrapper_made n P fns : txt P <> !"Self" -> incl (wrapper n (txt P) fns) p -> made_from p n (RName (txt P)).
Proof. intros N I. eexists. eexists. split; [apply I; right; left; reflexivity|]. cbn [of_ty]. rewrite named_other by exact N. reflexivity. Qed.
Lemma wrapper_points n P fns : incl (wrapper n P fns) p -> points p n P.
Proof. intros I. eexists. split; [eexists; apply I; left; reflexivity|left; reflexivity]. Qed.

Lemma mitem_made stem l : mlisted root stem l -> made_from p (mitem_type stem) (RName !"MItemPtr").
Proof. intros M. destruct (mitem_part stem l M) as (fns & _ & I). eapply wrapper_made; [discriminate|exact I]. Qed.
Lemma citem_made stem l : clisted root stem l -> made_from p (citem_type stem) (RName !"CItemPtr").
Proof. intros M. destruct (citem_part stem l M) as (fns & _ & I). eapply wrapper_made; [discriminate|exact I]. Qed.
Lemma citem_row stem l : clisted root stem l -> row_of p (citem_type stem).
Proof.
  intros M. split; [eapply citem_made; exact M|]. intros f (fns & I & J) E. apply (citem_no_from root T stem l M).
  pose proof (impl_written _ _ _ (generated_citem old root stem l M) I) as F. rewrite <- (written_names _ _ F), <- E. apply in_map, J.
Qed.
Lemma mitem_not_self stem l : mlisted root stem l -> mitem_type stem <> !"Self".
Proof. intros M. exact (not_self _ (generated_mitem old root stem l M)). Qed.
Lemma citem_not_self stem l : clisted root stem l -> citem_type stem <> !"Self".
Proof. intros M. exact (not_self _ (generated_citem old root stem l M)). Qed.
Lemma citem_type_ok stem l : clisted root stem l -> type_ok p (RName (citem_type stem)).
Proof. intros M. apply ok_declared. exact (generated_type _ (generated_citem old root stem l M)). Qed.

Section OfTable.
Variables (key : name) (id : Z) (d : def) (rows : hmap citem) (o : list name).
Hypothesis I : In (key, (id, WTable d rows o)) root.
Let keys := row_keys rows o.

Lemma of_clisted : exists l, clisted root key l.
Proof. destruct (table_clisted root key id d rows o I) as (l & _ & C). exists l. exact C. Qed.
Lemma table_gen : generated old root (DStruct (table_type key) (table_methods key keys)).
Proof. exact (generated_table old root key id d rows o I). Qed.
Lemma ids_gen : generated old root (ids_decl key keys).
Proof. exact (generated_ids old root key id d rows o I). Qed.
Lemma table_part : exists fns, Forall2 written (table_methods key keys) fns /\
  incl [IStruct (map txt ["Debug"; "PartialEq"]%string) (table_type key) [(!"ptr", TyName !"TablePtr")]; IImpl (table_type key) fns] p.
Proof. destruct (part_of _ table_gen) as (part & H & J). apply declares_table in H as (fns & F & ->). exists fns. split; [exact F|exact J]. Qed.
Lemma table_fn m : In m (table_methods key keys) -> exists f, fn_of p (table_type key) f /\ written m f.
Proof.
  intros M. destruct table_part as (fns & F & J). assert (X : exists f, In f fns /\ written m f).
  { clear - F M. induction F as [|a b l l' W F IH]; [destruct M|]. destruct M as [->|M]; [exists b; split; [left; reflexivity|exact W]|]. destruct (IH M) as (f & A & C). exists f. split; [right; exact A|exact C]. }
  destruct X as (f & A & W). exists f. split; [|exact W]. exists fns. split; [apply J; right; left; reflexivity|exact A].
Qed.
Lemma table_self : table_type key <> !"Self".
Proof. exact (not_self _ table_gen). Qed.
Lemma ids_self : ids_type key <> !"Self".
Proof. exact (not_self _ ids_gen). Qed.
Lemma table_type_ok : type_ok p (RName (table_type key)).
Proof. apply ok_declared. exact (generated_type _ table_gen). Qed.
Lemma ids_type_ok : type_ok p (RName (ids_type key)).
Proof. apply ok_declared. exact (generated_type _ ids_gen). Qed.
Lemma row_self : citem_type key <> !"Self".
Proof. destruct of_clisted as (l & C). eapply citem_not_self; exact C. Qed.

Lemma table_new_offer : offers p (table_type key) !"new" NoSelf false [RName !"TablePtr"] (RName (table_type key)).
Proof.
  destruct (table_fn (Meth !"new" [!"ptr"] COther [table_type key] [])) as (f & F & W); [left; reflexivity|]. inversion W; subst.
  eexists. split; [exact F|]. split; [reflexivity|]. split; [reflexivity|]. split; [reflexivity|]. split; [reflexivity|]. eexists. split; [reflexivity|].
  apply declared_ty. exact table_self.
Qed.
Lemma row_offer k : In k keys -> offers p (table_type key) (key_name (fst k) (snd k) ++ !"_us") ByRef true [] (RName (citem_type key)).
Proof.
  intros K. destruct (table_fn (Meth (key_name (fst k) (snd k) ++ !"_us") [] (CRow true (fst k)) [citem_type key] [citem_type key])) as (f & F & W).
  { right. apply in_or_app. left. apply in_flat_map. exists k. split; [exact K|left; reflexivity]. }
  inversion W; subst.
  eexists. split; [exact F|]. split; [reflexivity|]. split; [reflexivity|]. split; [reflexivity|]. split; [reflexivity|]. eexists. split; [reflexivity|].
  apply declared_ty. exact row_self.
Qed.
Lemma by_id_offer : keys <> [] -> offers p (table_type key) !"get_by_id_us" ByRef true [RName (ids_type key)] (RName (citem_type key)).
Proof.
  intros N. destruct (table_fn (Meth !"get_by_id_us" [!"id"] (CById (map (fun k => (variant_name (fst k) (snd k), key_name (fst k) (snd k) ++ txt "_us")) keys)) [ids_type key; citem_type key] [])) as (f & F & W).
  { right. apply in_or_app. right. unfold by_id_methods. destruct keys; [contradiction|]. left. reflexivity. }
  inversion W; subst.
  eexists. split; [exact F|]. split; [reflexivity|]. split; [reflexivity|]. split; [reflexivity|].
  split; [cbn [f_args map snd]; rewrite declared_ty by exact ids_self; reflexivity|]. eexists. split; [reflexivity|]. apply declared_ty. exact row_self.
Qed.
Lemma ids_part : exists part, declares (ids_decl key keys) part /\ incl part p.
Proof. exact (part_of _ ids_gen). Qed.
Lemma ids_variants : enum_variants p (ids_type key) (map (fun v => (v, None)) (map variant_of keys)).
Proof. destruct ids_part as (part & H & J). inversion H; subst. eexists. apply J. left. reflexivity. Qed.
Lemma to_str_offer : offers p (ids_type key) !"to_str" ByRef false [] str_ref.
Proof.
  destruct ids_part as (part & H & J). inversion H; subst. eexists. split; [eexists; split; [apply J; right; left; reflexivity|do 5 right; left; reflexivity]|].
  split; [reflexivity|]. split; [reflexivity|]. split; [reflexivity|]. split; [reflexivity|]. eexists. split; reflexivity.
Qed.
Lemma metadata_offer : offers p (ids_type key) !"metadata" NoSelf false [] (RRef (RSlice str_ref)).
Proof.
  destruct ids_part as (part & H & J). inversion H; subst. eexists. split; [eexists; split; [apply J; right; left; reflexivity|do 4 right; left; reflexivity]|].
  split; [reflexivity|]. split; [reflexivity|]. split; [reflexivity|]. split; [reflexivity|]. eexists. split; reflexivity.
Qed.
Lemma to_num_offer : offers p (ids_type key) !"to_num" ByRef false [] (RName !"usize").
Proof.
  destruct ids_part as (part & H & J). inversion H; subst. eexists. split; [eexists; split; [apply J; right; left; reflexivity|do 3 right; left; reflexivity]|].
  split; [reflexivity|]. split; [reflexivity|]. split; [reflexivity|]. split; [reflexivity|]. eexists. split; reflexivity.
Qed.
End OfTable.

Lemma enum_offer stem l : generated old root (enum_decl stem l) -> offers p (enum_type stem) !"new" NoSelf false [str_ref; RName !"CItemPtr"] (RName (enum_type stem)).
Proof.
  intros G. destruct (part_of _ G) as (part & H & J). inversion H; subst. eexists. split; [eexists; split; [apply J; right; left; reflexivity|left; reflexivity]|].
  split; [reflexivity|]. split; [reflexivity|]. split; [reflexivity|]. split; [reflexivity|]. eexists. split; [reflexivity|]. apply declared_ty. exact (not_self _ G).
Qed.
Lemma kind_offer stem l : generated old root (kind_decl stem l) -> offers p (kind_type stem) !"id" ByRef false [] (RPair str_ref str_ref).
Proof.
  intros G. destruct (part_of _ G) as (part & H & J). inversion H; subst. eexists. split; [eexists; split; [apply J; right; left; reflexivity|left; reflexivity]|].
  split; [reflexivity|]. split; [reflexivity|]. split; [reflexivity|]. split; [reflexivity|]. eexists. split; reflexivity.
Qed.

(* ------------------------------------------------------------------ *)
(** * Methods *)

Definition good (n : text) (m : meth) : Prop := forall f, written m f -> fn_ok p n f.

Lemma ordinary_not_self key : ordinary key -> to_snake_name key <> !"self".
Proof. intros O E. rewrite (ordinary_snake key O) in E. destruct O as (_ & K & _). apply K. rewrite E. unfold keywords. apply in_map_iff. exists "self"%string. split; [reflexivity|]. cbn [In]. tauto. Qed.

Lemma ordinary_not_none key : ordinary key -> to_snake_name key <> !"None".
Proof.
  intros O E. rewrite (ordinary_snake key O) in E. destruct O as (((c & r & E' & L & _) & _) & _). rewrite E in E'. injection E' as <- <-. unfold lower in L. lia.
Qed.

Lemma param_good n at_ t vt key o m : ordinary key -> points p n (ptr_of at_) -> In m (param_methods at_ t vt key o) -> good n m.
Proof.
  intros O P M f W. pose proof (ordinary_not_self key O) as X. pose proof (ordinary_not_none key O) as XN. unfold param_methods in M.
  assert (A : m_call m = CRead at_ t vt key \/ m_call m = CDefault at_ t vt key \/ (m_call m = CWrite at_ t vt key /\ at_ <> AtCItem /\ by_reference t = true) \/ (m_call m = CSet at_ t vt key /\ at_ <> AtCItem /\ m_args m = [to_snake_name key])).
  { destruct at_, (by_reference t); cbn [In] in M; repeat (destruct M as [<-|M]; [cbn [m_call m_args]; intuition discriminate|]); destruct M. }
  clear M. destruct A as [A|[A|[(A & C & R)|(A & C & R)]]]; destruct W; try discriminate A; injection A as -> -> -> ->.
  - apply read_ok; assumption.
  - apply read_ref_ok; assumption.
  - apply default_ok; assumption.
  - apply default_ref_ok; assumption.
  - apply write_ok; assumption.
  - cbn [m_args] in R. injection R as ->. apply set_ok; assumption.
Qed.
Lemma list_good n at_ u key o m l : at_ <> AtCItem -> mlisted root key l -> points p n (ptr_of at_) -> In m (list_methods at_ u key o) -> good n m.
Proof.
  intros A M P I f W. pose proof (mitem_made key l M) as F. pose proof (mitem_not_self key l M) as N. destruct I as [<-|[<-|[]]]; inversion W; subst.
  - apply list_maybe_ok; assumption.
  - apply list_ok; assumption.
  - apply list_mut_ok; assumption.
Qed.
Lemma const_good n at_ key o l : at_ <> AtMItem -> clisted root key l -> points p n (ptr_of at_) -> good n (const_method at_ key o).
Proof. intros A M P f W. inversion W; subst. apply const_list_ok; [exact A|exact P|eapply citem_not_self; exact M|eapply citem_made; exact M]. Qed.
Lemma table_good n key o id d rows ro : In (key, (id, WTable d rows ro)) root -> points p n !"RootObjectPtr" -> good n (table_method key o).
Proof.
  intros I P f W. inversion W; subst. apply table_ok; [exact P|eapply table_self; exact I|eapply table_type_ok; exact I|eapply table_new_offer; exact I].
Qed.
Lemma ref_get_good n at_ key vt o m id d rows ro : at_ <> AtRoot -> In (key, (id, WTable d rows ro)) root -> points p n (ptr_of at_) -> In m (ref_get at_ key vt o) -> good n m.
Proof.
  intros A I P M f W. destruct (of_clisted key id d rows ro I) as (l & C). destruct M as [<-|[<-|[]]]; inversion W; subst.
  - apply ref_ok; [exact A|exact P|eapply citem_not_self; exact C|eapply citem_type_ok; exact C|eapply citem_row; exact C].
  - apply ref_id_ok; assumption.
Qed.
Lemma ref_set_good n key vt o m id d rows ro : In (key, (id, WTable d rows ro)) root -> points p n !"MItemPtr" -> In m (ref_set key vt o) -> good n m.
Proof.
  intros I P M f W. destruct M as [<-|[]]; inversion W; subst.
  apply set_ref_ok; [exact P|eapply ids_self; exact I|eapply ids_type_ok; exact I|eapply to_str_offer; exact I].
Qed.
Lemma refs_get_good n at_ stem l m : at_ <> AtRoot -> clisted root stem l \/ mlisted root stem l -> points p n (ptr_of at_) -> In m (refs_get at_ stem l) -> good n m.
Proof.
  intros A C P M. assert (L : listed root stem l) by (destruct C; [apply clisted_listed|apply mlisted_listed]; assumption). unfold refs_get in M. destruct (ld_enum l) eqn:E.
  - assert (G : generated old root (enum_decl stem l)) by (destruct C; [apply generated_cenum|apply generated_menum]; assumption).
    intros f W. destruct M as [<-|[<-|[]]]; inversion W; subst.
    + apply enum_ok; [exact A|exact P|exact (not_self _ G)|apply ok_declared; exact (generated_type _ G)|eapply enum_offer; exact G].
    + apply enum_ids_ok; assumption.
  - apply in_flat_map in M as ((key & id & q & vt) & He & M). destruct (ref_table root T stem l key _ L He) as (i & d & rows & ro & I).
    eapply ref_get_good; [exact A|exact I|exact P|exact M].
Qed.
Lemma refs_set_good n stem l m : mlisted root stem l -> points p n !"MItemPtr" -> In m (refs_set stem l) -> good n m.
Proof.
  intros C P M. pose proof (mlisted_listed _ _ _ C) as L. unfold refs_set in M. destruct (ld_enum l) eqn:E.
  - pose proof (generated_kind old root stem l C E) as G. intros f W. destruct M as [<-|[]]; inversion W; subst.
    apply set_enum_ok; [exact P|exact (not_self _ G)|apply ok_declared; exact (generated_type _ G)|eapply kind_offer; exact G].
  - apply in_flat_map in M as ((key & id & q & vt) & He & M). destruct (ref_table root T stem l key _ L He) as (i & d & rows & ro & I).
    eapply ref_set_good; [exact I|exact P|exact M].
Qed.

Lemma mitem_good stem l m : mlisted root stem l -> In m (mitem_methods stem l) -> good (mitem_type stem) m.
Proof.
  intros C M. assert (P : points p (mitem_type stem) (ptr_of AtMItem)) by (destruct (mitem_part stem l C) as (fns & _ & I); eapply wrapper_points; exact I).
  pose proof (mlisted_listed _ _ _ C) as L. destruct (t_members root T stem l L) as (_ & O). unfold mitem_methods in M. apply in_app_iff in M as [M|M]; [|apply in_app_iff in M as [M|M]].
  - apply in_flat_map in M as ((key & id & v) & He & M). destruct v as [q vt|d|[l'] u]; [|destruct M|].
    + eapply param_good; [exact (O _ _ He)|exact P|exact M].
    + eapply (list_good _ AtMItem); [discriminate|eapply mlisted_mil; eassumption|exact P|exact M].
  - eapply refs_get_good; [|right; exact C|exact P|exact M]. discriminate.
  - eapply refs_set_good; [exact C|exact P|exact M].
Qed.
Lemma citem_good stem l m : clisted root stem l -> In m (citem_methods stem l) -> good (citem_type stem) m.
Proof.
  intros C M. assert (P : points p (citem_type stem) (ptr_of AtCItem)) by (destruct (citem_part stem l C) as (fns & _ & I); eapply wrapper_points; exact I).
  pose proof (clisted_listed _ _ _ C) as L. destruct (t_members root T stem l L) as (_ & O). unfold citem_methods in M. apply in_app_iff in M as [M|M].
  - apply in_flat_map in M as ((key & id & v) & He & M). destruct v as [q vt|[l']|d u]; [| |destruct M].
    + eapply param_good; [exact (O _ _ He)|exact P|exact M].
    + destruct M as [<-|[]]. eapply (const_good _ AtCItem); [discriminate|eapply clisted_cil; eassumption|exact P].
  - eapply refs_get_good; [|left; exact C|exact P|exact M]. discriminate.
Qed.
Lemma root_good m : In m (root_methods old (strip_root root)) -> struct_fields p !"RootIntf" root_fields -> good !"RootIntf" m.
Proof.
  intros M F. assert (P : points p !"RootIntf" (ptr_of AtRoot)) by (exists root_fields; split; [exact F|right; left; reflexivity]).
  assert (Dn : In !"RootIntf" (type_names p)) by exact (generated_type _ (generated_root old root)).
  unfold root_methods in M. apply in_app_iff in M as [M|M].
  - intros f W. unfold root_fixed in M. destruct M as [<-|[<-|[<-|[<-|[]]]]]; inversion W; subst.
    + apply root_new_ok; [discriminate|exact F|exact Dn].
    + apply root_ref_ok. exact F.
    + apply root_ref_mut_ok. exact F.
    + apply root_deconstruct_ok. exact F.
  - apply in_flat_map in M as ((key & id & v) & He & M). destruct (strip_in root key id v He) as (w & I & ->).
    pose proof (t_names root T _ _ I) as O. destruct w as [q vt|d rows ro|[l] items|[l] u]; cbn [strip] in M.
    + eapply param_good; [exact O|exact P|exact M].
    + destruct M as [<-|[]]. eapply table_good; [exact I|exact P].
    + destruct M as [<-|[]]. eapply (const_good _ AtRoot); [discriminate|eapply clisted_clist; exact I|exact P].
    + eapply (list_good _ AtRoot); [discriminate|eapply mlisted_mlist; exact I|exact P|exact M].
Qed.
Lemma rows_good key id d rows o m : In (key, (id, WTable d rows o)) root -> In m (table_methods key (row_keys rows o)) -> good (table_type key) m.
Proof.
  intros I M f W. destruct (table_part key id d rows o I) as (fns & _ & J). assert (F : struct_fields p (table_type key) [(!"ptr", TyName !"TablePtr")]) by (eexists; apply J; left; reflexivity).
  assert (P : points p (table_type key) !"TablePtr") by (eexists; split; [exact F|left; reflexivity]). destruct (of_clisted key id d rows o I) as (l & C).
  pose proof (citem_not_self key l C) as Cs. pose proof (citem_type_ok key l C) as Ct. pose proof (citem_row key l C) as Cr.
  pose proof (ids_self key id d rows o I) as Is. pose proof (ids_type_ok key id d rows o I) as It.
  destruct M as [<-|M]; [|apply in_app_iff in M as [M|M]].
  - inversion W; subst. apply table_new_ok; [eapply table_self; exact I|exact (generated_type _ (table_gen key id d rows o I))|exact F].
  - apply in_flat_map in M as (k & K & M). destruct M as [<-|[<-|[]]]; inversion W; subst.
    + apply row_us_ok; assumption.
    + apply row_ok; assumption.
  - assert (N : row_keys rows o <> []) by (intros N; rewrite N in M; destruct M). pose proof (by_id_offer key id d rows o I N) as Of.
    assert (V : m = Meth !"get_by_id_us" [!"id"] (CById (map (fun k => (variant_name (fst k) (snd k), key_name (fst k) (snd k) ++ txt "_us")) (row_keys rows o))) [ids_type key; citem_type key] [] \/
                m = Meth !"get_by_id" [!"id"] (CById (map (fun k => (variant_name (fst k) (snd k), key_name (fst k) (snd k) ++ txt "_us")) (row_keys rows o))) [ids_type key; citem_type key] []).
    { unfold by_id_methods in M. destruct (row_keys rows o); [destruct M|]. destruct M as [<-|[<-|[]]]; [left|right]; reflexivity. }
    clear M. destruct V as [-> | ->]; inversion W; subst.
    + eapply by_id_us_ok; [exact Cs|exact Is|exact Ct|exact It|eapply ids_variants; exact I| | |].
      * intros v Hv. apply in_map_iff in Hv as (w & <- & Hw). cbn [fst snd]. split; [reflexivity|]. apply in_map_iff in Hw as (k & <- & K). rewrite map_map. cbn [fst]. apply in_map_iff. exists k. split; [reflexivity|exact K].
      * intros v Hv. rewrite map_map in Hv. cbn [fst] in Hv. apply in_map_iff in Hv as (k & <- & K). apply in_map_iff. eexists. split; [reflexivity|]. apply in_map_iff. exists k. split; [reflexivity|exact K].
      * intros v g Hv. apply in_map_iff in Hv as (k & E & K). apply pair_equal_spec in E as [_ <-]. eapply row_offer; [exact I|exact K].
    + apply by_id_ok; assumption.
Qed.

(* ------------------------------------------------------------------ *)
(** * Items *)

Lemma all_good n ms fns : Forall2 written ms fns -> (forall m, In m ms -> good n m) -> Forall (fn_ok p n) fns.
Proof.
  induction 1 as [|m f ms fns W F IH]; intros G; [apply Forall_nil|]. apply Forall_cons; [apply (G m); [left; reflexivity|exact W]|]. apply IH. intros m' M. apply G. right. exact M.
Qed.
Lemma struct_names n ms fns : generated old root (DStruct n ms) -> Forall2 written ms fns -> NoDup (map f_name fns).
Proof. intros G F. rewrite (written_names _ _ F). destruct (struct_sound old root T n ms G) as (l & S). exact (proj1 (sound_methods ms l S)). Qed.

Lemma wrapper_ok n P l fns : In (P, l) core_types -> incl ["Debug"; "PartialEq"; "Clone"; "Copy"]%string l -> txt P <> !"Self" -> In n (type_names p) ->
  incl (wrapper n (txt P) fns) p -> NoDup (map f_name fns) -> Forall (fn_ok p n) fns -> Forall (item_ok p) (wrapper n (txt P) fns).
Proof.
  intros I L S Dn J N F. unfold wrapper. apply Forall_cons; [|apply Forall_cons; [|apply Forall_cons; [|apply Forall_nil]]].
  - apply io_struct.
    + repeat constructor. intros [].
    + apply Forall_cons; [|apply Forall_nil]. cbn [snd of_ty]. rewrite named_other by exact S. eapply ok_core. exact I.
    + intros t f H [<-|[]]. cbn [snd of_ty]. rewrite named_other by exact S. apply in_map_iff in H as (s & <- & H). eapply i_core; [exact I|apply L; exact H|reflexivity].
    + intros _. cbn [map In]. tauto.
  - eapply io_from; try reflexivity; [exact Dn| |].
    + eapply from_ok; [exact Dn|exact I|exact S|]. eexists. apply J. left. reflexivity.
    + eexists. split; reflexivity.
  - apply io_impl; assumption.
Qed.

Lemma enumerate_bound {A} (l : list A) : forall i k x, In (k, x) (enumerate_from i l) -> i <= k < i + zlen l.
Proof.
  induction l as [|y l IH]; intros i k x H; [destruct H|]. cbn [enumerate_from] in H. rewrite zlen_cons. destruct H as [H|H].
  - apply pair_equal_spec in H as [<- _]. pose proof (zlen_nonneg l). lia.
  - apply IH in H. lia.
Qed.

Lemma ids_ok key id d rows o part : In (key, (id, WTable d rows o)) root -> declares (ids_decl key (row_keys rows o)) part -> incl part p -> Forall (item_ok p) part.
Proof.
  intros I H J. pose proof (ids_gen key id d rows o I) as G. destruct (ids_fine root T key id d rows o I) as (Ne & Nd & _ & _). cbn zeta in Ne, Nd.
  pose proof (ids_variants key id d rows o I) as V. pose proof (ids_self key id d rows o I) as S.
  assert (X : map (fun e : Z * (name * bool) => variant_of (snd e)) (enumerate (row_keys rows o)) = map variant_of (row_keys rows o)).
  { rewrite <- (map_map snd variant_of). unfold enumerate. rewrite enumerate_snd. reflexivity. }
  assert (Bk : zlen (row_keys rows o) < 2 ^ 64). { unfold row_keys. unfold zlen. rewrite map_length. eapply B. exact I. }
  inversion H; subst. apply Forall_cons; [|apply Forall_cons; [|apply Forall_nil]].
  - apply io_enum.
    + rewrite map_map. cbn [fst]. rewrite map_id. exact Nd.
    + intros _ E. apply Ne. apply map_eq_nil in E. exact E.
    + intros v t E. apply in_map_iff in E as (w & E & _). discriminate E.
  - apply io_impl; [exact (generated_type _ G)| |].
    + cbn [map f_name public]. repeat (apply NoDup_cons; [cbn [In]; let H := fresh in intros H; repeat (destruct H as [H|H]; [discriminate H|]); exact H|]). apply NoDup_nil.
    + pose proof (generated_type _ G) as Dn. cbn [decl_name ids_decl] in Dn.
      apply Forall_cons; [|apply Forall_cons; [|apply Forall_cons; [|apply Forall_cons; [|apply Forall_cons; [|apply Forall_cons; [|apply Forall_nil]]]]]].
      * eapply from_str_ok; [exact Dn|exact V|]. rewrite map_snd_map. apply incl_refl.
      * eapply from_num_ok; [exact Dn|exact V| | |exact (generated_flat _ G)].
        -- rewrite map_snd_map, X. apply incl_refl.
        -- intros k v K. apply in_map_iff in K as ((k' & y) & E & K). apply pair_equal_spec in E as [<- _]. cbn [fst]. apply enumerate_bound in K. lia.
      * eapply len_ok. pose proof (zlen_nonneg (row_keys rows o)). lia.
      * eapply to_num_ok; [exact V|exact Ne| |].
        -- intros v. rewrite map_fst_map, X. tauto.
        -- intros v k K. apply in_map_iff in K as ((k' & y) & E & K). apply pair_equal_spec in E as [_ <-]. cbn [fst]. apply enumerate_bound in K. lia.
      * apply metadata_ok.
      * apply to_str_ok; [eapply metadata_offer; exact I|eapply to_num_offer; exact I].
Qed.

Lemma refs_keys stem l key : listed root stem l -> In key (map fst (ld_refs l)) -> exists id d rows o, In (key, (id, WTable d rows o)) root.
Proof. intros L H. apply in_map_iff in H as ((k & v) & <- & H). exact (ref_table root T stem l k v L H). Qed.

Lemma enum_items_ok stem l part : clisted root stem l \/ mlisted root stem l -> generated old root (enum_decl stem l) -> declares (enum_decl stem l) part -> incl part p -> Forall (item_ok p) part.
Proof.
  intros C G H J. assert (L : listed root stem l) by (destruct C; [apply clisted_listed|apply mlisted_listed]; assumption).
  destruct (enum_fine old root T stem l C) as (Nd & _). cbn zeta in Nd. pose proof (generated_type _ G) as Dn. pose proof (not_self _ G) as S. cbn [decl_name enum_decl] in Dn, S.
  set (vs := map (fun key => (to_type_name key, citem_type key)) (map fst (ld_refs l))) in *.
  assert (K : forall a, In a (map snd vs) -> exists key l', a = citem_type key /\ clisted root key l').
  { intros a A. unfold vs in A. rewrite map_snd_map in A. apply in_map_iff in A as (key & <- & A). destruct (refs_keys stem l key L A) as (id & d & rows & o & I).
    destruct (of_clisted key id d rows o I) as (l' & C'). exists key, l'. split; [reflexivity|exact C']. }
  inversion H as [| | | | |n vs' new F E1 E2|]. subst. clear H. fold vs in J, F |- *. apply Forall_cons; [|apply Forall_cons; [|apply Forall_nil]].
  - apply io_enum.
    + rewrite map_map. exact Nd.
    + intros E. contradiction E. reflexivity.
    + intros v t E. apply in_map_iff in E as ((w & a) & E & A). apply pair_equal_spec in E as [_ E]. apply Some_inj in E. subst t. cbn [snd].
      destruct (K a) as (key & l' & -> & C'); [apply in_map_iff; exists (w, a); split; [reflexivity|exact A]|].
      rewrite declared_ty by (eapply citem_not_self; exact C'). eapply citem_type_ok. exact C'.
  - apply io_impl; [exact Dn|cbn [map]; repeat constructor; intros []|]. apply Forall_cons; [|apply Forall_nil].
    apply enum_new_ok; [exact S|exact Dn|eexists; apply J; left; reflexivity|exact F| |exact (generated_flat _ G)].
    intros a A. destruct (K a A) as (key & l' & -> & C'). split; [eapply citem_not_self; exact C'|eapply citem_row; exact C'].
Qed.
Lemma kind_items_ok stem l part : mlisted root stem l -> ld_enum l = true -> declares (kind_decl stem l) part -> incl part p -> Forall (item_ok p) part.
Proof.
  intros C En H J. pose proof (generated_kind old root stem l C En) as G. pose proof (mlisted_listed _ _ _ C) as L.
  destruct (kind_fine old root T stem l C En) as (Ne & Nd & _ & _ & Ar & _). cbn zeta in Ne, Nd, Ar. pose proof (generated_type _ G) as Dn. pose proof (not_self _ G) as S. cbn [decl_name kind_decl] in Dn, S.
  set (vs := map (fun key => (to_type_name key, ids_type key)) (map fst (ld_refs l))) in *.
  assert (K : forall a, In a (map snd vs) -> a <> !"Self" /\ type_ok p (RName a) /\ offers p a !"to_str" ByRef false [] str_ref).
  { intros a A. unfold vs in A. rewrite map_snd_map in A. apply in_map_iff in A as (key & <- & A). destruct (refs_keys stem l key L A) as (id & d & rows & o & I).
    split; [eapply ids_self; exact I|]. split; [eapply ids_type_ok; exact I|eapply to_str_offer; exact I]. }
  inversion H as [| | | | | |n vs' new E1 E2]. subst. clear H. fold vs in J |- *. apply Forall_cons; [|apply Forall_cons; [|apply Forall_nil]].
  - apply io_enum.
    + rewrite map_map. exact Nd.
    + intros E. contradiction E. reflexivity.
    + intros v t E. apply in_map_iff in E as ((w & a) & E & A). apply pair_equal_spec in E as [_ E]. apply Some_inj in E. subst t. cbn [snd].
      destruct (K a) as (X & Y & _); [apply in_map_iff; exists (w, a); split; [reflexivity|exact A]|]. rewrite declared_ty by exact X. exact Y.
  - apply io_impl; [exact Dn|cbn [map]; repeat constructor; intros []|]. apply Forall_cons; [|apply Forall_nil].
    eapply kind_id_ok; [exact S|exact Dn|eexists; apply J; left; reflexivity|exact Ne|exact Ar|]. intros a A. destruct (K a A) as (X & _ & Y). split; [exact X|exact Y].
Qed.

Lemma copies : incl ["Debug"; "PartialEq"; "Clone"; "Copy"]%string ["Debug"; "PartialEq"; "Clone"; "Copy"]%string.
Proof. apply incl_refl. Qed.

Lemma part_ok d part : generated old root d -> declares d part -> incl part p -> Forall (item_ok p) part.
Proof.
  intros G. pose proof (generated_type d G) as Dn. destruct G as [|key id d rows o I|key id d rows o I|stem l C|stem l C En|stem l C|stem l C En|stem l C En]; intros H J; cbn [decl_name] in Dn.
  - apply declares_root in H as (fns & F & ->). assert (Fs : struct_fields p !"RootIntf" root_fields) by (eexists; apply J; do 4 right; left; reflexivity).
    apply Forall_cons; [apply io_use; left; reflexivity|]. apply Forall_cons; [apply io_use; right; left; reflexivity|].
    apply Forall_cons; [apply io_unsafe; [left; reflexivity|exact Dn]|]. apply Forall_cons; [apply io_unsafe; [right; left; reflexivity|exact Dn]|].
    apply Forall_cons; [|apply Forall_cons; [|apply Forall_nil]].
    + apply io_struct.
      * cbn [map fst root_fields]. repeat (apply NoDup_cons; [cbn [In]; let H := fresh in intros H; repeat (destruct H as [H|H]; [discriminate H|]); exact H|]). apply NoDup_nil.
      * apply Forall_cons; [|apply Forall_cons; [|apply Forall_nil]].
        -- cbn [snd of_ty]. apply (generic_ok p "Box"); [cbn [core_generics In]; tauto|]. apply (obj_ok p).
        -- apply (ok_core p "RootObjectPtr" ["Debug"; "PartialEq"; "Clone"; "Copy"]%string). cbn [core_types In]. tauto.
      * intros t f [<-|[]] K. unfold root_fields in K. destruct K as [<-|[<-|[]]].
        -- apply i_box; [reflexivity|]. apply (i_core p !"Debug" "RootObject" ["Debug"]%string "Debug"); [cbn [core_types In]; tauto|left; reflexivity|reflexivity].
        -- apply (i_core p !"Debug" "RootObjectPtr" ["Debug"; "PartialEq"; "Clone"; "Copy"]%string "Debug"); [cbn [core_types In]; tauto|left; reflexivity|reflexivity].
      * intros [E|[]]. discriminate E.
    + apply io_impl; [exact Dn|eapply struct_names; [apply generated_root|exact F]|]. eapply all_good; [exact F|]. intros m M. apply root_good; assumption.
  - pose proof (table_gen key id d rows o I) as G. apply declares_table in H as (fns & F & ->). apply Forall_cons; [|apply Forall_cons; [|apply Forall_nil]].
    + apply io_struct.
      * repeat constructor. intros [].
      * apply Forall_cons; [|apply Forall_nil]. apply (ok_core p "TablePtr" ["Debug"; "PartialEq"; "Clone"; "Copy"]%string). cbn [core_types In]. tauto.
      * intros t f K [<-|[]]. apply in_map_iff in K as (s & <- & K). apply (i_core p _ "TablePtr" ["Debug"; "PartialEq"; "Clone"; "Copy"]%string s); [cbn [core_types In]; tauto| |reflexivity].
        cbn [In] in *. tauto.
      * intros E. exfalso. cbn [map In] in E. destruct E as [E|[E|[]]]; discriminate E.
    + apply io_impl; [exact Dn|eapply struct_names; [exact G|exact F]|]. eapply all_good; [exact F|]. intros m M. eapply rows_good; eassumption.
  - eapply ids_ok; eassumption.
  - pose proof (generated_citem old root stem l C) as G. apply declares_citem in H as (fns & F & ->).
    eapply (wrapper_ok _ "CItemPtr"); [|apply copies|discriminate|exact Dn|exact J|eapply struct_names; [exact G|exact F]|eapply all_good; [exact F|]].
    + cbn [core_types In]. tauto.
    + intros m M. eapply citem_good; eassumption.
  - eapply enum_items_ok; [left; exact C|apply generated_cenum; assumption|exact H|exact J].
  - pose proof (generated_mitem old root stem l C) as G. apply declares_mitem in H as (fns & F & ->).
    eapply (wrapper_ok _ "MItemPtr"); [|apply copies|discriminate|exact Dn|exact J|eapply struct_names; [exact G|exact F]|eapply all_good; [exact F|]].
    + cbn [core_types In]. tauto.
    + intros m M. eapply mitem_good; eassumption.
  - eapply enum_items_ok; [right; exact C|apply generated_menum; assumption|exact H|exact J].
  - eapply kind_items_ok; eassumption.
Qed.

Lemma whole_ok : program_ok p.
Proof.
  destruct names_p as [X Y]. split.
  - rewrite X. apply generate_names, T.
  - rewrite Y. apply generate_names, T.
  - intros n I. rewrite X in I. apply in_map_iff in I as (d & <- & I). apply generated_core, generate_declared, I.
  - apply Forall_forall. intros i I. destruct (part_in i I) as (d & part & G & H & J & K). pose proof (part_ok d part G H K) as F. rewrite Forall_forall in F. exact (F i J).
Qed.
End Whole.
