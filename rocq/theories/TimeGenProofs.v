(** Proof of C80: the functions of a generated program. *)
From Coq Require Import String.
From Verif Require Import Base StringCompactionModel StringCompactionProofs LinkedModel LinkedSpec DocModel DiffSpec DiffProofs ArchiveModel JsonModel JsonSpec ValidSpec IntfModel IntfProofs
  GenModel GenSpec GenNameProofs GenProofs GenWellProofs CodeModel CodeSpec CodeNameProofs ApiModel TypeSpec TypeProofs TypeFnProofs TypeItemProofs TypeGenProofs ReadModel RunModel RunSpec RunProofs RunGenProofs
  SoundSpec SoundProofs SoundStepProofs SoundGenProofs TimeProofs TimeFnProofs.

Local Notation text := (list Z).
Local Notation "! s" := (txt s%string) (at level 0, s at level 0).

Section Whole.
Variable old : list name.
Variable root : hmap (Z * rootvalue).
Hypothesis TM : GenSpec.tame root.
Hypothesis B : forall key id d rows o, In (key, (id, WTable d rows o)) root -> zlen rows < 2 ^ 64.
Variable parts : list (list CodeSpec.item).
Hypothesis D : Forall2 declares (generate old root) parts.
Let p : list CodeSpec.item := concat parts.
Variable iter : forall A, hmap A -> hmap A.
Variable r : root_obj.
Variable told : effect -> bool.
Variable o o' : res (val * trace).
Hypothesis OUT : o = Err \/ o = Panic.
Local Notation quick := (TimeProofs.quick p iter r told o o').
Local Notation brief := (TimeProofs.brief p iter r told o o').
Local Notation has_fn := (TimeProofs.has_fn p iter r told o o').

Lemma POK : program_ok p. Proof. exact (whole_ok old root TM B parts D). Qed.
Lemma NAMED : plainly_named p. Proof. exact (whole_named old root TM B parts D). Qed.
Let Types := generated_type old root parts D.
Let NotSelf := not_self old root B.

Lemma citem_has_from stem l : clisted root stem l -> has_from p (citem_type stem).
Proof.
  intros C. pose proof (generated_citem old root stem l C) as G. split; [exact (NotSelf _ G)|]. split; [exact (Types _ G)|].
  exists (from_fn !"CItemPtr"). eexists. split; [|split; [reflexivity|split; [reflexivity|exact Logic.I]]].
  rewrite fn_named_app, (citem_from old root TM parts D stem l C : trait_fns p _ = _). replace (fn_named !"from" (own_fns p (citem_type stem))) with (@None fn); [reflexivity|]. symmetry. unfold fn_named.
  destruct (find _ _) as [g|] eqn:E; [|reflexivity]. exfalso. apply find_some in E as (I & E). apply eqb_bytes_eq in E. exact (proj2 (citem_row old root TM parts D stem l C) g (own_fns_in p _ g I) E).
Qed.

Section OfTable.
Variables (key : name) (id : Z) (d : def) (rows : hmap citem) (ro : list name).
Hypothesis I : In (key, (id, WTable d rows ro)) root.
Lemma table_has_new : has_fn 1 (table_type key) !"new" NoSelf.
Proof.
  destruct (table_fn old root parts D key id d rows ro I (Meth !"new" [!"ptr"] COther [table_type key] [])) as (f & F & W); [left; reflexivity|]. inversion W; subst.
  eexists. split; [exact F|]. split; [reflexivity|]. split; [reflexivity|]. apply table_new_quick.
Qed.
Lemma row_from : has_from p (citem_type key).
Proof. destruct (of_clisted root key id d rows ro I) as (l & C). exact (citem_has_from key l C). Qed.
Lemma row_has k : In k (row_keys rows ro) -> has_fn 4 (table_type key) (key_name (fst k) (snd k) ++ !"_us") ByRef.
Proof.
  intros K. destruct (table_fn old root parts D key id d rows ro I (Meth (key_name (fst k) (snd k) ++ !"_us") [] (CRow true (fst k)) [citem_type key] [citem_type key])) as (f & F & W).
  { right. apply in_or_app. left. apply in_flat_map. exists k. split; [exact K|left; reflexivity]. }
  inversion W; subst. eexists. split; [exact F|]. split; [reflexivity|]. split; [reflexivity|]. apply row_us_quick; try exact POK; try exact NAMED; try exact OUT; [exact row_from].
Qed.
Lemma by_id_arms v g : In (v, g) (map (fun k => (variant_name (fst k) (snd k), key_name (fst k) (snd k) ++ txt "_us")) (row_keys rows ro)) -> has_fn 4 (table_type key) g ByRef.
Proof. intros Hv. apply in_map_iff in Hv as (k & E & K). apply pair_equal_spec in E as [_ <-]. apply row_has, K. Qed.
Lemma by_id_has : row_keys rows ro <> [] -> has_fn 6 (table_type key) !"get_by_id_us" ByRef.
Proof.
  intros N. destruct (table_fn old root parts D key id d rows ro I (Meth !"get_by_id_us" [!"id"] (CById (map (fun k => (variant_name (fst k) (snd k), key_name (fst k) (snd k) ++ txt "_us")) (row_keys rows ro))) [ids_type key; citem_type key] [])) as (f & F & W).
  { right. apply in_or_app. right. unfold by_id_methods. destruct (row_keys rows ro); [contradiction|]. left. reflexivity. }
  inversion W; subst. eexists. split; [exact F|]. split; [reflexivity|]. split; [reflexivity|]. apply by_id_us_quick; try exact POK; try exact NAMED; try exact OUT; [exact by_id_arms].
Qed.
Lemma ids_has : has_fn 3 (ids_type key) !"metadata" NoSelf /\ has_fn 3 (ids_type key) !"to_num" ByRef.
Proof.
  destruct (ids_part old root parts D key id d rows ro I) as (part & H & J). inversion H; subst. split.
  - eexists. split; [eexists; split; [apply J; right; left; reflexivity|do 4 right; left; reflexivity]|]. split; [reflexivity|]. split; [reflexivity|]. apply metadata_quick.
  - eexists. split; [eexists; split; [apply J; right; left; reflexivity|do 3 right; left; reflexivity]|]. split; [reflexivity|]. split; [reflexivity|]. apply to_num_quick.
Qed.
Lemma to_str_has : has_fn 5 (ids_type key) !"to_str" ByRef.
Proof.
  destruct (ids_part old root parts D key id d rows ro I) as (part & H & J). inversion H; subst. eexists. split; [eexists; split; [apply J; right; left; reflexivity|do 5 right; left; reflexivity]|].
  split; [reflexivity|]. split; [reflexivity|]. apply to_str_quick; try exact POK; try exact NAMED; try exact OUT; [apply ids_has..].
Qed.
End OfTable.

Lemma enum_quick stem l part : clisted root stem l \/ mlisted root stem l -> generated old root (enum_decl stem l) -> declares (enum_decl stem l) part -> incl part p ->
  forall fns f, In (IImpl (enum_type stem) fns) part -> In f fns -> f_name f = !"new" /\ f_self f = NoSelf /\ quick 5 (enum_type stem) f.
Proof.
  intros C G H J fns f K M. assert (L : listed root stem l) by (destruct C; [apply clisted_listed|apply mlisted_listed]; assumption).
  set (vs := map (fun key => (to_type_name key, citem_type key)) (map fst (ld_refs l))) in *.
  inversion H as [| | | | |n vs' new F E1 E2|]. subst. clear H. fold vs in J, F, K. destruct K as [K|[K|[]]]; [discriminate K|]. injection K as <-. destruct M as [<-|[]]. split; [reflexivity|]. split; [reflexivity|].
  apply enum_new_quick; try exact POK; try exact NAMED; try exact OUT; [exact (NotSelf _ G)|exact (Types _ G)|eexists; apply J; left; reflexivity|exact F|].
  intros a A. unfold vs in A. rewrite map_snd_map in A. apply in_map_iff in A as (key & <- & A). destruct (refs_keys root TM stem l key L A) as (id & d & rows & ro & I). exact (row_from key id d rows ro I).
Qed.
Lemma enum_has stem l : clisted root stem l \/ mlisted root stem l -> generated old root (enum_decl stem l) -> has_fn 5 (enum_type stem) !"new" NoSelf.
Proof.
  intros C G. destruct (part_of old root parts D _ G) as (part & H & J). pose proof (enum_quick stem l part C G H J) as Q. inversion H; subst.
  edestruct Q as (X & Y & W); [right; left; reflexivity|left; reflexivity|]. eexists. split; [eexists; split; [apply J; right; left; reflexivity|left; reflexivity]|]. split; [exact X|]. split; [exact Y|exact W].
Qed.
Lemma kind_quick stem l part : mlisted root stem l -> generated old root (kind_decl stem l) -> declares (kind_decl stem l) part -> incl part p ->
  forall fns f, In (IImpl (kind_type stem) fns) part -> In f fns -> f_name f = !"id" /\ f_self f = ByRef /\ quick 8 (kind_type stem) f.
Proof.
  intros C G H J fns f K M. pose proof (mlisted_listed _ _ _ C) as L.
  set (vs := map (fun key => (to_type_name key, ids_type key)) (map fst (ld_refs l))) in *.
  inversion H as [| | | | | |n vs' new E1 E2]. subst. clear H. fold vs in J, K. destruct K as [K|[K|[]]]; [discriminate K|]. injection K as <-. destruct M as [<-|[]]. split; [reflexivity|]. split; [reflexivity|].
  eapply kind_id_quick; try exact POK; try exact NAMED; try exact OUT; [eexists; apply J; left; reflexivity|].
  intros a A. unfold vs in A. rewrite map_snd_map in A. apply in_map_iff in A as (key & <- & A). destruct (refs_keys root TM stem l key L A) as (id & d & rows & ro & I).
  split; [eapply (ids_self old root B); exact I|eapply to_str_has; exact I].
Qed.
Lemma kind_has stem l : mlisted root stem l -> generated old root (kind_decl stem l) -> has_fn 8 (kind_type stem) !"id" ByRef.
Proof.
  intros C G. destruct (part_of old root parts D _ G) as (part & H & J). pose proof (kind_quick stem l part C G H J) as Q. inversion H; subst.
  edestruct Q as (X & Y & W); [right; left; reflexivity|left; reflexivity|]. eexists. split; [eexists; split; [apply J; right; left; reflexivity|left; reflexivity]|]. split; [exact X|]. split; [exact Y|exact W].
Qed.

(* ------------------------------------------------------------------ *)
(** * Methods *)

Definition soon (n : text) (m : meth) : Prop := forall f, written m f -> brief 10 n f.
Lemma quick_ten i n f : quick i n f -> (i <= 10)%nat -> brief 10 n f.
Proof. intros Q L. replace 10%nat with ((10 - i) + i)%nat by lia. apply brief_more, quick_brief, Q. Qed.

Lemma param_soon n at_ t vt key d m : ordinary key -> In m (param_methods at_ t vt key d) -> soon n m.
Proof.
  intros O M f W. pose proof (ordinary_not_self key O) as X. pose proof (ordinary_not_none root B key O) as XN. unfold param_methods in M.
  assert (A : m_call m = CRead at_ t vt key \/ m_call m = CDefault at_ t vt key \/ (m_call m = CWrite at_ t vt key /\ at_ <> AtCItem /\ by_reference t = true) \/ (m_call m = CSet at_ t vt key /\ at_ <> AtCItem /\ m_args m = [to_snake_name key])).
  { destruct at_, (by_reference t); cbn [In] in M; repeat (destruct M as [<-|M]; [cbn [m_call m_args]; intuition discriminate|]); destruct M. }
  clear M. destruct A as [A|[A|[(A & C & R)|(A & C & R)]]]; destruct W; try discriminate A; injection A as -> -> -> ->.
  - assert (Y : exists g, core_fn (module at_) (txt "get_" ++ nick t) = Some g /\ deep g = true) by (destruct at_, t; try discriminate; eexists; split; reflexivity). destruct Y as (g & Y & Z). eapply getter_brief; try exact POK; try exact NAMED; try exact OUT; [exact Y|exact Z].
  - assert (Y : exists g, core_fn (module at_) (txt "get_immutable_" ++ nick t) = Some g /\ deep g = true) by (destruct at_, t; try discriminate; eexists; split; reflexivity). destruct Y as (g & Y & Z). eapply getter_brief; try exact POK; try exact NAMED; try exact OUT; [exact Y|exact Z].
  - assert (Y : exists g, core_fn (module at_) (txt "get_" ++ nick t ++ txt "_def") = Some g /\ deep g = true) by (destruct at_, t; try discriminate; eexists; split; reflexivity). destruct Y as (g & Y & Z). eapply getter_brief; try exact POK; try exact NAMED; try exact OUT; [exact Y|exact Z].
  - assert (Y : exists g, core_fn (module at_) (txt "get_" ++ nick t ++ txt "_def") = Some g /\ deep g = true) by (destruct at_, t; try discriminate; eexists; split; reflexivity). destruct Y as (g & Y & Z). eapply getter_brief; try exact POK; try exact NAMED; try exact OUT; [exact Y|exact Z].
  - assert (Y : exists g, core_fn (module at_) (txt "get_mutable_" ++ nick t) = Some g /\ deep g = true) by (destruct at_; [| |contradiction C; reflexivity]; destruct t; try discriminate; eexists; split; reflexivity). destruct Y as (g & Y & Z). eapply getter_brief; try exact POK; try exact NAMED; try exact OUT; [exact Y|exact Z].
  - cbn [m_args] in R. injection R as ->. apply set_brief; try exact POK; try exact NAMED; try exact OUT; [assumption..].
Qed.
Lemma list_soon n at_ u key d m : at_ <> AtCItem -> In m (list_methods at_ u key d) -> soon n m.
Proof.
  intros A I f W. destruct I as [<-|[<-|[]]]; inversion W; subst.
  - apply list_maybe_brief; try exact POK; try exact NAMED; try exact OUT; [assumption].
  - apply list_brief; try exact POK; try exact NAMED; try exact OUT; [assumption].
  - apply list_mut_brief; try exact POK; try exact NAMED; try exact OUT; [assumption].
Qed.
Lemma const_soon n at_ key d : at_ <> AtMItem -> soon n (const_method at_ key d).
Proof. intros A f W. inversion W; subst. apply const_brief; try exact POK; try exact NAMED; try exact OUT; [exact A]. Qed.
Lemma table_soon n key x id d rows ro : In (key, (id, WTable d rows ro)) root -> points p n !"RootObjectPtr" -> soon n (table_method key x).
Proof. intros I P f W. inversion W; subst. apply table_brief; try exact POK; try exact NAMED; try exact OUT; [exact P|eapply (table_self old root B); exact I|eapply table_has_new; exact I]. Qed.
Lemma ref_get_soon n at_ key vt x m id d rows ro : at_ <> AtRoot -> In (key, (id, WTable d rows ro)) root -> In m (ref_get at_ key vt x) -> soon n m.
Proof.
  intros A I M f W. destruct M as [<-|[<-|[]]]; inversion W; subst.
  - apply ref_brief; try exact POK; try exact NAMED; try exact OUT; [exact A|exact (row_from key id d rows ro I)].
  - assert (Y : exists g, core_fn (module at_) !"get_ref_id" = Some g /\ deep g = true) by (destruct at_; [contradiction A; reflexivity| |]; eexists; split; reflexivity). destruct Y as (g & Y & Z). eapply getter_brief; try exact POK; try exact NAMED; try exact OUT; [exact Y|exact Z].
Qed.
Lemma ref_set_soon n key vt x m id d rows ro : In (key, (id, WTable d rows ro)) root -> In m (ref_set key vt x) -> soon n m.
Proof.
  intros I M f W. destruct M as [<-|[]]; inversion W; subst.
  apply set_ref_brief; try exact POK; try exact NAMED; try exact OUT; [eapply (ids_self old root B); exact I|eapply to_str_has; exact I|eapply (to_str_offer old root); [exact D|exact I]].
Qed.
Lemma refs_get_soon n at_ stem l m : at_ <> AtRoot -> clisted root stem l \/ mlisted root stem l -> In m (refs_get at_ stem l) -> soon n m.
Proof.
  intros A C M. assert (L : listed root stem l) by (destruct C; [apply clisted_listed|apply mlisted_listed]; assumption). unfold refs_get in M. destruct (ld_enum l) eqn:E.
  - assert (G : generated old root (enum_decl stem l)) by (destruct C; [apply generated_cenum|apply generated_menum]; assumption).
    intros f W. destruct M as [<-|[<-|[]]]; inversion W; subst.
    + apply enum_brief; try exact POK; try exact NAMED; try exact OUT; [exact A|exact (NotSelf _ G)|eapply enum_has; [exact C|exact G]].
    + apply enum_ids_brief; try exact POK; try exact NAMED; try exact OUT; [exact A].
  - apply in_flat_map in M as ((key & id & q & vt) & He & M). destruct (ref_table root TM stem l key _ L He) as (i & d & rows & ro & I).
    eapply ref_get_soon; [exact A|exact I|exact M].
Qed.
Lemma refs_set_soon n stem l m : mlisted root stem l -> In m (refs_set stem l) -> soon n m.
Proof.
  intros C M. pose proof (mlisted_listed _ _ _ C) as L. unfold refs_set in M. destruct (ld_enum l) eqn:E.
  - pose proof (generated_kind old root stem l C E) as G. intros f W. destruct M as [<-|[]]; inversion W; subst.
    apply set_enum_brief; try exact POK; try exact NAMED; try exact OUT; [exact (NotSelf _ G)|eapply kind_has; [exact C|exact G]].
  - apply in_flat_map in M as ((key & id & q & vt) & He & M). destruct (ref_table root TM stem l key _ L He) as (i & d & rows & ro & I).
    eapply ref_set_soon; [exact I|exact M].
Qed.
Lemma mitem_soon stem l m : mlisted root stem l -> In m (mitem_methods stem l) -> soon (mitem_type stem) m.
Proof.
  intros C M. pose proof (mlisted_listed _ _ _ C) as L. destruct (t_members root TM stem l L) as (_ & O). unfold mitem_methods in M. apply in_app_iff in M as [M|M]; [|apply in_app_iff in M as [M|M]].
  - apply in_flat_map in M as ((key & id & v) & He & M). destruct v as [q vt|d|[l'] u]; [|destruct M|].
    + eapply param_soon; [exact (O _ _ He)|exact M].
    + eapply (list_soon _ AtMItem); [discriminate|exact M].
  - eapply refs_get_soon; [|right; exact C|exact M]. discriminate.
  - eapply refs_set_soon; [exact C|exact M].
Qed.
Lemma citem_soon stem l m : clisted root stem l -> In m (citem_methods stem l) -> soon (citem_type stem) m.
Proof.
  intros C M. pose proof (clisted_listed _ _ _ C) as L. destruct (t_members root TM stem l L) as (_ & O). unfold citem_methods in M. apply in_app_iff in M as [M|M].
  - apply in_flat_map in M as ((key & id & v) & He & M). destruct v as [q vt|[l']|d u]; [| |destruct M].
    + eapply param_soon; [exact (O _ _ He)|exact M].
    + destruct M as [<-|[]]. apply (const_soon _ AtCItem). discriminate.
  - eapply refs_get_soon; [|left; exact C|exact M]. discriminate.
Qed.
Lemma root_soon m : In m (root_methods old (strip_root root)) -> struct_fields p !"RootIntf" root_fields -> soon !"RootIntf" m.
Proof.
  intros M F. assert (P : points p !"RootIntf" (ptr_of AtRoot)) by (exists root_fields; split; [exact F|right; left; reflexivity]).
  unfold root_methods in M. apply in_app_iff in M as [M|M].
  - intros f W. unfold root_fixed in M. destruct M as [<-|[<-|[<-|[<-|[]]]]]; inversion W; subst.
    + apply root_new_brief; try exact POK.
    + apply root_ref_brief; try exact POK; try exact NAMED; try exact OUT; [exact F].
    + apply root_ref_mut_brief; try exact POK; try exact NAMED; try exact OUT; [exact F].
    + apply root_deconstruct_brief; try exact POK; try exact NAMED; try exact OUT; [exact F].
  - apply in_flat_map in M as ((key & id & v) & He & M). destruct (strip_in root key id v He) as (w & I & ->).
    pose proof (t_names root TM _ _ I) as O. destruct w as [q vt|d rows ro|[l] items|[l] u]; cbn [strip] in M.
    + eapply param_soon; [exact O|exact M].
    + destruct M as [<-|[]]. eapply table_soon; [exact I|exact P].
    + destruct M as [<-|[]]. apply (const_soon _ AtRoot). discriminate.
    + eapply (list_soon _ AtRoot); [discriminate|exact M].
Qed.
Lemma rows_soon key id d rows ro m : In (key, (id, WTable d rows ro)) root -> In m (table_methods key (row_keys rows ro)) -> soon (table_type key) m.
Proof.
  intros I M f W. pose proof (row_from key id d rows ro I) as RF. destruct M as [<-|M]; [|apply in_app_iff in M as [M|M]].
  - inversion W; subst. eapply (quick_ten 1); [|lia]. apply table_new_quick.
  - apply in_flat_map in M as (k & K & M). destruct M as [<-|[<-|[]]]; inversion W; subst.
    + eapply (quick_ten 4); [|lia]. apply row_us_quick; try exact POK; try exact NAMED; try exact OUT; [exact RF].
    + apply row_brief; try exact POK; try exact NAMED; try exact OUT; [exact RF].
  - assert (N : row_keys rows ro <> []) by (intros N; rewrite N in M; destruct M).
    assert (V : m = Meth !"get_by_id_us" [!"id"] (CById (map (fun k => (variant_name (fst k) (snd k), key_name (fst k) (snd k) ++ txt "_us")) (row_keys rows ro))) [ids_type key; citem_type key] [] \/
                m = Meth !"get_by_id" [!"id"] (CById (map (fun k => (variant_name (fst k) (snd k), key_name (fst k) (snd k) ++ txt "_us")) (row_keys rows ro))) [ids_type key; citem_type key] []).
    { unfold by_id_methods in M. destruct (row_keys rows ro); [destruct M|]. destruct M as [<-|[<-|[]]]; [left|right]; reflexivity. }
    clear M. destruct V as [-> | ->]; inversion W; subst.
    + eapply (quick_ten 6); [|lia]. apply by_id_us_quick; try exact POK; try exact NAMED; try exact OUT; [exact (by_id_arms key id d rows ro I)].
    + apply by_id_brief; try exact POK; try exact NAMED; try exact OUT; [exact (by_id_has key id d rows ro I N)].
Qed.

(* ------------------------------------------------------------------ *)
(** * Every function *)

Lemma all_soon n ms fns f : Forall2 written ms fns -> (forall m, In m ms -> soon n m) -> In f fns -> brief 10 n f.
Proof.
  induction 1 as [|m g ms fns W F IH]; intros G I; [destruct I|]. destruct I as [<-|I]; [apply (G m); [left; reflexivity|exact W]|]. apply IH; [|exact I]. intros m' M. apply G. right. exact M.
Qed.
Lemma whole_soon n f : fn_of p n f -> brief 10 n f.
Proof.
  intros (fns & I & J). destruct (part_in old root parts D _ I) as (d & part & G & H & K & L). assert (E : n = decl_name d).
  { destruct (declares_types d part H) as [_ Y]. assert (X : In n (impl_names part)) by (unfold impl_names; apply in_flat_map; exists (IImpl n fns); split; [exact K|left; reflexivity]). rewrite Y in X. destruct X as [X|[]]. symmetry. exact X. }
  destruct G as [|key id d rows ro R|key id d rows ro R|stem l C|stem l C En|stem l C|stem l C En|stem l C En]; cbn [decl_name] in E; subst n.
  - pose proof H as H'. apply declares_root in H' as (fns' & F & E). assert (Fs : struct_fields p !"RootIntf" root_fields) by (eexists; apply L; rewrite E; do 4 right; left; reflexivity).
    eapply all_soon; [eapply declares_impl; [exact H|reflexivity|exact K]| |exact J]. intros m M. apply root_soon; assumption.
  - eapply all_soon; [eapply declares_impl; [exact H|reflexivity|exact K]| |exact J]. intros m M. eapply rows_soon; eassumption.
  - pose proof (ids_has key id d rows ro R) as [HM HN]. inversion H; subst. destruct K as [K|[K|[]]]; [discriminate K|]. injection K as <-. repeat (destruct J as [<-|J]); [| | | | | |destruct J].
    + apply from_str_brief; try exact POK.
    + apply from_num_brief; try exact POK.
    + apply len_brief.
    + eapply (quick_ten 3); [|lia]. apply to_num_quick.
    + eapply (quick_ten 3); [|lia]. apply metadata_quick.
    + eapply (quick_ten 5); [|lia]. apply to_str_quick; try exact POK; try exact NAMED; try exact OUT; [exact HM|exact HN].
  - eapply all_soon; [eapply declares_impl; [exact H|reflexivity|exact K]| |exact J]. intros m M. eapply citem_soon; eassumption.
  - eapply (quick_ten 5); [|lia]. eapply enum_quick; [left; exact C|apply generated_cenum; assumption|exact H|exact L|exact K|exact J].
  - eapply all_soon; [eapply declares_impl; [exact H|reflexivity|exact K]| |exact J]. intros m M. eapply mitem_soon; eassumption.
  - eapply (quick_ten 5); [|lia]. eapply enum_quick; [right; exact C|apply generated_menum; assumption|exact H|exact L|exact K|exact J].
  - eapply (quick_ten 8); [|lia]. eapply kind_quick; [exact C|apply generated_kind; assumption|exact H|exact L|exact K|exact J].
Qed.
End Whole.
