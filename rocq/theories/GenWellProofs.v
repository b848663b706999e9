(** Proofs for C54: what is generated from a tame document is well formed. *)
From Coq Require Import String.
From Verif Require Import Base StringCompactionModel StringCompactionProofs DocModel DiffSpec DiffProofs JsonModel JsonSpec IntfModel GenModel GenSpec GenNameProofs GenProofs.

Section Tame.
Variable old : list name.
Variable root : hmap (Z * rootvalue).
Hypothesis T : tame root.

(** the definition of a list *)
Inductive of_list (v : rootvalue) (l : ldef def) : Prop :=
| of_table rows o : v = WTable (Def l) rows o -> of_list v l
| of_clist items : v = WCList (Def l) items -> of_list v l
| of_mlist u : v = WMList (Def l) u -> of_list v l.

Lemma root_listed key id v l : In (key, (id, v)) root -> of_list v l -> listed root key l.
Proof. intros H [rows o ->|items ->|u ->]; [eapply listed_table|eapply listed_clist|eapply listed_mlist]; exact H. Qed.

Lemma inner_snake d : forall stem, listed root stem (undef d) -> Forall snake (lists_in d).
Proof.
  induction d as [l IH] using def_induct. intros stem L. cbn [undef] in L. rewrite lists_in_members. apply Forall_forall. intros s H. apply in_flat_map in H as ((key & id & v) & He & H).
  destruct (t_members root T stem l L) as (_ & O).
  destruct v as [p vt|[l']|[l'] u]; [destruct H| |].
  - destruct H as [<-|H]; [destruct (O _ _ He) as ((S & _) & _); exact S|]. pose proof (IH _ _ _ He key) as I. cbn beta iota in I. rewrite Forall_forall in I. apply I; [|exact H].
    cbn [undef]. eapply listed_cil; eassumption.
  - destruct H as [<-|H]; [destruct (O _ _ He) as ((S & _) & _); exact S|]. pose proof (IH _ _ _ He key) as I. cbn beta iota in I. rewrite Forall_forall in I. apply I; [|exact H].
    cbn [undef]. eapply listed_mil; eassumption.
Qed.

Definition root_names (e : name * (Z * rootvalue)) : list name :=
  let '(key, (_, v)) := e in match v with WParam _ _ => [] | WTable d _ _ | WCList d _ | WMList d _ => key :: lists_in d end.

Lemma root_snake e : In e root -> Forall snake (root_names e).
Proof.
  destruct e as (key & id & v). intros He. destruct (t_names root T _ _ He) as ((S & _) & _). destruct v as [p vt|[l] rows o|[l] items|[l] u]; cbn [root_names].
  - apply Forall_nil.
  - apply Forall_cons; [exact S|]. apply (inner_snake (Def l) key). eapply listed_table; exact He.
  - apply Forall_cons; [exact S|]. apply (inner_snake (Def l) key). eapply listed_clist; exact He.
  - apply Forall_cons; [exact S|]. apply (inner_snake (Def l) key). eapply listed_mlist; exact He.
Qed.

Lemma generate_names : NoDup (map decl_name (generate old root)).
Proof.
  unfold generate. cbn [map decl_name]. rewrite flat_map_map. set (f := fun x => map decl_name _).
  assert (O : forall e, In e root -> NoDup (root_names e) -> NoDup (f e) /\ forall nm, In nm (f e) -> exists s, In s (root_names e) /\ type_of_stem nm s).
  { intros e He Ne. pose proof (root_snake e He) as F. destruct e as (key & id & v). unfold f. destruct v as [p vt|d rows o|d items|d u]; cbn [root_names] in *.
    - split; [apply NoDup_nil|intros ? []].
    - destruct (citem_types d key Ne F) as (A & B & C & D). assert (S : snake key) by (inversion F; assumption). unfold table_decls. cbn [map decl_name]. split.
      + apply NoDup_cons; [|apply NoDup_cons; [exact D|exact A]]. intros [E|I]; [apply app_inv_head in E; discriminate E|contradiction].
      + intros nm [<-|[<-|H]]; [| |exact (B nm H)]; exists key; (split; [left; reflexivity|]); of_stem.
    - destruct (citem_types d key Ne F) as (A & B & _). split; [exact A|exact B].
    - apply mitem_types; assumption. }
  assert (E : forall e, In e root -> NoDup (root_names e)).
  { intros e He. pose proof (t_lists root T) as N. unfold list_names in N. change (NoDup (flat_map root_names root)) in N. clear - N He.
    induction root as [|x r IHr]; [destruct He|]. cbn [flat_map] in N. apply NoDup_parts in N as (A & B & _). destruct He as [<-|He]; auto. }
  apply NoDup_cons.
  - intros H. apply in_flat_map in H as (e & He & H). destruct (O e He (E e He)) as (_ & B). destruct (B _ H) as (s & _ & S & a & A & Ea). exact (root_type s a A (eq_sym Ea)).
  - apply (NoDup_flat f root_names type_of_stem); [exact type_of_stem_unique|exact (t_lists root T)|intros e He Ne; apply (O e He Ne)|intros e nm He H; apply (O e He (E e He)), H].
Qed.

(* ------------------------------------------------------------------ *)

Lemma listed_ordinary stem l : listed root stem l -> ordinary stem.
Proof.
  intros [key id l0 rows o H|key id l0 items H|key id l0 u H|s l0 key id l' L H|s l0 key id l' u L H].
  - exact (t_names root T _ _ H).
  - exact (t_names root T _ _ H).
  - exact (t_names root T _ _ H).
  - destruct (t_members root T s l0 L) as (_ & O). exact (O _ _ H).
  - destruct (t_members root T s l0 L) as (_ & O). exact (O _ _ H).
Qed.
Lemma listed_snake stem l : listed root stem l -> snake stem.
Proof. intros L. destruct (listed_ordinary stem l L) as ((S & _) & _). exact S. Qed.

Lemma listed_members stem l : listed root stem l -> plain_members l.
Proof. intros L. exact (t_members root T stem l L). Qed.
Lemma ref_table stem l key v : listed root stem l -> In (key, v) (ld_refs l) -> exists id d rows o, In (key, (id, WTable d rows o)) root.
Proof. intros L H. destruct (t_refs root T stem l L) as (_ & _ & O). apply (O _ _ H). Qed.
Lemma ref_ordinary stem l key v : listed root stem l -> In (key, v) (ld_refs l) -> ordinary key.
Proof. intros L H. destruct (ref_table stem l key v L H) as (id & d & rows & o & I). exact (t_names root T _ _ I). Qed.
Lemma listed_refs stem l : listed root stem l -> plain_refs l.
Proof.
  intros L. destruct (t_refs root T stem l L) as (N & _ & O). split; [exact N|]. intros key v H. split; [eapply ref_ordinary; eassumption|apply (O _ _ H)].
Qed.

Lemma strip_keys : map fst (strip_root root) = map fst root.
Proof. unfold strip_root. rewrite map_map. apply map_ext. intros (k & i & v). reflexivity. Qed.
Lemma strip_in key id v : In (key, (id, v)) (strip_root root) -> exists w, In (key, (id, w)) root /\ v = strip w.
Proof.
  unfold strip_root. intros H. apply in_map_iff in H as ((k & i & w) & E & H). cbn [fst snd] in E. exists w.
  apply pair_equal_spec in E as [<- E]. apply pair_equal_spec in E as [<- <-]. auto.
Qed.

Lemma row_keys_fst rows o : map fst (row_keys rows o) = map fst rows.
Proof. unfold row_keys. rewrite map_map. reflexivity. Qed.
Lemma row_keys_ordinary key id d rows o : In (key, (id, WTable d rows o)) root -> forall k, In k (row_keys rows o) -> ordinary (fst k).
Proof.
  intros H k Hk. unfold row_keys in Hk. apply in_map_iff in Hk as ((row & it) & <- & Hr). cbn [fst]. destruct (t_rows root T _ _ _ _ _ H) as (_ & _ & O). exact (O _ _ Hr).
Qed.
Lemma row_keys_nodup key id d rows o : In (key, (id, WTable d rows o)) root -> NoDup (map fst (row_keys rows o)).
Proof. intros H. rewrite row_keys_fst. apply (t_rows root T _ _ _ _ _ H). Qed.

(** structs *)
Lemma struct_sound nm ms : generated old root (DStruct nm ms) -> exists l, sound ms l.
Proof.
  intros H. inversion H as [E|key id d rows o I E|key id d rows o I E|stem l C E|stem l C En E|stem l C E|stem l C En E|stem l C En E]; subst.
  - apply root_sound; [rewrite strip_keys; exact (t_keys root T)|]. intros key (id & v) I. apply strip_in in I as (w & I & _). exact (t_names root T _ _ I).
  - apply rows_sound; [eapply row_keys_nodup|eapply row_keys_ordinary]; eassumption.
  - apply clisted_listed in C. destruct (citem_sound stem l) as (x & S & _); [eapply listed_members|eapply listed_refs|exists x; exact S]; eassumption.
  - apply mlisted_listed in C. apply mitem_sound; [eapply listed_members|eapply listed_refs]; eassumption.
Qed.

Lemma citem_no_from stem l : clisted root stem l -> no_from (citem_methods stem l).
Proof.
  intros C. apply clisted_listed in C. destruct (citem_sound stem l) as (x & _ & S); [eapply listed_members|eapply listed_refs|exact S]; eassumption.
Qed.

(* ------------------------------------------------------------------ *)
(** * Bodies *)

(** what is to be shown of a method *)
Record body_fine (m : meth) : Prop := BodyFine {
  b_args : Forall ident (m_args m);
  b_texts : Forall literal (call_texts (m_call m));
  b_types : forall t, In t (m_types m) -> exists d, generated old root d /\ decl_name d = t;
  b_from : forall t, In t (m_from m) -> exists ms, generated old root (DStruct t ms) /\ no_from ms }.

Lemma ordinary_ident key : ordinary key -> ident key.
Proof.
  intros ((S & U) & K & _). rewrite <- (app_nil_r key). change (key ++ []) with (made_name ([], key, [])). apply made_ident. split; [split; [exact S|exact U]|].
  split; [unfold pres; among|]. split; [unfold sufs; among|]. split; [intros H; discriminate H|]. intros _ _. exact K.
Qed.
Lemma ordinary_literal key : ordinary key -> literal key.
Proof. intros ((S & _) & _). apply snake_literal, S. Qed.

Lemma txt_ident s : In s (map txt ["obj"; "id"; "kind"; "ptr"]%string) -> ident s.
Proof.
  cbn [map In]. intros H. repeat (destruct H as [<-|H]; [split; [bytes; eexists; eexists; split; [reflexivity|]; split; [unfold lower; lia|repeat (apply Forall_cons; [unfold lower; lia|]); apply Forall_nil]|split; [intros E; discriminate E|apply not_keyword; vm_compute; reflexivity]]|]).
  destruct H.
Qed.

Lemma param_bodies at_ t vt key o m : ordinary key -> In m (param_methods at_ t vt key o) -> body_fine m.
Proof.
  intros O H. pose proof (ordinary_ident key O) as I. pose proof (ordinary_literal key O) as L. unfold param_methods in H. rewrite (ordinary_snake key O) in H.
  assert (G : m_types m = [] /\ m_from m = [] /\ call_texts (m_call m) = [key] /\ (m_args m = [] \/ m_args m = [key])).
  { destruct at_, (by_reference t); cbn [In] in H; repeat (destruct H as [<-|H]; [cbn [m_types m_from m_call m_args call_texts]; tauto|]); destruct H. }
  destruct G as (E1 & E2 & E3 & E4). split.
  - destruct E4 as [-> | ->]; [apply Forall_nil|apply Forall_cons; [exact I|apply Forall_nil]].
  - rewrite E3. apply Forall_cons; [exact L|apply Forall_nil].
  - rewrite E1. intros ? [].
  - rewrite E2. intros ? [].
Qed.

Ltac one_type := let t := fresh in let H := fresh in cbn [m_types m_from]; intros t H; destruct H as [<-|[]].

Lemma list_bodies at_ u key o m l : mlisted root key l -> In m (list_methods at_ u key o) -> body_fine m.
Proof.
  intros M H. pose proof (ordinary_literal key (listed_ordinary key l (mlisted_listed _ _ _ M))) as L.
  assert (G : m_types m = [mitem_type key] /\ m_from m = [] /\ call_texts (m_call m) = [key] /\ m_args m = []).
  { unfold list_methods in H. destruct H as [<-|[<-|[]]]; cbn [m_types m_from m_call m_args call_texts]; auto. }
  destruct G as (E1 & E2 & E3 & E4). split.
  - rewrite E4. apply Forall_nil.
  - rewrite E3. apply Forall_cons; [exact L|apply Forall_nil].
  - rewrite E1. intros t [<-|[]]. eexists. split; [apply generated_mitem; exact M|reflexivity].
  - rewrite E2. intros ? [].
Qed.

Lemma const_bodies at_ key o l : clisted root key l -> body_fine (const_method at_ key o).
Proof.
  intros M. pose proof (ordinary_literal key (listed_ordinary key l (clisted_listed _ _ _ M))) as L. split; cbn [const_method m_types m_from m_call m_args call_texts].
  - apply Forall_nil.
  - apply Forall_cons; [exact L|apply Forall_nil].
  - intros t [<-|[]]. eexists. split; [apply generated_citem; exact M|reflexivity].
  - intros ? [].
Qed.

Lemma table_bodies key o id d rows ro : In (key, (id, WTable d rows ro)) root -> body_fine (table_method key o).
Proof.
  intros H. pose proof (ordinary_literal key (t_names root T _ _ H)) as L. split; cbn [table_method m_types m_from m_call m_args call_texts].
  - apply Forall_nil.
  - apply Forall_cons; [exact L|apply Forall_nil].
  - intros t [<-|[]]. eexists. split; [eapply generated_table; exact H|reflexivity].
  - intros ? [].
Qed.

Lemma table_clisted key id d rows o : In (key, (id, WTable d rows o)) root -> exists l, d = Def l /\ clisted root key l.
Proof. destruct d as [l]. intros H. exists l. split; [reflexivity|]. eapply clisted_table; exact H. Qed.

Lemma get_bodies at_ key vt o m id d rows ro : In (key, (id, WTable d rows ro)) root -> In m (ref_get at_ key vt o) -> body_fine m.
Proof.
  intros H Hm. pose proof (ordinary_literal key (t_names root T _ _ H)) as L. destruct (table_clisted _ _ _ _ _ H) as (l & -> & C).
  unfold ref_get in Hm. destruct Hm as [<-|[<-|[]]]; split; cbn [m_types m_from m_call m_args call_texts];
    try apply Forall_nil; try (apply Forall_cons; [exact L|apply Forall_nil]); try (intros ? []; fail).
  - intros t [<-|[]]. eexists. split; [apply generated_citem; exact C|reflexivity].
  - intros t [<-|[]]. eexists. split; [apply generated_citem; exact C|apply citem_no_from, C].
Qed.

Lemma set_bodies key vt o m id d rows ro : In (key, (id, WTable d rows ro)) root -> In m (ref_set key vt o) -> body_fine m.
Proof.
  intros H Hm. pose proof (ordinary_literal key (t_names root T _ _ H)) as L.
  unfold ref_set in Hm. destruct Hm as [<-|[]]; split; cbn [m_types m_from m_call m_args call_texts].
  - apply Forall_cons; [apply txt_ident; among|apply Forall_nil].
  - apply Forall_cons; [exact L|apply Forall_nil].
  - intros t [<-|[]]. eexists. split; [eapply generated_ids; exact H|reflexivity].
  - intros ? [].
Qed.

Lemma refs_get_bodies at_ stem l m : clisted root stem l \/ mlisted root stem l -> In m (refs_get at_ stem l) -> body_fine m.
Proof.
  intros C H. assert (L : listed root stem l) by (destruct C; [apply clisted_listed|apply mlisted_listed]; assumption). unfold refs_get in H. destruct (ld_enum l) eqn:E.
  - assert (D : exists d, generated old root d /\ decl_name d = enum_type stem).
    { exists (enum_decl stem l). split; [|reflexivity]. destruct C; [apply generated_cenum|apply generated_menum]; assumption. }
    destruct H as [<-|[<-|[]]]; split; cbn [m_types m_from m_call m_args call_texts]; try apply Forall_nil; try (intros ? []; fail). intros t [<-|[]]. exact D.
  - apply in_flat_map in H as ((key & i & q & vt) & He & H). destruct (ref_table stem l key _ L He) as (id & d & rows & o & I). eapply get_bodies; eassumption.
Qed.

Lemma refs_set_bodies stem l m : mlisted root stem l -> In m (refs_set stem l) -> body_fine m.
Proof.
  intros C H. pose proof (mlisted_listed _ _ _ C) as L. unfold refs_set in H. destruct (ld_enum l) eqn:E.
  - destruct H as [<-|[]]; split; cbn [m_types m_from m_call m_args call_texts].
    + apply Forall_cons; [apply txt_ident; among|apply Forall_nil].
    + apply Forall_nil.
    + intros t [<-|[]]. exists (kind_decl stem l). split; [apply generated_kind; assumption|reflexivity].
    + intros ? [].
  - apply in_flat_map in H as ((key & i & q & vt) & He & H). destruct (ref_table stem l key _ L He) as (id & d & rows & o & I). eapply set_bodies; eassumption.
Qed.

Lemma other_body nm args t d : Forall ident args -> generated old root d -> decl_name d = t -> body_fine (Meth nm args COther [t] []).
Proof.
  intros A D E. split; cbn [m_types m_from m_call m_args call_texts]; [exact A|apply Forall_nil| |intros ? []]. intros t' [<-|[]]. exists d. auto.
Qed.
Lemma plain_body nm : body_fine (Meth nm [] COther [] []).
Proof. split; cbn [m_types m_from m_call m_args call_texts]; [apply Forall_nil|apply Forall_nil|intros ? []|intros ? []]. Qed.

Lemma bodies nm ms m : generated old root (DStruct nm ms) -> In m ms -> body_fine m.
Proof.
  intros H Hm. inversion H as [E|key id d rows o I E|key id d rows o I E|stem l C E|stem l C En E|stem l C E|stem l C En E|stem l C En E]; subst.
  - unfold root_methods in Hm. apply in_app_iff in Hm as [Hm|Hm].
    + unfold root_fixed in Hm. destruct Hm as [<-|[<-|[<-|[<-|[]]]]]; [|apply plain_body|apply plain_body|apply plain_body].
      eapply other_body; [apply Forall_cons; [apply txt_ident; among|apply Forall_nil]|exact H|reflexivity].
    + apply in_flat_map in Hm as ((key & id & v) & He & Hm). apply strip_in in He as (w & He & ->). pose proof (t_names root T _ _ He) as O.
      destruct w as [p vt|[l] rows o|[l] items|[l] u]; cbn [strip] in Hm.
      * eapply param_bodies; eassumption.
      * destruct Hm as [<-|[]]. eapply table_bodies; exact He.
      * destruct Hm as [<-|[]]. eapply const_bodies. eapply clisted_clist; exact He.
      * eapply list_bodies; [eapply mlisted_mlist; exact He|exact Hm].
  - destruct (table_clisted _ _ _ _ _ I) as (l & -> & C). destruct Hm as [<-|Hm].
    + eapply other_body; [apply Forall_cons; [apply txt_ident; among|apply Forall_nil]|exact H|reflexivity].
    + apply in_app_iff in Hm as [Hm|Hm].
      * apply in_flat_map in Hm as (k & Hk & Hm). pose proof (ordinary_literal _ (row_keys_ordinary _ _ _ _ _ I k Hk)) as L.
        assert (G : m_types m = [citem_type key] /\ m_from m = [citem_type key] /\ call_texts (m_call m) = [fst k] /\ m_args m = []).
        { unfold row_methods in Hm. destruct Hm as [<-|[<-|[]]]; cbn [m_types m_from m_call m_args call_texts]; auto. }
        destruct G as (E1 & E2 & E3 & E4). split.
        -- rewrite E4. apply Forall_nil.
        -- rewrite E3. apply Forall_cons; [exact L|apply Forall_nil].
        -- rewrite E1. intros t [<-|[]]. eexists. split; [apply generated_citem; exact C|reflexivity].
        -- rewrite E2. intros t [<-|[]]. eexists. split; [apply generated_citem; exact C|apply citem_no_from, C].
      * unfold by_id_methods in Hm. destruct (row_keys rows o) as [|k ks]; [destruct Hm|].
        assert (G : m_types m = [ids_type key; citem_type key] /\ m_from m = [] /\ call_texts (m_call m) = [] /\ m_args m = [txt "id"]).
        { destruct Hm as [<-|[<-|[]]]; cbn [m_types m_from m_call m_args call_texts]; auto. }
        destruct G as (E1 & E2 & E3 & E4). split.
        -- rewrite E4. apply Forall_cons; [apply txt_ident; among|apply Forall_nil].
        -- rewrite E3. apply Forall_nil.
        -- rewrite E1. intros t [<-|[<-|[]]]; eexists; split; [eapply generated_ids; exact I|reflexivity|apply generated_citem; exact C|reflexivity].
        -- rewrite E2. intros ? [].
  - pose proof (clisted_listed _ _ _ C) as L. destruct (t_members root T _ _ L) as (_ & O). unfold citem_methods in Hm. apply in_app_iff in Hm as [Hm|Hm]; [|eapply refs_get_bodies; [left; exact C|exact Hm]].
    apply in_flat_map in Hm as ((key & id & v) & He & Hm). destruct v as [p vt|[l']|[l'] u].
    + eapply param_bodies; [exact (O _ _ He)|exact Hm].
    + destruct Hm as [<-|[]]. eapply const_bodies. eapply clisted_cil; eassumption.
    + destruct Hm.
  - pose proof (mlisted_listed _ _ _ C) as L. destruct (t_members root T _ _ L) as (_ & O). unfold mitem_methods in Hm.
    apply in_app_iff in Hm as [Hm|Hm]; [|apply in_app_iff in Hm as [Hm|Hm]; [eapply refs_get_bodies; [right; exact C|exact Hm]|eapply refs_set_bodies; eassumption]].
    apply in_flat_map in Hm as ((key & id & v) & He & Hm). destruct v as [p vt|[l']|[l'] u].
    + eapply param_bodies; [exact (O _ _ He)|exact Hm].
    + destruct Hm.
    + eapply list_bodies; [eapply mlisted_mil; eassumption|exact Hm].
Qed.

(* ------------------------------------------------------------------ *)
(** * Enums *)

Lemma type_names_nodup keys : NoDup keys -> Forall snake keys -> NoDup (map to_type_name keys).
Proof. intros N F. rewrite Forall_forall in F. apply NoDup_in_map; [|exact N]. intros x y Hx Hy. apply type_name_inj; apply F; assumption. Qed.

Lemma map_fst_map {A B C} (f : A -> B) (g : A -> C) l : map fst (map (fun x => (f x, g x)) l) = map f l.
Proof. rewrite map_map. reflexivity. Qed.
Lemma map_snd_map {A B C} (f : A -> B) (g : A -> C) l : map snd (map (fun x => (f x, g x)) l) = map g l.
Proof. rewrite map_map. reflexivity. Qed.

Lemma enumerate_snd {A} (l : list A) : forall i, map snd (enumerate_from i l) = l.
Proof. induction l as [|x l IH]; intros i; cbn [enumerate_from map snd]; [reflexivity|]. rewrite IH. reflexivity. Qed.

Lemma ref_keys stem l : listed root stem l -> NoDup (map fst (ld_refs l)) /\ Forall ordinary (map fst (ld_refs l)) /\ Forall snake (map fst (ld_refs l)).
Proof.
  intros L. destruct (listed_refs stem l L) as (N & O). split; [exact N|].
  assert (F : Forall ordinary (map fst (ld_refs l))) by (apply Forall_forall; intros k H; apply in_map_iff in H as ((key & v) & <- & H); apply (O key v H)).
  split; [exact F|]. eapply Forall_impl; [|exact F]. intros k ((S & _) & _). exact S.
Qed.

Lemma type_names_ident keys : Forall ordinary keys -> Forall ident (map to_type_name keys).
Proof.
  intros F. apply Forall_map. eapply Forall_impl; [|exact F]. intros k ((S & _) & K & _). exact (variant_ident k false S K).
Qed.
Lemma ordinary_literals keys : Forall ordinary keys -> Forall literal keys.
Proof. apply Forall_impl. exact ordinary_literal. Qed.

Lemma enum_fine stem l : clisted root stem l \/ mlisted root stem l ->
  let vs := map (fun key => (to_type_name key, citem_type key)) (map fst (ld_refs l)) in
  let arms := map (fun key => (key, to_type_name key)) (map fst (ld_refs l)) in
  NoDup (map fst vs) /\ Forall ident (map fst vs) /\ Forall literal (map fst arms) /\ incl (map snd arms) (map fst vs) /\
  forall t, In t (map snd vs) -> exists ms, In (DStruct t ms) (generate old root) /\ ~ In (txt "from") (map m_name ms).
Proof.
  intros C. assert (L : listed root stem l) by (destruct C; [apply clisted_listed|apply mlisted_listed]; assumption).
  destruct (ref_keys stem l L) as (N & O & S). cbn zeta. rewrite !map_fst_map, !map_snd_map, map_id. split; [apply type_names_nodup; assumption|].
  split; [apply type_names_ident, O|]. split; [apply ordinary_literals, O|]. split; [apply incl_refl|].
  intros t H. apply in_map_iff in H as (key & <- & H). apply in_map_iff in H as ((k & v) & <- & H). destruct (ref_table stem l k v L H) as (id & d & rows & o & I).
  destruct (table_clisted _ _ _ _ _ I) as (l' & -> & C'). eexists. split; [apply generated_generate, generated_citem; exact C'|apply citem_no_from, C'].
Qed.

Lemma kind_fine stem l : mlisted root stem l -> ld_enum l = true ->
  let vs := map (fun key => (to_type_name key, ids_type key)) (map fst (ld_refs l)) in
  let arms := map (fun key => (to_type_name key, key)) (map fst (ld_refs l)) in
  vs <> [] /\ NoDup (map fst vs) /\ Forall ident (map fst vs) /\ Forall literal (map snd arms) /\ (forall v, In v (map fst vs) <-> In v (map fst arms)) /\
  forall t, In t (map snd vs) -> exists ws a b c len md, In (DIds t ws a b c len md) (generate old root).
Proof.
  intros C E. pose proof (mlisted_listed _ _ _ C) as L. destruct (ref_keys stem l L) as (N & O & S). destruct (t_refs root T stem l L) as (_ & NE & _). cbn zeta.
  rewrite !map_fst_map, !map_snd_map, map_id. split; [|split; [apply type_names_nodup; assumption|split; [apply type_names_ident, O|split; [apply ordinary_literals, O|split; [tauto|]]]]].
  - intros H. apply (NE E). apply map_eq_nil in H. apply map_eq_nil in H. exact H.
  - intros t H. apply in_map_iff in H as (key & <- & H). apply in_map_iff in H as ((k & v) & <- & H). destruct (ref_table stem l k v L H) as (id & d & rows & o & I).
    do 6 eexists. apply generated_generate. eapply generated_ids. exact I.
Qed.

Lemma ids_fine key id d rows o : In (key, (id, WTable d rows o)) root ->
  let keys := row_keys rows o in
  let vs := map variant_of keys in
  vs <> [] /\ NoDup vs /\ Forall ident vs /\ Forall literal (map fst keys).
Proof.
  intros H. destruct (t_rows root T _ _ _ _ _ H) as (NE & N & O). pose proof (row_keys_ordinary _ _ _ _ _ H) as RO. pose proof (row_keys_nodup _ _ _ _ _ H) as RN. cbn zeta. split; [|split; [|split]].
  - intros E. apply NE. apply map_eq_nil in E. unfold row_keys in E. apply map_eq_nil in E. exact E.
  - apply NoDup_in_map; [|eapply NoDup_map_inv; exact RN]. intros x y Hx Hy E.
    destruct (RO x Hx) as ((Sx & _ & _ & Ux & _) & _). destruct (RO y Hy) as ((Sy & _ & _ & Uy & _) & _). apply variant_inj in E; try assumption.
    clear - E Hx Hy. unfold row_keys in Hx, Hy. apply in_map_iff in Hx as (a & <- & _). apply in_map_iff in Hy as (b & <- & _). cbn [fst] in E. rewrite E. reflexivity.
  - apply Forall_map, Forall_forall. intros k Hk. destruct (RO k Hk) as ((S & _) & K & _). apply variant_ident; assumption.
  - apply Forall_map, Forall_forall. intros k Hk. apply ordinary_literal, RO, Hk.
Qed.

(* ------------------------------------------------------------------ *)

Lemma generate_well_formed : well_formed (generate old root).
Proof.
  assert (G : forall d, In d (generate old root) <-> generated old root d) by (intros d; split; [apply generate_declared|apply generated_generate]).
  split.
  - exact generate_names.
  - intros d H. apply G in H. destruct H as [|key id d rows o I|key id d rows o I|stem l C|stem l C En|stem l C|stem l C En|stem l C En]; cbn [decl_name ids_decl enum_decl kind_decl].
    + split; [bytes; eexists; eexists; split; [reflexivity|]; split; [unfold upper; lia|repeat (apply Forall_cons; [unfold lower, upper; lia|]); apply Forall_nil]|split; [intros E; discriminate E|apply not_keyword; vm_compute; reflexivity]].
    + apply suffix_ident; [apply (t_names root T _ _ I)|unfold suffixes; among].
    + apply suffix_ident; [apply (t_names root T _ _ I)|unfold suffixes; among].
    + apply suffix_ident; [eapply listed_snake, clisted_listed; exact C|unfold suffixes; among].
    + apply suffix_ident; [eapply listed_snake, clisted_listed; exact C|unfold suffixes; among].
    + apply suffix_ident; [eapply listed_snake, mlisted_listed; exact C|unfold suffixes; among].
    + apply suffix_ident; [eapply listed_snake, mlisted_listed; exact C|unfold suffixes; among].
    + apply suffix_ident; [eapply listed_snake, mlisted_listed; exact C|unfold suffixes; among].
  - intros nm ms H. apply G in H. destruct (struct_sound nm ms H) as (l & S). destruct (sound_methods ms l S) as (N & I). split; [exact N|].
    intros m Hm. destruct (bodies nm ms m H Hm) as [A B _ _]. auto.
  - intros nm ms m t H Hm Ht. apply G in H. destruct (bodies nm ms m H Hm) as [_ _ B _]. destruct (B t Ht) as (d & Hd & <-). apply in_map, G, Hd.
  - intros nm ms m t H Hm Ht. apply G in H. destruct (bodies nm ms m H Hm) as [_ _ _ B]. destruct (B t Ht) as (ms' & Hd & N). exists ms'. split; [apply G, Hd|exact N].
  - intros nm ms m arms H Hm E. apply G in H.
    inversion H as [E0|key id d rows o I E0|key id d rows o I E0|stem l C E0|stem l C En E0|stem l C E0|stem l C En E0|stem l C En E0]; subst.
    + exfalso. unfold root_methods in Hm. apply in_app_iff in Hm as [Hm|Hm].
      * unfold root_fixed in Hm. destruct Hm as [<-|[<-|[<-|[<-|[]]]]]; discriminate E.
      * apply in_flat_map in Hm as ((key & id & v) & _ & Hm). destruct v as [p vt| | |d u]; [|destruct Hm as [<-|[]]; discriminate E|destruct Hm as [<-|[]]; discriminate E|destruct Hm as [<-|[<-|[]]]; discriminate E].
        unfold param_methods in Hm. destruct (by_reference (type_of p)); cbn [In] in Hm; repeat (destruct Hm as [<-|Hm]; [discriminate E|]); destruct Hm.
    + assert (Z : arms = map (fun k => (variant_of k, key_name (fst k) (snd k) ++ txt "_us")) (row_keys rows o) /\ In (ids_type key) (m_types m)).
      { destruct Hm as [<-|Hm]; [discriminate E|]. apply in_app_iff in Hm as [Hm|Hm].
        - apply in_flat_map in Hm as (k & _ & Hm). destruct Hm as [<-|[<-|[]]]; discriminate E.
        - unfold by_id_methods in Hm. destruct (row_keys rows o) as [|k ks]; [destruct Hm|]. destruct Hm as [<-|[<-|[]]]; cbn [m_call m_types] in *; (split; [injection E as <-; reflexivity|left; reflexivity]). }
      destruct Z as (-> & Z). split.
      * intros v f Hv. apply in_map_iff in Hv as (k & Ev & Hk). apply pair_equal_spec in Ev as [_ <-]. unfold table_methods. cbn [map]. right. rewrite map_app. apply in_app_iff. left.
        apply in_map_iff. exists (Meth (key_name (fst k) (snd k) ++ txt "_us") [] (CRow true (fst k)) [citem_type key] [citem_type key]). split; [reflexivity|]. apply in_flat_map. exists k. split; [exact Hk|left; reflexivity].
      * do 7 eexists. split; [exact Z|]. split; [apply G; eapply generated_ids; exact I|]. intros v. rewrite map_fst_map. tauto.
    + exfalso. unfold citem_methods, refs_get in Hm. apply in_app_iff in Hm as [Hm|Hm].
      * apply in_flat_map in Hm as ((key & id & v) & _ & Hm). destruct v as [p vt|d|d u]; [|destruct Hm as [<-|[]]; discriminate E|destruct Hm].
        unfold param_methods in Hm. destruct (by_reference (type_of p)); cbn [In] in Hm; repeat (destruct Hm as [<-|Hm]; [discriminate E|]); destruct Hm.
      * destruct (ld_enum l); [destruct Hm as [<-|[<-|[]]]; discriminate E|]. apply in_flat_map in Hm as ((key & id & q & vt) & _ & Hm). destruct Hm as [<-|[<-|[]]]; discriminate E.
    + exfalso. unfold mitem_methods, refs_get, refs_set in Hm. apply in_app_iff in Hm as [Hm|Hm].
      * apply in_flat_map in Hm as ((key & id & v) & _ & Hm). destruct v as [p vt|d|d u]; [|destruct Hm|destruct Hm as [<-|[<-|[]]]; discriminate E].
        unfold param_methods in Hm. destruct (by_reference (type_of p)); cbn [In] in Hm; repeat (destruct Hm as [<-|Hm]; [discriminate E|]); destruct Hm.
      * destruct (ld_enum l); [destruct Hm as [<-|[<-|[<-|[]]]]; discriminate E|]. apply in_app_iff in Hm as [Hm|Hm];
          apply in_flat_map in Hm as ((key & id & q & vt) & _ & Hm); [destruct Hm as [<-|[<-|[]]]|destruct Hm as [<-|[]]]; discriminate E.
  - intros nm vs fs fn tn len md H. apply G in H. inversion H as [E0|key id d rows o I E0|key id d rows o I E0|stem l C E0|stem l C En E0|stem l C E0|stem l C En E0|stem l C En E0]; subst.
    destruct (ids_fine key id d rows o I) as (A & B & C & F). rewrite !map_fst_map, !map_snd_map. split; [exact A|]. split; [exact B|]. split; [exact C|]. split; [exact F|]. split; [exact F|].
    assert (X : map (fun e : Z * (name * bool) => variant_of (snd e)) (enumerate (row_keys rows o)) = map variant_of (row_keys rows o)).
    { rewrite <- (map_map snd variant_of). unfold enumerate. rewrite enumerate_snd. reflexivity. }
    split; [apply incl_refl|]. rewrite X. split; [apply incl_refl|]. tauto.
  - intros nm vs arms H. apply G in H. inversion H as [E0|key id d rows o I E0|key id d rows o I E0|stem l C E0|stem l C En E0|stem l C E0|stem l C En E0|stem l C En E0]; subst.
    + apply (enum_fine stem l). left. exact C.
    + apply (enum_fine stem l). right. exact C.
  - intros nm vs arms H. apply G in H. inversion H as [E0|key id d rows o I E0|key id d rows o I E0|stem l C E0|stem l C En E0|stem l C E0|stem l C En E0|stem l C En E0]; subst.
    apply (kind_fine stem l); assumption.
Qed.

End Tame.
