(** Proof of C78: which functions the generated text calls where it does not take [&mut self]. *)
From Coq Require Import String.
From Verif Require Import Base StringCompactionModel StringCompactionProofs LinkedModel LinkedSpec DocModel DiffSpec DiffProofs ArchiveModel JsonModel IntfModel GenModel GenSpec GenNameProofs GenProofs CodeSpec ApiModel TypeSpec TypeGenProofs ReadModel RunModel RunSpec RunGenProofs SharedSpec SharedProofs.

Local Notation text := (list Z).
Local Notation "! s" := (txt s%string) (at level 0, s at level 0).

(* ------------------------------------------------------------------ *)
(** * Names of types *)

Definition taken : list text := [!"root"; !"mitem"; !"MListMut"; !"Self"].
Definition fine (n : text) : Prop := ~ In n taken.
Lemma fine_suffix x s : In s suffixes -> fine (x ++ s).
Proof.
  intros I H. assert (E : forallb (fun s => forallb (fun n => negb (ends_in n s)) taken) suffixes = true) by (vm_compute; reflexivity).
  rewrite forallb_forall in E. specialize (E s I). rewrite forallb_forall in E. specialize (E _ H). rewrite ends_in_app' in E. discriminate E.
Qed.
Lemma fine_eqb n m : fine n -> In m taken -> eqb_bytes n m = false.
Proof. intros F I. destruct (eqb_bytes n m) eqn:E; [|reflexivity]. apply eqb_bytes_eq in E as ->. destruct (F I). Qed.
Lemma fine_changing n m f : fine m -> changing (named n m) f = false.
Proof.
  intros F. unfold named. rewrite (fine_eqb m !"Self" F) by (do 3 right; left; reflexivity). unfold changing, one_of. cbn [existsb].
  rewrite (fine_eqb m !"root" F) by (left; reflexivity). rewrite (fine_eqb m !"mitem" F) by (right; left; reflexivity). rewrite (fine_eqb m !"MListMut" F) by (do 2 right; left; reflexivity). reflexivity.
Qed.
Lemma fine_citem x : fine (citem_type x). Proof. apply fine_suffix. vm_compute. tauto. Qed.
Lemma fine_mitem x : fine (mitem_type x). Proof. apply fine_suffix. vm_compute. tauto. Qed.
Lemma fine_table x : fine (table_type x). Proof. apply fine_suffix. vm_compute. tauto. Qed.
Lemma fine_ids x : fine (ids_type x). Proof. apply fine_suffix. vm_compute. tauto. Qed.
Lemma fine_enum x : fine (enum_type x). Proof. apply fine_suffix. vm_compute. tauto. Qed.
Lemma fine_kind x : fine (kind_type x). Proof. apply fine_suffix. vm_compute. tauto. Qed.
Lemma fine_root : fine !"RootIntf".
Proof. intros H. assert (E : existsb (eqb_bytes !"RootIntf") taken = false) by (vm_compute; reflexivity). rewrite <- Bool.not_true_iff_false in E. apply E, existsb_exists. eexists. split; [exact H|apply eqb_bytes_refl]. Qed.
Global Hint Resolve fine_citem fine_mitem fine_table fine_ids fine_enum fine_kind fine_root : fine.

Definition fine_meth (m : meth) : Prop := Forall fine (m_types m).
Ltac one_by_one M := repeat (destruct M as [<-|M]; [cbv [fine_meth table_method const_method]; cbn [m_types]; auto 6 with fine|]); try destruct M.
Lemma param_fine at_ t vt key o m : In m (param_methods at_ t vt key o) -> fine_meth m.
Proof. unfold param_methods. intros M. destruct at_, (by_reference t); cbn [In] in M; one_by_one M. Qed.
Lemma list_fine at_ u key o m : In m (list_methods at_ u key o) -> fine_meth m.
Proof. intros M. unfold list_methods in M. cbn [In] in M. one_by_one M. Qed.
Lemma refs_get_fine {D} at_ stem (l : ldef D) m : In m (refs_get at_ stem l) -> fine_meth m.
Proof.
  unfold refs_get. destruct (ld_enum l); intros M; [cbn [In] in M; one_by_one M|]. apply in_flat_map in M as ((key & id & q & vt) & _ & M). unfold ref_get in M. cbn [In] in M. one_by_one M.
Qed.
Lemma refs_set_fine {D} stem (l : ldef D) m : In m (refs_set stem l) -> fine_meth m.
Proof.
  unfold refs_set. destruct (ld_enum l); intros M; [cbn [In] in M; one_by_one M|]. apply in_flat_map in M as ((key & id & q & vt) & _ & M). unfold ref_set in M. cbn [In] in M. one_by_one M.
Qed.
Lemma struct_fine old root n ms m : generated old root (DStruct n ms) -> In m ms -> fine_meth m.
Proof.
  intros G M. remember (DStruct n ms) as d eqn:Ed. destruct G; try discriminate Ed; injection Ed as <- <-.
  - unfold root_methods in M. apply in_app_iff in M as [M|M]; [unfold root_fixed in M; cbn [In] in M; one_by_one M|]. apply in_flat_map in M as ((key & id & v) & _ & M).
    destruct v; cbn [In] in M; [eapply param_fine, M|one_by_one M|one_by_one M|eapply list_fine, M].
  - unfold table_methods in M. destruct M as [<-|M]; [cbv [fine_meth]; cbn [m_types]; auto with fine|]. apply in_app_iff in M as [M|M].
    + apply in_flat_map in M as (k & _ & M). unfold row_methods in M. cbn [In] in M. one_by_one M.
    + unfold by_id_methods in M. destruct (row_keys rows o); [destruct M|]. cbn [In] in M. one_by_one M.
  - unfold citem_methods in M. apply in_app_iff in M as [M|M]; [|eapply refs_get_fine, M]. apply in_flat_map in M as ((key & id & v) & _ & M).
    destruct v; cbn [In] in M; [eapply param_fine, M|one_by_one M|one_by_one M].
  - unfold mitem_methods in M. apply in_app_iff in M as [M|M]; [|apply in_app_iff in M as [M|M]; [eapply refs_get_fine, M|eapply refs_set_fine, M]]. apply in_flat_map in M as ((key & id & v) & _ & M).
    destruct v; cbn [In] in M; [eapply param_fine, M|one_by_one M|eapply list_fine, M].
Qed.

(* ------------------------------------------------------------------ *)
(** * Functions *)

Lemma getter_quiet n nm rc at_ f vt key t : changing (module at_) f = false -> rc <> ByMut -> quiet_fn n (shut_fn (getter nm rc at_ f vt key t)).
Proof.
  intros C R. unfold shut_fn. replace (match f_self (getter nm rc at_ f vt key t) with ByMut => _ | _ => getter nm rc at_ f vt key t end) with (getter nm rc at_ f vt key t) by (destruct rc; [reflexivity..|contradiction]).
  unfold quiet_fn, getter, public. cbn [f_lets f_value]. split.
  - unfold let_qv, asked. cbn [forallb quiet_stmt quiet andb]. replace (named n (module at_)) with (module at_) by (destruct at_; reflexivity). rewrite C. reflexivity.
  - destruct vt; vm_compute; reflexivity.
Qed.

Lemma shut_quiet n f : f_self f = ByMut -> quiet_fn n (shut_fn f).
Proof. intros E. unfold shut_fn. rewrite E. split; reflexivity. Qed.
Lemma written_quiet n m f : written m f -> fine_meth m -> quiet_fn n (shut_fn f).
Proof.
  intros W F. unfold fine_meth in F. destruct W; cbn [m_types] in F; try (apply shut_quiet; reflexivity).
  all: try (apply getter_quiet; [|discriminate]; destruct at_, t; vm_compute; reflexivity).
  - unfold quiet_fn, shut_fn, public, path, guarded. cbn [f_self f_lets f_value forallb quiet_stmt quiet andb]. rewrite (fine_changing n n0) by exact (Forall_inv F). split; vm_compute; reflexivity.
  - split; [reflexivity|]. destruct at_; vm_compute; reflexivity.
  - split; [|vm_compute; reflexivity]. destruct at_; vm_compute; reflexivity.
  - split; [|vm_compute; reflexivity]. destruct at_; vm_compute; reflexivity.
  - unfold quiet_fn, shut_fn, public. cbn [f_self f_lets f_value]. split; [destruct at_; vm_compute; reflexivity|].
    destruct vt; unfold path; cbn [quiet forallb]; rewrite (fine_changing n n0) by exact (Forall_inv F); vm_compute; reflexivity.
  - apply getter_quiet; [|discriminate]. destruct at_; vm_compute; reflexivity.
  - unfold quiet_fn, shut_fn, public. cbn [f_self f_lets f_value]. split; [destruct at_; vm_compute; reflexivity|].
    unfold path; cbn [quiet forallb]; rewrite (fine_changing n n0) by exact (Forall_inv F); vm_compute; reflexivity.
  - split; [reflexivity|]. destruct at_; vm_compute; reflexivity.
  - unfold quiet_fn, shut_fn. cbn [f_self f_lets f_value]. split; [vm_compute; reflexivity|]. unfold path; cbn [quiet forallb]; rewrite (fine_changing n n0) by exact (Forall_inv F); vm_compute; reflexivity.
  - unfold quiet_fn, shut_fn, public, guarded. cbn [f_self f_lets f_value]. split; [vm_compute; reflexivity|]. unfold path; cbn [quiet forallb]; rewrite (fine_changing n n0) by exact (Forall_inv F); vm_compute; reflexivity.
  - unfold quiet_fn, shut_fn. cbn [f_self f_lets f_value]. split; [reflexivity|]. cbn [quiet andb]. apply forallb_forall. intros x X. apply in_map_iff in X as (a & <- & _). reflexivity.
  - unfold quiet_fn, shut_fn, public. cbn [f_self f_lets f_value]. split; [reflexivity|]. vm_compute. reflexivity.
  - split; vm_compute; reflexivity.
  - split; vm_compute; reflexivity.
  - split; vm_compute; reflexivity.
  - split; vm_compute; reflexivity.
Qed.

Lemma all_written_quiet n ms fns : Forall2 written ms fns -> (forall m, In m ms -> fine_meth m) -> Forall (quiet_fn n) (map shut_fn fns).
Proof.
  induction 1 as [|m f ms fns W F IH]; intros G; cbn [map]; [apply Forall_nil|]. apply Forall_cons; [eapply written_quiet; [exact W|apply G; left; reflexivity]|]. apply IH. intros m' M. apply G. right. exact M.
Qed.
Definition quiet_item (i : CodeSpec.item) : Prop := match i with IImpl n fns | IImplFor _ n fns => Forall (quiet_fn n) (map shut_fn fns) | _ => True end.
Lemma enum_fine old root n vs new : generated old root (DEnum n vs new) -> fine n /\ Forall (fun v => fine (snd v)) vs.
Proof.
  intros G. remember (DEnum n vs new) as d eqn:Ed. destruct G; try discriminate Ed; unfold enum_decl in Ed; injection Ed as <- <- <-; (split; [auto with fine|]);
    apply Forall_forall; intros v V; apply in_map_iff in V as (k & <- & _); cbn [snd]; auto with fine.
Qed.
Lemma declares_quiet old root d part i : generated old root d -> declares d part -> In i part -> quiet_item i.
Proof.
  intros G D I. destruct D as [ms fns F|y ms fns F|y ms fns F|y ms fns F|n vs fs fnum tn len md|n vs new F|n vs id].
  1-4: unfold wrapper in I; cbn [In] in I; repeat (destruct I as [<-|I]; [cbn [quiet_item]; try exact Logic.I; try (eapply all_written_quiet; [exact F|intros m M; eapply struct_fine; [exact G|exact M]]); try (repeat constructor; split; reflexivity)|]); destruct I.
  - destruct I as [<-|[<-|[]]]; [exact Logic.I|]. cbn [quiet_item map]. repeat apply Forall_cons; try apply Forall_nil; unfold quiet_fn, shut_fn, public; cbn [f_self f_lets f_value]; (split; [reflexivity|]); cbn [quiet andb]; try reflexivity.
    + rewrite forallb_app. apply andb_true_intro. split; [|reflexivity]. apply forallb_forall. intros x X. apply in_map_iff in X as (a & <- & _). reflexivity.
    + rewrite forallb_app. apply andb_true_intro. split; [|reflexivity]. apply forallb_forall. intros x X. apply in_map_iff in X as (a & <- & _). reflexivity.
    + apply forallb_forall. intros x X. apply in_map_iff in X as (a & <- & _). reflexivity.
    + apply forallb_forall. intros x X. apply in_map_iff in X as (a & <- & _). reflexivity.
    + unfold path, call0. cbn [quiet forallb andb]. rewrite !Bool.andb_true_r. apply Bool.negb_true_iff. unfold changing. replace (begins !"set_" !"metadata") with false by (vm_compute; reflexivity).
      replace (begins !"get_mutable_" !"metadata") with false by (vm_compute; reflexivity). replace (one_of [!"get_mlist_mut"; !"get_mil_mut"] !"metadata") with false by (vm_compute; reflexivity).
      replace (eqb_bytes !"metadata" !"new") with false by (vm_compute; reflexivity). rewrite !Bool.andb_false_r. reflexivity.
  - destruct (enum_fine _ _ _ _ _ G) as [Fn Fv]. destruct I as [<-|[<-|[]]]; [exact Logic.I|]. cbn [quiet_item map]. apply Forall_cons; [|apply Forall_nil]. unfold quiet_fn, shut_fn, public; cbn [f_self f_lets f_value]. split; [reflexivity|]. cbn [quiet andb].
    rewrite forallb_app. apply andb_true_intro. split; [|reflexivity]. apply forallb_forall. intros x X. apply in_map_iff in X as (((a & b) & (c & e)) & <- & X). cbn [fst snd]. unfold path. cbn [quiet forallb].
    apply in_combine_r in X. rewrite Forall_forall in Fv. specialize (Fv _ X). cbn [snd] in Fv. rewrite (fine_changing n n b Fn), (fine_changing n e _ Fv). reflexivity.
  - destruct I as [<-|[<-|[]]]; [exact Logic.I|]. cbn [quiet_item map]. apply Forall_cons; [|apply Forall_nil]. unfold quiet_fn, shut_fn, public; cbn [f_self f_lets f_value]. split; [reflexivity|]. cbn [quiet andb].
    apply forallb_forall. intros x X. apply in_map_iff in X as (a & <- & _). reflexivity.
Qed.

Lemma accessible_quiet old r p : accessible old r p -> forall n f, In f (own_fns (shared p) n ++ trait_fns (shared p) n) -> quiet_fn n f.
Proof.
  intros (T & parts & D & ->) n f I. rewrite own_shared, trait_shared, <- map_app in I. apply in_map_iff in I as (g & <- & I).
  assert (X : exists i, In i (concat parts) /\ (exists fns, In g fns /\ (i = IImpl n fns \/ exists t, i = IImplFor t n fns))).
  { apply in_app_iff in I as [I|I]; unfold own_fns, trait_fns in I; apply in_flat_map in I as (i & J & I); exists i; (split; [exact J|]); destruct i; try destruct I; destruct (eqb_bytes n0 n) eqn:E; try destruct I; apply eqb_bytes_eq in E as ->.
    - eexists. split; [exact I|left; reflexivity].
    - eexists. split; [exact I|right; eexists; reflexivity]. }
  destruct X as (i & J & fns & K & H). destruct (part_in old (ro_default r) parts D i J) as (d & part & G & De & L & _). pose proof (declares_quiet _ _ _ _ _ G De L) as Qi.
  assert (Y : Forall (quiet_fn n) (map shut_fn fns)) by (destruct H as [-> |[t ->]]; exact Qi). rewrite Forall_forall in Y. apply Y, in_map, K.
Qed.
