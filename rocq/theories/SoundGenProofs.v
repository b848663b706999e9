(** Proof of C79: the generated program finds its functions by name. *)
From Coq Require Import String.
From Verif Require Import Base StringCompactionModel StringCompactionProofs LinkedModel LinkedSpec DocModel DiffSpec DiffProofs ArchiveModel JsonModel JsonSpec ValidSpec IntfModel IntfProofs
  GenModel GenSpec GenNameProofs GenProofs GenWellProofs CodeModel CodeSpec CodeNameProofs ApiModel TypeSpec TypeProofs TypeGenProofs ReadModel RunModel RunSpec SoundSpec SoundProofs.

Local Notation text := (list Z).
Local Notation "! s" := (txt s%string) (at level 0, s at level 0).

Definition capital (s : text) : Prop := exists c r, s = c :: r /\ upper c.
Lemma variant_capital s o : snake s -> capital (variant_name s o).
Proof. intros H. rewrite variant_old by exact H. destruct (type_name_shape (with_old s o) (snake_old s o H)) as (c & r & E & U & _). exists c, r. split; assumption. Qed.
Lemma type_capital s : snake s -> capital (to_type_name s).
Proof. intros H. destruct (type_name_shape s H) as (c & r & E & U & _). exists c, r. split; assumption. Qed.
Definition enum_fn_names : list text := map txt ["from_str"; "from_num"; "len"; "to_num"; "metadata"; "to_str"; "new"; "id"; "from"]%string.
Lemma not_capital f : In f enum_fn_names -> ~ capital f.
Proof.
  intros I (c & r & -> & U). assert (A : forallb (fun x => match x with c :: _ => 97 <=? c | [] => false end) enum_fn_names = true) by (vm_compute; reflexivity).
  rewrite forallb_forall in A. specialize (A _ I). cbn beta iota in A. apply Z.leb_le in A. unfold upper in U. lia.
Qed.
Lemma enum_fns d part part' repr n vs n' fns f : declares d part -> In (CodeSpec.IEnum repr n vs) part -> declares d part' -> In (IImpl n' fns) part' -> In f fns -> In (f_name f) enum_fn_names.
Proof.
  intros D I D' I' F. destruct D as [ms fs W|x ms fs W|x ms fs W|x ms fs W|m ws from_str from_num to_num len metadata|m ws new W|m ws id].
  1-4: exfalso; unfold wrapper in I; cbn [In] in I; repeat (destruct I as [I|I]; [discriminate I|]); destruct I.
  - inversion D'; subst. destruct I' as [I'|[I'|[]]]; [discriminate I'|]. injection I' as <- <-. unfold enum_fn_names. cbn [In] in F. repeat (destruct F as [<-|F]; [cbn [f_name public map In]; tauto|]). destruct F.
  - inversion D'; subst. destruct I' as [I'|[I'|[]]]; [discriminate I'|]. injection I' as <- <-. unfold enum_fn_names. cbn [In] in F. repeat (destruct F as [<-|F]; [cbn [f_name public map In]; tauto|]). destruct F.
  - inversion D'; subst. destruct I' as [I'|[I'|[]]]; [discriminate I'|]. injection I' as <- <-. unfold enum_fn_names. cbn [In] in F. repeat (destruct F as [<-|F]; [cbn [f_name public map In]; tauto|]). destruct F.
Qed.
Lemma declares_from d part : declares d part -> from_names part = [] \/ from_names part = [decl_name d].
Proof. intros H. destruct H; [left|right|right|left|left|left|left]; reflexivity. Qed.

Section Whole.
Variable old : list name.
Variable root : hmap (Z * rootvalue).
Hypothesis T : tame root.
Hypothesis B : forall key id d rows o, In (key, (id, WTable d rows o)) root -> zlen rows < 2 ^ 64.
Variable parts : list (list CodeSpec.item).
Hypothesis D : Forall2 declares (generate old root) parts.
Let p : list CodeSpec.item := concat parts.

Lemma from_once : NoDup (from_names p).
Proof.
  assert (X : forall ds q, Forall2 declares ds q -> NoDup (map decl_name ds) -> NoDup (from_names (concat q)) /\ incl (from_names (concat q)) (map decl_name ds)).
  { unfold from_names. induction 1 as [|d part ds q H F IH]; intros N; [split; [apply NoDup_nil|apply incl_refl]|]. cbn [map concat] in *. inversion N as [|? ? N1 N2]; subst. destruct (IH N2) as [Y Z]. rewrite flat_map_app.
    destruct (declares_from d part H) as [E|E]; unfold from_names in E; rewrite E; cbn [app].
    - split; [exact Y|]. intros x I. right. exact (Z x I).
    - split; [apply NoDup_cons; [intros I; exact (N1 (Z _ I))|exact Y]|]. intros x [<-|I]; [left; reflexivity|right; exact (Z x I)]. }
  exact (proj1 (X _ _ D (generate_names old root T))).
Qed.
Lemma variants_capital d part repr n vs v : generated old root d -> declares d part -> In (CodeSpec.IEnum repr n vs) part -> In v (map fst vs) -> capital v.
Proof.
  assert (K : forall stem l v, listed root stem l -> In v (map (fun key => to_type_name key) (map fst (ld_refs l))) -> capital v).
  { intros stem l w L I. apply in_map_iff in I as (key & <- & I). destruct (refs_keys root T stem l key L I) as (id & d' & rows & o & J). apply type_capital. destruct (t_names root T _ _ J) as ((S & _) & _). exact S. }
  intros G H I V. destruct G as [|key id d rows o R|key id d rows o R|stem l C|stem l C En|stem l C|stem l C En|stem l C En].
  1,2,4,6: exfalso; inversion H; subst; unfold wrapper in I; cbn [In] in I; repeat (destruct I as [I|I]; [discriminate I|]); destruct I.
  - unfold ids_decl in H. inversion H; subst. destruct I as [I|[I|[]]]; [|discriminate I]. injection I as <- <- <-. rewrite map_map in V. cbn [fst] in V. rewrite map_id in V. apply in_map_iff in V as ((row & b) & <- & V).
    unfold row_keys in V. apply in_map_iff in V as ((row' & it) & E & V). injection E as <- <-. destruct (t_rows root T _ _ _ _ _ R) as (_ & _ & O). destruct (O _ _ V) as ((S & _) & _). apply variant_capital, S.
  - unfold enum_decl in H. inversion H; subst. destruct I as [I|[I|[]]]; [|discriminate I]. injection I as <- <- <-. rewrite map_map in V. cbn [fst] in V. rewrite map_map in V. cbn [fst] in V. eapply K; [apply clisted_listed, C|]. exact V.
  - unfold enum_decl in H. inversion H; subst. destruct I as [I|[I|[]]]; [|discriminate I]. injection I as <- <- <-. rewrite map_map in V. cbn [fst] in V. rewrite map_map in V. cbn [fst] in V. eapply K; [apply mlisted_listed, C|]. exact V.
  - unfold kind_decl in H. inversion H; subst. destruct I as [I|[I|[]]]; [|discriminate I]. injection I as <- <- <-. rewrite map_map in V. cbn [fst] in V. rewrite map_map in V. cbn [fst] in V. eapply K; [apply mlisted_listed, C|]. exact V.
Qed.
Lemma whole_named : plainly_named p.
Proof.
  split; [exact from_once|]. intros n vs f (repr & I) F V. destruct (part_in old root parts D _ I) as (d & part & G & H & J & _).
  apply (not_capital (f_name f)); [|exact (variants_capital d part repr n vs _ G H J V)]. apply in_app_iff in F as [F|F].
  - apply own_fns_in in F as (fns & K & L). destruct (part_in old root parts D _ K) as (d' & part' & G' & H' & J' & _).
    assert (E : d = d').
    { apply (generated_unique old root T); [exact G|exact G'|]. destruct (declares_types d part H) as [X _]. destruct (declares_types d' part' H') as [_ Y].
      assert (A : In n (type_names part)) by (unfold type_names; apply in_flat_map; eexists; split; [exact J|left; reflexivity]).
      assert (A' : In n (impl_names part')) by (unfold impl_names; apply in_flat_map; eexists; split; [exact J'|left; reflexivity]).
      rewrite X in A. rewrite Y in A'. destruct A as [A|[]], A' as [A'|[]]. rewrite A, A'. reflexivity. }
    subst d'. exact (enum_fns d part part' repr n vs n fns f H J H' J' L).
  - unfold trait_fns in F. apply in_flat_map in F as (i & K & F). destruct i as [| | | | |tr m fns]; try destruct F. destruct (eqb_bytes m n); [|destruct F].
    pose proof (po_items _ (whole_ok old root T B parts D)) as A. rewrite Forall_forall in A. specialize (A _ K). inversion A as [| | | | |? ? g x _ _ FN]; subst. destruct F as [<-|[]]. rewrite FN. unfold enum_fn_names. cbn [map In]. tauto.
Qed.
End Whole.
