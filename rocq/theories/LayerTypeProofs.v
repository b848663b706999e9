(** Proof of C83: what passes the compiler passes it with other code beside it. *)
From Coq Require Import String.
From Verif Require Import Base StringCompactionModel StringCompactionProofs JsonModel IntfModel CodeSpec ApiModel TypeSpec TypeProofs RunModel RunSpec SoundSpec SoundProofs BesideSpec BesideProofs LayerSpec.

Local Notation text := (list Z).
Local Notation "! s" := (txt s%string) (at level 0, s at level 0).

Scheme has_more := Minimality for has Sort Prop
  with given_more := Minimality for given Sort Prop
  with receives_more := Minimality for receives Sort Prop
  with armed_more := Minimality for armed Sort Prop
  with printed_more := Minimality for printed Sort Prop.
Combined Scheme typing_more from has_more, given_more, receives_more, armed_more, printed_more.

Section Program.
Variable p q : list CodeSpec.item.
Hypothesis POK : program_ok p.
Hypothesis NAMED : plainly_named p.
Hypothesis JOINS : joins p q.
Let APART : apart p q := j_apart p q JOINS.
Local Notation pq := (p ++ q).

Lemma in_more i : In i p -> In i pq. Proof. intros I. apply in_or_app. left. exact I. Qed.
Lemma struct_more n f : struct_fields p n f -> struct_fields pq n f. Proof. intros (d & I). exists d. apply in_more, I. Qed.
Lemma enum_more n f : enum_variants p n f -> enum_variants pq n f. Proof. intros (d & I). exists d. apply in_more, I. Qed.
Lemma fn_more n f : fn_of p n f -> fn_of pq n f. Proof. intros (fns & I & J). exists fns. split; [apply in_more, I|exact J]. Qed.
Lemma from_more n t : made_from p n t -> made_from pq n t. Proof. intros (t' & fns & I & J). exists t', fns. split; [apply in_more, I|exact J]. Qed.
Lemma names_more n : In n (type_names p) -> In n (type_names pq). Proof. intros I. unfold type_names. rewrite flat_map_app. apply in_or_app. left. exact I. Qed.
Lemma implements_more tr t : implements p tr t -> implements pq tr t.
Proof. induction 1; [eapply i_core; eassumption|eapply i_derived; [apply in_more; eassumption|assumption]|apply i_box; assumption|apply i_ref; assumption]. Qed.
Lemma type_more t : type_ok p t -> type_ok pq t.
Proof.
  induction 1; [eapply ok_core; eassumption|apply ok_declared, names_more; assumption|apply ok_app; assumption|eapply ok_app_from; [eassumption|apply from_more; assumption]|apply ok_ref; assumption|apply ok_mut; assumption
    |apply ok_pair; assumption|apply ok_slice; assumption].
Qed.
Lemma bounds_more s vs : bounds p s vs -> bounds pq s vs.
Proof. intros H x t I. destruct (H x t I) as (n & E & M). exists n. split; [exact E|apply from_more, M]. Qed.
Lemma located_more C e t o m : located p C e t o m -> located pq C e t o m.
Proof.
  induction 1; [apply pl_var; assumption|eapply pl_field; [eassumption|apply struct_more; eassumption|assumption]|eapply pl_field_ref; [eassumption|apply struct_more; eassumption|assumption]
    |eapply pl_field_mut; [eassumption|apply struct_more; eassumption|assumption]|apply pl_box; assumption].
Qed.
Lemma binds_more n w t g : binds p n w t g -> binds pq n w t g.
Proof.
  induction 1; [apply b_any|apply b_var|apply b_text|apply b_num; assumption|eapply b_path; [apply enum_more; eassumption|assumption]|eapply b_path_ref; [apply enum_more; eassumption|assumption]
    |eapply b_tuple; [apply enum_more; eassumption|assumption]|eapply b_tuple_ref; [apply enum_more; eassumption|assumption]|apply b_qv; assumption|apply b_pair; assumption].
Qed.
Lemma covers_more ps t : covers p ps t -> covers pq ps t.
Proof. intros H. destruct H; [apply c_any; assumption|eapply c_enum; [apply enum_more; eassumption|assumption]|eapply c_enum_ref; [apply enum_more; eassumption|assumption|assumption]]. Qed.
Lemma from_named a t : made_from p a t -> In a (type_names p).
Proof. intros (t' & fns & J & _). pose proof (po_items p POK) as F. rewrite Forall_forall in F. specialize (F _ J). inversion F; subst. assumption. Qed.
Lemma fn_less a f : In a (type_names p) -> fn_of pq a f -> fn_of p a f.
Proof. intros N (fns & I & J). apply in_app_or in I as [I|I]; [exists fns; split; assumption|]. contradiction (APART _ a I N). reflexivity. Qed.

Lemma typing n : (forall C u e t, has p n C u e t -> has pq n C u e t) /\ (forall C u es ts, given p n C u es ts -> given pq n C u es ts) /\ (forall C u rc e t, receives p n C u rc e t -> receives pq n C u rc e t) /\
  (forall C u t t' arms, armed p n C u t t' arms -> armed pq n C u t t' arms) /\ (forall C u es ts, printed p n C u es ts -> printed pq n C u es ts).
Proof.
  apply (typing_more p n (has pq n) (given pq n) (receives pq n) (armed pq n) (printed pq n)); intros.
  - eapply h_move, located_more; eassumption.
  - eapply h_copy; [apply located_more; eassumption|apply implements_more; assumption].
  - apply h_text.
  - apply h_num; assumption.
  - apply h_module; try assumption. apply bounds_more; assumption.
  - eapply h_assoc; try eassumption. apply bounds_more; assumption.
  - apply h_fn; try assumption. apply fn_more; assumption.
  - eapply h_from; [|apply from_more; eassumption|assumption]. intros f F. match goal with H : forall f, fn_of p _ f -> _ |- _ => apply H end. apply fn_less; [eapply from_named; eassumption|exact F].
  - eapply h_variant; [apply enum_more; eassumption|eassumption|assumption].
  - apply h_qv; assumption.
  - eapply h_unit; [apply enum_more; eassumption|eassumption].
  - apply h_some; assumption.
  - apply h_none; assumption.
  - eapply h_method; try eassumption. apply bounds_more; assumption.
  - apply h_own; try assumption. apply fn_more; assumption.
  - eapply h_ref, located_more; eassumption.
  - apply h_pair; assumption.
  - apply h_struct; try assumption. apply struct_more; assumption.
  - apply h_closure; assumption.
  - eapply h_match; [apply located_more; eassumption|assumption|apply covers_more; assumption].
  - eapply h_if_let; [eassumption|apply binds_more; eassumption|assumption|assumption].
  - apply h_unreachable.
  - eapply h_panic; eassumption.
  - apply h_unsafe; assumption.
  - apply h_index; try assumption. apply implements_more; assumption.
  - apply h_array; assumption.
  - apply h_block; assumption.
  - apply gv_nil.
  - eapply gv_cons; eassumption.
  - apply rc_value; assumption.
  - apply rc_ref; assumption.
  - eapply rc_place, located_more; eassumption.
  - eapply rc_mut, located_more; eassumption.
  - apply ar_nil.
  - eapply ar_cons; [apply binds_more; eassumption|assumption|assumption].
  - apply pr_nil.
  - eapply pr_cons; eassumption.
Qed.
Lemma stmts_more n u C ss C' : stmts_ok p n u C ss C' -> stmts_ok pq n u C ss C'.
Proof.
  induction 1; [apply st_nil|eapply st_let; [apply typing; eassumption|assumption]|eapply st_let_pat; [assumption|apply typing; eassumption|apply binds_more; eassumption|assumption]|eapply st_expr; [apply typing; eassumption|assumption]].
Qed.
Lemma fn_ok_more n f : fn_ok p n f -> fn_ok pq n f.
Proof.
  intros [A [T1 T2] (G & S_ & V)]. split; [exact A| |].
  - split; [eapply Forall_impl; [|exact T1]; intros a H; apply type_more, H|]. destruct (f_ret f); [apply type_more, T2|exact T2].
  - exists G. split; [apply stmts_more, S_|]. destruct (f_ret f), (f_value f); try exact V. apply typing, V.
Qed.
Lemma item_more i : item_ok p i -> item_ok pq i.
Proof.
  intros H. destruct H.
  - apply io_use; assumption.
  - apply io_unsafe; [assumption|apply names_more; assumption].
  - apply io_struct; try assumption; [eapply Forall_impl; [|eassumption]; intros a Y; apply type_more, Y|]. intros d f I J. apply implements_more. eauto.
  - apply io_enum; try assumption. intros v t I. apply type_more. eauto.
  - apply io_impl; [apply names_more; assumption|assumption|]. eapply Forall_impl; [|eassumption]. intros a Y. apply fn_ok_more, Y.
  - eapply io_from; try eassumption; [apply names_more; assumption|apply fn_ok_more; assumption].
Qed.
Lemma impl_typed n : In n (impl_names p) -> In n (type_names p).
Proof.
  unfold impl_names. intros I. apply in_flat_map in I as (i & I & J). destruct i; try contradiction J. destruct J as [->|[]]. pose proof (po_items p POK) as F. rewrite Forall_forall in F. specialize (F _ I). inversion F; subst. assumption.
Qed.
Lemma no_both n : In n (type_names p) -> ~ In n (type_names q) /\ ~ In n (impl_names q) /\ ~ In n (from_names q).
Proof.
  intros J. repeat split; intros K; apply in_flat_map in K as (i & K & L); pose proof (APART i n K J) as Z; destruct i; try contradiction L; destruct L as [L|[]]; exact (Z L).
Qed.
Lemma disjoint_app (l l' : list text) : NoDup l -> NoDup l' -> (forall x, In x l -> ~ In x l') -> NoDup (l ++ l').
Proof.
  induction l as [|a l IH]; intros D D' X; [exact D'|]. apply NoDup_cons_iff in D as [D1 D2]. cbn [app]. apply NoDup_cons; [|apply IH; [exact D2|exact D'|intros x J; apply X; right; exact J]]. rewrite in_app_iff. intros [J|J]; [contradiction|]. exact (X a (or_introl eq_refl) J).
Qed.
Lemma program_more : program_ok pq.
Proof.
  split.
  - unfold type_names. rewrite flat_map_app. apply disjoint_app; [exact (po_names p POK)|exact (j_names p q JOINS)|]. intros n J. exact (proj1 (no_both n J)).
  - unfold impl_names. rewrite flat_map_app. apply disjoint_app; [exact (po_impls p POK)|exact (j_impls p q JOINS)|]. intros n J. exact (proj1 (proj2 (no_both n (impl_typed n J)))).
  - unfold type_names. rewrite flat_map_app. intros n J. apply in_app_or in J as [J|J]; [exact (po_core p POK n J)|exact (j_core p q JOINS n J)].
  - apply Forall_app. split; [|exact (j_items p q JOINS)]. eapply Forall_impl; [|exact (po_items p POK)]. intros i. apply item_more.
Qed.
Lemma from_typed n : In n (from_names p) -> In n (type_names p).
Proof.
  unfold from_names. intros I. apply in_flat_map in I as (i & I & J). destruct i; try contradiction J. destruct J as [->|[]]. pose proof (po_items p POK) as F. rewrite Forall_forall in F. specialize (F _ I). inversion F; subst. assumption.
Qed.
Lemma fns_typed n f : In f (own_fns p n ++ trait_fns p n) -> In n (type_names p).
Proof.
  intros I. apply in_app_or in I as [I|I]; apply in_flat_map in I as (i & I & J); destruct i as [| | | |m fns|tr m fns]; try contradiction J; destruct (eqb_bytes m n) eqn:E; try contradiction J; apply eqb_bytes_eq in E as ->.
  - apply impl_typed. unfold impl_names. apply in_flat_map. eexists. split; [exact I|left; reflexivity].
  - apply from_typed. unfold from_names. apply in_flat_map. eexists. split; [exact I|left; reflexivity].
Qed.
Lemma named_more : plainly_named pq.
Proof.
  split.
  - unfold from_names. rewrite flat_map_app. apply disjoint_app; [exact (pn_from p NAMED)|exact (pn_from q (j_named p q JOINS))|]. intros n J. exact (proj2 (proj2 (no_both n (from_typed n J)))).
  - intros n vs f (d & I) J. apply in_app_or in I as [I|I].
    + assert (T : In n (type_names p)) by (unfold type_names; apply in_flat_map; eexists; split; [exact I|left; reflexivity]).
      rewrite (own_beside p q APART n T), (trait_beside p q APART n T) in J. eapply (pn_variants p NAMED); [exists d; exact I|exact J].
    + assert (T : In n (type_names q)) by (unfold type_names; apply in_flat_map; eexists; split; [exact I|left; reflexivity]).
      assert (X : In f (own_fns q n ++ trait_fns q n)).
      { unfold own_fns, trait_fns in J. rewrite !flat_map_app in J. rewrite !in_app_iff in J. apply in_or_app. destruct J as [[J|J]|[J|J]]; [exfalso|left; exact J|exfalso|right; exact J].
        - apply (proj1 (no_both n (fns_typed n f (in_or_app _ _ _ (or_introl J))))), T.
        - apply (proj1 (no_both n (fns_typed n f (in_or_app _ _ _ (or_intror J))))), T. }
      eapply (pn_variants q (j_named p q JOINS)); [exists d; exact I|exact X].
Qed.
End Program.
