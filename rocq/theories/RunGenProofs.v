(** Proof of C68: the functions of a generated text, found by their names. *)
From Coq Require Import String.
From Verif Require Import Base StringCompactionModel StringCompactionProofs LinkedModel LinkedSpec DocModel DiffSpec DiffProofs ArchiveModel JsonModel IntfModel GenModel GenSpec GenNameProofs GenProofs GenWellProofs.
From Verif Require Import CodeSpec ApiModel TypeSpec TypeProofs TypeFnProofs TypeItemProofs TypeGenProofs ReadModel RunModel RunSpec RunProofs.

Local Notation text := (list Z).
Local Notation "! s" := (txt s%string) (at level 0, s at level 0).
Ltac shut := vm_compute; reflexivity.
Ltac look := first [apply hget_here; shut | apply hget_next; [shut|look] | assumption].
Ltac holder := vm_compute; tauto.

(* ------------------------------------------------------------------ *)
(** * Parts *)

Lemma own_fns_app a b n : own_fns (a ++ b) n = own_fns a n ++ own_fns b n.
Proof. apply flat_map_app. Qed.
Lemma trait_fns_app a b n : trait_fns (a ++ b) n = trait_fns a n ++ trait_fns b n.
Proof. apply flat_map_app. Qed.
Lemma is_variant_app a b n v : is_variant (a ++ b) n v = is_variant a n v || is_variant b n v.
Proof. apply existsb_app. Qed.

Lemma eqb_other' a b : a <> b -> eqb_bytes a b = false.
Proof. intros N. destruct (eqb_bytes a b) eqn:E; [apply eqb_bytes_eq in E; contradiction|reflexivity]. Qed.

Lemma part_other d part n : declares d part -> decl_name d <> n -> own_fns part n = [] /\ trait_fns part n = [] /\ forall v, is_variant part n v = false.
Proof.
  intros H N. destruct H; unfold own_fns, trait_fns, is_variant, wrapper; cbn [decl_name flat_map existsb] in *; rewrite !(eqb_other' _ _ N); cbn [andb orb app]; auto.
Qed.

Lemma fn_found ms fns m : Forall2 written ms fns -> NoDup (map m_name ms) -> In m ms -> exists f, written m f /\ fn_named (m_name m) fns = Some f.
Proof.
  unfold fn_named. induction 1 as [|a f ms fns W F IH]; intros N I; [destruct I|]. cbn [map] in N. apply NoDup_cons_iff in N as [N M]. cbn [find]. rewrite (written_name a f W).
  destruct I as [->|I].
  - exists f. rewrite eqb_bytes_refl. split; [exact W|reflexivity].
  - rewrite eqb_other'; [exact (IH M I)|]. intros E. apply N. rewrite E. apply in_map, I.
Qed.

Lemma ends_in_app' x s : ends_in (x ++ s) s = true.
Proof.
  unfold ends_in. rewrite app_length. replace (List.length x + List.length s - List.length s)%nat with (List.length x) by lia.
  rewrite skipn_app, skipn_all, Nat.sub_diag. cbn [app skipn]. apply eqb_bytes_refl.
Qed.

Section Whole.
Variable old : list name.
Variable root : hmap (Z * rootvalue).
Hypothesis T : tame root.
Variable parts : list (list item).
Hypothesis D : Forall2 declares (generate old root) parts.
Let p : list item := concat parts.
Variable iter : forall A, hmap A -> hmap A.
Variable r : root_obj.
Variable told : effect -> bool.

Local Notation EV := (EV p iter r told).
Local Notation EVs := (EVs p iter r told).
Local Notation Enter := (Enter p iter r told).
Local Notation Assoc := (Assoc p iter r told).
Local Notation Method := (Method p iter r told).
Local Notation makes := (makes p iter r told).

Lemma only_part d : generated old root d -> exists part, declares d part /\ own_fns p (decl_name d) = own_fns part (decl_name d) /\
  trait_fns p (decl_name d) = trait_fns part (decl_name d) /\ forall v, is_variant p (decl_name d) v = is_variant part (decl_name d) v.
Proof.
  intros G. apply generated_generate in G. pose proof (generate_names old root T) as N. unfold p. clear p. revert N G. induction D as [|d' part ds parts' H F IH]; intros N G; [destruct G|].
  cbn [map] in N. apply NoDup_cons_iff in N as [N M]. cbn [concat].
  assert (O : forall d0, In d0 ds -> decl_name d0 <> decl_name d') by (intros d0 I E; apply N; rewrite <- E; apply in_map, I).
  destruct G as [->|G].
  - exists part. split; [exact H|]. assert (X : own_fns (concat parts') (decl_name d) = [] /\ trait_fns (concat parts') (decl_name d) = [] /\ forall v, is_variant (concat parts') (decl_name d) v = false).
    { clear - F O. induction F as [|d1 part1 ds parts1 H F IH]; [split; [reflexivity|split; reflexivity]|]. cbn [concat].
      destruct (part_other d1 part1 (decl_name d) H (O d1 ltac:(left; reflexivity))) as (A & B & C). destruct IH as (A' & B' & C'); [intros d0 I; apply O; right; exact I|].
      split; [rewrite own_fns_app, A, A'; reflexivity|]. split; [rewrite trait_fns_app, B, B'; reflexivity|]. intros v. rewrite is_variant_app, C, C'. reflexivity. }
    destruct X as (A & B & C). split; [rewrite own_fns_app, A, app_nil_r; reflexivity|]. split; [rewrite trait_fns_app, B, app_nil_r; reflexivity|].
    intros v. rewrite is_variant_app, C, orb_false_r. reflexivity.
  - destruct (IH F M G) as (part' & H' & A & B & C). exists part'. split; [exact H'|].
    destruct (part_other d' part (decl_name d) H) as (A' & B' & C'); [intros E; exact (O d G (eq_sym E))|].
    split; [rewrite own_fns_app, A', A; reflexivity|]. split; [rewrite trait_fns_app, B', B; reflexivity|]. intros v. rewrite is_variant_app, C', C. reflexivity.
Qed.

(** the functions of a struct *)
Lemma struct_fns n ms : generated old root (DStruct n ms) -> Forall2 written ms (own_fns p n).
Proof.
  intros G. destruct (only_part _ G) as (part & H & A & _). cbn [decl_name] in A. rewrite A. clear A. remember (DStruct n ms) as d eqn:E.
  destruct H as [ms' fns F|y ms' fns F|y ms' fns F|y ms' fns F| | | ]; try discriminate E;
    pose proof (f_equal decl_name E) as X; pose proof (f_equal methods_of E) as M; cbn [decl_name methods_of] in X, M; subst ms' n; clear E;
    unfold own_fns, wrapper; cbn [flat_map]; rewrite eqb_bytes_refl; cbn [app]; rewrite app_nil_r; exact F.
Qed.
Lemma method_found n ms m : generated old root (DStruct n ms) -> In m ms -> exists f, written m f /\ fn_named (m_name m) (own_fns p n) = Some f.
Proof.
  intros G I. apply (fn_found ms); [apply struct_fns, G| |exact I]. apply (wf_methods _ (generate_well_formed old root T) n ms). apply generated_generate, G.
Qed.

(** a method of a struct, or of one in guards *)
Lemma method_struct n fs v f vs k : bare v = VStruct n fs -> method_of p r (eval p iter r told k) v f vs = own_method p (eval p iter r told k) n (VStruct n fs) f vs.
Proof.
  induction v as [| | | | | | |g item v IH| | |]; cbn [bare]; intros E; try discriminate E.
  - injection E as -> ->. reflexivity.
  - cbn [method_of]. replace (guard_fn p r (eval p iter r told k) g item v f vs) with (@None (M val)); [exact (IH E)|].
    destruct v; try discriminate E; unfold guard_fn; destruct item, vs as [|[] [|]]; reflexivity.
Qed.
Lemma run_method n ms m fs v vs w R : generated old root (DStruct n ms) -> In m ms -> bare v = VStruct n fs ->
  (forall f, written m f -> Enter n f (Some (VStruct n fs)) vs w R) -> Method v (m_name m) vs w R.
Proof.
  intros G I B H. destruct (method_found n ms m G I) as (f & W & N). specialize (H f W). eapply conv_ext; [|exact H]. intros k. cbv beta.
  rewrite (method_struct n fs v _ vs k B). unfold own_method. rewrite N. reflexivity.
Qed.

(** functions that are called by the name of the type *)
Definition own_names : list text := map fst modules ++ guards ++ holders ++ map txt ["Box"; "RootObjectPtr"; "Self"]%string.
Lemma not_own d : generated old root d -> ~ In (decl_name d) own_names.
Proof.
  intros G. assert (X : decl_name d = !"RootIntf" \/ exists x s, In s suffixes /\ decl_name d = x ++ s).
  { destruct G; [left; reflexivity|right..]; cbn [decl_name ids_decl enum_decl kind_decl]; eexists; eexists; (split; [|reflexivity]); unfold suffixes; among. }
  intros H. destruct X as [X|(x & s & I & X)]; rewrite X in H.
  - assert (E : existsb (eqb_bytes !"RootIntf") own_names = false) by shut. rewrite <- Bool.not_true_iff_false in E. apply E. apply existsb_exists. eexists. split; [exact H|apply eqb_bytes_refl].
  - assert (E : existsb (fun c => existsb (ends_in c) suffixes) own_names = false) by shut. rewrite <- Bool.not_true_iff_false in E. apply E.
    apply existsb_exists. eexists. split; [exact H|]. apply existsb_exists. exists s. split; [exact I|apply ends_in_app'].
Qed.
Lemma own_self d : generated old root d -> decl_name d <> !"Self".
Proof. intros G E. apply (not_own d G). rewrite E. unfold own_names. rewrite !in_app_iff. right. right. right. cbn [map In]. tauto. Qed.
Lemma not_one_of l n : (forall x, In x l -> In x own_names) -> ~ In n own_names -> one_of l n = false.
Proof.
  intros S N. unfold one_of. destruct (existsb (eqb_bytes n) l) eqn:E; [|reflexivity]. apply existsb_exists in E as (y & Y & E). apply eqb_bytes_eq in E. subst y.
  exfalso. apply N, S, Y.
Qed.
Lemma assoc_out n f vs k : ~ In n own_names -> assoc p iter r told (eval p iter r told k) n f vs =
  match fn_named f (own_fns p n ++ trait_fns p n) with
  | Some g => enter (eval p iter r told k) n g None vs
  | None => if is_variant p n f then ret (VMake n f vs) else stuck
  end.
Proof.
  intros N. unfold assoc. assert (C : core_fn n f = None).
  { unfold core_fn. destruct (hget n modules) as [fs|] eqn:E; [|reflexivity]. exfalso. apply N. apply DiffProofs.hget_in in E. apply in_or_app. left. apply in_map_iff. eexists. split; [|exact E]. reflexivity. }
  assert (B : forall y, In y own_names -> eqb_bytes n y = false) by (intros y Y; destruct (eqb_bytes n y) eqn:E; [apply eqb_bytes_eq in E; subst y; contradiction|reflexivity]).
  rewrite C, !not_one_of; [rewrite !B; [reflexivity|..]| | | |]; try exact N; try (intros x I); unfold own_names; rewrite !in_app_iff; try tauto.
  all: right; right; right; cbn [map In]; tauto.
Qed.
Lemma run_assoc d f g vs w R : generated old root d -> fn_named f (own_fns p (decl_name d) ++ trait_fns p (decl_name d)) = Some g ->
  Enter (decl_name d) g None vs w R -> Assoc (decl_name d) f vs w R.
Proof. intros G N H. eapply conv_ext; [|exact H]. intros k. cbv beta. rewrite assoc_out by (apply not_own; exact G). rewrite N. reflexivity. Qed.

Lemma fn_named_app f a b : fn_named f (a ++ b) = match fn_named f a with Some g => Some g | None => fn_named f b end.
Proof. unfold fn_named. induction a as [|x a IH]; [reflexivity|]. cbn [app find]. destruct (eqb_bytes (f_name x) f); [reflexivity|exact IH]. Qed.

(** the function [from] of the trait *)
Definition from_fn (P : text) : fn :=
  Fn false false !"from" NoSelf [(!"ptr", TyName P)] (Some (TyName !"Self")) [] (Some (EStruct !"Self" [!"ptr"])).
Lemma from_enter n P q w : Enter n (from_fn P) None [VPtr q] w (Ok (VStruct n [(!"ptr", VPtr q)], w)).
Proof.
  eapply enter_rule; [apply lets_nil|]. cbn [and_then from_fn f_value f_ret]. eexists. split.
  - apply ev_struct. cbn [from_fn start_env f_args map combine app fst fields_of]. rewrite hget_here by shut. reflexivity.
  - cbn [and_then stamp]. change (named n !"Self") with n. reflexivity.
Qed.
Lemma mitem_from stem l : mlisted root stem l -> trait_fns p (mitem_type stem) = [from_fn !"MItemPtr"].
Proof.
  intros M. destruct (only_part _ (generated_mitem old root stem l M)) as (part & H & _ & B & _). cbn [decl_name] in B. rewrite B. apply declares_mitem in H as (fns & _ & ->).
  unfold trait_fns, wrapper. cbn [flat_map]. fold (mitem_type stem). rewrite eqb_bytes_refl. reflexivity.
Qed.
Lemma citem_from stem l : clisted root stem l -> trait_fns p (citem_type stem) = [from_fn !"CItemPtr"].
Proof.
  intros M. destruct (only_part _ (generated_citem old root stem l M)) as (part & H & _ & B & _). cbn [decl_name] in B. rewrite B. apply declares_citem in H as (fns & _ & ->).
  unfold trait_fns, wrapper. cbn [flat_map]. fold (citem_type stem). rewrite eqb_bytes_refl. reflexivity.
Qed.
Lemma citem_makes stem l q : clisted root stem l -> makes (citem_type stem) !"from" q.
Proof.
  intros C. split; [exact (own_self _ (generated_citem old root stem l C))|]. intros w.
  apply (run_assoc (DStruct (citem_type stem) (citem_methods stem l)) !"from" (from_fn !"CItemPtr")); [apply generated_citem, C| |apply from_enter].
  cbn [decl_name]. rewrite fn_named_app, (citem_from stem l C). replace (fn_named !"from" (own_fns p (citem_type stem))) with (@None fn); [reflexivity|]. symmetry.
  unfold fn_named.
  destruct (find _ _) as [g|] eqn:E; [|reflexivity]. exfalso. apply find_some in E as (I & E). apply eqb_bytes_eq in E.
  apply (citem_no_from root T stem l C). pose proof (struct_fns _ _ (generated_citem old root stem l C)) as F. rewrite <- (written_names _ _ F), <- E. apply in_map, I.
Qed.
Lemma converted_rule g n P q w : trait_fns p n = [from_fn P] -> conv (fun k => converted p (eval p iter r told k) g n q) w (Ok (VGuard g (Some n) (VStruct n [(!"ptr", VPtr q)]), w)).
Proof.
  intros E. unfold converted. rewrite E. change (fn_named !"from" [from_fn P]) with (Some (from_fn P)). cbv iota. eapply conv_seq; [apply from_enter|]. cbn [and_then]. apply conv_now. reflexivity.
Qed.
Lemma table_makes key id d rows o t : In (key, (id, WTable d rows o)) root -> makes (table_type key) !"new" (PTable t).
Proof.
  intros I. pose proof (generated_table old root key id d rows o I) as G. split; [exact (own_self _ G)|]. intros w.
  destruct (method_found _ _ (Meth !"new" [!"ptr"] COther [table_type key] []) G) as (f & W & N); [left; reflexivity|]. cbn [m_name] in N.
  apply (run_assoc (DStruct (table_type key) (table_methods key (row_keys rows o))) !"new" f); [exact G|cbn [decl_name]; rewrite fn_named_app, N; reflexivity|]. cbn [decl_name].
  inversion W; subst. eapply enter_rule; [apply lets_nil|]. cbn [and_then public f_value f_ret]. eexists. split.
  - apply ev_struct. cbn [public start_env f_args map combine app fst fields_of]. rewrite hget_here by shut. reflexivity.
  - cbn [and_then stamp]. rewrite named_other by exact (own_self _ G). reflexivity.
Qed.
End Whole.
