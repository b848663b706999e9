(** Proofs for C69: what the calls of accessors do to the members of a document. *)
From Verif Require Import Base CompactionModel CompactionSpec StringCompactionModel StringCompactionProofs LinkedModel LinkedSpec DocModel DiffModel DiffWireModel DiffSpec DiffEditSpec DiffProofs DiffProofs2 DiffProofs3 DiffEditProofs
  ArchiveModel JsonModel JsonSpec ValidModel ValidSpec EmbedSpec EmbedProofs IntfModel IntfSpec IntfProofs
  SizeSpec SizeProofs SavedModel SavedProofs ReadModel AgainModel AgainSpec AgainProofs RunModel RunSpec RunAskProofs WroteSpec WroteProofs.

Lemma hset_map {A B} (g : A -> B) k v (m : hmap A) : map (fun e => (fst e, g (snd e))) (hset k v m) = hset k (g v) (map (fun e => (fst e, g (snd e))) m).
Proof. induction m as [|[x y] m IH]; [reflexivity|]. cbn [hset map fst snd]. destruct (eqb_bytes x k); [reflexivity|]. cbn [map fst snd]. rewrite IH. reflexivity. Qed.
Lemma assign_map {A B} (g : A -> B) id v (l : list (Z * A)) : map (fun e => (fst e, g (snd e))) (assign id v l) = assign id (g v) (map (fun e => (fst e, g (snd e))) l).
Proof. unfold assign. rewrite !map_map. apply map_ext. intros [k x]. cbn [fst snd]. destruct (k =? id); reflexivity. Qed.
Lemma hset_self {A} k (v : A) m : hget k m = Some v -> hset k v m = m.
Proof. induction m as [|[x y] m IH]; [discriminate|]. cbn [hget hset]. destruct (eqb_bytes x k); [intros E; apply Some_inj in E; subst y; reflexivity|]. intros E. rewrite IH by exact E. reflexivity. Qed.
Lemma assign_self {A} id (v : A) l : NoDup (ids l) -> lookup id l = Some v -> assign id v l = l.
Proof.
  induction l as [|[k x] l IH]; [discriminate|]. cbn [lookup]. intros N E. change (ids ((k, x) :: l)) with (k :: ids l) in N. inversion N as [|? ? Nk Nl]; subst.
  unfold assign. cbn [map fst]. destruct (Z.eqb_spec k id) as [->|Ne].
  - rewrite Z.eqb_refl in E. apply Some_inj in E; subst x. f_equal. rewrite <- (map_id l) at 2. apply map_ext_in. intros [k y] I. cbn [fst]. destruct (Z.eqb_spec k id) as [->|]; [|reflexivity].
    exfalso. apply Nk. unfold ids. apply in_map_iff. exists (id, y). auto.
  - destruct (Z.eqb_spec id k); [congruence|]. f_equal. apply IH; assumption.
Qed.

Lemma def_param n d (e : ldef (defT n)) key i p vt : is_def (S n) d e -> hget key (ld_members (undef d)) = Some (i, DParam p vt) -> hget key (ld_members e) = Some (i, DParam p vt).
Proof.
  intros I G. assert (F : Forall2 (fun a b => fst a = fst b /\ fst (snd a) = fst (snd b) /\ is_defval (is_def n) (snd (snd a)) (snd (snd b))) (ld_members (undef d)) (ld_members e)) by apply I. pose proof (forall2_hget (fun a b => fst a = fst b /\ is_defval (is_def n) (snd a) (snd b)) _ _ key F) as M. rewrite G in M. destruct (hget key (ld_members e)) as [[i' v]|]; [|contradiction].
  cbn [fst snd] in M. destruct M as (<- & M). destruct v; cbn [is_defval] in M; try contradiction. destruct M as (<- & <-). reflexivity.
Qed.

Definition plain_item (n : nat) : item (mlistT n) -> citem := plain_item_of (plain_list n).

Section Reach.
Variable P : forall m, ldef (defT m) -> item (mlistT m) -> Prop.
(** the item at a place below the item [id] of a list *)
Fixpoint reach (n : nat) (a : loc) {struct n} : defT n -> mlistT n -> Z -> Prop :=
  match n with
  | O => fun _ _ _ => False
  | S n => fun d l id =>
      NoDup (ids (fst l)) /\ exists it, lookup id (fst l) = Some it /\
      match a with
      | [] => P n d it
      | (key, id') :: a => exists i d1 u l1, hget key (ld_members d) = Some (i, DMil d1 u) /\ hget key (it_values it) = Some (LMil (Some l1)) /\ reach n a d1 l1 id'
      end
  end.
End Reach.

Lemma reach_mono (P Q : forall m, ldef (defT m) -> item (mlistT m) -> Prop) n : (forall m d it, P m d it -> Q m d it) -> forall a d l id, reach P n a d l id -> reach Q n a d l id.
Proof.
  intros H. induction n as [|n IH]; intros a d l id; [intros []|]. cbn [reach]. intros (N & it & E & R). split; [exact N|]. exists it. split; [exact E|].
  destruct a as [|(key, id') a]; [apply H, R|]. destruct R as (i & d1 & u & l1 & A & B & R). exists i, d1, u, l1. auto.
Qed.

Definition spotted mem (s : spot) : forall m, ldef (defT m) -> item (mlistT m) -> Prop :=
  fun m d it => plain_item m it = fst s /\ is_def (S m) (snd s) d /\ typed_item mem (typedT mem m) it d.

Lemma reach_intro mem n : forall a D d l id s, is_def n D d -> typedT mem n l d ->
  match mlist_item (fst (plain_list n l)) D id with Some s0 => item_below s0 a | None => None end = Some s -> reach (spotted mem s) n a d l id.
Proof.
  induction n as [|n IH]; intros a D d l id s I T E; [destruct l|]. change (mlistT (S n)) with (mlist (item (mlistT n))) in l. change (defT (S n)) with (ldef (defT n)) in d.
  destruct l as [l nx]. cbn [plain_list fst] in E. unfold mlist_item in E. rewrite (lookup_map (plain_item_of (plain_list n))) in E. cbn [typedT] in T. destruct T as (Nd & _ & _ & _ & _ & _ & T). cbn [fst snd] in Nd, T.
  cbn [reach fst]. split; [exact Nd|]. destruct (lookup id l) as [it|] eqn:L; cbn [option_map] in E; [|discriminate E]. exists it. split; [exact L|]. pose proof (T _ _ L) as Ti.
  destruct a as [|(key, id') a].
  - cbn [item_below] in E. apply Some_inj in E. subst s. split; [reflexivity|]. split; [exact I|exact Ti].
  - destruct (below_cons _ _ _ _ _ E) as (j & d0 & u & l0 & y & Hd & Hv & Hl & B). cbn [fst snd] in *. cbn [plain_item_of ci_values] in Hv. rewrite (hget_map (plain_value (plain_list n))) in Hv.
    destruct (hget key (it_values it)) as [v|] eqn:V; [|discriminate]. cbn [option_map] in Hv. destruct v as [q|x|[l1|]]; cbn [plain_value option_map] in Hv; try discriminate. injection Hv as <-.
    destruct (def_get' n D d key j d0 u I Hd) as (d1 & Hd1 & I1). exists j, d1, u, l1. split; [exact Hd1|]. split; [exact V|].
    destruct Ti as (_ & _ & Ti & _). specialize (Ti _ _ V). cbn [typed_value] in Ti. destruct Ti as (j' & d2 & u' & Hd2 & T1). rewrite Hd1 in Hd2. injection Hd2 as <- <- <-.
    eapply IH; [exact I1|exact T1|]. unfold mlist_item. rewrite Hl. cbn [option_map]. exact B.
Qed.

Lemma reach_run o b c n : forall a d l id, reach (fun m d it => exists it', item_do it d o = Ok (it', b) /\ plain_item m it' = c) n a d l id ->
  exists l' x, list_run n (step_below id a (inr o)) d l = Ok (l', b) /\ lookup id (fst (plain_list n l)) = Some x /\
    plain_list n l' = (assign id (put_item x a c) (fst (plain_list n l)), snd (plain_list n l)).
Proof.
  induction n as [|n IH]; intros a d l id; [intros []|]. change (mlistT (S n)) with (mlist (item (mlistT n))) in l. change (defT (S n)) with (ldef (defT n)) in d.
  destruct l as [l nx]. cbn [reach]. intros (N & it & L & R). cbn [fst] in N, L. cbn [plain_list fst snd].
  assert (Y : lookup id (map (fun e => (fst e, plain_item_of (plain_list n) (snd e))) l) = Some (plain_item_of (plain_list n) it)) by (transitivity (option_map (plain_item_of (plain_list n)) (lookup id l)); [apply lookup_map|exact (f_equal (option_map (plain_item_of (plain_list n))) L)]). destruct a as [|(key, id') a].
  - destruct R as (it' & E & C). cbn [step_below list_run fst snd]. rewrite L, E. cbn [bind]. eexists _, _. split; [reflexivity|]. split; [exact Y|]. cbn [fst snd put_item]. rewrite (assign_map (plain_item_of (plain_list n))). unfold plain_item in C. rewrite C. reflexivity.
  - destruct R as (i & d1 & u & l1 & Hd & Hv & R). destruct (IH a d1 l1 id' R) as (l' & x & E & X & Pl). cbn [step_below list_run fst snd]. rewrite L. unfold item_open. rewrite Hd, Hv. rewrite E. cbn [bind].
    eexists _, _. split; [reflexivity|]. split; [exact Y|]. cbn [fst snd]. rewrite (assign_map (plain_item_of (plain_list n))). f_equal. f_equal.
    assert (Z : hget key (map (fun e => (fst e, plain_value (plain_list n) (snd e))) (it_values it)) = Some (VMil (Some (plain_list n l1)))) by (transitivity (option_map (plain_value (plain_list n)) (hget key (it_values it))); [apply hget_map|exact (f_equal (option_map (plain_value (plain_list n))) Hv)]).
    cbn [put_item plain_item_of ci_values ci_refs it_values it_refs]. match goal with |- context [hget key ?m] => replace (hget key m) with (Some (VMil (Some (plain_list n l1)))) by (symmetry; exact Z) end. rewrite X.
    rewrite <- Pl. exact (f_equal (fun m => CItem m (it_refs it)) (hset_map (plain_value (plain_list n)) key (LMil (Some l')) (it_values it))).
Qed.
Lemma reach_same o b n : forall a d l id, reach (fun m d it => item_do it d o = Ok (it, b)) n a d l id -> list_run n (step_below id a (inr o)) d l = Ok (l, b).
Proof.
  induction n as [|n IH]; intros a d l id; [intros []|]. change (mlistT (S n)) with (mlist (item (mlistT n))) in l. change (defT (S n)) with (ldef (defT n)) in d.
  destruct l as [l nx]. cbn [reach]. intros (N & it & L & R). cbn [fst] in N, L. destruct a as [|(key, id') a].
  - cbn [step_below list_run fst snd]. rewrite L, R. cbn [bind]. rewrite assign_self by (exact N || exact L). reflexivity.
  - destruct R as (i & d1 & u & l1 & Hd & Hv & R). cbn [step_below list_run fst snd]. rewrite L. unfold item_open. rewrite Hd, Hv. rewrite (IH _ _ _ _ R). cbn [bind]. rewrite hset_self by exact Hv.
    rewrite assign_self by (exact N || (destruct it; exact L)). reflexivity.
Qed.
Lemma reach_ok mem o n : forall a d l id, reach (fun m d it => ok_item_op mem d o) n a d l id -> ok_step mem n (step_below id a (inr o)) d.
Proof.
  induction n as [|n IH]; intros a d l id; [intros []|]. change (defT (S n)) with (ldef (defT n)) in d. cbn [reach]. intros (N & it & L & R). destruct a as [|(key, id') a]; [exact R|].
  destruct R as (i & d1 & u & l1 & Hd & Hv & R). cbn [step_below ok_step]. intros i' d' u' H. rewrite Hd in H. injection H as <- <- <-. eapply IH, R.
Qed.
Lemma reach_generated o n : forall a d l id, reach (fun m d it => generated_op d o) n a d l id -> generated_step n (step_below id a (inr o)) d.
Proof.
  induction n as [|n IH]; intros a d l id; [intros []|]. change (defT (S n)) with (ldef (defT n)) in d. cbn [reach]. intros (N & it & L & R). destruct a as [|(key, id') a]; [exact R|].
  destruct R as (i & d1 & u & l1 & Hd & Hv & R). cbn [step_below generated_step]. intros i' d' u' H. rewrite Hd in H. injection H as <- <- <-. eapply IH, R.
Qed.

(* ------------------------------------------------------------------ *)
(** * From the root *)

Lemma plain_hset {n} (f : sabun n) k l : plain_sabun (hset k (DocModel.RMut (Some l)) f) = hset k (DocModel.RMut (Some (plain_list n l))) (plain_sabun f).
Proof. unfold plain_sabun. rewrite (hset_map (fun v => match v with RParam p => RParam p | DocModel.RMut o => DocModel.RMut (option_map (plain_list n) o) end)). reflexivity. Qed.
Lemma plain_hset_param {n} (f : sabun n) k p : plain_sabun (hset k (RParam p) f) = hset k (RParam p) (plain_sabun f).
Proof. unfold plain_sabun. rewrite (hset_map (fun v => match v with RParam p => RParam p | DocModel.RMut o => DocModel.RMut (option_map (plain_list n) o) end)). reflexivity. Qed.

Section Root.
Variable mem : Z -> list Z.
Variable n : nat.
Variable def : rootdef n.
Variable f : sabun n.
Variable r : root_obj.
Hypothesis H : holds mem def f r.

Lemma root_reach key id a s : item_at r ((key, id) :: a) = Some s ->
  exists i d u l, hget key def = Some (i, RVMList d u) /\ hget key f = Some (DocModel.RMut (Some l)) /\ reach (spotted mem s) n a d l id.
Proof.
  intros E. destruct H as (Rd & Rs & T). apply is_rootdef_of in Rd. destruct (at_cons _ _ _ _ _ E) as (j & d0 & u & l0 & y & Hd & Hv & Hl & B).
  pose proof (forall2_hget (fun a b => fst a = fst b /\ is_rootval (is_def n) (snd a) (snd b)) _ _ key Rd) as M. rewrite Hd in M. destruct (hget key def) as [[j' v]|] eqn:Hk; [|contradiction].
  cbn [fst snd] in M. destruct M as (<- & M). destruct v as [p vt| | |d u']; cbn [is_rootval] in M; try contradiction. destruct M as (I & <-).
  rewrite Rs, plain_get in Hv. destruct (hget key f) as [[p|[l|]]|] eqn:Hf; try discriminate. cbn [option_map] in Hv. injection Hv as <-.
  exists j, d, u, l. split; [reflexivity|]. split; [reflexivity|]. destruct T as (_ & T). specialize (T _ _ Hf). cbn beta iota in T. destruct T as (j2 & d2 & u2 & Hk2 & T). rewrite Hk in Hk2. injection Hk2 as <- <- <-.
  eapply reach_intro; [exact I|exact T|]. unfold mlist_item. rewrite Hl. cbn [option_map]. exact B.
Qed.

(** one call with the item at a place *)
Lemma root_put a s here o b c : item_at r a = Some s ->
  (forall m d it, spotted mem s m d it -> exists it', item_do it d o = Ok (it', b) /\ plain_item m it' = c) ->
  exists d, root_run def f (step_at a here o) = Ok (d, b) /\ with_members r d = put_root r a c.
Proof.
  intros E Q. destruct a as [|(key, id) a]; [discriminate|]. destruct (root_reach _ _ _ _ E) as (i & d & u & l & Hd & Hf & R).
  destruct (reach_run o b c n a d l id (reach_mono _ _ n Q a d l id R)) as (l' & x & L & X & Pl).
  cbn [step_at root_run]. unfold root_open. rewrite Hd, Hf, L. cbn [bind]. eexists. split; [reflexivity|]. destruct H as (_ & Rs & _). cbn [put_root]. rewrite Rs, plain_get, Hf. cbn [option_map]. rewrite X.
  unfold with_members. rewrite plain_hset, Pl. reflexivity.
Qed.
Lemma root_same a s here o b : item_at r a = Some s -> (forall m d it, spotted mem s m d it -> item_do it d o = Ok (it, b)) -> root_run def f (step_at a here o) = Ok (f, b).
Proof.
  intros E Q. destruct a as [|(key, id) a]; [discriminate|]. destruct (root_reach _ _ _ _ E) as (i & d & u & l & Hd & Hf & R).
  cbn [step_at root_run]. unfold root_open. rewrite Hd, Hf. rewrite (reach_same o b n a d l id (reach_mono _ _ n Q a d l id R)). cbn [bind]. rewrite hset_self by exact Hf. reflexivity.
Qed.
Lemma root_ok a s here o : item_at r a = Some s -> (forall m d it, spotted mem s m d it -> ok_item_op mem d o) -> ok_root_step mem def (step_at a here o).
Proof.
  intros E Q. destruct a as [|(key, id) a]; [discriminate|]. destruct (root_reach _ _ _ _ E) as (i & d & u & l & Hd & Hf & R).
  cbn [step_at ok_root_step]. intros i' d' u' K. rewrite Hd in K. injection K as <- <- <-. eapply reach_ok, (reach_mono _ _ n Q), R.
Qed.
Lemma root_generated a s here o : item_at r a = Some s -> (forall m d it, spotted mem s m d it -> generated_op d o) -> generated_root_step def (step_at a here o).
Proof.
  intros E Q. destruct a as [|(key, id) a]; [discriminate|]. destruct (root_reach _ _ _ _ E) as (i & d & u & l & Hd & Hf & R).
  cbn [step_at generated_root_step]. intros i' d' u' K. rewrite Hd in K. injection K as <- <- <-. eapply reach_generated, (reach_mono _ _ n Q), R.
Qed.

(** opening lists that are there *)
Fixpoint open_steps (b a : loc) : list root_step :=
  match a with [] => [] | (key, id) :: a => step_at b (OOpen key) (IOpen key) :: open_steps (b ++ [(key, id)]) a end.
Lemma opens_perform a : forall b, Forall2 performs (opens_from b a) (open_steps b a).
Proof. induction a as [|(key, id) a IH]; intros b; cbn [opens_from open_steps]; [constructor|]. constructor; [apply performs_open|apply IH]. Qed.
Lemma opens_run a s : forall b, item_at r (b ++ a) = Some s ->
  Forall (fun o => root_run def f o = Ok (f, true) /\ ok_root_step mem def o /\ generated_root_step def o) (open_steps b a).
Proof.
  induction a as [|(key, id) a IH]; intros b E; cbn [open_steps]; [constructor|]. constructor; [|apply IH; rewrite <- app_assoc; exact E]. clear IH. destruct b as [|x b].
  - cbn [app] in E. destruct (root_reach _ _ _ _ E) as (i & d & u & l & Hd & Hf & _). split; [|split; exact Logic.I]. cbn [step_at root_run]. unfold root_open. rewrite Hd, Hf. reflexivity.
  - rewrite item_at_app in E by discriminate. destruct (item_at r (x :: b)) as [s0|] eqn:E0; [|discriminate]. destruct (below_cons _ _ _ _ _ E) as (j & d0 & u & l0 & y & Hd & Hv & _).
    split; [|split; [apply (root_ok _ s0); [exact E0|intros; exact Logic.I]|apply (root_generated _ s0); [exact E0|intros; exact Logic.I]]].
    eapply root_same; [exact E0|]. intros m d it (Pl & I & T). cbn [item_do]. unfold item_open. destruct (def_get' m _ d key j d0 u I Hd) as (d1 & -> & _).
    rewrite <- Pl in Hv. cbn [plain_item plain_item_of ci_values] in Hv. rewrite (hget_map (plain_value (plain_list m))) in Hv. destruct (hget key (it_values it)) as [[q|z|[l1|]]|]; cbn [option_map plain_value] in Hv; try discriminate. reflexivity.
Qed.

Lemma run_app (ops : list root_step) o d b : Forall (fun o => root_run def f o = Ok (f, true) /\ ok_root_step mem def o /\ generated_root_step def o) ops -> root_run def f o = Ok (d, b) ->
  program_run def f (ops ++ [o]) = Ok d.
Proof.
  intros A E. unfold program_run. induction A as [|x ops (X & _) A IH]; cbn [app mfold]; [rewrite E; reflexivity|]. rewrite X. cbn [bind]. exact IH.
Qed.
End Root.
