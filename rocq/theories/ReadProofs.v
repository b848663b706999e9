(** Proofs for C64. *)
From Coq Require Import String.
From Coq Require Import Sorting.Permutation.
From Verif Require Import Base FloatModel FloatProofs StringCompactionModel StringCompactionProofs LinkedModel LinkedSpec DocModel DiffSpec DiffProofs ArchiveModel JsonModel JsonSpec JsonNameProofs JsonProofs
  LoadSpec LoadProofs ValidSpec SaysSpec SaysProofs SaysProofs2 SaysProofs3 SaysProofs4 SameSpec SaysProofs5 IntfModel IntfSpec IntfProofs IntfLoadProofs ReadModel ReadSpec.

(* ------------------------------------------------------------------ *)
(** * Lists *)

Lemma arrays_map l : arrays l -> exists a, l = map JArray a.
Proof.
  induction l as [|v l IH]; intros A; [exists []; reflexivity|]. destruct (A v) as (x & ->); [left; reflexivity|].
  destruct IH as (a & ->); [intros y I; apply A; right; exact I|]. exists (x :: a). reflexivity.
Qed.
Lemma map_arrays a : arrays (map JArray a).
Proof. intros v I. apply in_map_iff in I as (x & <- & _). eauto. Qed.
Lemma default_says dx x d : default_of dx x -> says_default dx d -> says_def x d.
Proof. intros [->| ->] S; inversion S; subst; assumption. Qed.
Lemma default_is dx d : says_default dx d -> exists x, default_of dx x.
Proof. intros S. inversion S; subst; [exists m; left|exists m; right]; reflexivity. Qed.
Lemma default_of_fun dx x x' : default_of dx x -> default_of dx x' -> x = x'.
Proof. intros [->| ->] [E|E]; congruence. Qed.
Lemma default_in dx x : default_of dx x -> In (JMap x) dx.
Proof. intros [->| ->]; [right; left|left]; reflexivity. Qed.

(** the definition and the objects of a list, and no others *)
Definition only (l : list jval) (x : obj) (objs : list obj) : Prop :=
  list_of l x objs /\ forall x' objs', list_of l x' objs' -> x' = x /\ objs' = objs.

Lemma attr_list t attrs x0 old d objs : Permutation attrs (JArray x0 :: old) -> other_attr t old -> txt t <> txt "Default" -> says_default x0 d ->
  exists x, only (attrs ++ map JMap objs) x objs /\ says_def x d.
Proof.
  intros P O N S. pose proof (other_attrs _ _ _ _ P O) as A. destruct (default_is _ _ S) as (x & X). exists x. split; [|eapply default_says; eassumption].
  assert (I : In (JArray x0) attrs) by (eapply Permutation_in; [apply Permutation_sym, P|left; reflexivity]). split.
  - destruct (arrays_map _ A) as (a & ->). exists a, x0. split; [reflexivity|]. split; [|exact X]. apply in_map_iff in I as (y & E & I). injection E as ->. exact I.
  - intros x' objs' (a & dx & E & J & X'). apply attrs_fun in E as [-> ->]; [|exact A|apply map_arrays]. split; [|reflexivity].
    apply (in_map JArray) in J. eapply Permutation_in in J; [|exact P]. destruct J as [J|J]; [injection J as ->; eapply default_of_fun; eassumption|].
    exfalso. destruct O as [->|[l ->]]; [destruct J|]. destruct J as [J|[]]. injection J as J. destruct X' as [->| ->]; congruence.
Qed.

Lemma list_in_def l x objs t : list_of l x objs -> tidy (tagged_with t l) -> tidy (JMap x).
Proof.
  intros (a & dx & -> & I & X) T. assert (T1 : tidy (JArray dx)) by (eapply everywhere_array; [exact T|]; right; apply in_or_app; left; apply in_map, I).
  eapply everywhere_array; [exact T1|]. apply default_in, X.
Qed.
Lemma list_in_obj l x objs t m : list_of l x objs -> tidy (tagged_with t l) -> In m objs -> tidy (JMap m).
Proof. intros (a & dx & -> & _ & _) T I. eapply everywhere_array; [exact T|]. right. apply in_or_app. right. apply in_map, I. Qed.

Lemma says_table_inv vt l r : says vt (tagged_with "Table" l) r -> exists d rows ns x objs,
  r = VaTable d rows ns /\ only l x objs /\ says_def x d /\ Forall2 (fun m e => says_id m (Some (IdStr (fst e))) /\ says_item m (snd e)) objs rows.
Proof.
  intros S. pose proof (says_kind _ _ _ S) as K. cbn in K.
  inversion S as [vt0 v0 p W|attrs x0 old d ns objs rows P De O F| | | | | | |]; subst; try discriminate K.
  destruct (attr_list _ _ _ _ _ objs P (old_attr _ _ O) ltac:(discriminate) De) as (x & X & Y). exists d, rows, ns, x, objs. auto.
Qed.
Lemma says_clist_inv vt l r : says vt (tagged_with "CList" l) r -> exists d items x objs,
  r = VaCList d items /\ only l x objs /\ says_def x d /\ Forall2 (fun m c => says_id m None /\ says_item m c) objs items.
Proof.
  intros S. pose proof (says_kind _ _ _ S) as K. cbn in K.
  inversion S as [vt0 v0 p W| |x0 d objs items De F| | | | | |]; subst; try discriminate K.
  destruct (attr_list "Old" [JArray x0] x0 [] d objs (Permutation_refl _) (or_introl eq_refl) ltac:(discriminate) De) as (x & X & Y). exists d, items, x, objs. auto.
Qed.
Lemma says_mlist_inv vt l r : says vt (tagged_with "MList" l) r -> exists d u items n x objs,
  r = VaMList d u (Some (items, n)) /\ only l x objs /\ says_def x d /\ says_items 0 objs items.
Proof.
  intros S. pose proof (says_kind _ _ _ S) as K. cbn in K.
  inversion S as [vt0 v0 p W| | |vt0 u attrs x0 next d k objs items U P De N F| | | | |]; subst; try discriminate K.
  destruct (attr_list _ _ _ _ _ objs P (next_attr _ _ _ N) ltac:(discriminate) De) as (x & X & Y). exists d, u, items, k, x, objs. auto.
Qed.
Lemma says_cil_inv vt l r : says vt (tagged_with "Cil" l) r -> exists items objs,
  r = VaCil items /\ l = map JMap objs /\ Forall2 (fun m c => says_id m None /\ says_item m c) objs items.
Proof.
  intros S. pose proof (says_kind _ _ _ S) as K. cbn in K.
  inversion S as [vt0 v0 p W| | | |objs items F| | | |]; subst; try discriminate K. eauto.
Qed.
Lemma says_mil_inv vt l r : says vt (tagged_with "Mil" l) r -> exists items n a objs,
  r = VaMil (Some (items, n)) /\ l = map JArray a ++ map JMap objs /\ says_items 0 objs items.
Proof.
  intros S. pose proof (says_kind _ _ _ S) as K. cbn in K.
  inversion S as [vt0 v0 p W| | | | |next k objs items N F| | |]; subst; try discriminate K. destruct (arrays_map next) as (a & ->); [|exists items, k, a, objs; auto].
  destruct (next_attr _ _ _ N) as [->|[l ->]]; [intros y []|intros y [<-|[]]; unfold tagged_with; eauto].
Qed.
Lemma says_cildef_inv vt l r : says vt (tagged_with "CilDef" l) r -> exists d dx x, r = VaCilDef d /\ l = [JArray dx] /\ default_of dx x /\ says_def x d.
Proof.
  intros S. pose proof (says_kind _ _ _ S) as K. cbn in K.
  inversion S as [vt0 v0 p W| | | | | | |dx d De|]; subst; try discriminate K. destruct (default_is _ _ De) as (x & X). exists d, dx, x. split; [reflexivity|]. split; [reflexivity|]. split; [exact X|]. eapply default_says; eassumption.
Qed.
Lemma says_mildef_inv vt l r : says vt (tagged_with "MilDef" l) r -> exists d u dx x, r = VaMilDef d u /\ l = [JArray dx] /\ default_of dx x /\ says_def x d.
Proof.
  intros S. pose proof (says_kind _ _ _ S) as K. cbn in K.
  inversion S as [vt0 v0 p W| | | | | | | |vt0 u dx d U De]; subst; try discriminate K. destruct (default_is _ _ De) as (x & X). exists d, u, dx, x. split; [reflexivity|]. split; [reflexivity|]. split; [exact X|]. eapply default_says; eassumption.
Qed.

(** the other way: which values are written how *)
Lemma says_cil_of vt v items : says vt v (VaCil items) -> exists l, v = tagged_with "Cil" l.
Proof. intros S. inversion S; subst; eauto. Qed.
Lemma says_mil_of vt v items n : says vt v (VaMil (Some (items, n))) -> exists l, v = tagged_with "Mil" l.
Proof. intros S. inversion S; subst; eauto. Qed.
Lemma says_cildef_of vt v d : says vt v (VaCilDef d) -> exists l, v = tagged_with "CilDef" l.
Proof. intros S. inversion S; subst; eauto. Qed.
Lemma says_mildef_of vt v d u : says vt v (VaMilDef d u) -> exists l, v = tagged_with "MilDef" l.
Proof. intros S. inversion S; subst; eauto. Qed.
Lemma says_table_of vt v d rows ns : says vt v (VaTable d rows ns) -> exists l, v = tagged_with "Table" l.
Proof. intros S. inversion S; subst; eauto. Qed.
Lemma says_clist_of vt v d items : says vt v (VaCList d items) -> exists l, v = tagged_with "CList" l.
Proof. intros S. inversion S; subst; eauto. Qed.
Lemma says_mlist_of vt v d u o : says vt v (VaMList d u o) -> exists l, v = tagged_with "MList" l.
Proof. intros S. inversion S; subst; eauto. Qed.

(** positions *)
Lemma forall2_nth {A B} (R : A -> B -> Prop) l r : Forall2 R l r -> forall i a, nth_error l i = Some a -> exists b, nth_error r i = Some b /\ R a b.
Proof. induction 1 as [|x y l r H F IH]; intros [|i] a E; try discriminate E; [injection E as <-; exists y; auto|apply IH, E]. Qed.
Lemma forall2_nth_r {A B} (R : A -> B -> Prop) l r : Forall2 R l r -> forall i b, nth_error r i = Some b -> exists a, nth_error l i = Some a /\ R a b.
Proof. induction 1 as [|x y l r H F IH]; intros [|i] b E; try discriminate E; [injection E as <-; exists x; auto|apply IH, E]. Qed.

Definition at_pos (k : Z) (m : obj) (id : Z) : Prop := says_id m (Some (IdNum id)) \/ says_id m None /\ id = k.
Lemma items_nth k objs items : says_items k objs items -> forall i m, nth_error objs i = Some m ->
  exists id c, nth_error items i = Some (id, c) /\ at_pos (k + Z.of_nat i) m id /\ says_item m c.
Proof.
  induction 1 as [k0|k m objs id c items A I Sx IH]; intros [|i] m' E; try discriminate E.
  - injection E as <-. exists id, c. split; [reflexivity|]. split; [|exact I]. unfold at_pos. rewrite Z.add_0_r. exact A.
  - destruct (IH i m' E) as (id' & c' & E' & A' & I'). exists id', c'. split; [exact E'|]. split; [|exact I'].
    replace (k + Z.of_nat (S i)) with (k + 1 + Z.of_nat i) by lia. exact A'.
Qed.
Lemma items_nth_r k objs items : says_items k objs items -> forall i e, nth_error items i = Some e ->
  exists m, nth_error objs i = Some m /\ at_pos (k + Z.of_nat i) m (fst e) /\ says_item m (snd e).
Proof.
  induction 1 as [k0|k m objs id c items A I Sx IH]; intros [|i] e E; try discriminate E.
  - injection E as <-. exists m. split; [reflexivity|]. split; [|exact I]. unfold at_pos. rewrite Z.add_0_r. exact A.
  - destruct (IH i e E) as (m' & E' & A' & I'). exists m'. split; [exact E'|]. split; [|exact I'].
    replace (k + Z.of_nat (S i)) with (k + 1 + Z.of_nat i) by lia. exact A'.
Qed.
Lemma items_length k objs items : says_items k objs items -> length items = length objs.
Proof. induction 1; cbn; congruence. Qed.

Lemma at_numbered i m id : at_pos (Z.of_nat i) m id -> numbered m i id.
Proof.
  intros [A|[A ->]].
  - destruct (word_dec m SID) as [X|[v X]]; [destruct A as [_ A]; apply A in X; discriminate X|]. destruct A as [A _]. destruct (A v X) as (n & E & W). injection E as <-.
    inversion W as [|b n F L]; subst. left. exists b. auto.
  - right. split; [|reflexivity]. intros v X. destruct A as [A _]. destruct (A v X) as (n & E & _). discriminate E.
Qed.
Lemma numbered_at i m id id' : numbered m i id -> at_pos (Z.of_nat i) m id' -> id' = id.
Proof.
  intros [(b & W & F)|[X ->]] [A|[A ->]].
  - destruct A as [A _]. destruct (A _ W) as (n & E & Wr). injection E as <-. inversion Wr as [|b' n F' L]; subst. rewrite F in F'.
    assert (E : id * 2 ^ unit_exp = id' * 2 ^ unit_exp) by congruence. apply Z.mul_reg_r in E; [symmetry; exact E|]. apply Z.pow_nonzero; [lia|vm_compute; discriminate].
  - destruct A as [A _]. destruct (A _ W) as (n & E & _). discriminate E.
  - destruct A as [_ A]. apply A in X. discriminate X.
  - reflexivity.
Qed.

(** the ids of rows *)
Lemma row_ids_of objs rows : Forall2 (fun m (e : name * citem) => says_id m (Some (IdStr (fst e))) /\ says_item m (snd e)) objs rows ->
  (forall m, In m objs -> NoDup (map fst m)) -> row_ids (map JMap objs) = map fst rows.
Proof.
  induction 1 as [|m e objs rows [W _] F IH]; intros N; [reflexivity|].
  change (row_ids (map JMap (m :: objs))) with (match hget (txt "ID") m with Some (JString s) => [s] | _ => [] end ++ row_ids (map JMap objs)).
  rewrite (row_id_written m (fst e) _ (N m (or_introl eq_refl)) W eq_refl). cbn [app map]. rewrite IH; [reflexivity|]. intros y I. apply N. right. exact I.
Qed.

(* ------------------------------------------------------------------ *)
(** * References *)

Lemma refs_in m refs enum old key v : says_refs m refs enum old -> has_ref m key v -> exists i q vt, hget key refs = Some (i, (q, vt)) /\ writes_ref v q.
Proof.
  intros (A & _ & _) (rs & vt & W & M). destruct (A _ W) as (rs' & E & (_ & _ & _ & B & _)). injection E as <-. destruct (B _ _ _ M) as (i & q & G & X). eauto 6.
Qed.
Lemma refs_out m refs enum old key i q vt : says_refs m refs enum old -> hget key refs = Some (i, (q, vt)) ->
  exists v, has_ref m key v /\ writes_ref v q.
Proof.
  intros (A & B & _) G. assert (X : exists w, word m SRef w \/ word m SEnum w).
  { destruct (word_dec m SRef) as [X|[w X]]; [|eauto]. destruct (word_dec m SEnum) as [Y|[w Y]]; [|eauto]. destruct (B X Y) as [-> _]. discriminate G. }
  destruct X as (w & X). destruct (A _ X) as (rs & -> & (_ & _ & _ & C & D)). destruct (D _ _ G) as (vt' & v & M). destruct (C _ _ _ M) as (i' & q' & G' & W').
  rewrite G in G'. injection G' as <- <- <-. exists v. split; [exists rs, vt; auto|exact W'].
Qed.
Lemma item_ref_in m c key v : says_item m c -> has_ref m key v -> exists q, hget key (ci_refs c) = Some q /\ writes_ref v q.
Proof.
  intros S H. inversion S as [m0 c0 refs enum K O R E V V']; subst. destruct (refs_in _ _ _ _ _ _ R H) as (i & q & vt & G & W). exists q. split; [|exact W]. rewrite E, G. reflexivity.
Qed.
Lemma item_ref_out m c key q : says_item m c -> hget key (ci_refs c) = Some q -> exists v, has_ref m key v /\ writes_ref v q.
Proof.
  intros S G. inversion S as [m0 c0 refs enum K O R E V V']; subst. rewrite E in G. destruct (hget key refs) as [[i [q' vt]]|] eqn:F; [|discriminate G]. injection G as <-. eapply refs_out; eassumption.
Qed.
Lemma writes_ref_text id q : writes_ref (JString id) q -> q = Val id.
Proof. intros W. inversion W as [s P|v q' N]; subst; [reflexivity|inversion N]. Qed.
Lemma ref_text_of v id : writes_ref v (Val id) -> v = JString id.
Proof. intros W. inversion W as [s P|v' q' N]; subst; [reflexivity|inversion N]. Qed.

(* ------------------------------------------------------------------ *)
(** * Ways *)

Section Ways.
Variable iter : forall A, hmap A -> hmap A.
Hypothesis It : iterates iter.
Variable parse : list Z -> option jval.
Variable files : smap (list Z).
Variable r : root_obj.
Hypothesis Np : NoDup (map fst files).
Hypothesis T : all_files tidy parse files.
Hypothesis SF : says_files parse files r.
Hypothesis V : root_valid r false.
Hypothesis D : distinct_root r.

Lemma top_says n vt v : top parse files n vt v -> exists i w, hget n (ro_default r) = Some (i, w) /\ says_member vt v w (hget n (ro_sabun r)) /\ tidy v.
Proof using Np T SF.
  destruct SF as (path & content & m & I & St & P & One & _ & _ & _ & _ & _ & A & _). intros [(path' & content' & m' & I' & St' & P' & M)|F].
  - assert (E : path' = path) by (eapply One; eassumption). subst path'. assert (E : content' = content).
    { pose proof (in_hget _ _ _ Np I) as G. pose proof (in_hget _ _ _ Np I') as G'. congruence. }
    subst content'. assert (m' = m) by congruence. subst m'. destruct (A n vt v (or_introl M)) as (i & w & s & G & <- & S). exists i, w. split; [exact G|]. split; [exact S|].
    destruct M as (key & t & J & _). eapply everywhere_map; [exact (T _ _ _ I P)|exact J].
  - destruct (A n vt v (or_intror F)) as (i & w & s & G & <- & S). exists i, w. split; [exact G|]. split; [exact S|].
    destruct F as (p & c & t & J & _ & _ & _ & _ & P'). exact (T _ _ _ J P').
Qed.
Lemma top_exists n x : hget n (ro_default r) = Some x -> exists vt v, top parse files n vt v.
Proof using SF.
  destruct SF as (path & content & m & I & St & P & One & _ & _ & _ & _ & _ & _ & B & _). intros G. destruct (B n x G) as (vt & v & [M|F]); exists vt, v; [left|right; exact F].
  exists path, content, m. auto.
Qed.

(** what is known about an item reached *)
Definition shown (x m : obj) (s : spot) : Prop :=
  says_def x (snd s) /\ says_item m (fst s) /\ item_valid r false (snd s) (fst s) /\ distinct_ids (fst s) /\ tidy (JMap x) /\ tidy (JMap m).

Lemma tidy_keys m : tidy (JMap m) -> NoDup (map fst m) /\ NoDup (member_names m).
Proof using. intros H. apply everywhere_node in H. cbn in H. tauto. Qed.

Lemma root_entry t i w : hget t (ro_default r) = Some (i, w) -> In (t, (i, w)) (ro_default r).
Proof using. apply hget_in. Qed.

Lemma table_says t vt l x objs : top parse files t vt (tagged_with "Table" l) -> list_of l x objs ->
  exists d rows, root_table r t = Some (rows, d) /\ Forall2 (fun m e => says_id m (Some (IdStr (fst e))) /\ shown x m (snd e, d)) objs rows /\ NoDup (map fst rows).
Proof using Np T SF V D.
  intros Tp L. destruct (top_says _ _ _ Tp) as (i & w & G & (rv & Sv & R) & Ty). destruct (says_table_inv _ _ _ Sv) as (d & rows & ns & x0 & objs0 & -> & [_ U] & Sd & F).
  destruct (U _ _ L) as [<- <-]. assert (E : w = WTable d rows ns) by (inversion R; reflexivity). subst w. clear R. exists d, rows.
  split; [unfold root_table; rewrite G; reflexivity|].
  assert (Tm : forall m, In m objs -> tidy (JMap m)) by (intros m I; eapply list_in_obj; eassumption). split.
  - apply root_entry in G. destruct V as [_ V']. destruct (V' _ _ _ G) as (_ & _ & Vi). destruct D as [Di _].
    assert (Ri : forall e, In e rows -> item_valid r false d (snd e) /\ distinct_ids (snd e)).
    { intros [k c] I. split; [exact (Vi _ _ I)|]. apply Di. exists t, i, (WTable d rows ns). split; [exact G|]. exists k. exact I. }
    pose proof (list_in_def _ _ _ _ L Ty) as Tx. clear -F Tm Ri Sd Tx. revert Tm Ri. induction F as [|m e objs rows [W S1] F IH]; intros Tm Ri; constructor.
    + split; [exact W|]. destruct (Ri e (or_introl eq_refl)) as [? ?]. unfold shown. cbn [fst snd]. auto 8 using in_eq.
    + apply IH; intros y I; [apply Tm|apply Ri]; right; exact I.
  - apply everywhere_node in Ty. destruct Ty as [N _]. change (row_ids (JString (txt "Table") :: l)) with (row_ids l) in N.
    destruct L as (a & dx & -> & _). rewrite row_ids_app, row_ids_arrays, (row_ids_of _ _ F) in N; [exact N|]. intros m I. apply tidy_keys, Tm, I.
Qed.
Lemma clist_says t vt l x objs : top parse files t vt (tagged_with "CList" l) -> list_of l x objs ->
  exists d items, root_clist r t = Some (items, d) /\ Forall2 (fun m c => shown x m (c, d)) objs items.
Proof using Np T SF V D.
  intros Tp L. destruct (top_says _ _ _ Tp) as (i & w & G & (rv & Sv & R) & Ty). destruct (says_clist_inv _ _ _ Sv) as (d & items & x0 & objs0 & -> & [_ U] & Sd & F).
  destruct (U _ _ L) as [<- <-]. assert (E : w = WCList d items) by (inversion R; reflexivity). subst w. clear R. exists d, items.
  split; [unfold root_clist; rewrite G; reflexivity|].
  assert (Tm : forall m, In m objs -> tidy (JMap m)) by (intros m I; eapply list_in_obj; eassumption).
  apply root_entry in G. destruct V as [_ V']. destruct (V' _ _ _ G) as (_ & Vi). destruct D as [Di _].
  assert (Ri : forall c, In c items -> item_valid r false d c /\ distinct_ids c).
  { intros c I. split; [exact (Vi _ I)|]. apply Di. exists t, i, (WCList d items). auto. }
  pose proof (list_in_def _ _ _ _ L Ty) as Tx. clear -F Tm Ri Sd Tx. revert Tm Ri. induction F as [|m e objs rows [W S1] F IH]; intros Tm Ri; constructor.
  - destruct (Ri e (or_introl eq_refl)) as [? ?]. unfold shown. cbn [fst snd]. auto 8 using in_eq.
  - apply IH; intros y I; [apply Tm|apply Ri]; right; exact I.
Qed.
Lemma mlist_says t vt l x objs : top parse files t vt (tagged_with "MList" l) -> list_of l x objs ->
  exists i d u items, hget t (ro_default r) = Some (i, WMList d u) /\ root_mlist r t = Some (Some items, d) /\ NoDup (map fst items) /\ says_items 0 objs items /\
    forall k m e, nth_error objs k = Some m -> nth_error items k = Some e -> shown x m (snd e, d).
Proof using Np T SF V D.
  intros Tp L. destruct (top_says _ _ _ Tp) as (i & w & G & (rv & Sv & R) & Ty). destruct (says_mlist_inv _ _ _ Sv) as (d & u & items & n & x0 & objs0 & -> & [_ U] & Sd & F).
  destruct (U _ _ L) as [<- <-]. assert (E : w = WMList d u /\ hget t (ro_sabun r) = Some (RMut (Some (items, n)))) by (inversion R; auto). destruct E as [-> E]. clear R. exists i, d, u, items.
  split; [exact G|]. split; [unfold root_mlist; rewrite G, E; reflexivity|].
  pose proof G as G1. apply root_entry in G1. destruct V as [_ V']. destruct (V' _ _ _ G1) as (_ & Vi). destruct D as [Di Dn].
  split; [eapply Dn; eassumption|]. split; [exact F|]. intros k m [id c] Ek Ee.
  destruct (items_nth _ _ _ F _ _ Ek) as (id' & c' & Ee' & _ & Sc). rewrite Ee in Ee'. injection Ee' as <- <-. apply nth_error_In in Ee, Ek. cbn [snd].
  unfold shown. cbn [fst snd]. split; [exact Sd|]. split; [exact Sc|]. split.
  - destruct (Vi _ E) as [(l' & next & E' & Vl)|[E' _]]; [|congruence]. injection E' as <- <-. eapply Vl, Ee.
  - split; [|split; [eapply list_in_def; eassumption|eapply list_in_obj; eassumption]]. apply Di. exists t, i, (WMList d u). split; [exact G1|]. exists items, n, id. auto.
Qed.

Lemma lookup_at {A} (l : list (Z * A)) k id a : NoDup (map fst l) -> nth_error l k = Some (id, a) -> lookup id l = Some a.
Proof using. intros N E. apply nth_error_In in E. apply in_lookup; assumption. Qed.

(** members of items *)
Lemma item_member x m c d key vt v : shown x m (c, d) -> member m key vt v -> exists cv rv, hget key (ci_values c) = Some cv /\ in_item rv cv /\ says vt v rv /\
  exists i dv, hget key (ld_members (undef d)) = Some (i, dv) /\ value_valid r false dv cv.
Proof using.
  intros (Sd & Sc & Vi & _ & _ & _) M. cbn [fst snd] in *. inversion Sc as [m0 c0 refs enum K O R E A B]; subst. destruct (A _ _ _ M) as (cv & rv & G & I & Sv). exists cv, rv. split; [exact G|]. split; [exact I|]. split; [exact Sv|].
  inversion Vi as [d0 c0 Rv Vv]; subst. destruct (Vv key cv) as (_ & i & dv & G' & W); [apply hget_in, G|]. exists i, dv. auto.
Qed.
Lemma item_has x m c d key cv : shown x m (c, d) -> hget key (ci_values c) = Some cv -> exists vt v rv, member m key vt v /\ in_item rv cv /\ says vt v rv.
Proof using.
  intros (Sd & Sc & Vi & _ & _ & _) G. cbn [fst snd] in *. inversion Sc as [m0 c0 refs enum K O R E A B]; subst. destruct (B _ _ G) as (vt & v & M). destruct (A _ _ _ M) as (cv' & rv & G' & I & Sv).
  rewrite G in G'. injection G' as <-. eauto 6.
Qed.
Lemma def_member x m c d key vt v : shown x m (c, d) -> member x key vt v -> exists i dv rv, hget key (ld_members (undef d)) = Some (i, dv) /\ in_def rv dv /\ says vt v rv.
Proof using. intros (Sd & _) M. cbn [fst snd] in *. inversion Sd as [m0 d0 K N O R A B]; subst. exact (A _ _ _ M). Qed.
Lemma def_has x m c d key i dv : shown x m (c, d) -> hget key (ld_members (undef d)) = Some (i, dv) -> exists vt v rv, member x key vt v /\ in_def rv dv /\ says vt v rv.
Proof using.
  intros (Sd & _) G. cbn [fst snd] in *. inversion Sd as [m0 d0 K N O R A B]; subst. cbn [undef] in G. destruct (B _ _ G) as (vt & v & M). destruct (A _ _ _ M) as (i' & dv' & rv & G' & I & Sv).
  rewrite G in G'. injection G' as <- <-. eauto 6.
Qed.
Lemma shown_keys x m s : shown x m s -> NoDup (map fst m) /\ NoDup (member_names m).
Proof using. intros (_ & _ & _ & _ & _ & H). apply tidy_keys, H. Qed.
Lemma shown_def_keys x m s : shown x m s -> NoDup (map fst x) /\ NoDup (member_names x).
Proof using. intros (_ & _ & _ & _ & H & _). apply tidy_keys, H. Qed.
Lemma member_tidy m key vt v : tidy (JMap m) -> member m key vt v -> tidy v.
Proof using. intros H (k & t & I & _). eapply everywhere_map; eassumption. Qed.
Lemma def_tidy x m s key vt t dx x' : shown x m s -> member x key vt (tagged_with t [JArray dx]) -> default_of dx x' -> tidy (JMap x').
Proof using.
  intros (_ & _ & _ & _ & H & _) M E. pose proof (member_tidy _ _ _ _ H M) as H1. assert (H2 : tidy (JArray dx)) by (eapply everywhere_array; [exact H1|right; left; reflexivity]).
  eapply everywhere_array; [exact H2|apply default_in, E].
Qed.
Lemma obj_tidy x m s key vt t a objs m' : shown x m s -> member m key vt (tagged_with t (a ++ map JMap objs)) -> In m' objs -> tidy (JMap m').
Proof using.
  intros (_ & _ & _ & _ & _ & H) M I. pose proof (member_tidy _ _ _ _ H M) as H1. eapply everywhere_array; [exact H1|]. right. apply in_or_app. right. apply in_map, I.
Qed.

(** constant lists in items *)
Lemma cil_says x m s key vt dx x' vt' objs : shown x m s -> member x key vt (tagged_with "CilDef" [JArray dx]) -> default_of dx x' ->
  member m key vt' (tagged_with "Cil" (map JMap objs)) -> exists d items, spot_cil s key = Some (items, d) /\ Forall2 (fun m' c => shown x' m' (c, d)) objs items.
Proof using.
  destruct s as [c d]. intros Sh Mx Dx Mm. destruct (def_member _ _ _ _ _ _ _ Sh Mx) as (i & dv & rv & G & I & Sv).
  destruct (says_cildef_inv _ _ _ Sv) as (d' & dx' & x0 & -> & E & Dx' & Sd). injection E as <-. rewrite (default_of_fun _ _ _ Dx Dx') in *. assert (E : dv = DCil d') by (inversion I; reflexivity). subst dv.
  destruct (item_member _ _ _ _ _ _ _ Sh Mm) as (cv & rv & Gc & Ic & Sc & i' & dv' & G' & Vv). rewrite G in G'. injection G' as <- <-.
  destruct (says_cil_inv _ _ _ Sc) as (items & objs' & -> & E & F). apply (attrs_fun [] []) in E as [_ <-]; [|intros y []|intros y []]. assert (E : cv = VCil items) by (inversion Ic; reflexivity). subst cv.
  exists d', items. split; [unfold spot_cil; cbn [fst snd]; rewrite G, Gc; reflexivity|].
  inversion Vv as [|d0 l0 Vi| |]; subst. pose proof (def_tidy _ _ _ _ _ _ _ _ Sh Mx Dx') as Tx. pose proof (fun m' => obj_tidy _ _ _ _ _ _ [] _ m' Sh Mm) as Tm.
  assert (Di : forall c1, In c1 items -> distinct_ids c1) by (destruct Sh as (_ & _ & _ & Di & _); cbn [fst] in Di; inversion Di as [c0 A _ _]; subst; intros c1 I1; eapply A; [apply hget_in, Gc|exact I1]).
  clear -F Vi Tx Tm Di Sd. revert Vi Tm Di. induction F as [|m1 c1 objs items [W S1] F IH]; intros Vi Tm Di; constructor.
  - unfold shown. cbn [fst snd]. auto 10 using in_eq.
  - apply IH; intros y I; [apply Vi|apply Tm|apply Di]; right; exact I.
Qed.
Lemma mil_says x m s key vt dx x' vt' a objs : shown x m s -> member x key vt (tagged_with "MilDef" [JArray dx]) -> default_of dx x' ->
  member m key vt' (tagged_with "Mil" (map JArray a ++ map JMap objs)) ->
  exists i d u items, hget key (ld_members (undef (snd s))) = Some (i, DMil d u) /\ spot_mil s key = Some (Some items, d) /\ NoDup (map fst items) /\ says_items 0 objs items /\
    forall k m e, nth_error objs k = Some m -> nth_error items k = Some e -> shown x' m (snd e, d).
Proof using.
  destruct s as [c d]. intros Sh Mx Dx Mm. destruct (def_member _ _ _ _ _ _ _ Sh Mx) as (i & dv & rv & G & I & Sv).
  destruct (says_mildef_inv _ _ _ Sv) as (d' & u & dx' & x0 & -> & E & Dx' & Sd). injection E as <-. rewrite (default_of_fun _ _ _ Dx Dx') in *. assert (E : dv = DMil d' u) by (inversion I; reflexivity). subst dv.
  destruct (item_member _ _ _ _ _ _ _ Sh Mm) as (cv & rv & Gc & Ic & Sc & i' & dv' & G' & Vv). rewrite G in G'. injection G' as <- <-.
  destruct (says_mil_inv _ _ _ Sc) as (items & n & a' & objs' & -> & E & F). apply attrs_fun in E as [_ <-]; [|apply map_arrays|apply map_arrays]. assert (E : cv = VMil (Some (items, n))) by (inversion Ic; reflexivity). subst cv.
  exists i, d', u, items. split; [exact G|]. split; [unfold spot_mil; cbn [fst snd]; rewrite G, Gc; reflexivity|].
  assert (Di : distinct_ids c) by (destruct Sh as (_ & _ & _ & Di & _); exact Di). inversion Di as [c0 _ B1 B2]; subst. split; [eapply B1, hget_in, Gc|]. split; [exact F|].
  intros k m1 [id c1] Ek Ee. destruct (items_nth _ _ _ F _ _ Ek) as (id' & c' & Ee' & _ & Sc'). rewrite Ee in Ee'. injection Ee' as <- <-. apply nth_error_In in Ee, Ek.
  unfold shown. cbn [fst snd]. split; [exact Sd|]. split; [exact Sc'|]. split; [inversion Vv as [| |d0 u0 l0 next0 Vi|]; subst; eapply Vi, Ee|].
  split; [eapply B2; [apply hget_in, Gc|exact Ee]|]. split; [eapply def_tidy; eassumption|eapply obj_tidy; eassumption].
Qed.

(** references *)
Lemma visit_row_iff t id s : visit iter r (Row t id) = Ok (Some s) <-> exists tb, root_table r t = Some tb /\ table_value tb id = Some s.
Proof using.
  cbn [visit]. destruct (root_table r t) as [tb|]; cbn [need bind]; [|split; [discriminate|intros (tb & E & _); discriminate E]].
  destruct (table_value tb id) as [s'|] eqn:E; cbn [need bind]; split; intros H; try discriminate H.
  - injection H as ->. eauto.
  - destruct H as (tb' & E1 & E2). congruence.
  - destruct H as (tb' & E1 & E2). congruence.
Qed.
Lemma spot_ref_row s key id x : spot_ref_id s key = Some (Val id) -> visit iter r (Row key id) = Ok (Some x) -> spot_ref r s key = Ok (Some (Val x)).
Proof using. intros E R. apply visit_row_iff in R as (tb & G & H). unfold spot_ref. rewrite E, G, H. reflexivity. Qed.

Lemma row_forward t id x m : leads parse files (Row t id) x m -> exists s, visit iter r (Row t id) = Ok (Some s) /\ shown x m s.
Proof using Np T SF V D.
  intros L. inversion L as [t0 id0 vt l x0 objs m0 Tp Lo I W| | | | | |]; subst. destruct (table_says _ _ _ _ _ Tp Lo) as (d & rows & E & F & N).
  destruct (forall2_in_l _ _ _ _ F I) as ([k c] & Ir & [A _] & Sh). cbn [fst snd] in *. destruct (A _ W) as (iv & E' & Wi). injection E' as <-. inversion Wi; subst. exists (c, d). split; [|exact Sh].
  apply visit_row_iff. exists (rows, d). split; [exact E|]. unfold table_value. cbn [fst snd]. rewrite (in_hget _ _ _ N Ir). reflexivity.
Qed.
Lemma row_back t id s : visit iter r (Row t id) = Ok (Some s) -> exists x m, leads parse files (Row t id) x m /\ shown x m s.
Proof using Np T SF V D.
  intros E. apply visit_row_iff in E as ([rows d] & E & E'). unfold root_table in E. destruct (hget t (ro_default r)) as [[i [| d0 rows0 old| |]]|] eqn:G; try discriminate E. injection E as -> ->.
  destruct (top_exists _ _ G) as (vt & v & Tp). destruct (top_says _ _ _ Tp) as (i' & w & G' & (rv & Sv & R) & Ty). rewrite G in G'. injection G' as <- <-. inversion R; subst.
  destruct (says_table_of _ _ _ _ _ Sv) as (l & ->). destruct (says_table_inv _ _ _ Sv) as (d1 & rows1 & ns1 & x & objs & _ & [Lo _] & _).
  destruct (table_says _ _ _ _ _ Tp Lo) as (d2 & rows2 & E2 & F & N). unfold root_table in E2. rewrite G in E2. injection E2 as <- <-.
  unfold table_value in E'. cbn [fst snd] in E'. destruct (hget id rows) as [c|] eqn:Gr; [|discriminate E']. injection E' as <-. apply hget_in in Gr.
  destruct (forall2_in_r _ _ _ _ F Gr) as (m & Im & Wi & Sh). cbn [fst snd] in *. exists x, m. split; [|exact Sh]. eapply leads_row; [exact Tp|exact Lo|exact Im|].
  destruct (word_dec m SID) as [X|[v X]]; [destruct Wi as [_ Wi]; apply Wi in X; discriminate X|]. destruct Wi as [Wi _]. destruct (Wi _ X) as (iv & Ei & Wv). injection Ei as <-. inversion Wv; subst. exact X.
Qed.

Lemma def_refs x m s : shown x m s -> exists enum_old, says_refs x (ld_refs (undef (snd s))) (ld_enum (undef (snd s))) enum_old.
Proof using. intros (Sd & _). inversion Sd as [m0 d0 K N O R A B]; subst. cbn [undef]. eauto. Qed.
Lemma def_enum x m s : shown x m s -> (ld_enum (undef (snd s)) = true <-> exists rs, word x SEnum (JMap rs)).
Proof using.
  intros Sh. destruct (def_refs _ _ _ Sh) as (old & A & _ & B). rewrite B. split; [|intros (rs & W); eauto].
  intros (v & W). destruct (A v (or_intror W)) as (rs & -> & _). eauto.
Qed.
Lemma def_not_enum x m s : shown x m s -> (exists rs, word x SRef (JMap rs)) -> ld_enum (undef (snd s)) = false.
Proof using.
  intros Sh (rs & W). destruct (ld_enum _) eqn:E; [|reflexivity]. apply (def_enum _ _ _ Sh) in E as (rs' & W').
  destruct Sh as (_ & _ & _ & _ & Tx & _). apply everywhere_node in Tx. destruct Tx as (_ & _ & [X|X] & _); exfalso; eapply X; eassumption.
Qed.
Lemma def_has_ref x m s key e : shown x m s -> ld_enum (undef (snd s)) = false -> hget key (ld_refs (undef (snd s))) = Some e -> exists rs, word x SRef (JMap rs).
Proof using.
  intros Sh E G. destruct e as [i [q vt]]. destruct (def_refs _ _ _ Sh) as (old & R). destruct (refs_out _ _ _ _ _ _ _ _ R G) as (v & (rs & vt' & [W|W] & _) & _); [eauto|].
  assert (X : ld_enum (undef (snd s)) = true) by (apply (def_enum _ _ _ Sh); eauto). congruence.
Qed.
Lemma item_refs_valid x m s : shown x m s -> refs_valid r false (undef (snd s)) (ci_refs (fst s)).
Proof using. intros (_ & _ & Vi & _). inversion Vi; subst. assumption. Qed.

Lemma ref_forward x m s key id s' : shown x m s -> (exists rs, word x SRef (JMap rs)) -> refers x m key (JString id) -> visit iter r (Row key id) = Ok (Some s') ->
  get_ref r s key = Ok (Val s').
Proof using.
  intros Sh W R Vr. unfold get_ref. rewrite (def_not_enum _ _ _ Sh W).
  assert (X : exists i q vt, hget key (ld_refs (undef (snd s))) = Some (i, (q, vt)) /\ spot_ref_id s key = Some (Val id)).
  { pose proof Sh as (_ & Sc & _). destruct R as [H|[N H]].
    - destruct (item_ref_in _ _ _ _ Sc H) as (q & G & Wq). apply writes_ref_text in Wq as ->. destruct (item_refs_valid _ _ _ Sh) as [_ Rv]. destruct (Rv key (Val id)) as (_ & _ & i & q0 & vt & G' & _); [apply hget_in, G|].
      exists i, q0, vt. split; [exact G'|]. unfold spot_ref_id. rewrite G. reflexivity.
    - destruct (def_refs _ _ _ Sh) as (old & R). destruct (refs_in _ _ _ _ _ _ R H) as (i & q & vt & G & Wq). apply writes_ref_text in Wq as ->. exists i, (Val id), vt. split; [exact G|].
      unfold spot_ref_id. destruct (hget key (ci_refs (fst s))) as [q|] eqn:Gc; [|rewrite G; reflexivity]. destruct (item_ref_out _ _ _ _ Sc Gc) as (v & Hv & _). destruct (N v Hv). }
  destruct X as (i & q & vt & G & E). rewrite G, (spot_ref_row _ _ _ _ E Vr). reflexivity.
Qed.
Lemma ref_back x m s key s' : shown x m s -> get_ref r s key = Ok (Val s') ->
  (exists rs, word x SRef (JMap rs)) /\ exists id, refers x m key (JString id) /\ visit iter r (Row key id) = Ok (Some s').
Proof using.
  intros Sh E. unfold get_ref in E. destruct (ld_enum _) eqn:En; [discriminate E|]. destruct (hget key (ld_refs (undef (snd s)))) as [[i [q vt]]|] eqn:G; [|discriminate E].
  split; [eapply def_has_ref; eassumption|]. apply bind_ok in E as (o & E & E'). assert (Eo : o = Some (Val s')) by (destruct o as [[y| |]|], vt; cbn in E'; congruence). subst o. clear E'.
  unfold spot_ref in E. destruct (spot_ref_id s key) as [[id| |]|] eqn:Ei; try discriminate E. destruct (root_table r key) as [tb|] eqn:Et; [|discriminate E].
  apply Ok_inj in E. destruct (table_value tb id) as [y|] eqn:Ev; [|discriminate E]. injection E as ->. exists id. split; [|apply visit_row_iff; eauto].
  unfold spot_ref_id in Ei. pose proof Sh as (_ & Sc & _). destruct (hget key (ci_refs (fst s))) as [q'|] eqn:Gc.
  - injection Ei as ->. destruct (item_ref_out _ _ _ _ Sc Gc) as (v & Hv & Wv). apply ref_text_of in Wv as ->. left. exact Hv.
  - rewrite G in Ei. injection Ei as ->. right. split; [intros v Hv; destruct (item_ref_in _ _ _ _ Sc Hv) as (q' & Gq & _); congruence|].
    destruct (def_refs _ _ _ Sh) as (old & R). destruct (refs_out _ _ _ _ _ _ _ _ R G) as (v & Hv & Wv). apply ref_text_of in Wv as ->. exact Hv.
Qed.

Lemma iter_one {A} (e : name * A) : iter A [e] = [e].
Proof using It. pose proof (It A [e]) as P. apply Permutation_sym, Permutation_length_1_inv in P. exact P. Qed.
Lemma enum_one x m s : shown x m s -> ld_enum (undef (snd s)) = true -> exists key q, ci_refs (fst s) = [(key, q)] /\ spot_enum iter s = (match q with Val v => Some (key, v) | _ => None end) /\
  resolved r false key q /\ exists e, hget key (ld_refs (undef (snd s))) = Some e.
Proof using It.
  intros Sh En. destruct (item_refs_valid _ _ _ Sh) as [A B]. rewrite En in A. destruct (ci_refs (fst s)) as [|[key q] [|? ?]] eqn:E; try discriminate A. exists key, q. split; [reflexivity|]. split.
  - unfold spot_enum. rewrite E, iter_one. destruct q; reflexivity.
  - destruct (B key q (or_introl eq_refl)) as (_ & R & i & q0 & vt & G & _). split; [exact R|eauto].
Qed.
Lemma enum_forward x m s key id s' : shown x m s -> (exists rs, word x SEnum (JMap rs)) -> has_ref m key (JString id) -> visit iter r (Row key id) = Ok (Some s') ->
  get_enum iter r s = Ok (key, s').
Proof using It.
  intros Sh W H Vr. apply (def_enum _ _ _ Sh) in W. destruct (enum_one _ _ _ Sh W) as (key' & q & E & Se & _ & e & G). pose proof Sh as (_ & Sc & _).
  destruct (item_ref_in _ _ _ _ Sc H) as (q' & Gc & Wq). apply writes_ref_text in Wq as ->. pose proof Gc as Gi. rewrite E in Gi. apply hget_in in Gi. destruct Gi as [Gi|[]]. injection Gi as -> ->.
  unfold get_enum. rewrite W, Se. cbn [need bind fst]. rewrite (spot_ref_row _ _ _ _ ltac:(unfold spot_ref_id; rewrite Gc; reflexivity) Vr). cbn [need bind]. rewrite G. reflexivity.
Qed.
Lemma enum_back x m s key s' : shown x m s -> get_enum iter r s = Ok (key, s') ->
  (exists rs, word x SEnum (JMap rs)) /\ exists id, has_ref m key (JString id) /\ visit iter r (Row key id) = Ok (Some s').
Proof using It.
  intros Sh E. unfold get_enum in E. destruct (ld_enum _) eqn:En; [|discriminate E]. split; [apply (def_enum _ _ _ Sh), En|].
  destruct (enum_one _ _ _ Sh En) as (key' & q & Er & Se & _ & e & G). rewrite Se in E. destruct q as [id| |]; try discriminate E. cbn [need bind fst] in E.
  apply bind_ok in E as (o & E & E'). destruct o as [[y| |]|]; cbn [need bind] in E'; try discriminate E'. destruct (is_some _); [|discriminate E']. injection E' as <- <-.
  exists id. assert (Gc : hget key' (ci_refs (fst s)) = Some (Val id)) by (rewrite Er; cbn [hget]; rewrite eqb_bytes_refl; reflexivity). pose proof Sh as (_ & Sc & _). split.
  - destruct (item_ref_out _ _ _ _ Sc Gc) as (v & Hv & Wv). apply ref_text_of in Wv as ->. exact Hv.
  - unfold spot_ref, spot_ref_id in E. rewrite Gc in E. destruct (root_table r key') as [tb|] eqn:Et; [|discriminate E]. apply Ok_inj in E. destruct (table_value tb id) as [z|] eqn:Ev; [|discriminate E]. injection E as ->. apply visit_row_iff. eauto.
Qed.

Theorem ways_forward w x m : leads parse files w x m -> exists s, visit iter r w = Ok (Some s) /\ shown x m s.
Proof using It Np T SF V D.
  induction 1 as [t id vt l x objs m Tp Lo I W|t i vt l x objs m Tp Lo E|t id vt l x objs i m Tp Lo E N|w x m key vt dx x' vt' objs i m' L IH Mx Dx Mm E|w x m key vt dx x' vt' a objs i id m' L IH Mx Dx Mm E N|w x m key id x' m' L IH W R L' IH'|w x m key id x' m' L IH W R L' IH'].
  - apply row_forward. eapply leads_row; eassumption.
  - destruct (clist_says _ _ _ _ _ Tp Lo) as (d & items & G & F). destruct (forall2_nth _ _ _ F _ _ E) as (c & Ec & Sh). exists (c, d). split; [|exact Sh].
    cbn [visit]. rewrite G. cbn [need bind]. unfold clist_value. cbn [fst snd]. rewrite Ec. reflexivity.
  - destruct (mlist_says _ _ _ _ _ Tp Lo) as (k & d & u & items & G & G' & Nd & F & Sh). destruct (items_nth _ _ _ F _ _ E) as (id' & c & Ec & A & _). apply (numbered_at _ _ _ _ N) in A as ->.
    exists (c, d). split; [|exact (Sh _ _ _ E Ec)]. cbn [visit]. rewrite G, G'. cbn [get_list need bind fst snd item_of_list]. unfold mlist_item. rewrite (lookup_at _ _ _ _ Nd Ec). reflexivity.
  - destruct IH as (s & Ev & Sh). destruct (cil_says _ _ _ _ _ _ _ _ _ Sh Mx Dx Mm) as (d & items & G & F). destruct (forall2_nth _ _ _ F _ _ E) as (c & Ec & Sh'). exists (c, d). split; [|exact Sh'].
    cbn [visit]. rewrite Ev. cbn [bind]. rewrite G. cbn [need bind]. unfold clist_value. cbn [fst snd]. rewrite Ec. reflexivity.
  - destruct IH as (s & Ev & Sh). destruct (mil_says _ _ _ _ _ _ _ _ _ _ Sh Mx Dx Mm) as (k & d & u & items & G & G' & Nd & F & Sh'). destruct (items_nth _ _ _ F _ _ E) as (id' & c & Ec & A & _). apply (numbered_at _ _ _ _ N) in A as ->.
    exists (c, d). split; [|exact (Sh' _ _ _ E Ec)]. cbn [visit]. rewrite Ev. cbn [bind]. rewrite G, G'. cbn [get_list need bind fst snd item_of_list]. unfold mlist_item. rewrite (lookup_at _ _ _ _ Nd Ec). reflexivity.
  - destruct IH as (s & Ev & Sh), IH' as (s' & Ev' & Sh'). exists s'. split; [|exact Sh']. cbn [visit]. rewrite Ev. cbn [bind]. rewrite (ref_forward _ _ _ _ _ _ Sh W R Ev'). reflexivity.
  - destruct IH as (s & Ev & Sh), IH' as (s' & Ev' & Sh'). exists s'. split; [|exact Sh']. cbn [visit]. rewrite Ev. cbn [bind]. rewrite (enum_forward _ _ _ _ _ _ Sh W R Ev'). cbn [bind fst snd]. rewrite eqb_bytes_refl. reflexivity.
Qed.

Lemma lookup_nth {A} (l : list (Z * A)) id a : lookup id l = Some a -> exists k, nth_error l k = Some (id, a).
Proof using. intros E. apply lookup_in' in E. apply In_nth_error in E. exact E. Qed.

Theorem ways_back w : forall s, visit iter r w = Ok (Some s) -> exists x m, leads parse files w x m /\ shown x m s.
Proof using It Np T SF V D.
  induction w as [t id|t i|t id|w IH key i|w IH key id|w IH key|w IH key]; intros s E.
  - apply row_back, E.
  - cbn [visit] in E. apply bind_ok in E as ([items d] & E & E'). apply bind_ok in E' as (s' & E' & E2). injection E2 as ->.
    unfold root_clist in E. destruct (hget t (ro_default r)) as [[n [| |d0 items0|]]|] eqn:G; try discriminate E. cbn [need] in E. injection E as -> ->.
    destruct (top_exists _ _ G) as (vt & v & Tp). destruct (top_says _ _ _ Tp) as (i' & w & G' & (rv & Sv & R) & Ty). rewrite G in G'. injection G' as <- <-. inversion R; subst.
    destruct (says_clist_of _ _ _ _ Sv) as (l & ->). destruct (says_clist_inv _ _ _ Sv) as (d1 & items1 & x & objs & _ & [Lo _] & _).
    destruct (clist_says _ _ _ _ _ Tp Lo) as (d2 & items2 & E2 & F). unfold root_clist in E2. rewrite G in E2. injection E2 as <- <-.
    unfold clist_value in E'. cbn [fst snd] in E'. destruct (nth_error items i) as [c|] eqn:Ec; [|discriminate E']. injection E' as <-.
    destruct (forall2_nth_r _ _ _ F _ _ Ec) as (m & Em & Sh). exists x, m. split; [|exact Sh]. eapply leads_elem; eassumption.
  - cbn [visit] in E. destruct (hget t (ro_default r)) as [[n [| | |d u]]|] eqn:G; try discriminate E. apply bind_ok in E as ([o d'] & E & E'). apply Ok_inj in E'.
    unfold item_of_list in E'. cbn [fst snd] in E'. destruct o as [items|]; [|discriminate E'].
    destruct (top_exists _ _ G) as (vt & v & Tp). destruct (top_says _ _ _ Tp) as (i' & w & G' & (rv & Sv & R) & Ty). rewrite G in G'. injection G' as <- <-. inversion R; subst.
    destruct (says_mlist_of _ _ _ _ _ Sv) as (l & ->). destruct (says_mlist_inv _ _ _ Sv) as (d1 & u1 & items1 & n1 & x & objs & _ & [Lo _] & _).
    destruct (mlist_says _ _ _ _ _ Tp Lo) as (k & d2 & u2 & items2 & G2 & E2 & Nd & F & Sh). rewrite E2 in E. cbn [get_list need bind fst] in E. injection E as -> ->.
    unfold mlist_item in E'. destruct (lookup id items) as [c|] eqn:El; [|discriminate E']. injection E' as <-. destruct (lookup_nth _ _ _ El) as (j & Ej).
    destruct (items_nth_r _ _ _ F _ _ Ej) as (m & Em & A & _). exists x, m. split; [|exact (Sh _ _ _ Em Ej)]. eapply leads_entry; [exact Tp|exact Lo|exact Em|]. apply at_numbered, A.
  - cbn [visit] in E. apply bind_ok in E as ([s0|] & E0 & E); [|discriminate E]. destruct (IH _ E0) as (x & m & L & Sh). apply bind_ok in E as ([items d] & E & E'). apply bind_ok in E' as (s' & E' & E2). injection E2 as ->.
    unfold clist_value in E'. cbn [fst snd] in E'. destruct (nth_error items i) as [c'|] eqn:Ec; [|discriminate E']. injection E' as <-.
    unfold spot_cil in E. destruct s0 as [c d0]. cbn [fst snd] in E. destruct (hget key (ld_members (undef d0))) as [[n [|d1|]]|] eqn:G; try discriminate E.
    assert (Gc : hget key (ci_values c) = Some (VCil items) /\ d1 = d).
    { destruct (hget key (ci_values c)) as [[|l|]|]; cbn [need] in E; injection E as <- <-; try (destruct i; discriminate Ec). auto. }
    destruct Gc as [Gc ->]. clear E. destruct (def_has _ _ _ _ _ _ _ Sh G) as (vt & v & rv & Mx & I & Sv). inversion I; subst. destruct (says_cildef_of _ _ _ Sv) as (l & ->).
    destruct (says_cildef_inv _ _ _ Sv) as (d1 & dx & x' & _ & -> & Dx & _). destruct (item_has _ _ _ _ _ _ Sh Gc) as (vt' & v' & rv' & Mm & I' & Sv'). inversion I'; subst.
    destruct (says_cil_of _ _ _ Sv') as (l' & ->). destruct (says_cil_inv _ _ _ Sv') as (items' & objs & _ & -> & _).
    destruct (cil_says _ _ _ _ _ _ _ _ _ Sh Mx Dx Mm) as (d2 & items2 & G2 & F). unfold spot_cil in G2. cbn [fst snd] in G2. rewrite G, Gc in G2. injection G2 as <- <-.
    destruct (forall2_nth_r _ _ _ F _ _ Ec) as (m' & Em & Sh'). exists x', m'. split; [|exact Sh']. eapply leads_cil; eassumption.
  - cbn [visit] in E. apply bind_ok in E as ([s0|] & E0 & E); [|discriminate E]. destruct (IH _ E0) as (x & m & L & Sh). destruct s0 as [c d0]. cbn [fst snd] in E.
    destruct (hget key (ld_members (undef d0))) as [[n [| |d1 u]]|] eqn:G; try discriminate E. apply bind_ok in E as ([o d] & E & E'). apply Ok_inj in E'.
    unfold item_of_list in E'. cbn [fst snd] in E'. destruct o as [items|]; [|discriminate E']. unfold mlist_item in E'. destruct (lookup id items) as [c'|] eqn:El; [|discriminate E']. injection E' as <-.
    destruct (lookup_nth _ _ _ El) as (j & Ej).
    assert (Gc : (exists next, hget key (ci_values c) = Some (VMil (Some (items, next)))) /\ d1 = d).
    { unfold spot_mil in E. cbn [fst snd] in E. rewrite G in E. destruct (hget key (ci_values c)) as [[| |[[l next]|]]|]; cbn [get_list need bind option_map fst] in E; try (destruct u); try discriminate E; injection E as <- <-; try (destruct j; discriminate Ej); eauto. }
    destruct Gc as [[next Gc] ->]. clear E. destruct (def_has _ _ _ _ _ _ _ Sh G) as (vt & v & rv & Mx & I & Sv). inversion I; subst. destruct (says_mildef_of _ _ _ _ Sv) as (l & ->).
    destruct (says_mildef_inv _ _ _ Sv) as (d1 & u1 & dx & x' & _ & -> & Dx & _). destruct (item_has _ _ _ _ _ _ Sh Gc) as (vt' & v' & rv' & Mm & I' & Sv'). inversion I'; subst.
    destruct (says_mil_of _ _ _ _ Sv') as (l' & ->). destruct (says_mil_inv _ _ _ Sv') as (items' & n' & a & objs & _ & -> & _).
    destruct (mil_says _ _ _ _ _ _ _ _ _ _ Sh Mx Dx Mm) as (k & d2 & u2 & items2 & G2 & G3 & Nd & F & Sh'). unfold spot_mil in G3. cbn [fst snd] in G3. rewrite G, Gc in G3. cbn [option_map fst] in G3. injection G3 as <- <-.
    destruct (items_nth_r _ _ _ F _ _ Ej) as (m' & Em & A & _). exists x', m'. split; [|exact (Sh' _ _ _ Em Ej)]. eapply leads_mil; [exact L|exact Mx|exact Dx|exact Mm|exact Em|]. apply at_numbered, A.
  - cbn [visit] in E. apply bind_ok in E as ([s0|] & E0 & E); [|discriminate E]. destruct (IH _ E0) as (x & m & L & Sh). apply bind_ok in E as (q & E & E'). destruct q as [y| |]; try discriminate E'. injection E' as ->.
    destruct (ref_back _ _ _ _ _ Sh E) as (W & id & R & Vr). destruct (row_back _ _ _ Vr) as (x' & m' & L' & Sh'). exists x', m'. split; [|exact Sh']. eapply leads_ref; eassumption.
  - cbn [visit] in E. apply bind_ok in E as ([s0|] & E0 & E); [|discriminate E]. destruct (IH _ E0) as (x & m & L & Sh). apply bind_ok in E as ([k y] & E & E'). cbn [fst snd] in E'. destruct (eqb_bytes k key) eqn:Ek; [|discriminate E']. injection E' as ->. apply eqb_bytes_eq in Ek as ->.
    destruct (enum_back _ _ _ _ _ Sh E) as (W & id & R & Vr). destruct (row_back _ _ _ Vr) as (x' & m' & L' & Sh'). exists x', m'. split; [|exact Sh']. eapply leads_enum; eassumption.
Qed.

(* ------------------------------------------------------------------ *)
(** * Values *)

Lemma param_value vt v p rv : writes_param v p -> says vt v rv -> exists q, rv = VaParam q vt /\ same_param q p.
Proof using.
  intros W Sv. pose proof (says_kind _ _ _ Sv) as K. pose proof (says_kind _ _ _ (says_param vt v p W)) as K'. rewrite <- K' in K. destruct rv as [q9 vt9| | | | | | |]; try discriminate K.
  inversion Sv as [vt8 v8 q8 W'| | | | | | | |]; subst. exists q9. split; [reflexivity|]. eapply writes_param_fun; eassumption.
Qed.
Lemma same_contents q p : same_param q p -> contents q = contents p /\ type_of q = type_of p.
Proof using.
  destruct q as [q|q|q|q|q|q|q], p as [p|p|p|p|p|p|p]; cbn [same_param]; try contradiction; intros E; (split; [|reflexivity]); try (subst; reflexivity);
    destruct q as [[? ?]| |], p as [[? ?]| |]; cbn in E |- *; congruence.
Qed.
Lemma same_allows vt q p : same_param q p -> allows_param vt p -> allows_param vt q.
Proof using.
  destruct q as [q|q|q|q|q|q|q], p as [p|p|p|p|p|p|p]; cbn [same_param]; try contradiction; intros E; try (subst; exact (fun x => x));
    destruct q as [[? ?]| |], p as [[? ?]| |]; cbn in E |- *; congruence || tauto.
Qed.

Lemma same_sym q p : same_param q p -> same_param p q.
Proof using. destruct q, p; cbn; auto. Qed.

Theorem param_read w x m n vt v0 p0 v q : leads parse files w x m -> member x n vt v0 -> writes_param v0 p0 -> has_value x m n v -> writes_param v q ->
  (exists vt', member m n vt' v) \/ allows_param vt q -> read_at iter r w n = Ok (Some (contents q)).
Proof using It Np T SF V D.
  intros L Mx W0 H W A. destruct (ways_forward _ _ _ L) as ([c d] & Ev & Sh). unfold read_at. rewrite Ev. cbn [bind].
  destruct (def_member _ _ _ _ _ _ _ Sh Mx) as (i & dv & rv & G & I & Sv). destruct (param_value _ _ _ _ W0 Sv) as (p & -> & P). inversion I; subst. clear I.
  assert (X : exists q', spot_param (c, d) n = Some q' /\ type_of q' = type_of p /\ allows_param vt q' /\ same_param q' q).
  { destruct H as [[vt' Mm]|[N [vt' Mx']]].
    - destruct (item_member _ _ _ _ _ _ _ Sh Mm) as (cv & rv & Gc & Ic & Sc & i' & dv' & G' & Vv). rewrite G in G'. injection G' as <- <-.
      destruct (param_value _ _ _ _ W Sc) as (q' & -> & Q). inversion Ic; subst. inversion Vv as [p1 vt1 q1 Ty Al| | |]; subst. exists q'. split; [unfold spot_param; cbn [fst]; rewrite Gc; reflexivity|]. auto.
    - destruct (shown_def_keys _ _ _ Sh) as [N1 N2]. destruct (member_unique _ _ _ _ _ _ N1 N2 Mx Mx') as [<- <-]. exists p. pose proof (writes_param_fun _ _ _ W0 W) as Q.
      destruct (param_value _ _ _ _ W Sv) as (p' & E & Q'). injection E as <-. split; [|split; [reflexivity|split; [|exact Q']]].
      + unfold spot_param. cbn [fst snd]. destruct (hget n (ci_values c)) as [cv|] eqn:Gc; [|rewrite G; reflexivity]. destruct (item_has _ _ _ _ _ _ Sh Gc) as (vt2 & v2 & _ & M2 & _). destruct (N _ _ M2).
      + destruct A as [[vt2 M2]|A]; [destruct (N _ _ M2)|]. eapply same_allows; eassumption. }
  destruct X as (q' & E & Ty & Al & Q). unfold get_param. cbn [snd]. rewrite G, E. cbn [get_as]. rewrite (proj2 (eqb_type_iff _ _) Ty). rewrite (unwrapped_param _ _ Al). cbn [bind].
  rewrite (proj1 (same_contents _ _ Q)). reflexivity.
Qed.
Theorem root_read n vt v q : top parse files n vt v -> writes_param v q -> allows_param vt q -> get_root_param r n = Ok (contents q).
Proof using Np T SF.
  intros Tp W A. destruct (top_says _ _ _ Tp) as (i & w & G & (rv & Sv & R) & _). destruct (param_value _ _ _ _ W Sv) as (p & -> & P). inversion R as [p1 vt1 E1 E2 E3| | |]; subst.
  unfold get_root_param, root_obj_param. rewrite G, <- E3. cbn [get_as]. rewrite (proj2 (eqb_type_iff _ _) eq_refl). rewrite (unwrapped_param _ _ (same_allows _ _ _ P A)), (proj1 (same_contents _ _ P)). reflexivity.
Qed.

(* ------------------------------------------------------------------ *)
(** * References, enums, order *)

Lemma resolved_row key id : resolved r false key (Val id) -> exists s, visit iter r (Row key id) = Ok (Some s).
Proof using.
  intros (_ & n & d & rows & old & row & G & Gr & _). exists (row, d). apply visit_row_iff. exists (rows, d). unfold root_table, table_value. cbn [fst snd]. rewrite G, Gr. auto.
Qed.
Theorem ref_leads w x m key id : leads parse files w x m -> (exists rs, word x SRef (JMap rs)) -> has_ref m key (JString id) -> exists x' m', leads parse files (Ref w key) x' m'.
Proof using It Np T SF V D.
  intros L W H. destruct (ways_forward _ _ _ L) as (s & _ & Sh). pose proof Sh as (_ & Sc & _). destruct (item_ref_in _ _ _ _ Sc H) as (q & G & Wq). apply writes_ref_text in Wq as ->.
  destruct (item_refs_valid _ _ _ Sh) as [_ B]. destruct (B key (Val id)) as (_ & R & _); [apply hget_in, G|]. destruct (resolved_row _ _ R) as (s' & E). destruct (row_back _ _ _ E) as (x' & m' & L' & _).
  exists x', m'. eapply leads_ref; [exact L|exact W|left; exact H|exact L'].
Qed.
Theorem enum_leads w x m : leads parse files w x m -> (exists rs, word x SEnum (JMap rs)) -> exists key v, has_ref m key v /\
  (forall key' v', has_ref m key' v' -> key' = key) /\ (forall id, v = JString id -> exists x' m', leads parse files (Enum w key) x' m').
Proof using It Np T SF V D.
  intros L W. destruct (ways_forward _ _ _ L) as (s & _ & Sh). pose proof W as W'. apply (def_enum _ _ _ Sh) in W'. destruct (enum_one _ _ _ Sh W') as (key & q & E & _ & R & _). pose proof Sh as (_ & Sc & _).
  assert (G : hget key (ci_refs (fst s)) = Some q) by (rewrite E; cbn [hget]; rewrite eqb_bytes_refl; reflexivity).
  destruct (item_ref_out _ _ _ _ Sc G) as (v & Hv & Wv). exists key, v. split; [exact Hv|]. split.
  - intros key' v' H'. destruct (item_ref_in _ _ _ _ Sc H') as (q' & G' & _). rewrite E in G'. apply hget_in in G'. destruct G' as [G'|[]]. congruence.
  - intros id ->. apply writes_ref_text in Wv as ->. destruct (resolved_row _ _ R) as (s' & Er). destruct (row_back _ _ _ Er) as (x' & m' & L' & _). exists x', m'. eapply leads_enum; eassumption.
Qed.

Theorem clist_order t vt l x objs : top parse files t vt (tagged_with "CList" l) -> list_of l x objs ->
  exists c, root_clist r t = Some c /\ Forall2 (fun i s => visit iter r (Elem t i) = Ok (Some s)) (seq 0 (length objs)) (clist_iter c).
Proof using Np T SF V D.
  intros Tp Lo. destruct (clist_says _ _ _ _ _ Tp Lo) as (d & items & G & F). exists (items, d). split; [exact G|]. rewrite (forall2_length _ _ _ F). clear F objs Lo.
  assert (X : forall pre l, items = pre ++ l -> Forall2 (fun i s => visit iter r (Elem t i) = Ok (Some s)) (seq (length pre) (length l)) (clist_iter (l, d))).
  { intros pre l0. revert pre. induction l0 as [|c l0 IH]; intros pre E; [constructor|]. cbn [length seq clist_iter fst snd map]. constructor.
    - cbn [visit]. rewrite G. cbn [need bind]. unfold clist_value. cbn [fst snd]. rewrite E, nth_error_app2, Nat.sub_diag by lia. reflexivity.
    - specialize (IH (pre ++ [c])). rewrite app_length, Nat.add_comm in IH. cbn [length Nat.add] in IH. apply IH. rewrite <- app_assoc. exact E. }
  exact (X [] items eq_refl).
Qed.
Theorem mlist_order t vt l x objs : top parse files t vt (tagged_with "MList" l) -> list_of l x objs ->
  exists items d, root_mlist r t = Some (Some items, d) /\ length items = length objs /\
    forall i id c, nth_error items i = Some (id, c) -> visit iter r (Entry t id) = Ok (Some (c, d)) /\ exists m, nth_error objs i = Some m /\ numbered m i id.
Proof using Np T SF V D.
  intros Tp Lo. destruct (mlist_says _ _ _ _ _ Tp Lo) as (k & d & u & items & G & G' & Nd & F & Sh). exists items, d. split; [exact G'|]. split; [eapply items_length, F|]. intros i id c E. split.
  - cbn [visit]. rewrite G, G'. cbn [get_list need bind fst snd item_of_list]. unfold mlist_item. rewrite (lookup_at _ _ _ _ Nd E). reflexivity.
  - destruct (items_nth_r _ _ _ F _ _ E) as (m & Em & A & _). exists m. split; [exact Em|]. apply at_numbered, A.
Qed.

(* ------------------------------------------------------------------ *)
(** * Panics *)

Lemma allows_dec {A} vt (q : qv A) : allows vt q \/ ~ allows vt q.
Proof using. destruct q, vt; cbn; intuition congruence. Qed.
Lemma allows_param_dec vt p : allows_param vt p \/ ~ allows_param vt p.
Proof using. destruct p; apply allows_dec. Qed.
Lemma unwrapped_nothing {A} vt (q : qv A) : unwrapped vt (Some q) = Panic <-> ~ allows vt q.
Proof using. destruct q, vt; cbn; intuition congruence. Qed.

Theorem param_panics w x m n vt v0 p0 : leads parse files w x m -> member x n vt v0 -> writes_param v0 p0 ->
  (read_at iter r w n = Panic <-> (forall vt' v', ~ member m n vt' v') /\ ~ allows_param vt p0).
Proof using It Np T SF V D.
  intros L Mx W0. destruct (ways_forward _ _ _ L) as ([c d] & Ev & Sh). destruct (hget n (ci_values c)) as [cv|] eqn:Gc.
  - destruct (item_has _ _ _ _ _ _ Sh Gc) as (vt' & v' & rv & Mm & Ic & Sc). split; [|intros [N _]; destruct (N _ _ Mm)]. intros E. exfalso.
    destruct (item_member _ _ _ _ _ _ _ Sh Mm) as (cv' & rv' & Gc' & _ & _ & i & dv & G & Vv). rewrite Gc in Gc'. injection Gc' as <-.
    destruct (def_member _ _ _ _ _ _ _ Sh Mx) as (i' & dv' & rv2 & G' & I & Sv). rewrite G in G'. injection G' as <- <-. destruct (param_value _ _ _ _ W0 Sv) as (p & -> & P). inversion I; subst.
    inversion Vv as [p1 vt1 q1 Ty Al| | |]; subst. inversion Ic; subst.
    assert (W : writes_param v' q1) by (inversion Sc; subst; assumption).
    rewrite (param_read w x m n vt v0 p0 v' q1 L Mx W0 (or_introl (ex_intro _ vt' Mm)) W (or_introl (ex_intro _ vt' Mm))) in E. discriminate E.
  - assert (N : forall vt' v', ~ member m n vt' v') by (intros vt' v' Mm; destruct (item_member _ _ _ _ _ _ _ Sh Mm) as (cv & _ & G & _); congruence).
    destruct (allows_param_dec vt p0) as [A|A].
    + split; [|intros [_ X]; contradiction]. intros E. rewrite (param_read w x m n vt v0 p0 v0 p0 L Mx W0) in E; [discriminate E|right; split; [exact N|eauto]|exact W0|right; exact A].
    + split; [auto|]. intros _. unfold read_at. rewrite Ev. cbn [bind]. destruct (def_member _ _ _ _ _ _ _ Sh Mx) as (i & dv & rv & G & I & Sv). destruct (param_value _ _ _ _ W0 Sv) as (p & -> & P). inversion I; subst.
      unfold get_param, spot_param. cbn [fst snd]. rewrite Gc, G. cbn [get_as]. rewrite (proj2 (eqb_type_iff _ _) eq_refl).
      rewrite unwrapped_refuse; [reflexivity|]. intros A'. apply A. eapply same_allows; [|exact A']. apply same_sym, P.
Qed.
Theorem root_panics n vt v q : top parse files n vt v -> writes_param v q -> (get_root_param r n = Panic <-> ~ allows_param vt q).
Proof using Np T SF.
  intros Tp W. destruct (allows_param_dec vt q) as [A|A].
  - rewrite (root_read n vt v q Tp W A). split; [discriminate|contradiction].
  - split; [auto|]. intros _. destruct (top_says _ _ _ Tp) as (i & w & G & (rv & Sv & R) & _). destruct (param_value _ _ _ _ W Sv) as (p & -> & P). inversion R as [p1 vt1 E1 E2 E3| | |]; subst.
    unfold get_root_param, root_obj_param. rewrite G, <- E3. cbn [get_as]. rewrite (proj2 (eqb_type_iff _ _) eq_refl). apply unwrapped_refuse. intros A'. apply A. eapply same_allows; [|exact A']. apply same_sym, P.
Qed.

Theorem ref_panics w x m key rs vt v : leads parse files w x m -> word x SRef (JMap rs) -> member rs key vt v ->
  (visit iter r (Ref w key) = Panic <-> (forall v', ~ has_ref m key v') /\
     ((exists q, nothing _ v q /\ ~ allows (T := list Z) vt q) \/ exists id, v = JString id /\ forall x' m', ~ leads parse files (Row key id) x' m')).
Proof using It Np T SF V D.
  intros L W M. destruct (ways_forward _ _ _ L) as (s & Ev & Sh). pose proof Sh as (_ & Sc & _). cbn [visit]. rewrite Ev. cbn [bind]. unfold get_ref. rewrite (def_not_enum _ _ _ Sh (ex_intro _ rs W)).
  assert (X : exists i q, hget key (ld_refs (undef (snd s))) = Some (i, (q, vt)) /\ writes_ref v q).
  { destruct (def_refs _ _ _ Sh) as (old & A & _). destruct (A _ (or_introl W)) as (rs' & E & (_ & _ & _ & B & _)). injection E as <-. exact (B _ _ _ M). }
  destruct X as (i & q & G & Wq). rewrite G. unfold spot_ref, spot_ref_id. destruct (hget key (ci_refs (fst s))) as [q'|] eqn:Gc.
  - destruct (item_ref_out _ _ _ _ Sc Gc) as (v' & Hv & _). split; [|intros [N _]; destruct (N _ Hv)]. intros E. exfalso.
    destruct (item_refs_valid _ _ _ Sh) as [_ B]. destruct (B key q') as (_ & R & i' & q0 & vt' & G' & Al); [apply hget_in, Gc|]. rewrite G in G'. injection G' as <- <- <-.
    destruct q' as [id| |].
    + destruct (resolved_row _ _ R) as (s' & Er). apply visit_row_iff in Er as (tb & Et & Eb). rewrite Et, Eb in E. cbn in E. discriminate E.
    + cbn [bind] in E. assert (U : unwrapped vt (Some (@Undefined spot)) <> Panic) by (rewrite unwrapped_nothing; intros X; apply X; exact Al). destruct (unwrapped vt (Some Undefined)); cbn [bind] in E; congruence.
    + cbn [bind] in E. assert (U : unwrapped vt (Some (@Null spot)) <> Panic) by (rewrite unwrapped_nothing; intros X; apply X; exact Al). destruct (unwrapped vt (Some Null)); cbn [bind] in E; congruence.
  - assert (N : forall v', ~ has_ref m key v') by (intros v' Hv; destruct (item_ref_in _ _ _ _ Sc Hv) as (q' & Gq & _); congruence). rewrite G.
    inversion Wq as [id P|v' q' No]; subst.
    + assert (Lr : (exists x' m', leads parse files (Row key id) x' m') \/ forall x' m', ~ leads parse files (Row key id) x' m').
      { destruct (visit iter r (Row key id)) as [[s'|]| |] eqn:Er; [left; destruct (row_back _ _ _ Er) as (x' & m' & L' & _); eauto|right..];
          intros x' m' L'; destruct (row_forward _ _ _ _ L') as (s' & Er' & _); congruence. }
      destruct Lr as [(x' & m' & L')|Lr].
      * destruct (row_forward _ _ _ _ L') as (s' & Er & _). apply visit_row_iff in Er as (tb & Et & Eb). rewrite Et, Eb. cbn. split; [discriminate|].
        intros [_ [(q & No & _)|(id' & E & B)]]; [inversion No|]. injection E as <-. destruct (B _ _ L').
      * split; [intros _; split; [exact N|right; eauto]|]. intros _. destruct (root_table r key) as [tb|] eqn:Et; [|reflexivity]. destruct (table_value tb id) as [s'|] eqn:Eb; [|reflexivity].
        exfalso. assert (Er : visit iter r (Row key id) = Ok (Some s')) by (apply visit_row_iff; eauto). destruct (row_back _ _ _ Er) as (x' & m' & L' & _). exact (Lr _ _ L').
    + assert (Q : q = Null \/ q = Undefined) by (inversion No; auto).
      assert (E : (match q with Val id => match root_table r key with Some t => Ok (option_map Val (table_value t id)) | None => Panic end | Null => Ok (Some Null) | Undefined => Ok (Some Undefined) end) = Ok (Some (qv_map (fun _ => s) q))) by (destruct Q as [->| ->]; reflexivity).
      rewrite E. cbn [bind]. clear E. split.
      * intros E. split; [exact N|]. left. exists q. split; [exact No|]. intros A. assert (U : unwrapped vt (Some (qv_map (fun _ => s) q)) <> Panic) by (rewrite unwrapped_nothing; intros X; apply X; destruct Q as [->| ->]; exact A).
        destruct (unwrapped vt _); cbn [bind] in E; congruence.
      * intros [_ [(q' & No' & A)|(id & -> & _)]]; [|inversion No]. assert (q' = q) by (inversion No; subst; inversion No'; reflexivity). subst q'.
        rewrite (proj2 (unwrapped_nothing vt (qv_map (fun _ => s) q))); [reflexivity|]. intros X. apply A. destruct Q as [->| ->]; exact X.
Qed.

Theorem enum_panics w x m key : leads parse files w x m -> (exists rs, word x SEnum (JMap rs)) ->
  (visit iter r (Enum w key) = Panic <-> forall key' id, ~ has_ref m key' (JString id)).
Proof using It Np T SF V D.
  intros L W. destruct (ways_forward _ _ _ L) as (s & Ev & Sh). pose proof Sh as (_ & Sc & _). cbn [visit]. rewrite Ev. cbn [bind]. split.
  - intros E key' id H. destruct (enum_leads _ _ _ L W) as (k & v & Hv & One & Ld). pose proof (One _ _ H) as ->.
    assert (v = JString id).
    { destruct (item_ref_in _ _ _ _ Sc H) as (q & G & Wq). apply writes_ref_text in Wq as ->. destruct (item_ref_in _ _ _ _ Sc Hv) as (q & G' & Wq). rewrite G in G'. injection G' as <-. apply ref_text_of, Wq. }
    subst v. destruct (Ld id eq_refl) as (x' & m' & L'). inversion L' as [| | | | | |w1 x1 m1 k1 id1 x2 m2 Lw W1 H1 Lr]; subst. destruct (ways_forward _ _ _ L') as (s' & Ev' & _). cbn [visit] in Ev'. rewrite Ev in Ev'. cbn [bind] in Ev'.
    destruct (get_enum iter r s) as [e| |]; cbn [bind] in E, Ev'; congruence.
  - intros N. apply (def_enum _ _ _ Sh) in W. destruct (enum_one _ _ _ Sh W) as (key' & q & E & Se & _). unfold get_enum. rewrite W, Se. destruct q as [id| |]; [|reflexivity|reflexivity]. exfalso.
    assert (Gc : hget key' (ci_refs (fst s)) = Some (Val id)) by (rewrite E; cbn [hget]; rewrite eqb_bytes_refl; reflexivity).
    destruct (item_ref_out _ _ _ _ Sc Gc) as (v & Hv & Wv). apply ref_text_of in Wv as ->. exact (N _ _ Hv).
Qed.

Theorem mil_total w x m key vt dx id : leads parse files w x m -> member x key vt (tagged_with "MilDef" [JArray dx]) -> visit iter r (Mil w key id) <> Panic.
Proof using It Np T SF V D.
  intros L Mx. destruct (ways_forward _ _ _ L) as ([c d] & Ev & Sh). cbn [visit]. rewrite Ev. cbn [bind]. destruct (def_member _ _ _ _ _ _ _ Sh Mx) as (i & dv & rv & G & I & Sv).
  destruct (says_mildef_inv _ _ _ Sv) as (d' & u & dx' & x0 & -> & _). assert (E : dv = DMil d' u) by (inversion I; reflexivity). subst dv. cbn [snd]. rewrite G. unfold spot_mil. cbn [fst snd]. rewrite G.
  destruct (hget key (ci_values c)) as [[p|l|[[l next]|]]|] eqn:Gc; cbn [get_list need bind fst option_map]; try discriminate.
  destruct (item_has _ _ _ _ _ _ Sh Gc) as (vt' & v' & rv & Mm & _). destruct (item_member _ _ _ _ _ _ _ Sh Mm) as (cv & rv' & Gc' & _ & _ & i' & dv & G' & Vv). rewrite G in G'. injection G' as <- <-. rewrite Gc in Gc'. injection Gc' as <-.
  inversion Vv; subst. discriminate.
Qed.
Theorem entry_total t vt l id : top parse files t vt (tagged_with "MList" l) -> visit iter r (Entry t id) <> Panic.
Proof using Np T SF V D.
  intros Tp. destruct (top_says _ _ _ Tp) as (_ & _ & _ & (rv & Sv & _) & _). destruct (says_mlist_inv _ _ _ Sv) as (_ & _ & _ & _ & x & objs & _ & [Lo _] & _).
  destruct (mlist_says _ _ _ _ _ Tp Lo) as (k & d & u & items & G & G' & _). cbn [visit]. rewrite G, G'. discriminate.
Qed.
Theorem cil_total w x m key vt dx vt' objs i : leads parse files w x m -> member x key vt (tagged_with "CilDef" [JArray dx]) ->
  member m key vt' (tagged_with "Cil" (map JMap objs)) -> (i < length objs)%nat -> visit iter r (Cil w key i) <> Panic.
Proof using It Np T SF V D.
  intros L Mx Mm Li. destruct (ways_forward _ _ _ L) as (s & Ev & Sh). pose proof Mx as Mx'. destruct s as [c d]. destruct (def_member _ _ _ _ _ _ _ Sh Mx) as (_ & _ & rv & _ & _ & Sv).
  destruct (says_cildef_inv _ _ _ Sv) as (_ & dx' & x' & _ & E & Dx & _). injection E as <-. destruct (nth_error objs i) as [m'|] eqn:E; [|apply nth_error_None in E; lia].
  destruct (ways_forward (Cil w key i) x' m') as (s & Ev' & _); [eapply leads_cil; eassumption|]. rewrite Ev'. discriminate.
Qed.
End Ways.

Theorem constant_visit iter r r' w : ro_default r = ro_default r' -> constant w = true -> visit iter r w = visit iter r' w.
Proof.
  intros E. assert (Et : forall t, root_table r t = root_table r' t) by (intros t; unfold root_table; rewrite E; reflexivity).
  assert (Er : forall s k, spot_ref r s k = spot_ref r' s k) by (intros s k; unfold spot_ref; rewrite Et; reflexivity).
  induction w as [t id|t i|t id|w IH key i|w IH key id|w IH key|w IH key]; cbn [constant]; intros C; try discriminate C; cbn [visit].
  - rewrite Et. reflexivity.
  - unfold root_clist. rewrite E. reflexivity.
  - rewrite (IH C). reflexivity.
  - rewrite (IH C). destruct (visit iter r' w) as [[s|]| |]; [|reflexivity..]. cbn [bind]. unfold get_ref. rewrite Er. reflexivity.
  - rewrite (IH C). destruct (visit iter r' w) as [[s|]| |]; [|reflexivity..]. cbn [bind]. unfold get_enum. destruct (ld_enum _); [|reflexivity]. destruct (spot_enum iter s) as [e|]; cbn [need bind]; [rewrite Er|]; reflexivity.
Qed.
