(** Removing old files. *)
From Verif Require Import Base CompactionModel StringCompactionModel StringCompactionProofs FileNameModel FileNameSpec FileNameProofs
  DocModel DiffProofs PhaseModel TreeModel TreeSpec TreeProofs HistModel HistSpec HistProofs ChainProofs RemoveModel RemoveSpec.

(** ** The remover is the tree *)

Section Comp.
Variable maxp : nat.
Variable cum : bool.
Notation comp := (composite_remover maxp cum).

Definition conv (cur : nat) (e : Z * option (list (Z * ritem)) * option props) : list (Z * ritem) :=
  match e with
  | (ind, Some sub, p) => if (cur <=? maxp)%nat then [(ind, RItem ((S cur =? maxp)%nat && cum) p sub)] else []
  | (ind, None, p) => [(ind, RItem (cum && (cur =? maxp)%nat) p [])]
  end.

Lemma conv_key cur e k it : In (k, it) (conv cur e) -> fst (fst e) = k.
Proof.
  destruct e as [[ind [sub|]] p]; cbn [conv fst]; [destruct (cur <=? maxp)%nat|]; intros H; try destruct H as [H|[]]; try contradiction; congruence.
Qed.

Lemma bt_get_above {A} k (m : list (Z * A)) : (forall k' v, In (k', v) m -> k < k') -> bt_get k m = None.
Proof.
  induction m as [|[x a] m IH]; intros H; [reflexivity|]. cbn [bt_get]. destruct (Z.eqb_spec k x) as [->|N].
  - specialize (H x a (or_introl eq_refl)). lia.
  - apply IH. intros k' v I. apply (H k' v). now right.
Qed.

Lemma merge_keys {A B} (a : list (Z * A)) (b : list (Z * B)) e : In e (merge a b) -> In (fst (fst e)) (keys a) \/ In (fst (fst e)) (keys b).
Proof.
  revert b. induction a as [|[x p] a IH]; intros b.
  - induction b as [|[y h] b IHb]; cbn [merge]; [intros []|]. intros [<-|I]; [right; now left|]. apply IHb in I as [I|I]; [now left|right; now right].
  - induction b as [|[y h] b IHb]; cbn [merge].
    + intros [<-|I]; [left; now left|]. apply IH in I as [I|I]; [left; now right|destruct I].
    + destruct (Z.ltb_spec x y); [|destruct (Z.ltb_spec y x)].
      * intros [<-|I]; [left; now left|]. apply IH in I as [I|I]; [left; now right|now right].
      * intros [<-|I]; [right; now left|]. apply IHb in I as [I|I]; [now left|right; now right].
      * intros [<-|I]; [left; now left|]. apply IH in I as [I|I]; [left; now right|right; now right].
Qed.

Definition pick (cur : nat) (k : Z) (sub : option (list (Z * ritem))) (p : option props) : option ritem :=
  match sub, p with
  | Some sub, p => if (cur <=? maxp)%nat then Some (RItem ((S cur =? maxp)%nat && cum) p sub) else None
  | None, Some p => Some (RItem (cum && (cur =? maxp)%nat) (Some p) [])
  | None, None => None
  end.

Lemma bt_get_app {A} k (l m : list (Z * A)) : bt_get k (l ++ m) = match bt_get k l with Some v => Some v | None => bt_get k m end.
Proof. induction l as [|[x a] l IH]; [reflexivity|]. cbn [app bt_get]. destruct (k =? x); [reflexivity|exact IH]. Qed.

Lemma bt_get_key {A} k (v : A) m : bt_get k m = Some v -> In k (keys m).
Proof. intros H. apply bt_get_in in H. apply (in_map fst) in H. exact H. Qed.

Lemma sorted_head {A} x (a : A) m : sorted ((x, a) :: m) -> sorted m /\ bt_get x m = None /\ forall k v, bt_get k m = Some v -> x < k.
Proof.
  intros S. apply sorted_cons_lt in S as [S L]. split; [assumption|]. split.
  - apply bt_get_above. exact L.
  - intros k v G. apply bt_get_in in G. eauto.
Qed.

Lemma conv_merge cur k a b : sorted a -> sorted b -> bt_get k (flat_map (conv cur) (merge a b)) = pick cur k (bt_get k b) (bt_get k a).
Proof.
  assert (One : forall x h p (rest : list (Z * ritem)), bt_get k (conv cur (x, h, p) ++ rest) =
    if k =? x then match conv cur (x, h, p) with (_, it) :: _ => Some it | [] => bt_get k rest end else bt_get k rest).
  { intros x h p rest. unfold conv. destruct h as [sub|]; [destruct (cur <=? maxp)%nat|]; cbn [app bt_get]; destruct (k =? x); reflexivity. }
  revert b. induction a as [|[x p] a IH]; intros b Sa Sb.
  - induction b as [|[y h] b IHb]; [reflexivity|]. destruct (sorted_head _ _ _ Sb) as (Sb' & Ny & _). cbn [merge flat_map]. rewrite One. cbn [bt_get].
    destruct (Z.eqb_spec k y) as [->|N]; [|apply IHb; assumption]. pose proof (IHb Sb') as Q. rewrite Ny in Q. cbn [conv]. unfold pick. destruct (cur <=? maxp)%nat; [reflexivity|].
    exact Q.
  - destruct (sorted_head _ _ _ Sa) as (Sa' & Nx & Lx). induction b as [|[y h] b IHb].
    + cbn [merge flat_map]. rewrite One. cbn [bt_get]. destruct (Z.eqb_spec k x) as [->|N]; [reflexivity|]. rewrite IH by assumption. reflexivity.
    + destruct (sorted_head _ _ _ Sb) as (Sb' & Ny & Ly). cbn [merge]. destruct (Z.ltb_spec x y) as [L|L]; [|destruct (Z.ltb_spec y x) as [L'|L']].
      * cbn [flat_map]. rewrite One. destruct (Z.eqb_spec k x) as [->|N].
        -- cbn [conv]. cbn [bt_get]. rewrite Z.eqb_refl. destruct (Z.eqb_spec x y); [lia|].
           assert (bt_get x b = None) as -> by (destruct (bt_get x b) as [v|] eqn:E; [apply Ly in E; lia|reflexivity]). reflexivity.
        -- rewrite IH by assumption. cbn [bt_get]. destruct (Z.eqb_spec k x); [contradiction|]. reflexivity.
      * cbn [flat_map]. rewrite One. pose proof (IHb Sb') as Q. change ((fix go (b : list (Z * list (Z * ritem))) := _) b) with (merge ((x, p) :: a) b). rewrite Q. cbn [bt_get]. destruct (Z.eqb_spec k y) as [->|N]; [|reflexivity].
        destruct (Z.eqb_spec y x); [lia|]. assert (bt_get y a = None) as -> by (destruct (bt_get y a) as [v|] eqn:E; [apply Lx in E; lia|reflexivity]).
        cbn [conv]. unfold pick. rewrite Ny. destruct (cur <=? maxp)%nat; reflexivity.
      * assert (x = y) by lia. subst y. cbn [flat_map]. rewrite One. rewrite IH by assumption. cbn [bt_get].
        destruct (Z.eqb_spec k x) as [->|N]; [|reflexivity]. cbn [conv]. unfold pick. rewrite Nx, Ny. destruct (cur <=? maxp)%nat; reflexivity.
Qed.

Lemma bt_get_map {A B} (f : A -> B) k (m : list (Z * A)) : bt_get k (map (fun e => (fst e, f (snd e))) m) = match bt_get k m with Some v => Some (f v) | None => None end.
Proof. induction m as [|[x a] m IH]; [reflexivity|]. cbn [map bt_get fst snd]. destruct (k =? x); [reflexivity|exact IH]. Qed.

Lemma comp_merge cur ch it : small ch -> small it ->
  comp cur (Node ch it) = flat_map (conv cur) (merge it (map (fun e => (fst e, comp (S cur) (snd e))) ch)).
Proof. intros S1 S2. cbn [composite_remover]. rewrite zip_merge; [reflexivity|assumption|]. unfold small. now rewrite keys_map. Qed.

Lemma comp_get prefix t cur k : tree_ok prefix t ->
  bt_get k (comp cur t) = pick cur k (match bt_get k (children t) with Some c => Some (comp (S cur) c) | None => None end) (bt_get k (items t)).
Proof.
  intros T. destruct T as [prefix ch it S1 S2 M1 M2 _ _ _]. rewrite comp_merge by assumption. rewrite conv_merge; [|assumption|].
  - cbn [children items]. rewrite bt_get_map. reflexivity.
  - unfold sorted. now rewrite keys_map.
Qed.

(** an item of the remover from the items below a node *)
Definition rfind (rest : list Z) (items : list (Z * ritem)) : option ritem :=
  match rest with [] => None | k :: r => match bt_get k items with Some it => descend r it | None => None end end.

Lemma descend_find r it : descend r it = match r with [] => Some it | _ => rfind r (r_children it) end.
Proof. destruct r; reflexivity. Qed.

Lemma tree_child prefix t k c : tree_ok prefix t -> bt_get k (children t) = Some c -> tree_ok (prefix ++ [k]) c /\ flatten c <> [].
Proof. intros T G. destruct T as [prefix ch it S1 S2 M1 M2 Hi Hc Hf]. cbn [children] in G. apply bt_get_in in G. eauto. Qed.

(** what is found is what the tree has *)
Lemma rfind_sound rest : forall prefix t cur it, tree_ok prefix t -> rfind rest (comp cur t) = Some it -> r_prop it = item_get rest t.
Proof.
  induction rest as [|k rest IH]; intros prefix t cur it T H; [discriminate|]. cbn [rfind] in H. rewrite (comp_get prefix) in H by assumption.
  cbn [item_get]. destruct (bt_get k (children t)) as [c|] eqn:Ec.
  - cbn [pick] in H. destruct (cur <=? maxp)%nat; [|discriminate]. rewrite descend_find in H. destruct rest as [|k' rest]; [apply Some_inj in H; subst it; reflexivity|].
    cbn [r_children] in H. destruct (tree_child _ _ _ _ T Ec) as [T' _]. eapply IH; eassumption.
  - destruct (bt_get k (items t)) as [p|] eqn:Ei; [|discriminate]. cbn [pick] in H. rewrite descend_find in H. destruct rest as [|k' rest]; [apply Some_inj in H; subst it; cbn; congruence|].
    discriminate.
Qed.

(** what the tree has is found, down to the phase after the last *)
Lemma rfind_complete rest : forall prefix t cur p, tree_ok prefix t -> (cur + length rest <= S maxp)%nat -> item_get rest t = Some p ->
  exists it, rfind rest (comp cur t) = Some it /\ r_prop it = Some p /\
    (cum = false -> r_cumulative it = false) /\
    (r_cumulative it = true -> cur + length rest = S maxp \/ cur + length rest = maxp)%nat /\
    ((cur + length rest = S maxp)%nat -> (forall q, In q (flatten t) -> (length (position q) <= length prefix + length rest)%nat) -> r_cumulative it = cum).
Proof.
  induction rest as [|k rest IH]; intros prefix t cur p T L H; [discriminate|]. cbn [rfind]. rewrite (comp_get prefix) by assumption.
  cbn [item_get] in H. cbn [length] in L |- *. assert (B : (cur <=? maxp)%nat = true) by (apply Nat.leb_le; lia).
  destruct rest as [|k' rest].
  - rewrite H. destruct (bt_get k (children t)) as [c|] eqn:Ec; cbn [pick]; rewrite ?B; eexists; cbn [descend]; (split; [reflexivity|]); split; [reflexivity| |reflexivity|]; cbn [r_cumulative length].
    + split; [intros ->; apply andb_false_r|]. split.
      * intros E. apply andb_true_iff in E as [E _]. apply Nat.eqb_eq in E. right. lia.
      * intros E Dp. exfalso. destruct (tree_child _ _ _ _ T Ec) as [T' Ne]. destruct (flatten c) as [|q l] eqn:Ef; [congruence|].
        assert (Iq : In q (flatten c)) by (rewrite Ef; now left). destruct (tree_under _ _ T' q Iq) as (s & Ns & Ps).
        assert (Iq' : In q (flatten t)).
        { destruct T as [prefix ch it0 S1 S2 M1 M2 _ _ _]. cbn [children] in Ec. apply in_flatten; auto. right. exists k, c. split; [now apply bt_get_in|assumption]. }
        specialize (Dp q Iq'). rewrite Ps, !app_length in Dp. cbn [length] in Dp. destruct s; [congruence|cbn [length] in Dp; lia].
    + split; [intros ->; reflexivity|]. split.
      * intros E. apply andb_true_iff in E as [_ E]. apply Nat.eqb_eq in E. left. lia.
      * intros E _. replace (cur =? maxp)%nat with true by (symmetry; apply Nat.eqb_eq; lia). apply andb_true_r.
  - destruct (bt_get k (children t)) as [c|] eqn:Ec; [|discriminate]. cbn [pick]. rewrite B. rewrite descend_find. cbn [r_children].
    destruct (tree_child _ _ _ _ T Ec) as [T' _]. destruct (IH _ _ (S cur) p T') as (it & F & P & C0 & C1 & C2); [cbn [length] in *; lia|exact H|].
    exists it. split; [exact F|]. split; [exact P|]. split; [exact C0|]. cbn [length] in *. split; [intros E; apply C1 in E; lia|]. intros E Dp. apply C2; [lia|].
    intros q Iq. rewrite app_length. cbn [length]. assert (Iq' : In q (flatten t)).
    { destruct T as [prefix ch it0 S1 S2 M1 M2 _ _ _]. cbn [children] in Ec. apply in_flatten; auto. right. exists k, c. split; [now apply bt_get_in|assumption]. }
    specialize (Dp q Iq'). lia.
Qed.
End Comp.

(** ** Cues *)

Section Keep.
Variable maxp : nat.
Variable cum : bool.
Variable h : tree.
Hypothesis Tok : tree_ok [] h.
Notation R := (remover_from maxp cum h).

Lemma item_get_child ctl o : o <> [] -> item_get (ctl :: o) h = match bt_get ctl (children h) with Some t => item_get o t | None => None end.
Proof. intros N. cbn [item_get]. destruct o; [congruence|reflexivity]. Qed.

Lemma cue_item_eq c : cue_item R c = match c_order c with
  | [] => None
  | _ => match bt_get (c_ctl c) (children h) with Some t => rfind (cue_order c) (composite_remover maxp cum 0 t) | None => None end end.
Proof.
  unfold cue_item, remover_from. rewrite bt_get_map. unfold get_item_from_cue, cue_order. destruct (bt_get (c_ctl c) (children h)) as [t|]; destruct (c_order c) as [|k r]; try reflexivity.
Qed.

Lemma cue_order_nil c : c_order c <> [] -> cue_order c <> [].
Proof. unfold cue_order. intros N E. apply app_eq_nil in E as [E _]. contradiction. Qed.

Lemma cue_sound c it : cue_item R c = Some it -> r_prop it = item_get (cue_path c) h.
Proof.
  rewrite cue_item_eq. intros H. destruct (c_order c) as [|k r] eqn:E; [discriminate|]. assert (N : c_order c <> []) by (rewrite E; discriminate). clear E k r.
  unfold cue_path. rewrite item_get_child by now apply cue_order_nil. destruct (bt_get (c_ctl c) (children h)) as [t|] eqn:Et; [|discriminate].
  destruct (tree_child _ _ _ _ Tok Et) as [T _]. eapply rfind_sound; eassumption.
Qed.

Lemma cue_complete c p : c_order c <> [] -> (length (cue_order c) <= S maxp)%nat -> item_get (cue_path c) h = Some p ->
  exists it, cue_item R c = Some it /\ r_prop it = Some p /\ (cum = false -> r_cumulative it = false) /\
    (r_cumulative it = true -> length (cue_order c) = S maxp \/ length (cue_order c) = maxp) /\
    (length (cue_order c) = S maxp -> (forall q, In q (flatten h) -> (length (p_order q) <= S maxp)%nat) -> r_cumulative it = cum).
Proof.
  intros N L H. rewrite cue_item_eq. unfold cue_path in H. rewrite item_get_child in H by now apply cue_order_nil. destruct (c_order c) as [|k r] eqn:E; [congruence|]. rewrite <- E in *. clear E N k r.
  destruct (bt_get (c_ctl c) (children h)) as [t|] eqn:Et; [|discriminate]. destruct (tree_child _ _ _ _ Tok Et) as [T _].
  destruct (rfind_complete maxp cum (cue_order c) _ t 0 p T ltac:(lia) H) as (it & F & P & C0 & C1 & C2). exists it. split; [exact F|]. split; [exact P|]. split; [exact C0|].
  split; [intros X; apply C1 in X; lia|]. intros El Dp. apply C2; [lia|]. intros q Iq. cbn [length app]. assert (Iq' : In q (flatten h)).
  { destruct Tok as [prefix ch it0 S1 S2 M1 M2 _ _ _]. cbn [children] in Et. apply in_flatten; auto. right. eexists _, t. split; [apply bt_get_in; exact Et|assumption]. }
  specialize (Dp q Iq'). unfold position. cbn [length]. lia.
Qed.

(** ** Fuel *)

Fixpoint ipaths (path : list Z) (it : ritem) : list (list Z) :=
  match it with RItem _ _ ch => path :: flat_map (fun e => ipaths (path ++ [fst e]) (snd e)) ch end.
Definition all_paths : list (list Z) := flat_map (fun e => flat_map (fun i => ipaths [fst e; fst i] (snd i)) (snd e)) R.

Lemma ritem_rec (P : ritem -> Prop) : (forall c p ch, Forall (fun e => P (snd e)) ch -> P (RItem c p ch)) -> forall it, P it.
Proof.
  intros H. fix IH 1. intros [c p ch]. apply H. induction ch as [|e ch IHc]; constructor; [apply IH|exact IHc].
Qed.

Lemma flat_map_length_sum {A B} (f : A -> list B) (g : A -> nat) l : Forall (fun x => length (f x) = g x) l -> length (flat_map f l) = list_sum (map g l).
Proof. induction 1 as [|x l E _ IH]; [reflexivity|]. cbn [flat_map map]. rewrite app_length, E, IH. reflexivity. Qed.

Lemma ipaths_length it : forall path, length (ipaths path it) = count_items it.
Proof.
  induction it as [c p ch IH] using ritem_rec. intros path. cbn [ipaths count_items length]. f_equal. apply flat_map_length_sum.
  rewrite Forall_forall in *. intros e I. apply IH. exact I.
Qed.
Lemma all_paths_length : length all_paths = count_all R.
Proof.
  unfold all_paths, count_all. apply flat_map_length_sum. apply Forall_forall. intros e _. apply flat_map_length_sum. apply Forall_forall. intros i _. apply ipaths_length.
Qed.

Lemma descend_path r : forall it path x, descend r it = Some x -> In (path ++ r) (ipaths path it).
Proof.
  induction r as [|k r IH]; intros it path x H; destruct it as [c p ch]; cbn [descend] in H; cbn [ipaths].
  - rewrite app_nil_r. now left.
  - right. cbn [r_children] in H. destruct (bt_get k ch) as [i|] eqn:E; [|discriminate]. apply in_flat_map. exists (k, i). split; [now apply bt_get_in|].
    cbn [fst snd]. specialize (IH i (path ++ [k]) x H). rewrite <- app_assoc in IH. exact IH.
Qed.
Lemma cue_item_path c it : cue_item R c = Some it -> In (cue_path c) all_paths.
Proof.
  unfold cue_item. destruct (bt_get (c_ctl c) R) as [items|] eqn:E; [|discriminate]. unfold get_item_from_cue, cue_path, cue_order. destruct (c_order c) as [|k r]; [discriminate|].
  destruct (bt_get k items) as [i|] eqn:Ei; [|discriminate]. intros D. apply bt_get_in in E, Ei. unfold all_paths. apply in_flat_map. exists (c_ctl c, items). split; [exact E|].
  apply in_flat_map. exists (k, i). split; [exact Ei|]. cbn [fst snd app]. apply (descend_path _ i [c_ctl c; k]) in D. exact D.
Qed.

Lemma is_kept_spec K x : is_kept K x = true <-> In x K.
Proof. unfold is_kept. destruct (in_dec path_dec x K); split; auto; discriminate. Qed.
Lemma not_kept_spec K x : is_kept K x = false <-> ~ In x K.
Proof. unfold is_kept. destruct (in_dec path_dec x K); split; auto; try discriminate. contradiction. Qed.

Definition sane (K : list (list Z)) : Prop := NoDup K /\ incl K all_paths.

Lemma keep_loop_ok f : forall K c, sane K -> (S (length all_paths) <= f + length K)%nat -> exists K', keep_loop f R K c = Ok K' /\ sane K'.
Proof.
  induction f as [|f IH]; intros K c [N I] L.
  - exfalso. pose proof (NoDup_incl_length N I). lia.
  - cbn [keep_loop]. destruct (cue_item R c) as [it|] eqn:E; [|exists K; split; [reflexivity|split; assumption]]. unfold item_keep.
    destruct (r_prop it) as [p|]; [|exists K; split; [reflexivity|split; assumption]]. destruct (is_kept K (cue_path c)) eqn:Ek; [exists K; split; [reflexivity|split; assumption]|].
    apply not_kept_spec in Ek. assert (S' : sane (cue_path c :: K)). { split; [now constructor|]. intros x [<-|X]; [eapply cue_item_path, E|auto]. }
    destruct (next_cue it p) as [c'|]; [|eexists; split; [reflexivity|exact S']]. apply IH; [exact S'|cbn [length]; lia].
Qed.

(** ** Kept paths are closed *)

(** the next item, if it is a file, is kept *)
Definition step_ok (K : list (list Z)) (pending : option cue) : Prop := forall c it p c' it' p',
  In (cue_path c) K -> cue_item R c = Some it -> r_prop it = Some p -> next_cue it p = Some c' ->
  cue_item R c' = Some it' -> r_prop it' = Some p' -> In (cue_path c') K \/ pending = Some c'.

Lemma cue_order_some c it : cue_item R c = Some it -> c_order c <> [].
Proof. rewrite cue_item_eq. destruct (c_order c); [discriminate|]. intros _ X. discriminate. Qed.

(** the item found depends on the path only *)
Lemma cue_item_same c c' it it' : cue_item R c = Some it -> cue_item R c' = Some it' -> cue_path c = cue_path c' -> it = it'.
Proof.
  intros H H' E. pose proof (cue_order_some _ _ H) as N. pose proof (cue_order_some _ _ H') as N'. rewrite cue_item_eq in H, H'.
  unfold cue_path in E. assert (E1 : c_ctl c = c_ctl c') by congruence. assert (E2 : cue_order c = cue_order c') by congruence.
  rewrite E1, E2 in H. destruct (c_order c); [congruence|]. destruct (c_order c'); [congruence|]. destruct (bt_get (c_ctl c') (children h)); congruence.
Qed.

Lemma keep_loop_closed f : forall K c K', keep_loop f R K c = Ok K' -> step_ok K (Some c) ->
  step_ok K' None /\ incl K K' /\ (forall it p, cue_item R c = Some it -> r_prop it = Some p -> In (cue_path c) K').
Proof.
  induction f as [|f IH]; intros K c K' H S; [discriminate|]. cbn [keep_loop] in H. destruct (cue_item R c) as [it|] eqn:E.
  - unfold item_keep in H. destruct (r_prop it) as [p|] eqn:Ep.
    + destruct (is_kept K (cue_path c)) eqn:Ek.
      * apply Ok_inj in H. subst K'. apply is_kept_spec in Ek. split; [|split; [apply incl_refl|auto]].
        intros c0 it0 p0 c1 it1 p1 A B C D G I. destruct (S c0 it0 p0 c1 it1 p1 A B C D G I) as [X|X]; [now left|]. left. congruence.
      * apply not_kept_spec in Ek. assert (S' : step_ok (cue_path c :: K) (next_cue it p)).
        { intros c0 it0 p0 c1 it1 p1 A B C D G I. destruct A as [A|A].
          - right. assert (it = it0) by (eapply cue_item_same; eauto). subst it0. congruence.
          - destruct (S c0 it0 p0 c1 it1 p1 A B C D G I) as [X|X]; [left; now right|]. left. left. congruence. }
        destruct (next_cue it p) as [c'|].
        -- apply IH in H as (A & B & _); [|exact S']. split; [exact A|]. split; [intros x X; apply B; now right|]. intros _ _ _ _. apply B. now left.
        -- apply Ok_inj in H. subst K'. split; [exact S'|]. split; [intros x X; now right|]. intros _ _ _ _. now left.
    + apply Ok_inj in H. subst K'. split; [|split; [apply incl_refl|intros it0 p0 X Y; congruence]].
      intros c0 it0 p0 c1 it1 p1 A B C D G I. destruct (S c0 it0 p0 c1 it1 p1 A B C D G I) as [X|X]; [now left|]. exfalso. congruence.
  - apply Ok_inj in H. subst K'. split; [|split; [apply incl_refl|intros it0 p0 X Y; congruence]].
    intros c0 it0 p0 c1 it1 p1 A B C D G I. destruct (S c0 it0 p0 c1 it1 p1 A B C D G I) as [X|X]; [now left|]. exfalso. congruence.
Qed.

Lemma keep_each_ok l : forall K, sane K -> step_ok K None -> exists K', keep_each R K l = Ok K' /\ sane K' /\ step_ok K' None /\ incl K K' /\
  forall p it q, In p l -> cue_item R (Cue (p_control p) (p_order p) None) = Some it -> r_prop it = Some q -> In (position p) K'.
Proof.
  induction l as [|p l IH]; intros K Sa St.
  - exists K. split; [reflexivity|]. split; [exact Sa|]. split; [exact St|]. split; [apply incl_refl|]. intros ? ? ? [].
  - cbn [keep_each]. unfold keep. destruct (keep_loop_ok (S (S (count_all R))) K (Cue (p_control p) (p_order p) None) Sa) as (K1 & E1 & S1).
    { rewrite all_paths_length. lia. }
    rewrite E1. cbn [bind]. apply keep_loop_closed in E1 as (C1 & I1 & P1).
    2:{ intros c0 it0 p0 c1 it1 p1 A B C D G I. destruct (St c0 it0 p0 c1 it1 p1 A B C D G I) as [X|X]; [now left|discriminate]. }
    destruct (IH K1 S1 C1) as (K' & E' & S' & C' & I' & P'). exists K'. split; [exact E'|]. split; [exact S'|]. split; [exact C'|].
    split; [intros x X; auto|]. intros q it q' [<-|Iq] F Q; [|eauto]. apply I'. specialize (P1 it q' F Q). unfold cue_path, cue_order in P1. cbn [c_ctl c_order c_last] in P1.
    rewrite app_nil_r in P1. exact P1.
Qed.

(** ** Removable files *)

Lemma bt_get_below {A} k (m : list (Z * A)) x a : sorted ((x, a) :: m) -> k < x -> bt_get k ((x, a) :: m) = None.
Proof.
  intros S L. apply bt_get_above. intros k' v [E|I]; [inversion E; subst; assumption|]. apply sorted_cons_lt in S as [_ S]. specialize (S k' v I). lia.
Qed.

Lemma sorted_keys_above {A} x (a : A) m k : sorted ((x, a) :: m) -> In k (keys m) -> x < k.
Proof. intros S I. apply sorted_cons_lt in S as [_ S]. apply in_map_iff in I as ([k' v] & <- & I). eapply S, I. Qed.

Lemma merge_get {A B} (a : list (Z * A)) (b : list (Z * B)) k s p : sorted a -> sorted b -> In (k, s, p) (merge a b) -> s = bt_get k b /\ p = bt_get k a.
Proof.
  revert b. induction a as [|[x q] a IH]; intros b Sa Sb.
  - induction b as [|[y i] b IHb]; cbn [merge]; [intros []|]. destruct (sorted_head _ _ _ Sb) as (Sb' & Ny & _). intros [E|I].
    + inversion E; subst. cbn [bt_get]. rewrite Z.eqb_refl. auto.
    + assert (y < k). { destruct (merge_keys [] b _ I) as [X|X]; [destruct X|]. cbn [fst] in X. eapply sorted_keys_above; eassumption. }
      apply IHb in I as [-> ->]; [|assumption]. cbn [bt_get]. destruct (Z.eqb_spec k y); [lia|auto].
  - pose proof Sa as Sa0. apply sorted_head in Sa0 as (Sa' & Nx & _). induction b as [|[y i] b IHb].
    + cbn [merge]. intros [E|I]; [inversion E; subst; cbn [bt_get]; rewrite Z.eqb_refl; auto|].
      assert (x < k). { destruct (merge_keys a [] _ I) as [X|X]; [|destruct X]. cbn [fst] in X. eapply sorted_keys_above; eassumption. }
      apply IH in I as [-> ->]; [|assumption|assumption]. cbn [bt_get]. destruct (Z.eqb_spec k x); [lia|auto].
    + pose proof Sb as Sb0. apply sorted_head in Sb0 as (Sb' & Ny & _). cbn [merge]. destruct (Z.ltb_spec x y); [|destruct (Z.ltb_spec y x)].
      * intros [E|I]; [inversion E; subst; split; [now rewrite bt_get_below|cbn [bt_get]; now rewrite Z.eqb_refl]|].
        assert (x < k). { destruct (merge_keys a _ _ I) as [X|X]; cbn [fst] in X; [eapply sorted_keys_above; eassumption|]. cbn [keys map fst] in X. destruct X as [<-|X]; [assumption|]. pose proof (sorted_keys_above _ _ _ _ Sb X). lia. }
        apply IH in I as [-> ->]; [|assumption|assumption]. split; [reflexivity|]. cbn [bt_get]. destruct (Z.eqb_spec k x); [lia|auto].
      * intros [E|I]; [inversion E; subst; split; [cbn [bt_get]; now rewrite Z.eqb_refl|now rewrite bt_get_below]|].
        change ((fix go (b : list (Z * B)) := _) b) with (merge ((x, q) :: a) b) in I.
        assert (y < k). { destruct (merge_keys ((x, q) :: a) b _ I) as [X|X]; cbn [fst] in X; [|eapply sorted_keys_above; eassumption]. cbn [keys map fst] in X. destruct X as [<-|X]; [assumption|]. pose proof (sorted_keys_above _ _ _ _ Sa X). lia. }
        apply IHb in I as [-> ->]; [|assumption]. split; [|reflexivity]. cbn [bt_get]. destruct (Z.eqb_spec k y); [lia|auto].
      * assert (x = y) by lia. subst y. intros [E|I]; [inversion E; subst; cbn [bt_get]; rewrite Z.eqb_refl; auto|].
        assert (x < k). { destruct (merge_keys a b _ I) as [X|X]; cbn [fst] in X; [exact (sorted_keys_above _ _ _ _ Sa X)|exact (sorted_keys_above _ _ _ _ Sb X)]. }
        apply IH in I as [-> ->]; [|assumption|assumption]. cbn [bt_get]. destruct (Z.eqb_spec k x); [lia|auto].
Qed.

(** an item is found by its key *)
Lemma comp_in prefix t cur k i : tree_ok prefix t -> In (k, i) (composite_remover maxp cum cur t) -> bt_get k (composite_remover maxp cum cur t) = Some i.
Proof.
  intros T J. rewrite (comp_get maxp cum prefix) by assumption. destruct T as [prefix ch it S1 S2 M1 M2 _ _ _]. rewrite comp_merge in J by assumption. cbn [children items].
  assert (S1' : sorted (map (fun e => (fst e, composite_remover maxp cum (S cur) (snd e))) ch)) by (unfold sorted; now rewrite keys_map).
  apply in_flat_map in J as ([[k' s] p] & J1 & J2). pose proof (conv_key _ _ _ _ _ _ J2) as Ek. cbn [fst] in Ek. subst k'. destruct (merge_get _ _ _ _ _ S2 S1' J1) as [E1 E2].
  rewrite bt_get_map in E1. rewrite <- E1, <- E2. unfold pick. destruct s as [s|]; cbn [conv] in J2.
  - destruct (cur <=? maxp)%nat; [|destruct J2]. destruct J2 as [J2|[]]. congruence.
  - destruct J2 as [J2|[]]. destruct p as [p|]; [congruence|]. exfalso. destruct (merge_keys _ _ _ J1) as [X|X]; cbn [fst] in X.
    + apply in_map_iff in X as ([k' v] & <- & X). apply (in_bt_get _ _ _ S2) in X. cbn [fst] in E2. congruence.
    + apply in_map_iff in X as ([k' v] & <- & X). apply (in_bt_get _ _ _ S1') in X. cbn [fst] in E1. rewrite bt_get_map, <- E1 in X. discriminate.
Qed.

Lemma removable_found K prefix t : tree_ok prefix t -> forall cur q,
  In q (flat_map (fun i => item_removable K (prefix ++ [fst i]) (snd i)) (composite_remover maxp cum cur t)) ->
  exists r it, rfind r (composite_remover maxp cum cur t) = Some it /\ r_prop it = Some q /\ r <> [] /\ ~ In (prefix ++ r) K.
Proof.
  induction 1 as [prefix ch it S1 S2 M1 M2 Hi Hc IH Hf]. intros cur q J. assert (T : tree_ok prefix (Node ch it)) by (constructor; assumption).
  apply in_flat_map in J as ([k i] & J1 & J2). cbn [fst snd] in J2. pose proof (comp_in prefix _ cur k i T J1) as G.
  assert (Own : forall c p ch', In q (if is_kept K (prefix ++ [k]) then [] else match p with Some p => [p] | None => [] end) -> i = RItem c p ch' ->
    exists r it0, rfind r (composite_remover maxp cum cur (Node ch it)) = Some it0 /\ r_prop it0 = Some q /\ r <> [] /\ ~ In (prefix ++ r) K).
  { intros c p ch' J ->. destruct (is_kept K (prefix ++ [k])) eqn:Ek; [destruct J|]. destruct p as [p|]; [|destruct J]. destruct J as [->|[]]. apply not_kept_spec in Ek.
    exists [k]. eexists. cbn [rfind descend]. rewrite G. split; [reflexivity|]. split; [reflexivity|]. split; [discriminate|exact Ek]. }
  pose proof G as G'. rewrite (comp_get maxp cum prefix) in G' by assumption. cbn [children items] in G'. unfold pick in G'. destruct (bt_get k ch) as [t2|] eqn:Ec.
  - destruct (cur <=? maxp)%nat; [|discriminate]. apply Some_inj in G'. subst i. cbn [item_removable] in J2. apply in_app_or in J2 as [J2|J2]; [exact (Own _ _ _ J2 eq_refl)|].
    apply bt_get_in in Ec. destruct (IH k t2 Ec (S cur) q J2) as (r & x & F & P & N & K'). exists (k :: r), x. rewrite <- app_assoc in K'. cbn [rfind]. rewrite G, descend_find. cbn [r_children].
    destruct r; [congruence|]. repeat split; auto. discriminate.
  - destruct (bt_get k it) as [p|]; [|discriminate]. apply Some_inj in G'. subst i. cbn [item_removable flat_map] in J2. rewrite app_nil_r in J2. refine (Own _ _ [] _ eq_refl). exact J2.
Qed.

Lemma get_removable_found K q : In q (get_removable R K) -> In q (flatten h) /\ ~ In (position q) K /\ p_order q <> [] /\
  exists it, cue_item R (Cue (p_control q) (p_order q) None) = Some it /\ r_prop it = Some q.
Proof.
  unfold get_removable, remover_from. intros J. apply in_flat_map in J as ([k items] & J1 & J2). apply in_map_iff in J1 as ([k' t] & E & J1). cbn [fst snd] in E, J2. inversion E; subst k' items. clear E.
  assert (S1 : sorted (children h)) by (clear -Tok; destruct Tok; assumption). pose proof (in_bt_get _ _ _ S1 J1) as G. destruct (tree_child _ _ _ _ Tok G) as [T _]. cbn [app] in T.
  apply (removable_found K _ t T 0) in J2 as (r & x & F & P & N & Nk). pose proof (rfind_sound _ _ _ _ _ _ _ T F) as Q. rewrite P in Q. symmetry in Q.
  assert (Ph : item_get (k :: r) h = Some q) by (rewrite item_get_child by assumption; now rewrite G).
  apply (item_get_flatten [] h Tok) in Ph as [Ifl Pp]. cbn [app] in Pp.
  split; [exact Ifl|]. split; [rewrite Pp; exact Nk|]. assert (Eo : p_order q = r) by (unfold position in Pp; congruence). assert (Ec : p_control q = k) by (unfold position in Pp; congruence).
  split; [congruence|]. exists x. split; [|exact P]. change (map (fun e => (fst e, composite_remover maxp cum 0 (snd e))) (children h)) with R.
  rewrite cue_item_eq. unfold cue_order. cbn [c_ctl c_order c_last]. rewrite app_nil_r, Eo, Ec, G. destruct r; [congruence|exact F].
Qed.

End Keep.
