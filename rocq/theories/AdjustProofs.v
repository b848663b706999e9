(** Moving a document to a new version (C43). *)
From Verif Require Import Base StringCompactionModel StringCompactionProofs DocModel DiffProofs
  ArchiveModel JsonModel JsonSpec JsonProofs ValidModel ValidSpec ValidProofs AdjustModel AdjustSpec.

(* ------------------------------------------------------------------ *)
(** * Building a map member by member *)

Definition put_some {B} (key : name) (o : option B) (acc : hmap B) : hmap B := match o with Some v => hset key v acc | None => acc end.
Definition keyed {A B} (g : name -> A -> res (option B)) (l : hmap A) (acc : hmap B) : res (hmap B) :=
  mfold (fun acc e => o <- g (fst e) (snd e) ; Ok (put_some (fst e) o acc)) l acc.

Lemma put_some_other {B} key key' (o : option B) acc : key' <> key -> hget key' (put_some key o acc) = hget key' acc.
Proof. intros H. destruct o; [|reflexivity]. apply hget_hset_other, H. Qed.

Lemma keyed_get {A B} (g : name -> A -> res (option B)) l : NoDup (map fst l) -> forall acc r, keyed g l acc = Ok r ->
  (forall key x, hget key l = Some x -> exists o, g key x = Ok o /\ hget key r = match o with Some v => Some v | None => hget key acc end) /\
  (forall key, hget key l = None -> hget key r = hget key acc) /\
  (NoDup (map fst acc) -> NoDup (map fst r)).
Proof.
  induction l as [|[k x] l IH]; intros N acc r E; unfold keyed in *; cbn [mfold] in E.
  - apply Ok_inj in E. subst r. split; [discriminate|]. auto.
  - apply bind_ok in E as (acc1 & E1 & E). cbn [fst snd] in E1. apply bind_ok in E1 as (o & G & E1). apply Ok_inj in E1. subst acc1.
    cbn [map fst] in N. apply NoDup_cons_iff in N as [Ni N]. destruct (IH N _ _ E) as (H1 & H2 & H3). apply hget_none in Ni. split; [|split].
    + intros key y. cbn [hget]. destruct (eqb_bytes k key) eqn:Q.
      * apply eqb_bytes_eq in Q. subst key. intros X. apply Some_inj in X. subst y. exists o. split; [exact G|]. rewrite (H2 _ Ni). destruct o; [apply hget_hset_same|reflexivity].
      * intros X. destruct (H1 _ _ X) as (o' & G' & R). exists o'. split; [exact G'|]. rewrite R. destruct o'; [reflexivity|]. apply put_some_other. intros ->. rewrite eqb_bytes_refl in Q. discriminate.
    + intros key. cbn [hget]. destruct (eqb_bytes k key) eqn:Q; [discriminate|]. intros X. rewrite (H2 _ X). apply put_some_other. intros ->. rewrite eqb_bytes_refl in Q. discriminate.
    + intros X. apply H3. destruct o; [apply hset_nodup, X|exact X].
Qed.

Lemma keyed_ok {A B} (g : name -> A -> res (option B)) l : (forall key x, In (key, x) l -> exists o, g key x = Ok o) -> forall acc, exists r, keyed g l acc = Ok r.
Proof.
  induction l as [|[k x] l IH]; intros H acc; unfold keyed in *; cbn [mfold]; [eauto|].
  destruct (H k x (or_introl eq_refl)) as [o G]. cbn [fst snd]. rewrite G. cbn [bind]. apply IH. intros key y I. apply (H key y). now right.
Qed.

Lemma fold_keyed {A B} (g : name -> A -> option B) l : forall acc,
  keyed (fun k x => Ok (g k x)) l acc = Ok (fold_left (fun acc e => put_some (fst e) (g (fst e) (snd e)) acc) l acc).
Proof. induction l as [|e l IH]; intros acc; unfold keyed in *; cbn [mfold fold_left]; [reflexivity|]. cbn [bind]. apply IH. Qed.

Lemma fold_left_ext {A B} (f g : A -> B -> A) l : (forall a b, f a b = g a b) -> forall a, fold_left f l a = fold_left g l a.
Proof. intros H. induction l as [|b l IH]; intros a; cbn; [reflexivity|]. rewrite H. apply IH. Qed.

Lemma undefiable_iff vt : undefiable vt = true <-> allows_undefined vt.
Proof. unfold allows_undefined. destruct vt; cbn; intuition discriminate. Qed.
Lemma undefiable_not vt : undefiable vt = false -> ~ allows_undefined vt.
Proof. intros H A. apply undefiable_iff in A. congruence. Qed.
Lemma to_undefined_of p : undefined_of p (to_undefined p).
Proof. destruct p; split; reflexivity. Qed.

Section Iter.
Variable iter : forall A, hmap A -> hmap A.
Hypothesis It : iterates iter.

Lemma iter_nodup {A} (m : hmap A) : NoDup (map fst m) -> NoDup (map fst (iter A m)).
Proof. intros N. eapply Permutation_NoDup; [|exact N]. apply Permutation_map, Permutation_sym, It. Qed.
Lemma iter_get {A} key (m : hmap A) : NoDup (map fst m) -> hget key (iter A m) = hget key m.
Proof. intros N. apply hget_perm; [apply It|apply iter_nodup, N]. Qed.

(* ------------------------------------------------------------------ *)
(** * Items *)

Lemma refs_carried d old : NoDup (map fst (ld_refs d)) -> forall key,
  carried_ref (option_map snd (hget key (ld_refs d))) (hget key old) (hget key (adjust_refs iter d old)).
Proof.
  intros N key. unfold adjust_refs. set (g := fun (k : name) (x : Z * (qv (list Z) * var_type)) => match hget k old with Some v => Some v | None => if undefiable (snd (snd x)) then Some Undefined else None end).
  pose proof (fold_keyed g (iter _ (ld_refs d)) []) as E. destruct (keyed_get _ _ (iter_nodup _ N) _ _ E) as (H1 & H2 & _).
  rewrite (fold_left_ext _ (fun acc e => put_some (fst e) (g (fst e) (snd e)) acc)).
  2: { intros a [k [i [q vt]]]. unfold g. cbn [fst snd]. destruct (hget k old); [reflexivity|]. destruct (undefiable vt); reflexivity. }
  specialize (H1 key). specialize (H2 key). rewrite iter_get in H1, H2 by exact N. destruct (hget key (ld_refs d)) as [[i [q vt]]|]; cbn [option_map snd].
  - destruct (H1 _ eq_refl) as (o & Go & ->). apply Ok_inj in Go. subst o. unfold g. cbn [snd]. destruct (hget key old); [constructor|].
    destruct (undefiable vt) eqn:U; [apply ref_undefined, undefiable_iff, U|apply ref_default, undefiable_not, U].
  - rewrite H2 by reflexivity. constructor.
Qed.

Definition member_value (old : hmap (res cval)) (k : name) (x : Z * ldefval def) : res (option cval) :=
  match hget k old with
  | Some r => v <- r ; Ok (Some v)
  | None => match snd x with
            | DParam p vt => Ok (if undefiable vt then Some (VParam (to_undefined p)) else None)
            | DMil _ u => Ok (if u then Some (VMil None) else None)
            | DCil _ => Err
            end
  end.
Lemma sabun_keyed d old : adjust_sabun iter d old = keyed (member_value old) (iter _ (ld_members d)) [].
Proof.
  unfold adjust_sabun, keyed. apply mfold_ext. intros a [k [i dv]] _. unfold member_value. cbn [fst snd]. destruct (hget k old) as [r|]; [destruct r; reflexivity|].
  destruct dv as [p vt|d'|d' u]; cbn [bind]; [destruct (undefiable vt)| |destruct u]; reflexivity.
Qed.

Definition adjust_value (d : ldef def) (v : cval) : res cval :=
  match v with
  | VParam p => Ok (VParam p)
  | VMil None => Ok (VMil None)
  | VMil (Some (l, next)) =>
      l <- mmap (fun e => e) (map (fun e => let '(id, it) := e in it <- adjust_item iter d it ; Ok (id, it)) l) ;
      Ok (VMil (Some (rebuild l next)))
  | VCil _ => Err
  end.
Lemma adjust_item_eq d c : adjust_item iter d c = (values <- keyed (member_value (map (fun e => (fst e, adjust_value d (snd e))) (ci_values c))) (iter _ (ld_members d)) [] ;
  Ok (CItem values (adjust_refs iter d (ci_refs c)))).
Proof.
  destruct c as [values refs]. cbn [adjust_item ci_values ci_refs]. rewrite <- sabun_keyed. f_equal. f_equal. apply map_ext. intros [k v]. cbn [fst snd]. f_equal.
Qed.

Lemma mmap_map {A B C} (f : A -> B) (g : B -> res C) l : mmap g (map f l) = mmap (fun a => g (f a)) l.
Proof. induction l as [|a l IH]; cbn; [reflexivity|]. rewrite IH. reflexivity. Qed.

Lemma mmap_forall2 {A B} (f : A -> res B) l : forall r, mmap f l = Ok r -> Forall2 (fun a b => f a = Ok b) l r.
Proof.
  induction l as [|a l IH]; cbn [mmap]; intros r H; [apply Ok_inj in H; subst; constructor|].
  apply bind_ok in H as (b & Hb & H). apply bind_ok in H as (r' & Hr & H). apply Ok_inj in H. subst r. constructor; auto.
Qed.
Lemma mmap_exists {A B} (f : A -> res B) l : (forall a, In a l -> exists b, f a = Ok b) -> exists r, mmap f l = Ok r.
Proof.
  induction l as [|a l IH]; intros H; cbn [mmap]; [eauto|]. destruct (H a (or_introl eq_refl)) as [b ->]. cbn [bind]. destruct IH as [r ->]; [intros x I; apply H; now right|]. cbn [bind]. eauto.
Qed.

(** the items of a list, with their ids *)
Definition adjusted_items (d : ldef def) (l l' : list (Z * citem)) : Prop :=
  Forall2 (fun a b => fst b = fst a /\ adjust_item iter d (snd a) = Ok (snd b)) l l'.
Lemma items_adjusted d l l' : mmap (fun e => let '(id, it) := e in it <- adjust_item iter d it ; Ok (id, it)) l = Ok l' -> adjusted_items d l l'.
Proof.
  intros H. apply mmap_forall2 in H. unfold adjusted_items. induction H as [|[id c] [id' c'] l l' E H IH]; constructor; auto.
  apply bind_ok in E as (c1 & E1 & E). apply Ok_inj in E. injection E as <- <-. auto.
Qed.
Lemma adjusted_ids d l l' : adjusted_items d l l' -> map fst l' = map fst l.
Proof. induction 1 as [|a b l l' [E _] H IH]; cbn; [reflexivity|]. congruence. Qed.
Lemma adjusted_in d l l' : adjusted_items d l l' -> forall id c', In (id, c') l' -> exists c, In (id, c) l /\ adjust_item iter d c = Ok c'.
Proof.
  induction 1 as [|[i c] [i' c'] l l' [E F] H IH]; intros id x I; [destruct I|]. cbn [fst snd] in *. destruct I as [I|I].
  - injection I as -> ->. subst i. exists c. split; [now left|exact F].
  - destruct (IH _ _ I) as (c0 & I0 & F0). exists c0. split; [now right|exact F0].
Qed.
Lemma adjusted_combine d l l' : adjusted_items d l l' -> forall id c id' c', In ((id, c), (id', c')) (combine l l') -> adjust_item iter d c = Ok c'.
Proof.
  induction 1 as [|[i c] [i' c'] l l' [E F] H IH]; intros id x id' x' I; [destruct I|]. destruct I as [I|I]; [now injection I as <- <- <- <-|]. apply (IH _ _ _ _ I).
Qed.
Lemma rebuild_fst l next : fst (rebuild l next) = l.
Proof. destruct l; reflexivity. Qed.
Lemma rebuild_snd l next : l <> [] -> snd (rebuild l next) = next.
Proof. destruct l; [now intros []|reflexivity]. Qed.

Lemma value_adjusted d v v' : adjust_value d v = Ok v' ->
  match v with
  | VParam p => v' = VParam p
  | VMil None => v' = VMil None
  | VMil (Some (l, next)) => exists l', v' = VMil (Some (rebuild l' next)) /\ adjusted_items d l l'
  | VCil _ => False
  end.
Proof.
  destruct v as [p|l|[[l next]|]]; cbn [adjust_value]; intros H; try discriminate H; [now apply Ok_inj in H| |now apply Ok_inj in H].
  apply bind_ok in H as (l' & E & H). apply Ok_inj in H. subst v'. rewrite mmap_map in E. exists l'. split; [reflexivity|]. apply items_adjusted, E.
Qed.

(** what is in an adjusted item *)
Lemma item_adjusted d c c' : NoDup (map fst (ld_members d)) -> adjust_item iter d c = Ok c' ->
  (forall key, match hget key (ld_members d) with
               | None => hget key (ci_values c') = None
               | Some (_, dv) =>
                   match hget key (ci_values c) with
                   | Some v => exists v', adjust_value d v = Ok v' /\ hget key (ci_values c') = Some v'
                   | None => match dv with
                             | DParam p vt => hget key (ci_values c') = if undefiable vt then Some (VParam (to_undefined p)) else None
                             | DMil _ u => hget key (ci_values c') = if u then Some (VMil None) else None
                             | DCil _ => False
                             end
                   end
               end) /\
  ci_refs c' = adjust_refs iter d (ci_refs c) /\ NoDup (map fst (ci_values c')).
Proof.
  intros N H. rewrite adjust_item_eq in H. apply bind_ok in H as (vs & E & H). apply Ok_inj in H. subst c'. cbn [ci_values ci_refs].
  destruct (keyed_get _ _ (iter_nodup _ N) _ _ E) as (H1 & H2 & H3). split; [|split; [reflexivity|apply H3; constructor]].
  intros key. specialize (H1 key). specialize (H2 key). rewrite iter_get in H1, H2 by exact N. destruct (hget key (ld_members d)) as [[i dv]|]; [|apply H2; reflexivity].
  destruct (H1 _ eq_refl) as (o & Go & R). unfold member_value in Go. rewrite hget_map in Go. destruct (hget key (ci_values c)) as [v|]; cbn [option_map] in Go.
  - apply bind_ok in Go as (v' & Ev & Go). apply Ok_inj in Go. subst o. eauto.
  - cbn [snd] in Go. destruct dv as [p vt|d'|d' u]; try discriminate Go; apply Ok_inj in Go; subst o; rewrite R.
    + destruct (undefiable vt); reflexivity.
    + destruct u; reflexivity.
Qed.

Lemma item_carried d c c' : NoDup (map fst (ld_members d)) -> NoDup (map fst (ld_refs d)) ->
  adjust_item iter d c = Ok c' -> flat c -> carried (Def d) c c'.
Proof.
  intros N Nr H F. destruct (item_adjusted d c c' N H) as (Hv & Hr & _). constructor.
  - intros key. specialize (Hv key). destruct (hget key (ld_members d)) as [[i dv]|]; cbn [option_map snd]; [|rewrite Hv; constructor].
    destruct (hget key (ci_values c)) as [v|] eqn:G.
    + destruct Hv as (v' & Ev & ->). apply value_adjusted in Ev. destruct v as [p|l|[[l next]|]]; [subst; constructor|destruct Ev| |subst; constructor].
      destruct Ev as (l' & -> & A). specialize (F _ _ _ G). subst l. inversion A. constructor.
    + destruct dv as [p vt|d'|d' u]; [|destruct Hv|]; rewrite Hv.
      * destruct (undefiable vt) eqn:U; [apply value_undefined; [apply undefiable_iff, U|apply to_undefined_of]|apply value_default, undefiable_not, U].
      * destruct u; constructor.
  - intros key. rewrite Hr. apply refs_carried, Nr.
Qed.

(** ids stay different, and constant lists do not appear *)
Lemma item_changeable d c : NoDup (map fst (ld_members d)) -> distinct_ids c -> forall c', adjust_item iter d c = Ok c' -> distinct_ids c'.
Proof.
  intros N. induction 1 as [c IHc _ Dn Dm IHm]. intros c' H. destruct (item_adjusted d c c' N H) as (Hv & _ & Nv).
  assert (G : forall key v', In (key, v') (ci_values c') ->
    match v' with
    | VCil _ => False
    | VMil (Some (l', next')) => l' = [] \/ exists l next, hget key (ci_values c) = Some (VMil (Some (l, next))) /\ adjusted_items d l l'
    | _ => True end).
  { intros key v' I. apply (in_hget _ _ _ Nv) in I. specialize (Hv key). destruct (hget key (ld_members d)) as [[i dv]|]; [|congruence].
    destruct (hget key (ci_values c)) as [v|] eqn:Q.
    - destruct Hv as (v1 & Ev & E). rewrite I in E. apply Some_inj in E. subst v1. apply value_adjusted in Ev. destruct v as [p|l|[[l next]|]]; [subst; exact Logic.I|destruct Ev| |subst; exact Logic.I].
      destruct Ev as (l' & -> & A). pose proof (rebuild_fst l' next) as R. destruct (rebuild l' next) as [l1 n1]. cbn in R. subst l1. eauto.
    - destruct dv as [p vt|d'|d' u]; [|destruct Hv|]; rewrite I in Hv.
      + destruct (undefiable vt); [apply Some_inj in Hv; subst; exact Logic.I|discriminate].
      + destruct u; [apply Some_inj in Hv; subst; exact Logic.I|discriminate]. }
  constructor.
  - intros key l c1 I. destruct (G _ _ I).
  - intros key l' next' I. destruct (G _ _ I) as [-> | (l & next & Q & A)]; [constructor|]. rewrite (adjusted_ids _ _ _ A). apply (Dn key l next), hget_in, Q.
  - intros key l' next' id c1 I I1. destruct (G _ _ I) as [-> | (l & next & Q & A)]; [destruct I1|]. destruct (adjusted_in _ _ _ A _ _ I1) as (c0 & I0 & E0).
    apply (IHm key l next id c0 (hget_in _ _ _ Q) I0 _ E0).
Qed.

Lemma adjust_total d c : (forall key id d', ~ In (key, (id, DCil d')) (ld_members d)) -> distinct_ids c ->
  (forall c' key l, inside c c' -> ~ In (key, VCil l) (ci_values c')) -> exists c', adjust_item iter d c = Ok c'.
Proof.
  intros Nd. induction 1 as [c IHc _ Dn Dm IHm]. intros Nc. rewrite adjust_item_eq.
  destruct (keyed_ok (member_value (map (fun e => (fst e, adjust_value d (snd e))) (ci_values c))) (iter _ (ld_members d))) with (acc := @nil (name * cval)) as [r ->]; [|cbn [bind]; eauto].
  intros key [i dv] I. apply (Permutation_in _ (It _ _)) in I. unfold member_value. rewrite hget_map. destruct (hget key (ci_values c)) as [v|] eqn:Q; cbn [option_map snd].
  - apply hget_in in Q. assert (exists v', adjust_value d v = Ok v') as [v' ->]; [|cbn [bind]; eauto]. destruct v as [p|l|[[l next]|]]; cbn [adjust_value]; eauto.
    + destruct (Nc c key l (inside_self c) Q).
    + rewrite mmap_map. destruct (mmap_exists (fun e : Z * citem => let '(id, it) := e in it <- adjust_item iter d it ; Ok (id, it)) l) as [l' ->]; [|cbn [bind]; eauto].
      intros [id c1] I1. destruct (IHm key l next id c1 Q I1) as [c2 ->]; [|cbn [bind]; eauto]. intros c' k l0 Is. apply (Nc c' k l0). apply (inside_mut c key l next id c1 c' Q I1 Is).
  - destruct dv as [p vt|d'|d' u]; eauto. destruct (Nd _ _ _ I).
Qed.

(* ------------------------------------------------------------------ *)
(** * The root *)

Definition root_member (old : root_obj) (key : name) (x : Z * rootvalue) : res (option (rootsab mutlist)) :=
  let known := is_some (hget key (ro_default old)) in
  match snd x with
  | WParam p vt => Ok (if undefiable vt && negb known then Some (RParam (to_undefined p)) else hget key (ro_sabun old))
  | WMList d u =>
      if u && negb known then Ok (Some (RMut None))
      else match hget key (ro_sabun old) with
           | Some (RMut (Some l)) => l <- adjust_mut_list iter d l ; Ok (Some (RMut (Some l)))
           | Some (RMut None) => Ok (Some (RMut None))
           | _ => Ok None
           end
  | _ => Ok None
  end.
Lemma root_keyed old l acc : mfold (adjust_member iter old) l acc = keyed (root_member old) l acc.
Proof.
  unfold keyed. apply mfold_ext. intros a [key [i v]] _. unfold adjust_member, root_member. cbn [fst snd].
  destruct v as [p vt|d rows o|d l0|d u]; cbn [bind put_some]; try reflexivity.
  - destruct (undefiable vt && _); [reflexivity|]. destruct (hget key (ro_sabun old)); reflexivity.
  - destruct (u && _); [reflexivity|]. destruct (hget key (ro_sabun old)) as [[q|[l0|]]|]; try reflexivity. destruct (adjust_mut_list iter d l0); reflexivity.
Qed.

Lemma list_adjusted d l l' : adjust_mut_list iter d l = Ok l' -> adjusted_items (undef d) (fst l) (fst l') /\ (fst l <> [] -> snd l' = snd l).
Proof.
  intros H. apply bind_ok in H as (items & E & H). apply Ok_inj in H. subst l'. apply items_adjusted in E. rewrite rebuild_fst. split; [exact E|].
  intros Ne. apply rebuild_snd. intros ->. inversion E; congruence.
Qed.

Lemma adjust_root new old v r : different_names new -> adjust_versions iter new old v = Ok r ->
  ro_default r = ro_default new /\ ro_old r = ro_old new /\ ro_meta r = ro_meta new /\
  (forall key, hget key (ro_default new) = None -> hget key (ro_sabun r) = hget key (ro_sabun new)) /\
  (forall key id w, In (key, (id, w)) (ro_default new) -> exists o, root_member old key (id, w) = Ok o /\
     hget key (ro_sabun r) = match o with Some s => Some s | None => hget key (ro_sabun new) end) /\
  (v = true -> validate_root r true = Ok tt).
Proof.
  intros [N _] H. unfold adjust_versions in H. apply bind_ok in H as (s & E & H). apply bind_ok in H as ([] & V & H). apply Ok_inj in H. subst r. cbn [ro_default ro_sabun ro_old ro_meta].
  rewrite root_keyed in E. destruct (keyed_get _ _ (iter_nodup _ N) _ _ E) as (H1 & H2 & _).
  repeat (split; [reflexivity|]). split; [intros key G; apply H2; rewrite iter_get by exact N; exact G|]. split.
  - intros key id w I. apply (in_hget _ _ _ N) in I. apply H1. rewrite iter_get by exact N. exact I.
  - intros ->. exact V.
Qed.

Lemma root_carried new old v r : different_names new -> adjust_versions iter new old v = Ok r ->
  forall key id w, In (key, (id, w)) (ro_default new) ->
    carried_root flat w (hget key (ro_sabun new)) (is_some (hget key (ro_default old))) (hget key (ro_sabun old)) (hget key (ro_sabun r)).
Proof.
  intros D H key id w I. destruct (adjust_root _ _ _ _ D H) as (_ & _ & _ & _ & M & _). destruct (M _ _ _ I) as (o & G & ->). unfold root_member in G. cbn [snd] in G.
  destruct w as [p vt|d rows old'|d l0|d u].
  - apply Ok_inj in G. subst o. destruct (undefiable vt) eqn:U; cbn [andb].
    + destruct (is_some (hget key (ro_default old))) eqn:K; cbn [negb].
      * destruct (hget key (ro_sabun old)); constructor; auto.
      * apply root_new_undefined; [apply undefiable_iff, U|apply to_undefined_of].
    + apply undefiable_not in U. destruct (hget key (ro_sabun old)); constructor; auto.
  - apply Ok_inj in G. subst o. constructor.
  - apply Ok_inj in G. subst o. constructor.
  - destruct D as [_ D]. destruct (D _ _ _ _ I) as [Nm Nr]. destruct u; cbn [andb] in G.
    + destruct (is_some (hget key (ro_default old))) eqn:K; cbn [negb] in G; [|apply Ok_inj in G; subst o; constructor].
      destruct (hget key (ro_sabun old)) as [[q|[l|]]|].
      * apply Ok_inj in G. subst o. apply root_list_default; [auto|discriminate].
      * apply bind_ok in G as (l' & E & G). apply Ok_inj in G. subst o. apply root_list; [auto|]. apply list_adjusted in E as [A B]. split; [apply (adjusted_ids _ _ _ A)|]. split; [exact B|].
        intros i c c' Ic F. destruct d as [d]. apply item_carried; [exact Nm|exact Nr| |exact F]. apply (adjusted_combine _ _ _ A _ _ _ _ Ic).
      * apply Ok_inj in G. subst o. constructor. auto.
      * apply Ok_inj in G. subst o. apply root_list_default; [auto|discriminate].
    + destruct (hget key (ro_sabun old)) as [[q|[l|]]|].
      * apply Ok_inj in G. subst o. apply root_list_default; [auto|discriminate].
      * apply bind_ok in G as (l' & E & G). apply Ok_inj in G. subst o. apply root_list; [auto|]. apply list_adjusted in E as [A B]. split; [apply (adjusted_ids _ _ _ A)|]. split; [exact B|].
        intros i c c' Ic F. destruct d as [d]. apply item_carried; [exact Nm|exact Nr| |exact F]. apply (adjusted_combine _ _ _ A _ _ _ _ Ic).
      * apply Ok_inj in G. subst o. constructor. auto.
      * apply Ok_inj in G. subst o. apply root_list_default; [auto|discriminate].
Qed.

Lemma adjusted_distinct new old v r : different_names new -> distinct_root new -> changeable_lists (ro_sabun old) ->
  adjust_versions iter new old v = Ok r -> distinct_root r.
Proof.
  intros D [Di Dl] C H. pose proof D as [_ Dn]. destruct (adjust_root _ _ _ _ D H) as (Ed & _ & _ & _ & M & _).
  assert (G : forall key id d u l' next', In (key, (id, WMList d u)) (ro_default new) -> hget key (ro_sabun r) = Some (RMut (Some (l', next'))) ->
    hget key (ro_sabun new) = Some (RMut (Some (l', next'))) \/
    exists l next, hget key (ro_sabun old) = Some (RMut (Some (l, next))) /\ adjusted_items (undef d) l l').
  { intros key id d u l' next' I Q. destruct (M _ _ _ I) as (o & G & E). rewrite Q in E. unfold root_member in G. cbn [snd] in G.
    destruct (u && _); [apply Ok_inj in G; subst o; discriminate|]. destruct (hget key (ro_sabun old)) as [[q|[l|]]|]; try (apply Ok_inj in G; subst o; auto; discriminate).
    apply bind_ok in G as (l1 & E1 & G). apply Ok_inj in G. subst o. apply Some_inj in E. injection E as <-. apply list_adjusted in E1 as [A _]. destruct l as [l next]. right. exists l, next. auto. }
  split.
  - intros c (key & id & w & I & R). rewrite Ed in I. destruct w as [p vt|d rows o|d l|d u].
    + destruct R.
    + apply Di. exists key, id, (WTable d rows o). auto.
    + apply Di. exists key, id, (WCList d l). auto.
    + destruct R as (l' & next' & i & Q & Ic). destruct (G _ _ _ _ _ _ I Q) as [S|(l & next & S & A)].
      * apply Di. exists key, id, (WMList d u). split; [exact I|]. exists l', next', i. auto.
      * destruct (adjusted_in _ _ _ A _ _ Ic) as (c0 & I0 & E0). destruct (C _ _ _ S) as [_ Cc]. destruct (Cc _ _ I0) as [Dc _].
        destruct (Dn _ _ _ _ I) as [Nm _]. apply (item_changeable _ _ Nm Dc _ E0).
  - intros key id d u l' next' I Q. rewrite Ed in I. destruct (G _ _ _ _ _ _ I Q) as [S|(l & next & S & A)]; [apply (Dl _ _ _ _ _ _ I S)|].
    rewrite (adjusted_ids _ _ _ A). apply (C _ _ _ S).
Qed.

Lemma adjust_validated new old r : different_names new -> distinct_root new -> changeable_lists (ro_sabun old) ->
  adjust_versions iter new old false = Ok r -> (adjust_versions iter new old true = Ok r <-> root_valid r true) /\ (~ root_valid r true -> adjust_versions iter new old true = Err).
Proof.
  intros D Dr C H. pose proof (adjusted_distinct _ _ _ _ D Dr C H) as R. destruct (validate_root_iff r true R) as [A B].
  unfold adjust_versions in *. destruct (mfold _ _ _) as [s| |]; try discriminate H. cbn [bind] in *. apply Ok_inj in H. rewrite H.
  destruct (validate_root r true) as [[]| |]; cbn [bind]; [| |now destruct B].
  - split; [|intros X; destruct X; apply A; reflexivity]. split; [intros _; apply A; reflexivity|reflexivity].
  - split; [|reflexivity]. split; [discriminate|]. intros X. apply A in X. discriminate X.
Qed.

Lemma adjust_exists new old can : root_valid new can -> different_names new -> changeable_lists (ro_sabun old) -> exists r, adjust_versions iter new old false = Ok r.
Proof.
  intros V D C. unfold adjust_versions. rewrite root_keyed.
  destruct (keyed_ok (root_member old) (iter _ (ro_default new))) with (acc := ro_sabun new) as [s ->]; [|cbn [bind]; eauto].
  intros key [id w] I. apply (Permutation_in _ (It _ _)) in I. unfold root_member. cbn [snd]. destruct w as [p vt|d rows o|d l|d u]; eauto. destruct (u && _); [eauto|].
  destruct (hget key (ro_sabun old)) as [[q|[[l next]|]]|] eqn:S; eauto. destruct (C _ _ _ S) as [_ Cc]. destruct V as [_ V]. specialize (V _ _ _ I). cbn in V. destruct V as [Vd _].
  unfold adjust_mut_list. cbn [fst]. destruct (mmap_exists (fun e : Z * citem => let '(id, it) := e in it <- adjust_item iter (undef d) it ; Ok (id, it)) l) as [l' ->]; [|cbn [bind]; eauto].
  intros [i c] Ic. destruct (Cc _ _ Ic) as [Dc Nc]. destruct (adjust_total (undef d) c) as [c' ->]; [|exact Dc|exact Nc|cbn [bind]; eauto].
  inversion Vd as [d0 _ _ _ Hc _ _ _ E]; subst. cbn [undef]. intros k j d' Id. specialize (Hc _ _ _ Id). discriminate Hc.
Qed.

(* ------------------------------------------------------------------ *)
(** * The same definitions *)

Lemma same_length {A} (m m' : hmap A) : NoDup (map fst m) -> NoDup (map fst m') -> (forall k, hget k m' = hget k m) -> length m' = length m.
Proof.
  intros N N' H. rewrite <- (map_length fst m), <- (map_length fst m').
  assert (G : forall (a b : hmap A), (forall k, hget k a = hget k b) -> incl (map fst a) (map fst b)).
  { intros a b E k I. destruct (hget k b) as [x|] eqn:Q; [apply in_map_iff; exists (k, x); split; [reflexivity|apply hget_in, Q]|].
    rewrite <- E in Q. apply hget_none in Q. contradiction. }
  apply Nat.le_antisymm; apply NoDup_incl_length; auto.
Qed.

Lemma adjust_refs_nodup d old : NoDup (map fst (ld_refs d)) -> NoDup (map fst (adjust_refs iter d old)).
Proof.
  intros N. unfold adjust_refs. set (g := fun (k : name) (x : Z * (qv (list Z) * var_type)) => match hget k old with Some v => Some v | None => if undefiable (snd (snd x)) then Some Undefined else None end).
  pose proof (fold_keyed g (iter _ (ld_refs d)) []) as E. destruct (keyed_get _ _ (iter_nodup _ N) _ _ E) as (_ & _ & H).
  rewrite (fold_left_ext _ (fun acc e => put_some (fst e) (g (fst e) (snd e)) acc)); [apply H; constructor|].
  intros a [k [i [q vt]]]. unfold g. cbn [fst snd]. destruct (hget k old); [reflexivity|]. destruct (undefiable vt); reflexivity.
Qed.

Lemma resolved_same root root' can key q : ro_default root' = ro_default root -> resolved root can key q -> resolved root' true key q.
Proof.
  intros E. destruct q as [i| |]; cbn [resolved]; auto. intros (Ne & n & d & rows & old & row & A & B & _). split; [exact Ne|]. exists n, d, rows, old, row. rewrite E. repeat split; auto. now left.
Qed.
Lemma refs_valid_same root root' can d refs : ro_default root' = ro_default root -> refs_valid root can d refs -> refs_valid root' true d refs.
Proof.
  intros E [A B]. split; [exact A|]. intros key q I. destruct (B _ _ I) as (_ & R & X). split; [now left|]. split; [apply (resolved_same root root' can), R; exact E|exact X].
Qed.

Lemma item_valid_same root root' can : ro_default root' = ro_default root -> forall d c, item_valid root can d c -> item_valid root' true d c.
Proof.
  intros E. fix IH 3. intros d c V. destruct V as [d c R V]. constructor; [exact (refs_valid_same root root' can d (ci_refs c) E R)|].
  intros key v I. destruct (V key v I) as (_ & id & dv & G & W). split; [now left|]. exists id, dv. split; [exact G|].
  destruct W as [p vt q T Al|d1 l Hc|d1 u l next Hc|d1].
  - constructor; assumption.
  - constructor. intros c1 I1. exact (IH d1 c1 (Hc c1 I1)).
  - constructor. intros i c1 I1. exact (IH d1 c1 (Hc i c1 I1)).
  - constructor.
Qed.

Lemma item_same d c c' can root : NoDup (map fst (ld_members d)) -> NoDup (map fst (ld_refs d)) -> no_undefined d -> plain_item c ->
  item_valid root can (Def d) c -> adjust_item iter d c = Ok c' -> same_item c c' /\ forall root', ro_default root' = ro_default root -> item_valid root' true (Def d) c'.
Proof.
  intros N Nr (U1 & U2 & U3) (F & Nv & Nf) V H. destruct (item_adjusted d c c' N H) as (Hv & Hr & Nv'). inversion V as [d0 c0 VR VV E1 E2]; subst d0 c0.
  assert (SR : forall key, hget key (ci_refs c') = hget key (ci_refs c)).
  { intros key. rewrite Hr. pose proof (refs_carried d (ci_refs c) Nr key) as K. destruct (hget key (ld_refs d)) as [[i [q vt]]|] eqn:G; cbn [option_map snd] in K.
    - apply hget_in in G. specialize (U3 _ _ _ _ G). inversion K; subst; try reflexivity. contradiction.
    - inversion K; subst. destruct (hget key (ci_refs c)) as [q|] eqn:Q; [|congruence]. apply hget_in in Q. destruct VR as [_ VR]. destruct (VR _ _ Q) as (_ & _ & i & q0 & vt & X & _). congruence. }
  assert (SV : forall key, same_value (hget key (ci_values c)) (hget key (ci_values c'))).
  { intros key. specialize (Hv key). destruct (hget key (ld_members d)) as [[i dv]|] eqn:G.
    - destruct (hget key (ci_values c)) as [v|] eqn:Q.
      + destruct Hv as (v' & Ev & ->). apply value_adjusted in Ev. destruct v as [p|l|[[l next]|]]; [left; congruence|destruct Ev| |left; congruence].
        destruct Ev as (l' & -> & A). specialize (F _ _ _ Q). subst l. inversion A. right. cbn. eauto.
      + apply hget_in in G. left. destruct dv as [p vt|d'|d' u]; [|destruct Hv|]; rewrite Hv.
        * destruct (undefiable vt) eqn:U; [|reflexivity]. apply undefiable_iff in U. destruct (U1 _ _ _ _ G U).
        * rewrite (U2 _ _ _ _ G). reflexivity.
    - destruct (hget key (ci_values c)) as [v|] eqn:Q; [|left; exact Hv]. apply hget_in in Q. destruct (VV _ _ Q) as (_ & i & dv & X & _). congruence. }
  split; [split; assumption|]. intros root' E. constructor.
  - apply (refs_valid_same root root' can d (ci_refs c) E) in VR. destruct VR as [A B]. assert (Nf' : NoDup (map fst (ci_refs c'))) by (rewrite Hr; apply adjust_refs_nodup, Nr). split.
    + destruct (ld_enum d); [rewrite <- A; apply same_length; assumption|]. intros key i vt I. rewrite SR. apply (A _ _ _ I).
    + intros key q I. apply (in_hget _ _ _ Nf') in I. rewrite SR in I. apply B, hget_in, I.
  - intros key v' I. apply (in_hget _ _ _ Nv') in I. destruct (SV key) as [S|(n & n' & S1 & S2)].
    + rewrite I in S. symmetry in S. apply hget_in in S. destruct (VV _ _ S) as (_ & i & dv & G & W). split; [now left|]. exists i, dv. split; [exact G|].
      assert (W' : value_valid root' true dv v'); [|exact W'].
      inversion W as [p vt q T Al|d1 l Hc|d1 u l next Hc|d1]; subst; constructor; auto; intros; eapply item_valid_same; eauto.
    + rewrite I in S2. apply Some_inj in S2. subst v'. apply hget_in in S1. destruct (VV _ _ S1) as (_ & i & dv & G & W). split; [now left|]. exists i, dv. split; [exact G|].
      inversion W; subst. constructor. intros ? ? [].
Qed.

Lemma combine_in_l {A B} (l : list A) (l' : list B) a : length l' = length l -> In a l -> exists b, In (a, b) (combine l l').
Proof. revert l'. induction l as [|x l IH]; intros [|y l'] L; cbn in *; try discriminate; [intros []|]. intros [->|I]; [eauto|]. destruct (IH l' ltac:(lia) I) as [b Hb]. eauto. Qed.

Lemma adjust_same new old : different_names new -> ro_default old = ro_default new -> root_valid new false -> root_valid old true -> distinct_root new ->
  changeable_lists (ro_sabun old) ->
  (forall key id d u, In (key, (id, WMList d u)) (ro_default new) -> no_undefined (undef d)) ->
  (forall key l next id c, hget key (ro_sabun old) = Some (RMut (Some (l, next))) -> In (id, c) l -> plain_item c) ->
  exists r, adjust_versions iter new old true = Ok r /\ ro_default r = ro_default new /\
    forall key id w s, In (key, (id, w)) (ro_default new) -> hget key (ro_sabun old) = Some s ->
      match w with
      | WParam _ _ => hget key (ro_sabun r) = Some s
      | WMList _ _ => s = RMut None /\ hget key (ro_sabun r) = Some s \/
          exists l l', s = RMut (Some l) /\ hget key (ro_sabun r) = Some (RMut (Some l')) /\ same_list l l'
      | _ => True
      end.
Proof.
  intros D E Vn Vo Dn C U P. destruct (adjust_exists new old false Vn D C) as [r H]. exists r.
  destruct (adjust_root _ _ _ _ D H) as (Ed & Eo & _ & _ & M & _). pose proof D as [ND DN].
  assert (K : forall key id w, In (key, (id, w)) (ro_default new) -> is_some (hget key (ro_default old)) = true).
  { intros key id w I. rewrite E. apply (in_hget _ _ _ ND) in I. rewrite I. reflexivity. }
  assert (L : forall key id d u l next, In (key, (id, WMList d u)) (ro_default new) -> hget key (ro_sabun old) = Some (RMut (Some (l, next))) ->
    exists l', hget key (ro_sabun r) = Some (RMut (Some l')) /\ adjusted_items (undef d) l (fst l') /\ (l <> [] -> snd l' = next)).
  { intros key id d u l next I S. destruct (M _ _ _ I) as (o & G & ->). unfold root_member in G. cbn [snd] in G. rewrite (K _ _ _ I) in G. rewrite andb_false_r in G. rewrite S in G.
    apply bind_ok in G as (l' & A & G). apply Ok_inj in G. subst o. exists l'. split; [reflexivity|]. apply list_adjusted in A. exact A. }
  assert (IS : forall key id d u l next l' i c c', In (key, (id, WMList d u)) (ro_default new) -> hget key (ro_sabun old) = Some (RMut (Some (l, next))) ->
    In (i, c) l -> adjusted_items (undef d) l l' -> adjust_item iter (undef d) c = Ok c' ->
    same_item c c' /\ forall root', ro_default root' = ro_default old -> item_valid root' true d c').
  { intros key id d u l next l' i c c' I S Ic A Ac. destruct (DN _ _ _ _ I) as [Nm Nr]. destruct d as [d]. apply (item_same d c c' true old Nm Nr (U _ _ _ _ I) (P _ _ _ _ _ S Ic)); [|exact Ac].
    destruct Vo as [_ Vo]. rewrite E in Vo. specialize (Vo _ _ _ I). cbn in Vo. destruct Vo as [_ Vo]. destruct (Vo _ S) as [(l0 & n0 & X & Y)|[X _]]; [|discriminate X].
    injection X as <- <-. apply (Y _ _ Ic). }
  split; [|split; [exact Ed|]].
  - apply (adjust_validated new old r D Dn C H). split.
    + intros key I. rewrite Eo in I. rewrite Ed. apply Vn, I.
    + intros key id w I. rewrite Ed in I. pose proof (proj2 Vn _ _ _ I) as W. pose proof (proj2 Vo key id w) as W'. rewrite E in W'. specialize (W' I). pose proof (K _ _ _ I) as Kk.
      destruct w as [p vt|d rows o|d l|d u].
      * intros s S. destruct (M _ _ _ I) as (x & G & R). unfold root_member in G. cbn [snd] in G. rewrite Kk, andb_false_r in G. apply Ok_inj in G. subst x.
        destruct (hget key (ro_sabun old)) as [s0|] eqn:So; rewrite S in R; [injection R as <-; apply (W' s eq_refl)|apply W; congruence].
      * destruct W as (A & B & Cc). split; [exact A|]. split; [exact B|]. intros i c Ic. apply (item_valid_same new r false Ed), (Cc _ _ Ic).
      * destruct W as (A & Cc). split; [exact A|]. intros c Ic. apply (item_valid_same new r false Ed), (Cc _ Ic).
      * destruct W as [Dd W]. destruct W' as [_ W']. split; [exact Dd|]. intros s S. destruct (M _ _ _ I) as (x & G & R). unfold root_member in G. cbn [snd] in G. rewrite Kk, andb_false_r in G.
        destruct (hget key (ro_sabun old)) as [[q|[[l next]|]]|] eqn:So.
        -- destruct (W' _ eq_refl) as [(? & ? & X & _)|[X _]]; discriminate X.
        -- destruct (L _ _ _ _ _ _ I So) as ([l' n'] & Q & A & _). rewrite S in Q. apply Some_inj in Q. subst s. left. exists l', n'. split; [reflexivity|]. intros i c' Ic.
           destruct (adjusted_in _ _ _ A _ _ Ic) as (c & Ic0 & Ac). apply (proj2 (IS _ _ _ _ _ _ _ _ _ _ I So Ic0 A Ac)). congruence.
        -- apply Ok_inj in G. subst x. rewrite S in R. apply Some_inj in R. subst s. right. destruct (W' _ eq_refl) as [(? & ? & X & _)|X]; [discriminate X|exact X].
        -- apply Ok_inj in G. subst x. rewrite S in R. destruct (W s ltac:(congruence)) as [(l & n & -> & Y)|X]; [|right; exact X]. left. exists l, n. split; [reflexivity|].
           intros i c Ic. apply (item_valid_same new r false Ed), (Y _ _ Ic).
  - intros key id w s I S. pose proof (K _ _ _ I) as Kk. destruct w as [p vt|d rows o|d l|d u]; auto.
    + destruct (M _ _ _ I) as (x & G & R). unfold root_member in G. cbn [snd] in G. rewrite Kk, andb_false_r in G. apply Ok_inj in G. subst x. rewrite S in R. exact R.
    + destruct s as [q|[[l next]|]].
      * destruct Vo as [_ Vo]. rewrite E in Vo. specialize (Vo _ _ _ I). cbn in Vo. destruct Vo as [_ Vo]. destruct (Vo _ S) as [(? & ? & X & _)|[X _]]; discriminate X.
      * right. destruct (L _ _ _ _ _ _ I S) as (l' & Q & A & B). exists (l, next), l'. split; [reflexivity|]. split; [exact Q|]. split; [apply (adjusted_ids _ _ _ A)|]. split; [exact B|].
        intros i c c' Ic. cbn [fst] in Ic. apply (IS _ _ _ _ _ _ _ i c c' I S (in_combine_l _ _ _ _ Ic) A). apply (adjusted_combine _ _ _ A _ _ _ _ Ic).
      * left. split; [reflexivity|]. destruct (M _ _ _ I) as (x & G & R). unfold root_member in G. cbn [snd] in G. rewrite Kk, andb_false_r, S in G. apply Ok_inj in G. subst x. exact R.
Qed.
End Iter.
