(** Proofs for C54: what is generated. *)
From Coq Require Import String.
From Verif Require Import Base StringCompactionModel StringCompactionProofs DocModel DiffSpec DiffProofs JsonModel JsonSpec IntfModel GenModel GenSpec GenNameProofs.

(* ------------------------------------------------------------------ *)
(** * Lists without repetitions *)

Lemma NoDup_append {A} (a b : list A) : NoDup a -> NoDup b -> (forall x, In x a -> ~ In x b) -> NoDup (a ++ b).
Proof.
  intros Na Nb D. induction Na as [|x a I Na IH]; [exact Nb|]. cbn [app]. apply NoDup_cons.
  - rewrite in_app_iff. intros [H|H]; [contradiction|]. exact (D x (or_introl eq_refl) H).
  - apply IH. intros y Hy. apply D. right. exact Hy.
Qed.

Lemma NoDup_parts {A} (a b : list A) : NoDup (a ++ b) -> NoDup a /\ NoDup b /\ forall x, In x a -> ~ In x b.
Proof.
  induction a as [|x a IH]; cbn [app]; intros N.
  - split; [apply NoDup_nil|]. split; [exact N|]. intros ? [].
  - inversion N as [|? ? I N']; subst. destruct (IH N') as (Na & Nb & D). rewrite in_app_iff in I. split; [apply NoDup_cons; tauto|]. split; [exact Nb|].
    intros y [<-|Hy]; [tauto|apply D, Hy].
Qed.

Lemma NoDup_in_map {A B} (f : A -> B) l : (forall x y, In x l -> In y l -> f x = f y -> x = y) -> NoDup l -> NoDup (map f l).
Proof.
  intros J N. induction N as [|x l I N IH]; [apply NoDup_nil|]. cbn [map]. apply NoDup_cons.
  - intros H. apply in_map_iff in H as (y & E & H). apply J in E; [subst; contradiction|right; exact H|left; reflexivity].
  - apply IH. intros a b Ha Hb. apply J; right; assumption.
Qed.

(** [g] owns what [f] gives *)
Lemma NoDup_flat {A B C} (f : A -> list B) (g : A -> list C) (owns : B -> C -> Prop) l :
  (forall b c c', owns b c -> owns b c' -> c = c') ->
  NoDup (flat_map g l) -> (forall x, In x l -> NoDup (g x) -> NoDup (f x)) -> (forall x b, In x l -> In b (f x) -> exists c, In c (g x) /\ owns b c) ->
  NoDup (flat_map f l).
Proof.
  intros J. induction l as [|x l IH]; cbn [flat_map]; intros N F O; [apply NoDup_nil|]. apply NoDup_parts in N as (Nx & Nl & D).
  apply NoDup_append; [apply F; [left; reflexivity|exact Nx]| |].
  - apply IH; [exact Nl|intros y Hy; apply F; right; exact Hy|intros y b Hy; apply O; right; exact Hy].
  - intros b Hx Hl. apply in_flat_map in Hl as (y & Hy & Hl).
    destruct (O x b (or_introl eq_refl) Hx) as (c & C1 & C2). destruct (O y b (or_intror Hy) Hl) as (c' & C1' & C2').
    assert (c = c') by (eapply J; eassumption). subst c'. apply (D c C1). apply in_flat_map. exists y. auto.
Qed.

(* ------------------------------------------------------------------ *)
(** * The names of methods *)

Definition osuf (old : bool) (s : list Z) : list Z := (if old then txt "_old" else []) ++ s.

Lemma old_osuf k old s : with_old k old ++ s = k ++ osuf old s.
Proof. destruct old; cbn [with_old]; unfold osuf; [rewrite <- app_assoc|]; reflexivity. Qed.
Lemma old_osuf_nil k old : with_old k old = k ++ osuf old [].
Proof. rewrite <- old_osuf, app_nil_r. reflexivity. Qed.

(** prefixes and suffixes *)
Definition of_key (key : name) (marks : list (list Z * list Z)) : list made := map (fun m => (fst m, key, snd m)) marks.

Definition param_marks (at_ : place) (t : param_type) (old : bool) : list (list Z * list Z) :=
  let get := ([], osuf old []) in
  let get_def := ([], osuf old (txt "_def_val")) in
  let get_mutable := ([], osuf old (txt "_mut")) in
  let set := (txt "set_", osuf old []) in
  match at_ with
  | AtCItem => if by_reference t then [get_def; get] else [get; get_def]
  | _ => if by_reference t then [get_def; get; get_mutable; set] else [get; get_def; set]
  end.
Definition list_marks (old : bool) : list (list Z * list Z) := [([], osuf old []); ([], osuf old (txt "_mut"))].
Definition one_marks (old : bool) : list (list Z * list Z) := [([], osuf old [])].
Definition get_marks (old : bool) : list (list Z * list Z) := [(txt "ref_", osuf old []); (txt "ref_id_", osuf old [])].
Definition set_marks (old : bool) : list (list Z * list Z) := [(txt "set_ref_", osuf old [])].
Definition row_marks (old : bool) : list (list Z * list Z) := [([], osuf old (txt "_us")); ([], osuf old [])].

Definition fine_marks (ms : list (list Z * list Z)) : Prop := NoDup ms /\ forall p s, In (p, s) ms -> In p pres /\ In s sufs.

Ltac nodup := repeat (apply NoDup_cons; [cbn [In]; let H := fresh in intros H; repeat (destruct H as [H|H]; [discriminate H|]); exact H|]); apply NoDup_nil.
Ltac among := cbn [map In]; repeat (first [left; reflexivity|right]).
Ltac fine := split; [nodup|]; let p := fresh "p" in let s := fresh "s" in let H := fresh "H" in
  intros p s H; cbn [In] in H; repeat (destruct H as [H|H]; [apply pair_equal_spec in H as [<- <-]; split; [unfold pres; among|unfold sufs; among]|]); destruct H.

Lemma param_fine at_ t old : fine_marks (param_marks at_ t old).
Proof. unfold param_marks. destruct at_, (by_reference t), old; fine. Qed.
Lemma list_fine old : fine_marks (list_marks old).
Proof. destruct old; fine. Qed.
Lemma one_fine old : fine_marks (one_marks old).
Proof. destruct old; fine. Qed.
Lemma get_fine old : fine_marks (get_marks old).
Proof. destruct old; fine. Qed.
Lemma set_fine old : fine_marks (set_marks old).
Proof. destruct old; fine. Qed.
Lemma row_fine old : fine_marks (row_marks old).
Proof. destruct old; fine. Qed.

Lemma of_key_nodup key ms : fine_marks ms -> NoDup (of_key key ms).
Proof. intros (N & _). apply NoDup_in_map; [|exact N]. intros [p s] [p' s'] _ _ E. cbn [fst snd] in E. congruence. Qed.

Lemma of_key_makeable key ms : fine_marks ms -> ordinary key -> (In (txt "ref_") (map fst ms) -> ~ starts (txt "id_") key) -> Forall makeable (of_key key ms).
Proof.
  intros (_ & F) (U & K & _) N. apply Forall_forall. intros m H. apply in_map_iff in H as ([p s] & <- & H). cbn [fst snd makeable].
  destruct (F p s H) as (P & S). split; [exact U|]. split; [exact P|]. split; [exact S|]. split; [|intros _ _; exact K].
  intros ->. apply N. apply in_map_iff. exists (txt "ref_", s). auto.
Qed.

Lemma in_of_key key ms m : In m (of_key key ms) -> snd (fst m) = key /\ In (fst (fst m)) (map fst ms).
Proof. intros H. apply in_map_iff in H as ([p s] & <- & H). cbn [fst snd]. split; [reflexivity|]. apply in_map_iff. exists (p, s). auto. Qed.

(** [l] tells how the names of [ms] are made *)
Definition sound (ms : list meth) (l : list made) : Prop := map m_name ms = map made_name l /\ Forall makeable l /\ NoDup l.

Lemma sound_methods ms l : sound ms l -> NoDup (map m_name ms) /\ forall m, In m ms -> ident (m_name m).
Proof.
  intros (E & M & N). split; [rewrite E; apply made_nodup; assumption|]. intros m H. apply (in_map m_name) in H. rewrite E in H. apply in_map_iff in H as (x & <- & H).
  apply made_ident. rewrite Forall_forall in M. apply M, H.
Qed.

Lemma sound_app a b la lb : sound a la -> sound b lb -> (forall x, In x la -> ~ In x lb) -> sound (a ++ b) (la ++ lb).
Proof.
  intros (Ea & Ma & Na) (Eb & Mb & Nb) D. split; [rewrite !map_app, Ea, Eb; reflexivity|]. split; [apply Forall_app; auto|]. apply NoDup_append; assumption.
Qed.

Lemma sound_flat {A} (f : A -> list meth) (key : A -> name) (marks : A -> list (list Z * list Z)) l : NoDup (map key l) ->
  (forall x, In x l -> sound (f x) (of_key (key x) (marks x))) -> sound (flat_map f l) (flat_map (fun x => of_key (key x) (marks x)) l).
Proof.
  induction l as [|x l IH]; cbn [map flat_map]; intros N F.
  - split; [reflexivity|]. split; [apply Forall_nil|apply NoDup_nil].
  - inversion N as [|? ? I N']; subst. apply sound_app; [apply F; left; reflexivity|apply IH; [exact N'|intros y Hy; apply F; right; exact Hy]|].
    intros m Hx Hl. apply in_of_key in Hx as (Kx & _). apply in_flat_map in Hl as (y & Hy & Hl). apply in_of_key in Hl as (Ky & _).
    apply I. apply in_map_iff. exists y. split; [congruence|exact Hy].
Qed.

Lemma ordinary_snake key : ordinary key -> to_snake_name key = key.
Proof. intros ((S & _) & _). apply snake_id, S. Qed.

Ltac sounds F := split; [|split; [apply of_key_makeable; [apply F|assumption|cbn [map fst In]; try solve [intros H; repeat (destruct H as [H|H]; [discriminate H|]); destruct H]]|apply of_key_nodup, F]].

Lemma param_sound at_ t vt key old : ordinary key -> sound (param_methods at_ t vt key old) (of_key key (param_marks at_ t old)).
Proof.
  intros O. split; [|split; [apply of_key_makeable; [apply param_fine|exact O|]|apply of_key_nodup, param_fine]].
  - unfold param_methods, param_marks. rewrite ordinary_snake by exact O.
    destruct at_, (by_reference t); cbn [map m_name of_key fst snd made_name app]; rewrite <- ?old_osuf_nil, <- ?old_osuf; reflexivity.
  - unfold param_marks. destruct at_, (by_reference t); cbn [map fst In]; intros H; repeat (destruct H as [H|H]; [discriminate H|]); destruct H.
Qed.

Lemma list_sound at_ u key old : ordinary key -> sound (list_methods at_ u key old) (of_key key (list_marks old)).
Proof.
  intros O. sounds list_fine. unfold list_methods. rewrite ordinary_snake by exact O. cbn [map m_name of_key list_marks fst snd made_name app].
  rewrite <- old_osuf_nil, <- old_osuf. reflexivity.
Qed.

Lemma const_sound at_ key old : ordinary key -> sound [const_method at_ key old] (of_key key (one_marks old)).
Proof. intros O. sounds one_fine. unfold const_method. rewrite ordinary_snake by exact O. cbn [map m_name of_key one_marks fst snd made_name app]. rewrite <- old_osuf_nil. reflexivity. Qed.

Lemma table_sound key old : ordinary key -> sound [table_method key old] (of_key key (one_marks old)).
Proof. intros O. sounds one_fine. unfold table_method. rewrite ordinary_snake by exact O. cbn [map m_name of_key one_marks fst snd made_name app]. rewrite <- old_osuf_nil. reflexivity. Qed.

Lemma get_sound at_ key vt old : ordinary key -> ~ starts (txt "id_") key -> sound (ref_get at_ key vt old) (of_key key (get_marks old)).
Proof.
  intros O S. sounds get_fine. 2: intros _; exact S. unfold ref_get. rewrite ordinary_snake by exact O.
  cbn [map m_name of_key get_marks fst snd made_name]. rewrite <- old_osuf_nil. reflexivity.
Qed.

Lemma set_sound key vt old : ordinary key -> sound (ref_set key vt old) (of_key key (set_marks old)).
Proof.
  intros O. sounds set_fine. unfold ref_set. rewrite ordinary_snake by exact O. cbn [map m_name of_key set_marks fst snd made_name]. rewrite <- old_osuf_nil. reflexivity.
Qed.

Lemma row_sound stem key old : ordinary key -> sound (row_methods stem key old) (of_key key (row_marks old)).
Proof.
  intros O. sounds row_fine. unfold row_methods, key_name. rewrite ordinary_snake by exact O. cbn [map m_name of_key row_marks fst snd made_name app].
  rewrite <- old_osuf_nil, <- old_osuf. reflexivity.
Qed.

(* ------------------------------------------------------------------ *)
(** * The methods that are always there *)

Ltac simple_tail := first [apply tail_nil | apply tail_word; [unfold lower; lia|simple_tail] | apply tail_char; [unfold lower, digit; lia|simple_tail]].
Ltac simple_unadorned :=
  split; [bytes; eexists; eexists; split; [reflexivity|]; split; [unfold lower; lia|simple_tail]|];
  split; [intros [x E]; bytes_in E; discriminate E|]; split; [intros [x E]; bytes_in E; discriminate E|];
  split; [intros [x E]; apply (f_equal (@rev Z)) in E; rewrite rev_app_distr in E; bytes_in E; discriminate E|];
  split; [intros [x E]; apply (f_equal (@rev Z)) in E; rewrite rev_app_distr in E; bytes_in E; discriminate E|];
  split; intros [x E]; apply (f_equal (@rev Z)) in E; rewrite rev_app_distr in E; bytes_in E; discriminate E.

Lemma not_keyword s : existsb (eqb_bytes s) keywords = false -> ~ In s keywords.
Proof.
  intros E I. assert (existsb (eqb_bytes s) keywords = true); [|congruence]. apply existsb_exists. exists s. split; [exact I|].
  apply eqb_bytes_refl.
Qed.

Lemma fixed_unadorned s : In s (map txt ["new"; "root_obj_ref"; "deconstruct"; "get_enum"; "get_enum_ids"; "get_by_id"; "enum"; "from"]%string) -> unadorned s.
Proof. cbn [map In]. intros H. repeat (destruct H as [<-|H]; [simple_unadorned|]). destruct H. Qed.
Lemma fixed_keyword s : In s (map txt ["new"; "root_obj_ref"; "deconstruct"; "get_enum"; "get_enum_ids"; "get_by_id"; "from"]%string) -> ~ In s keywords.
Proof. cbn [map In]. intros H. repeat (destruct H as [<-|H]; [apply not_keyword; vm_compute; reflexivity|]). destruct H. Qed.

Lemma fixed_makeable s suf : In s taken -> In suf sufs -> makeable ([], s, suf).
Proof.
  intros T S. split; [apply fixed_unadorned; unfold taken in T; cbn [map In] in *; tauto|]. split; [unfold pres; among|]. split; [exact S|].
  split; [intros H; discriminate H|]. intros _ _. apply fixed_keyword. unfold taken in T. cbn [map In] in *. tauto.
Qed.

Definition root_made : list made :=
  [([], txt "new", []); ([], txt "root_obj_ref", []); ([], txt "root_obj_ref", txt "_mut"); ([], txt "deconstruct", [])].
Lemma root_fixed_sound : sound root_fixed root_made.
Proof.
  split; [reflexivity|]. split; [|unfold root_made; nodup].
  unfold root_made. repeat (apply Forall_cons; [apply fixed_makeable; [unfold taken; among|unfold sufs; among]|]). apply Forall_nil.
Qed.
Lemma root_made_taken x : In x root_made -> In (snd (fst x)) taken.
Proof. unfold root_made, taken. cbn [map In]. intros H. repeat (destruct H as [<-|H]; [cbn [fst snd]; tauto|]). destruct H. Qed.

Definition enum_made : list made := [([], txt "get_enum", []); ([], txt "get_enum_ids", [])].
Definition set_enum_made : list made := [(txt "set_", txt "enum", [])].
Definition by_id_made : list made := [([], txt "get_by_id", txt "_us"); ([], txt "get_by_id", [])].

(* ------------------------------------------------------------------ *)
(** * Structs *)

Section Structs.
Context {D : Type}.

Definition root_marks (old : list name) (e : name * (Z * rootval D)) : list (list Z * list Z) :=
  let o := contains old (fst e) in
  match snd (snd e) with RVParam p _ => param_marks AtRoot (type_of p) o | RVTable | RVCList => one_marks o | RVMList _ _ => list_marks o end.
Definition mitem_marks (d : ldef D) (e : name * (Z * ldefval D)) : list (list Z * list Z) :=
  let o := contains (ld_old d) (fst e) in
  match snd (snd e) with DParam p _ => param_marks AtMItem (type_of p) o | DCil _ => [] | DMil _ _ => list_marks o end.
Definition citem_marks (d : ldef D) (e : name * (Z * ldefval D)) : list (list Z * list Z) :=
  let o := contains (ld_old d) (fst e) in
  match snd (snd e) with DParam p _ => param_marks AtCItem (type_of p) o | DCil _ => one_marks o | DMil _ _ => [] end.

(** what members are made with *)
Definition member_pre (p : list Z) : Prop := p = [] \/ p = txt "set_".
Definition ref_pre (p : list Z) : Prop := p = txt "ref_" \/ p = txt "ref_id_" \/ p = txt "set_ref_".

Lemma param_pre at_ t old p : In p (map fst (param_marks at_ t old)) -> member_pre p.
Proof. unfold param_marks, member_pre. destruct at_, (by_reference t); cbn [map fst In]; intros H; repeat (destruct H as [<-|H]; [tauto|]); destruct H. Qed.
Lemma list_pre old p : In p (map fst (list_marks old)) -> member_pre p.
Proof. unfold list_marks, member_pre. cbn [map fst In]; intros H; repeat (destruct H as [<-|H]; [tauto|]); destruct H. Qed.
Lemma one_pre old p : In p (map fst (one_marks old)) -> member_pre p.
Proof. unfold one_marks, member_pre. cbn [map fst In]; intros H; repeat (destruct H as [<-|H]; [tauto|]); destruct H. Qed.

Lemma root_sound old (def : hmap (Z * rootval D)) : NoDup (map fst def) -> (forall key v, In (key, v) def -> ordinary key) ->
  exists l, sound (root_methods old def) l.
Proof.
  intros N O. eexists. unfold root_methods. apply sound_app; [exact root_fixed_sound| |].
  - apply (sound_flat _ fst (root_marks old)); [exact N|]. intros (key & i & v) H. apply O in H. cbn [fst snd]. unfold root_marks. cbn [fst snd].
    destruct v; [apply param_sound|apply table_sound|apply const_sound|apply list_sound]; exact H.
  - intros x Hx Hl. apply root_made_taken in Hx. apply in_flat_map in Hl as ((key & v) & He & Hl). apply in_of_key in Hl as (Ek & _). cbn [fst] in Ek. subst key.
    destruct (O _ _ He) as (_ & _ & T). contradiction.
Qed.

Lemma no_marks_sound key : sound [] (of_key key []).
Proof. split; [reflexivity|]. split; [apply Forall_nil|apply NoDup_nil]. Qed.

(** the references of [d] *)
Definition plain_refs (d : ldef D) : Prop :=
  NoDup (map fst (ld_refs d)) /\ forall key v, In (key, v) (ld_refs d) -> ordinary key /\ ~ starts (txt "id_") key.
Definition plain_members (d : ldef D) : Prop := NoDup (map fst (ld_members d)) /\ forall key v, In (key, v) (ld_members d) -> ordinary key.

Lemma refs_get_sound at_ stem d : plain_refs d -> exists l, sound (refs_get at_ stem d) l /\
  forall m, In m l -> In m enum_made \/ (ref_pre (fst (fst m)) /\ fst (fst m) <> txt "set_ref_").
Proof.
  intros (N & O). unfold refs_get. destruct (ld_enum d).
  - exists enum_made. split; [|tauto]. split; [reflexivity|]. split; [|unfold enum_made; nodup].
    unfold enum_made. repeat (apply Forall_cons; [apply fixed_makeable; [unfold taken; among|unfold sufs; among]|]). apply Forall_nil.
  - eexists. split.
    + apply (sound_flat _ fst (fun e => get_marks (contains (ld_ref_old d) (fst e)))); [exact N|]. intros (key & i & q & vt) H. cbn [fst].
      destruct (O _ _ H) as (P & Q). apply get_sound; assumption.
    + intros m H. right. apply in_flat_map in H as (e & _ & H). apply in_of_key in H as (_ & H). unfold get_marks in H. cbn [map fst In] in H.
      unfold ref_pre. destruct H as [<-|[<-|[]]]; split; [tauto|discriminate|tauto|discriminate].
Qed.

Lemma refs_set_sound stem d : plain_refs d -> exists l, sound (refs_set stem d) l /\ forall m, In m l -> In m set_enum_made \/ fst (fst m) = txt "set_ref_".
Proof.
  intros (N & O). unfold refs_set. destruct (ld_enum d).
  - exists set_enum_made. split; [|tauto]. split; [reflexivity|]. split; [|unfold set_enum_made; nodup].
    unfold set_enum_made. apply Forall_cons; [|apply Forall_nil]. split; [apply fixed_unadorned; among|]. split; [unfold pres; among|]. split; [unfold sufs; among|].
    split; [intros H; discriminate H|]. intros H; discriminate H.
  - eexists. split.
    + apply (sound_flat _ fst (fun e => set_marks (contains (ld_ref_old d) (fst e)))); [exact N|]. intros (key & i & q & vt) H. cbn [fst].
      destruct (O _ _ H) as (P & Q). apply set_sound; assumption.
    + intros m H. right. apply in_flat_map in H as (e & _ & H). apply in_of_key in H as (_ & H). unfold set_marks in H. cbn [map fst In] in H. destruct H as [<-|[]]. reflexivity.
Qed.

(** members and references share no names *)
Lemma members_apart m key : member_pre (fst (fst m)) -> snd (fst m) = key -> ordinary key ->
  ~ In m enum_made /\ ~ In m set_enum_made /\ ~ ref_pre (fst (fst m)).
Proof.
  intros P <- (_ & K & T). split; [|split].
  - intros H. apply T. unfold enum_made in H. unfold taken. cbn [map In] in *. destruct H as [<-|[<-|[]]]; cbn [fst snd]; tauto.
  - intros H. apply K. unfold set_enum_made in H. cbn [In] in H. destruct H as [<-|[]]. unfold keywords. cbn [fst snd]. among.
  - unfold ref_pre. destruct P as [->| ->]; intros [H|[H|H]]; discriminate H.
Qed.

Lemma citem_pre d e p : In p (map fst (citem_marks d e)) -> member_pre p.
Proof. unfold citem_marks. destruct (snd (snd e)); [apply param_pre|apply one_pre|intros []]. Qed.
Lemma mitem_pre d e p : In p (map fst (mitem_marks d e)) -> member_pre p.
Proof. unfold mitem_marks. destruct (snd (snd e)); [apply param_pre|intros []|apply list_pre]. Qed.

Definition no_from (ms : list meth) : Prop := ~ In (txt "from") (map m_name ms).

Lemma sound_no_from ms l : sound ms l -> ~ In ([], txt "from", []) l -> no_from ms.
Proof.
  intros (E & M & _) N H. unfold no_from in *. rewrite E in H. apply in_map_iff in H as (x & Ex & H). apply N.
  replace ([], txt "from", []) with x; [exact H|]. rewrite Forall_forall in M. apply made_inj; [apply M, H| |exact Ex].
  apply fixed_makeable; [unfold taken|unfold sufs]; among.
Qed.

Lemma citem_sound stem d : plain_members d -> plain_refs d -> exists l, sound (citem_methods stem d) l /\ no_from (citem_methods stem d).
Proof.
  intros (N & O) R. destruct (refs_get_sound AtCItem stem d R) as (l & S & L).
  assert (G : sound (citem_methods stem d) (flat_map (fun e => of_key (fst e) (citem_marks d e)) (ld_members d) ++ l)).
  { unfold citem_methods. apply sound_app; [|exact S|].
    - apply (sound_flat _ fst (citem_marks d)); [exact N|]. intros (key & i & v) H. apply O in H. unfold citem_marks. cbn [fst snd].
      destruct v; [apply param_sound|apply const_sound|apply no_marks_sound]; exact H.
    - intros m Hm Hl. apply in_flat_map in Hm as ((key & v) & He & Hm). apply in_of_key in Hm as (Ek & Ep). apply citem_pre in Ep. cbn [fst] in Ek.
      destruct (members_apart m key Ep Ek (O _ _ He)) as (A & _ & B). destruct (L m Hl) as [H|(H & _)]; contradiction. }
  eexists. split; [exact G|]. apply (sound_no_from _ _ G). rewrite in_app_iff. intros [H|H].
  - apply in_flat_map in H as ((key & v) & He & H). apply in_of_key in H as (Ek & _). cbn [fst snd] in Ek. subst key. destruct (O _ _ He) as (_ & _ & T). apply T. unfold taken. among.
  - destruct (L _ H) as [I|(I & _)].
    + unfold enum_made in I. cbn [In] in I. destruct I as [I|[I|[]]]; discriminate I.
    + unfold ref_pre in I. cbn [fst] in I. destruct I as [I|[I|I]]; discriminate I.
Qed.

Lemma mitem_sound stem d : plain_members d -> plain_refs d -> exists l, sound (mitem_methods stem d) l.
Proof.
  intros (N & O) R. destruct (refs_get_sound AtMItem stem d R) as (l & S & L). destruct (refs_set_sound stem d R) as (l' & S' & L').
  eexists. unfold mitem_methods. apply sound_app; [|apply sound_app; [exact S|exact S'|]|].
  - apply (sound_flat _ fst (mitem_marks d)); [exact N|]. intros (key & i & v) H. apply O in H. unfold mitem_marks. cbn [fst snd].
    destruct v; [apply param_sound|apply no_marks_sound|apply list_sound]; exact H.
  - intros m H H'. destruct (L m H) as [A|(A & B)], (L' m H') as [A'|A'].
    + unfold enum_made in A. unfold set_enum_made in A'. cbn [In] in A, A'. destruct A' as [<-|[]]. destruct A as [A|[A|[]]]; discriminate A.
    + unfold enum_made in A. cbn [In] in A. destruct A as [<-|[<-|[]]]; discriminate A'.
    + unfold set_enum_made in A'. cbn [In] in A'. destruct A' as [<-|[]]. unfold ref_pre in A. cbn [fst] in A. destruct A as [A|[A|A]]; discriminate A.
    + contradiction.
  - intros m Hm Hl. apply in_flat_map in Hm as ((key & v) & He & Hm). apply in_of_key in Hm as (Ek & Ep). apply mitem_pre in Ep. cbn [fst] in Ek.
    destruct (members_apart m key Ep Ek (O _ _ He)) as (A & A' & B). apply in_app_iff in Hl as [Hl|Hl].
    + destruct (L m Hl) as [H|(H & _)]; contradiction.
    + destruct (L' m Hl) as [H|H]; [contradiction|]. apply B. unfold ref_pre. tauto.
Qed.

End Structs.

Definition table_methods (stem : name) (keys : list (name * bool)) : list meth :=
  Meth (txt "new") [txt "ptr"] COther [table_type stem] [] :: flat_map (fun k => row_methods stem (fst k) (snd k)) keys ++ by_id_methods stem keys.

Lemma rows_sound stem keys : NoDup (map fst keys) -> (forall k, In k keys -> ordinary (fst k)) -> exists l, sound (table_methods stem keys) l.
Proof.
  intros N O. assert (T : forall k s, In k keys -> In s taken -> fst k <> s) by (intros k s H Hs <-; destruct (O k H) as (_ & _ & T); contradiction).
  exists ([([], txt "new", [])] ++ flat_map (fun k => of_key (fst k) (row_marks (snd k))) keys ++ (match keys with [] => [] | _ => by_id_made end)).
  unfold table_methods. change (?a :: ?b) with ([a] ++ b). apply sound_app; [|apply sound_app|].
  - split; [reflexivity|]. split; [|nodup]. apply Forall_cons; [|apply Forall_nil]. apply fixed_makeable; [unfold taken|unfold sufs]; among.
  - apply (sound_flat _ fst (fun k => row_marks (snd k))); [exact N|]. intros k H. apply row_sound, O, H.
  - destruct keys; [apply (no_marks_sound [])|]. split; [reflexivity|]. split; [|unfold by_id_made; nodup].
    unfold by_id_made. repeat (apply Forall_cons; [apply fixed_makeable; [unfold taken; among|unfold sufs; among]|]). apply Forall_nil.
  - intros m H H'. apply in_flat_map in H as (k & Hk & H). apply in_of_key in H as (E & _).
    assert (B : In m by_id_made) by (destruct keys; [destruct H'|exact H']). apply (T k (txt "get_by_id") Hk); [unfold taken; among|].
    unfold by_id_made in B. cbn [In] in B. destruct B as [<-|[<-|[]]]; exact (eq_sym E).
  - intros m [<-|[]] H. apply in_app_iff in H as [H|H].
    + apply in_flat_map in H as (k & Hk & H). apply in_of_key in H as (E & _). apply (T k (txt "new") Hk); [unfold taken; among|exact (eq_sym E)].
    + destruct keys; [destruct H|]. unfold by_id_made in H. cbn [In] in H. destruct H as [H|[H|[]]]; discriminate H.
Qed.

(* ------------------------------------------------------------------ *)
(** * Definitions inside definitions *)

Lemma def_induct (P : def -> Prop) :
  (forall l, (forall key id v, In (key, (id, v)) (ld_members l) -> match v with DParam _ _ => True | DCil d => P d | DMil d _ => P d end) -> P (Def l)) ->
  forall d, P d.
Proof.
  intros F. fix IH 1. intros [l]. apply F. destruct l as [ms rs e o ro]. cbn [ld_members]. clear rs e o ro F.
  induction ms as [|(k & i & w) ms IHm]; [intros ? ? ? []|]. intros key id v [E|H]; [|exact (IHm key id v H)].
  assert (W : match w with DParam _ _ => True | DCil d => P d | DMil d _ => P d end) by (destruct w; [exact Logic.I|apply IH|apply IH]).
  apply pair_equal_spec in E as [_ E]. apply pair_equal_spec in E as [_ <-]. exact W.
Qed.

Lemma clisted_listed root stem l : clisted root stem l -> listed root stem l.
Proof. induction 1; [eapply listed_table|eapply listed_clist|eapply listed_cil]; eassumption. Qed.
Lemma mlisted_listed root stem l : mlisted root stem l -> listed root stem l.
Proof. induction 1; [eapply listed_mlist|eapply listed_mil]; eassumption. Qed.

Definition row_keys (rows : hmap citem) (old : list name) : list (name * bool) := map (fun e => (fst e, contains old (fst e))) rows.
Definition variant_of (k : name * bool) : list Z := variant_name (fst k) (snd k).

Definition enum_decl (stem : name) (l : ldef def) : decl :=
  DEnum (enum_type stem) (map (fun key => (to_type_name key, citem_type key)) (map fst (ld_refs l))) (map (fun key => (key, to_type_name key)) (map fst (ld_refs l))).
Definition kind_decl (stem : name) (l : ldef def) : decl :=
  DKind (kind_type stem) (map (fun key => (to_type_name key, ids_type key)) (map fst (ld_refs l))) (map (fun key => (to_type_name key, key)) (map fst (ld_refs l))).
Definition ids_decl (stem : name) (keys : list (name * bool)) : decl :=
  DIds (ids_type stem) (map variant_of keys) (map (fun k => (fst k, variant_of k)) keys)
    (map (fun e => (fst e, variant_of (snd e))) (enumerate keys)) (map (fun e => (variant_of (snd e), fst e)) (enumerate keys)) (zlen keys) (map fst keys).

(** what is declared *)
Inductive generated (old : list name) (root : hmap (Z * rootvalue)) : decl -> Prop :=
| generated_root : generated old root (DStruct (txt "RootIntf") (root_methods old (strip_root root)))
| generated_table key id d rows o : In (key, (id, WTable d rows o)) root -> generated old root (DStruct (table_type key) (table_methods key (row_keys rows o)))
| generated_ids key id d rows o : In (key, (id, WTable d rows o)) root -> generated old root (ids_decl key (row_keys rows o))
| generated_citem stem l : clisted root stem l -> generated old root (DStruct (citem_type stem) (citem_methods stem l))
| generated_cenum stem l : clisted root stem l -> ld_enum l = true -> generated old root (enum_decl stem l)
| generated_mitem stem l : mlisted root stem l -> generated old root (DStruct (mitem_type stem) (mitem_methods stem l))
| generated_menum stem l : mlisted root stem l -> ld_enum l = true -> generated old root (enum_decl stem l)
| generated_kind stem l : mlisted root stem l -> ld_enum l = true -> generated old root (kind_decl stem l).

Lemma citem_declared old root d : forall stem x, clisted root stem (undef d) -> In x (citem_decls stem d) -> generated old root x.
Proof.
  induction d as [l IH] using def_induct. intros stem x C H. cbn [undef] in C. cbn [citem_decls] in H. destruct H as [<-|H]; [apply generated_citem, C|].
  apply in_app_iff in H as [H|H].
  - apply in_flat_map in H as ((key & id & v) & He & H). destruct v as [p vt|d|d u]; [destruct H| |destruct H]. apply (IH _ _ _ He key x); [|exact H].
    destruct d as [l']. cbn [undef]. eapply clisted_cil; eassumption.
  - unfold refs_decls in H. destruct (ld_enum l) eqn:E; [|destruct H]. destruct H as [<-|[]]. apply generated_cenum; assumption.
Qed.

Lemma mitem_declared old root d : forall stem x, mlisted root stem (undef d) -> In x (mitem_decls stem d) -> generated old root x.
Proof.
  induction d as [l IH] using def_induct. intros stem x C H. cbn [undef] in C. cbn [mitem_decls] in H. destruct H as [<-|H]; [apply generated_mitem, C|].
  apply in_app_iff in H as [H|H].
  - apply in_flat_map in H as ((key & id & v) & He & H). destruct v as [p vt|d|d u]; [destruct H|destruct H|]. apply (IH _ _ _ He key x); [|exact H].
    destruct d as [l']. cbn [undef]. eapply mlisted_mil; eassumption.
  - unfold refs_decls in H. destruct (ld_enum l) eqn:E; [|destruct H]. destruct H as [<-|[<-|[]]]; [apply generated_menum|apply generated_kind]; assumption.
Qed.

Lemma generate_declared old root x : In x (generate old root) -> generated old root x.
Proof.
  unfold generate. intros [<-|H]; [apply generated_root|]. apply in_flat_map in H as ((key & id & v) & He & H). destruct v as [p vt|[l] rows o|[l] items|[l] u]; [destruct H| | |].
  - unfold table_decls in H. destruct H as [<-|[<-|H]].
    + eapply generated_table; eassumption.
    + eapply generated_ids; eassumption.
    + eapply (citem_declared _ _ (Def l)); [|exact H]. cbn [undef]. eapply clisted_table; eassumption.
  - eapply (citem_declared _ _ (Def l)); [|exact H]. cbn [undef]. eapply clisted_clist; eassumption.
  - eapply (mitem_declared _ _ (Def l)); [|exact H]. cbn [undef]. eapply mlisted_mlist; eassumption.
Qed.

Lemma clisted_generate old root stem l : clisted root stem l -> incl (citem_decls stem (Def l)) (generate old root).
Proof.
  induction 1 as [key id l rows o H|key id l items H|stem l key id l' _ IH H]; intros x Hx.
  - right. apply in_flat_map. eexists. split; [exact H|]. right; right. exact Hx.
  - right. apply in_flat_map. eexists. split; [exact H|]. exact Hx.
  - apply IH. cbn [citem_decls]. right. apply in_app_iff. left. apply in_flat_map. eexists. split; [exact H|]. exact Hx.
Qed.
Lemma mlisted_generate old root stem l : mlisted root stem l -> incl (mitem_decls stem (Def l)) (generate old root).
Proof.
  induction 1 as [key id l u H|stem l key id l' u _ IH H]; intros x Hx.
  - right. apply in_flat_map. eexists. split; [exact H|]. exact Hx.
  - apply IH. cbn [mitem_decls]. right. apply in_app_iff. left. apply in_flat_map. eexists. split; [exact H|]. exact Hx.
Qed.

Lemma generated_generate old root x : generated old root x -> In x (generate old root).
Proof.
  intros [|key id d rows o H|key id d rows o H|stem l H|stem l H E|stem l H|stem l H E|stem l H E].
  - left. reflexivity.
  - right. apply in_flat_map. eexists. split; [exact H|]. left. reflexivity.
  - right. apply in_flat_map. eexists. split; [exact H|]. right; left. reflexivity.
  - apply (clisted_generate old root stem l H). left. reflexivity.
  - apply (clisted_generate old root stem l H). right. apply in_app_iff. right. unfold refs_decls. rewrite E. left. reflexivity.
  - apply (mlisted_generate old root stem l H). left. reflexivity.
  - apply (mlisted_generate old root stem l H). right. apply in_app_iff. right. unfold refs_decls. rewrite E. left. reflexivity.
  - apply (mlisted_generate old root stem l H). right. apply in_app_iff. right. unfold refs_decls. rewrite E. right; left. reflexivity.
Qed.

(* ------------------------------------------------------------------ *)
(** * The names of types *)

(** [nm] is a type made from [stem] *)
Definition type_of_stem (nm : list Z) (stem : name) : Prop := snake stem /\ exists suf, In suf suffixes /\ nm = to_type_name stem ++ suf.

Lemma type_of_stem_unique nm s s' : type_of_stem nm s -> type_of_stem nm s' -> s = s'.
Proof. intros (S & a & A & E) (S' & a' & A' & E'). rewrite E' in E. destruct (type_inj s' s a' a S' S A' A E) as [<- _]. reflexivity. Qed.

Ltac of_stem := split; [assumption|]; eexists; split; [|reflexivity]; unfold suffixes; among.

Lemma flat_map_map {A B C} (f : A -> list B) (g : B -> C) l : map g (flat_map f l) = flat_map (fun x => map g (f x)) l.
Proof. induction l as [|x l IH]; [reflexivity|]. cbn [flat_map]. rewrite map_app, IH. reflexivity. Qed.

Lemma refs_types c stem (l : ldef def) nm : snake stem -> In nm (map decl_name (refs_decls c stem l)) -> type_of_stem nm stem /\ nm <> citem_type stem /\ nm <> mitem_type stem.
Proof.
  intros S H. assert (G : nm = enum_type stem \/ nm = kind_type stem).
  { unfold refs_decls in H. destruct (ld_enum l); [|destruct H]. destruct c; cbn [map decl_name In] in H; intuition congruence. }
  destruct G as [->| ->]; (split; [of_stem|]); split; intros E; apply app_inv_head in E; discriminate E.
Qed.
Lemma refs_types_nodup c stem (l : ldef def) : NoDup (map decl_name (refs_decls c stem l)).
Proof.
  unfold refs_decls. destruct (ld_enum l); [|apply NoDup_nil]. destruct c; cbn [map decl_name].
  - apply NoDup_cons; [intros []|apply NoDup_nil].
  - apply NoDup_cons; [|apply NoDup_cons; [intros []|apply NoDup_nil]]. intros [E|[]]. apply app_inv_head in E. discriminate E.
Qed.

Definition names_in (e : name * (Z * ldefval def)) : list name :=
  let '(key, (_, v)) := e in match v with DParam _ _ => [] | DCil d' => key :: lists_in d' | DMil d' _ => key :: lists_in d' end.
Lemma lists_in_members l : lists_in (Def l) = flat_map names_in (ld_members l).
Proof. reflexivity. Qed.

Lemma mitem_types d : forall stem, NoDup (stem :: lists_in d) -> Forall snake (stem :: lists_in d) ->
  NoDup (map decl_name (mitem_decls stem d)) /\
  forall nm, In nm (map decl_name (mitem_decls stem d)) -> exists s, In s (stem :: lists_in d) /\ type_of_stem nm s.
Proof.
  induction d as [l IH] using def_induct. intros stem N F. inversion N as [|? ? Ns Nl]; subst. inversion F as [|? ? Fs Fl]; subst. rewrite lists_in_members in *. cbn [mitem_decls map decl_name].
  rewrite map_app, flat_map_map. set (f := fun x => map decl_name _).
  assert (O : forall e, In e (ld_members l) -> NoDup (names_in e) -> NoDup (f e) /\ forall nm, In nm (f e) -> exists s, In s (names_in e) /\ type_of_stem nm s).
  { intros (key & id & v) He Ne. unfold f. destruct v as [p vt|d|d u]; [split; [apply NoDup_nil|intros ? []]|split; [apply NoDup_nil|intros ? []]|].
    apply (IH _ _ _ He key); [exact Ne|]. rewrite Forall_forall in *. intros s Hs. apply Fl. apply in_flat_map. eexists. split; [exact He|exact Hs]. }
  assert (E : forall e, In e (ld_members l) -> NoDup (names_in e)).
  { intros e He. clear - Nl He. induction (ld_members l) as [|x ms IHm]; [destruct He|]. cbn [flat_map] in Nl. apply NoDup_parts in Nl as (A & B & _). destruct He as [<-|He]; auto. }
  assert (G : forall nm, In nm (flat_map f (ld_members l)) -> exists s, In s (flat_map names_in (ld_members l)) /\ type_of_stem nm s).
  { intros nm H. apply in_flat_map in H as (e & He & H). destruct (O e He (E e He)) as (_ & O'). destruct (O' nm H) as (s & Hs & T). exists s. split; [|exact T]. apply in_flat_map. exists e. auto. }
  assert (M : type_of_stem (mitem_type stem) stem) by of_stem.
  assert (Z : forall nm s, type_of_stem nm stem -> type_of_stem nm s -> ~ In s (flat_map names_in (ld_members l))).
  { intros nm s A B I. rewrite (type_of_stem_unique nm s stem B A) in I. contradiction. }
  split.
  - apply NoDup_cons.
    + rewrite in_app_iff. intros [H|H].
      * destruct (G _ H) as (s & I & T). exact (Z _ _ M T I).
      * apply refs_types in H; [|exact Fs]. destruct H as (_ & _ & H). apply H. reflexivity.
    + apply NoDup_append; [|apply refs_types_nodup|].
      * apply (NoDup_flat f names_in type_of_stem); [exact type_of_stem_unique|exact Nl|intros e He Ne; apply (O e He Ne)|intros e nm He H; apply (O e He (E e He)), H].
      * intros nm H H'. destruct (G _ H) as (s & I & T). apply refs_types in H'; [|exact Fs]. destruct H' as (T' & _). exact (Z _ _ T' T I).
  - intros nm [<-|H]; [exists stem; split; [left; reflexivity|exact M]|]. apply in_app_iff in H as [H|H].
    + destruct (G _ H) as (s & I & T). exists s. split; [right; exact I|exact T].
    + apply refs_types in H; [|exact Fs]. exists stem. split; [left; reflexivity|apply H].
Qed.

Lemma citem_types d : forall stem, NoDup (stem :: lists_in d) -> Forall snake (stem :: lists_in d) ->
  NoDup (map decl_name (citem_decls stem d)) /\
  (forall nm, In nm (map decl_name (citem_decls stem d)) -> exists s, In s (stem :: lists_in d) /\ type_of_stem nm s) /\
  ~ In (table_type stem) (map decl_name (citem_decls stem d)) /\ ~ In (ids_type stem) (map decl_name (citem_decls stem d)).
Proof.
  induction d as [l IH] using def_induct. intros stem N F. inversion N as [|? ? Ns Nl]; subst. inversion F as [|? ? Fs Fl]; subst. rewrite lists_in_members in *. cbn [citem_decls map decl_name].
  rewrite map_app, flat_map_map. set (f := fun x => map decl_name _).
  assert (O : forall e, In e (ld_members l) -> NoDup (names_in e) -> NoDup (f e) /\ forall nm, In nm (f e) -> exists s, In s (names_in e) /\ type_of_stem nm s).
  { intros (key & id & v) He Ne. unfold f. destruct v as [p vt|d|d u]; [split; [apply NoDup_nil|intros ? []]| |split; [apply NoDup_nil|intros ? []]].
    destruct (IH _ _ _ He key Ne) as (A & B & _); [|split; [exact A|exact B]]. rewrite Forall_forall in *. intros s Hs. apply Fl. apply in_flat_map. eexists. split; [exact He|exact Hs]. }
  assert (E : forall e, In e (ld_members l) -> NoDup (names_in e)).
  { intros e He. clear - Nl He. induction (ld_members l) as [|x ms IHm]; [destruct He|]. cbn [flat_map] in Nl. apply NoDup_parts in Nl as (A & B & _). destruct He as [<-|He]; auto. }
  assert (G : forall nm, In nm (flat_map f (ld_members l)) -> exists s, In s (flat_map names_in (ld_members l)) /\ type_of_stem nm s).
  { intros nm H. apply in_flat_map in H as (e & He & H). destruct (O e He (E e He)) as (_ & O'). destruct (O' nm H) as (s & Hs & T). exists s. split; [|exact T]. apply in_flat_map. exists e. auto. }
  assert (M : type_of_stem (citem_type stem) stem) by of_stem.
  assert (Z : forall nm s, type_of_stem nm stem -> type_of_stem nm s -> ~ In s (flat_map names_in (ld_members l))).
  { intros nm s A B I. rewrite (type_of_stem_unique nm s stem B A) in I. contradiction. }
  split; [|split].
  - apply NoDup_cons.
    + rewrite in_app_iff. intros [H|H].
      * destruct (G _ H) as (s & I & T). exact (Z _ _ M T I).
      * apply refs_types in H; [|exact Fs]. destruct H as (_ & H & _). apply H. reflexivity.
    + apply NoDup_append; [|apply refs_types_nodup|].
      * apply (NoDup_flat f names_in type_of_stem); [exact type_of_stem_unique|exact Nl|intros e He Ne; apply (O e He Ne)|intros e nm He H; apply (O e He (E e He)), H].
      * intros nm H H'. destruct (G _ H) as (s & I & T). apply refs_types in H'; [|exact Fs]. destruct H' as (T' & _). exact (Z _ _ T' T I).
  - intros nm [<-|H]; [exists stem; split; [left; reflexivity|exact M]|]. apply in_app_iff in H as [H|H].
    + destruct (G _ H) as (s & I & T). exists s. split; [right; exact I|exact T].
    + apply refs_types in H; [|exact Fs]. exists stem. split; [left; reflexivity|apply H].
  - assert (K : forall nm, nm <> citem_type stem -> nm <> enum_type stem -> type_of_stem nm stem -> ~ In nm (citem_type stem :: flat_map f (ld_members l) ++ map decl_name (refs_decls true stem l))).
    { intros nm A B T [H|H]; [congruence|]. apply in_app_iff in H as [H|H].
      - destruct (G _ H) as (s & I & T'). exact (Z _ _ T T' I).
      - unfold refs_decls in H. destruct (ld_enum l); [|destruct H]. destruct H as [H|[]]. cbn [decl_name] in H. congruence. }
    split; apply K.
    + intros H. apply app_inv_head in H. discriminate H.
    + intros H. apply app_inv_head in H. discriminate H.
    + of_stem.
    + intros H. apply app_inv_head in H. discriminate H.
    + intros H. apply app_inv_head in H. discriminate H.
    + of_stem.
Qed.
