(** C67: accessors pass the compiler. *)
From Coq Require Import String.
From Verif Require Import Base StringCompactionModel StringCompactionProofs DocModel DiffSpec DiffProofs ArchiveModel JsonModel JsonSpec JsonProofs JsonProps ValidModel ValidSpec IntfModel IntfSpec
  GenModel GenSpec GenProofs GenProps CodeModel CodeSpec CodeLexProofs CodeProofs CodeNameProofs CodeProps ApiModel TypeSpec TypeProofs TypeGenProofs.

Local Notation "! s" := (txt s%string) (at level 0, s at level 0).

(** If the names in a document cause no trouble and tables have less than 2^64 rows, every
    program that belongs to the declarations passes: every expression has the type it is used
    with, by the signatures of dochy_core; places that are moved from can be moved from; those
    that are changed can be changed; unsafe functions are called in unsafe places; patterns
    cover what is matched; what is derived the fields have. *)
Theorem C67_passes : forall old root p, tame root -> (forall key id d rows o, In (key, (id, WTable d rows o)) root -> zlen rows < 2 ^ 64) ->
  declared (generate old root) p -> program_ok p.
Proof. intros old root p T B (parts & D & ->). eapply whole_ok; eassumption. Qed.
Print Assumptions C67_passes.

(** So the text that is written is read as a program that passes. *)
Theorem C67_text : forall old root, tame root -> (forall key id d rows o, In (key, (id, WTable d rows o)) root -> zlen rows < 2 ^ 64) ->
  exists p, writes (root_text old root) p /\ program_ok p.
Proof.
  intros old root T B. destruct (C66_written old root (tame_speakable root T)) as (p & D & W). exists p. split; [exact W|]. eapply C67_passes; eassumption.
Qed.
Print Assumptions C67_text.

(* ------------------------------------------------------------------ *)
(** * Cases *)

Definition few (root : hmap (Z * rootvalue)) : bool := forallb (fun e => match snd (snd e) with WTable _ rows _ => zlen rows <? 2 ^ 64 | _ => true end) root.
Lemma few_rows root : few root = true -> forall key id d rows o, In (key, (id, WTable d rows o)) root -> zlen rows < 2 ^ 64.
Proof. unfold few. rewrite forallb_forall. intros F key id d rows o I. specialize (F _ I). cbn [snd] in F. apply Z.ltb_lt. exact F. Qed.

Example C67_passes_case : tame game_root /\ (forall key id d rows o, In (key, (id, WTable d rows o)) game_root -> zlen rows < 2 ^ 64) /\
  exists p, declared (generate game_old game_root) p /\ program_ok p /\ type_names p = map decl_name game_text.
Proof.
  assert (B : forall key id d rows o, In (key, (id, WTable d rows o)) game_root -> zlen rows < 2 ^ 64) by (apply few_rows; vm_compute; reflexivity).
  split; [exact game_tame|]. split; [exact B|]. destruct (C66_written game_old game_root (tame_speakable _ game_tame)) as (p & D & _). exists p. split; [exact D|].
  split; [eapply C67_passes; [exact game_tame|exact B|exact D]|]. destruct D as (parts & D & ->). apply (names_p game_old game_root). exact D.
Qed.

(* ------------------------------------------------------------------ *)
(** * Programs that do not pass *)


(** Nothing else is called [from]. *)
Lemma from_told p n G u a e t : module_fn a !"from" = None -> type_fn a !"from" = None -> a <> !"Self" -> a <> !"Qv" -> (forall vs, ~ enum_variants p a vs) ->
  has p n G u (path a !"from" [e]) t -> (exists f, fn_of p a f /\ f_name f = !"from" /\ f_self f = NoSelf) \/ (forall f, fn_of p a f -> f_name f <> !"from").
Proof.
  intros M A S Q V H. pose proof (named_other n a S) as N. inversion H as [? ? ? ? m L|? ? ? ? o m L C| | |? ? ? ? ? g s E|? ? ? ? ? self_ g s E|? ? a' f args F Sf U Gv t' R E1|? ? ? ? ? F| ? ? ? ? vs ? ? Ev|? ? v ? ? Iv Gv E1| | | | | | | | | | | | | | | | |]; subst.
  - inversion L.
  - inversion L.
  - rewrite M in E. discriminate E.
  - rewrite A in E. discriminate E.
  - left. rewrite N in F. exists f. split; [exact F|]. split; [reflexivity|exact Sf].
  - right. exact F.
  - exfalso. rewrite N in Ev. exact (V _ Ev).
  - contradiction Q.
Qed.

(** A member called [from] (C54): the methods of the rows call it, and it is no function without
    [self]. *)
Definition from_doc : jval := JMap [table "t" [num "from"] [row "a" []]].
Theorem C67_from_refuted : exists ds, generates from_doc ds /\ forall p, declared ds p -> ~ program_ok p.
Proof.
  eexists. split; [generated|]. intros p (parts & D & ->) [_ _ _ Ok].
  inversion D as [|d1 q1 l1 m1 D1 T1]; subst. inversion T1 as [|d2 q2 l2 m2 D2 T2]; subst. inversion T2 as [|d3 q3 l3 m3 D3 T3]; subst. inversion T3 as [|d4 q4 l4 m4 D4 T4]; subst. inversion T4; subst.
  clear D T1 T2 T3 T4. apply declares_root in D1 as (f1 & F1 & ->). apply (declares_table !"T") in D2 as (f2 & F2 & ->). apply (declares_citem !"T") in D4 as (f4 & F4 & ->).
  inversion D3; subst. clear D3. set (p := concat _) in Ok.
  assert (X : forall fns, In (IImpl !"TCItem" fns) p -> fns = f4).
  { assert (Y : Forall (fun i => match i with IImpl n fns => eqb_bytes n !"TCItem" = true -> fns = f4 | _ => True end) p).
    { unfold p. cbn [concat app wrapper]. repeat (apply Forall_cons; [try exact Logic.I; try (intros E; vm_compute in E; discriminate E); try (intros _; reflexivity)|]). apply Forall_nil. }
    rewrite Forall_forall in Y. intros fns I. exact (Y _ I eq_refl). }
  inversion F2 as [|m fn ms fns W F3]; subst. clear F2 W. inversion F3 as [|m fn' ms fns' W F5]; subst. clear F3 F5.
  assert (O : fn_ok p !"TTable" fn').
  { rewrite Forall_forall in Ok. specialize (Ok (IImpl !"TTable" (fn :: fn' :: fns'))). assert (J : In (IImpl !"TTable" (fn :: fn' :: fns')) p) by (unfold p; cbn [concat app In]; do 7 right; left; reflexivity).
    apply Ok in J. inversion J as [| | | |? ? _ _ F|]; subst. rewrite Forall_forall in F. apply F. right; left. reflexivity. }
  inversion W; subst. clear W. destruct O as [_ _ (G & _ & Gv)]. cbn [f_ret f_value f_unsafe] in Gv. inversion Gv as [|? ? ? ? t' ? ? H _ _]; subst. clear Gv.
  apply from_told in H; [|vm_compute; reflexivity|vm_compute; reflexivity|discriminate|discriminate|].
  - inversion F4 as [|m4 g4 ms4 fns4 W4 F6]; subst. destruct H as [(f & (fns & I & J) & Nf & Sf)|H].
    + apply X in I. subst fns. inversion F6 as [|m5 g5 ms5 fns5 W5 F7]; subst. inversion F7; subst. inversion W4; subst; [|discriminate]. inversion W5; subst; [|discriminate]. destruct J as [<-|[<-|[]]]; discriminate.
    + apply (H g4); [|inversion W4; subst; reflexivity]. exists (g4 :: fns4). split; [|left; reflexivity]. unfold p. cbn [concat app wrapper In]. do 12 right; left. reflexivity.
  - assert (Y : Forall (fun i => match i with IEnum _ n _ => eqb_bytes n !"TCItem" = false | _ => True end) p).
    { unfold p. cbn [concat app wrapper]. repeat (apply Forall_cons; [try exact Logic.I; try (vm_compute; reflexivity)|]). apply Forall_nil. }
    rewrite Forall_forall in Y. intros vs (r & I). specialize (Y _ I). cbn beta iota in Y. vm_compute in Y. discriminate Y.
Qed.
Print Assumptions C67_from_refuted.

(** A function that reads a whole number and gives it as another one is refused. *)
Definition mixed : list CodeSpec.item :=
  [IStruct [] !"R" [(!"ptr", TyName !"RootObjectPtr")]; IImpl !"R" [getter !"x" ByRef AtRoot !"get_int" Normal !"k" (TyName !"f64")]].

Lemma method_told n G u e nm t a self_ g : type_fn a nm = Some (self_, g) -> (forall b, b <> a -> type_fn b nm = None) -> nm <> !"x" -> has mixed n G u (EMethod e nm []) t ->
  exists s, receives mixed n G u (g_self g) e (subst s self_) /\ t = subst s (g_ret g).
Proof.
  intros E O N H. inversion H as [? ? ? ? m L|? ? ? ? o m L C| | | | | | | | | | | |? ? ? ? ? b self' g' s E' Bd Rc Gv|? ? ? ? b f F U Rc Gv t' R E1| | | | | | | | | | | |]; subst.
  - inversion L.
  - inversion L.
  - destruct (eqb_bytes b a) eqn:Eb.
    + apply eqb_bytes_eq in Eb. subst b. rewrite E in E'. apply Some_inj in E'. apply pair_equal_spec in E' as [-> ->]. exists s. split; [exact Rc|reflexivity].
    + rewrite O in E'; [discriminate E'|]. intros ->. rewrite eqb_bytes_refl in Eb. discriminate Eb.
  - exfalso. destruct F as (fns & [I|[I|[]]] & J); [discriminate I|]. injection I as <- <-. destruct J as [<-|[]]. apply N. reflexivity.
Qed.
(** of the types of dochy_core, [a] alone has a function [f] *)
Definition lone (a f : list Z) (l : list (string * list string)) : bool :=
  forallb (fun e => match read_impl (fst e) with
                    | Some (vs, t) => match find_fn vs f (snd e) with Some _ => match head t with Some n => eqb_bytes n a | None => true end | None => true end
                    | None => false
                    end) l.
Lemma lone_told a f l : lone a f l = true -> forall b, b <> a -> find_impl b f l = None.
Proof.
  unfold lone. induction l as [|[s fns] l IH]; intros L b N; [reflexivity|]. cbn [forallb fst snd] in L. apply andb_prop in L as [L L']. cbn [find_impl].
  destruct (read_impl s) as [[vs t]|]; [|reflexivity]. destruct (head t) as [h|]; [|apply IH; assumption]. destruct (eqb_bytes h b) eqn:E; [|apply IH; assumption].
  apply eqb_bytes_eq in E. subst h. destruct (find_fn vs f fns); [|reflexivity]. apply eqb_bytes_eq in L. contradiction.
Qed.
Lemma fits_name t n : fits t (RName n) -> t = RName n.
Proof. intros H. inversion H. reflexivity. Qed.
Lemma unwrap_told n G u e t : has mixed n G u (EMethod e !"unwrap" []) t -> exists t', t' = RApp !"Option" t /\ has mixed n G u e t'.
Proof.
  intros H. eapply (method_told n G u e !"unwrap" t !"Option") in H as (s & R & ->); [|vm_compute; reflexivity| |discriminate].
  - inversion R; subst. eexists. split; [|eassumption]. reflexivity.
  - intros b Nb. apply (lone_told !"Option"); [vm_compute; reflexivity|exact Nb].
Qed.
Lemma into_value_told n G u e t : has mixed n G u (EMethod e !"into_value" []) t -> exists t', t = RApp !"Option" t' /\ has mixed n G u e (RApp !"Qv" t').
Proof.
  intros H. eapply (method_told n G u e !"into_value" t !"Qv") in H as (s & R & ->); [|vm_compute; reflexivity| |discriminate].
  - inversion R; subst. eexists. split; [|eassumption]. reflexivity.
  - intros b Nb. apply (lone_told !"Qv"); [vm_compute; reflexivity|exact Nb].
Qed.
Example C67_told_apart : ~ program_ok mixed.
Proof.
  intros [_ _ _ F]. rewrite Forall_forall in F. specialize (F _ (or_intror (or_introl eq_refl))). inversion F as [| | | |n fns K1 K2 K E1|]. subst n fns. clear F K1 K2. rewrite Forall_forall in K. specialize (K _ (or_introl eq_refl)).
  destruct K as [_ _ (G & S & V)]. cbn [getter public f_lets f_args f_self f_unsafe f_ret f_value map app] in S, V.
  assert (Q : exists t m, has mixed !"R" (self_of !"R" ByRef) false (EMethod (asked AtRoot !"get_int" !"k") !"unwrap" []) t /\ G = (!"qv", (t, m)) :: self_of !"R" ByRef).
  { inversion S as [|? ? ? ? t ? ? H S'|? ? ? t g ? ? SU H Bd S'|]; subst; inversion S'; subst; [|inversion Bd; subst]; (eexists; eexists; split; [exact H|reflexivity]). }
  destruct Q as (t & m & H & ->). clear S. inversion V as [|? ? ? ? t' ? ? H' Ft _]; subst. apply fits_name in Ft. subst t'. cbn [unmark] in H'.
  apply unwrap_told in H' as (t1 & -> & H1). apply into_value_told in H1 as (t2 & E2 & H2). injection E2 as <-.
  assert (T : t = RApp !"Qv" (RName !"f64")).
  { inversion H2 as [? ? ? ? k L|? ? ? ? o k L C| | | | | | | | | | | | | | | | | | | | | | | | |]; subst; inversion L as [? ? ? Vr| | | |]; subst; cbn [var_of] in Vr; rewrite eqb_bytes_refl in Vr;
      apply Some_inj in Vr; apply pair_equal_spec in Vr as [-> _]; reflexivity. }
  subst t. clear V H2. apply unwrap_told in H as (t3 & -> & H3). unfold asked in H3.
  inversion H3; subst; try match goal with L : located _ _ _ _ _ _ |- _ => solve [inversion L] end.
  - match goal with M : module_fn _ _ = Some _ |- _ => vm_compute in M; apply Some_inj in M; subst end. discriminate.
  - match goal with M : type_fn _ _ = Some _ |- _ => vm_compute in M; discriminate M end.
  - match goal with M : fn_of _ _ _ |- _ => destruct M as (fns & [I|[I|[]]] & J) end; [discriminate I|]. apply (f_equal (fun i => match i with IImpl n _ => n | _ => [] end)) in I. vm_compute in I. discriminate I.
Qed.
