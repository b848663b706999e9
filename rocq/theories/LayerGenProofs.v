(** Proof of C83: generated functions in a larger program, and functions that call each other. *)
From Coq Require Import String.
From Verif Require Import Base StringCompactionModel StringCompactionProofs LinkedModel LinkedSpec DocModel DiffSpec DiffProofs ArchiveModel JsonModel IntfModel IntfProofs GenModel GenSpec CodeSpec ApiModel TypeSpec TypeProofs ReadModel RunModel RunSpec SoundSpec SoundProofs SoundStepProofs TimeProofs EndProofs BesideSpec BesideProofs LayerSpec LayerProofs.

Local Notation text := (list Z).
Local Notation "! s" := (txt s%string) (at level 0, s at level 0).

Section Program.
Variable p q : list CodeSpec.item.
Hypothesis POK : program_ok p.
Hypothesis NAMED : plainly_named p.
Hypothesis QOK : program_ok (p ++ q).
Hypothesis QNAMED : plainly_named (p ++ q).
Hypothesis APART : apart p q.
Local Notation pq := (p ++ q).

(** types without those of [q] *)
Fixpoint fine (t : rt) : Prop :=
  match t with
  | RName n => ~ In n (type_names q)
  | RApp _ t | RRef t | RMut t | RPtr t | RPtrMut t | RSlice t => fine t
  | RPair a b => fine a /\ fine b
  | _ => False
  end.
Lemma names_app : type_names pq = type_names p ++ type_names q. Proof. apply flat_map_app. Qed.
Lemma not_both n : In n (type_names p) -> ~ In n (type_names q).
Proof.
  intros I J. pose proof (po_names _ QOK) as D. rewrite names_app in D. clear - I J D. induction (type_names p) as [|a l IH]; [destruct I|]. cbn [app] in D. apply NoDup_cons_iff in D as [N D].
  destruct I as [->|I]; [apply N; apply in_or_app; right; exact J|exact (IH I D)].
Qed.
Lemma type_fine t : type_ok p t -> fine t.
Proof.
  induction 1 as [n l I|n I|n t I H IH|n s m I H|t H IH|t H IH|a b A IA B IB|t H IH]; cbn [fine]; try assumption.
  - intros J. apply (po_core _ QOK (txt n)); [rewrite names_app; apply in_or_app; right; exact J|]. unfold core_names. apply in_map. apply in_or_app. right. apply in_or_app. right. apply in_or_app. left. apply in_map_iff. exists (n, l). split; [reflexivity|exact I].
  - exact (not_both n I).
  - destruct H as (t' & fns & J & _). pose proof (po_items p POK) as F. rewrite Forall_forall in F. specialize (F _ J). inversion F; subst. apply not_both. assumption.
  - split; assumption.
Qed.
Lemma old_struct n fields : ~ In n (type_names q) -> struct_fields pq n fields -> struct_fields p n fields.
Proof. intros N (d & I). apply in_app_or in I as [I|I]; [exists d; exact I|]. contradiction N. unfold type_names. apply in_flat_map. exists (IStruct d n fields). split; [exact I|left; reflexivity]. Qed.
Lemma old_enum n vs : ~ In n (type_names q) -> enum_variants pq n vs -> enum_variants p n vs.
Proof. intros N (d & I). apply in_app_or in I as [I|I]; [exists d; exact I|]. contradiction N. unfold type_names. apply in_flat_map. exists (IEnum d n vs). split; [exact I|left; reflexivity]. Qed.
Lemma field_fine n fields x t : struct_fields p n fields -> In (x, t) fields -> fine (of_ty n t).
Proof. intros (d & I) J. pose proof (po_items p POK) as F. rewrite Forall_forall in F. specialize (F _ I). inversion F as [| |? ? ? _ X _ _| | |]; subst. rewrite Forall_forall in X. apply type_fine. exact (X _ J). Qed.
Lemma variant_fine n vs c t : enum_variants p n vs -> In (c, Some t) vs -> fine (of_ty n t).
Proof. intros (d & I) J. pose proof (po_items p POK) as F. rewrite Forall_forall in F. specialize (F _ I). inversion F as [| | |? ? ? _ _ X| |]; subst. apply type_fine. exact (X _ _ J). Qed.
Lemma old_type : forall v t, of_type pq v t -> fine t -> of_type p v t.
Proof.
  fix IH 3. intros v t H. destruct H; cbn [fine]; intros F; try (constructor; first [assumption|apply IH; assumption]; fail).
  - destruct F as [Fa Fb]. apply ot_pair; apply IH; assumption.
  - apply ot_slice. intros v I. apply IH; [apply H, I|exact F].
  - pose proof (old_struct n fields F H) as S_. apply (ot_struct p n fields fs S_). intros x t I. destruct (H0 x t I) as (v & G & X). exists v. split; [exact G|]. apply IH; [exact X|]. exact (field_fine n fields x t S_ I).
  - eapply ot_unit; [exact (old_enum n vs F H)|eassumption].
  - pose proof (old_enum n vs F H) as S_. eapply ot_variant; [exact S_|eassumption|]. apply IH; [assumption|]. eapply variant_fine; eassumption.
  - destruct F.
Qed.
Lemma old_self n rc self : In n (type_names p) -> self_typed pq n rc self -> self_typed p n rc self.
Proof. intros I. unfold self_typed. destruct rc; [intros H; exact H|..]; intros (v & E & V); exists v; (split; [exact E|]); (apply old_type; [exact V|exact (not_both n I)]). Qed.
Lemma old_args n f args : fn_ok p n f -> args_typed pq n f args -> args_typed p n f args.
Proof.
  intros F. unfold args_typed. destruct (fo_types p n f F) as (FT & _). clear F. revert args. induction FT as [|a l T FT IH]; intros args H; cbn [map] in *; inversion H as [|v ? vs ? V H']; subst; [apply Forall2_nil|].
  apply Forall2_cons; [apply old_type; [exact V|apply type_fine, T]|exact (IH vs H')].
Qed.
Lemma which_fn n f : fn_of pq n f -> fn_of p n f \/ exists fns, In (IImpl n fns) q /\ In f fns.
Proof. intros (fns & I & J). apply in_app_or in I as [I|I]; [left|right]; exists fns; split; assumption. Qed.

Variable iter : forall A, hmap A -> hmap A.
Variable r : root_obj.
Variable told : effect -> bool.
Variable o o' : res (val * trace).
Hypothesis OUT : o = Err \/ o = Panic.
Hypothesis OUT' : o' = Err \/ o' = Panic.
Hypothesis OWN : forall n f, fn_of p n f -> brief p iter r told o o' 10 n f.
Hypothesis FROM : forall n f, In f (trait_fns p n) -> f_lets f = [] /\ exists a fs, f_value f = Some (EStruct a fs).

Lemma old_brief n f : fn_of p n f -> brief pq iter r told o o' 10 n f.
Proof.
  intros F k self args ST TA. destruct (fn_found p POK n f F) as (_ & OKF & I). pose proof (old_self n _ self I ST) as ST'. pose proof (old_args n f args OKF TA) as TA'. intros w.
  destruct (timed_enter_beside p q POK NAMED APART iter r told o OUT (10 + k) n f self args OKF TA' ST' w) as [-> _].
  destruct (timed_enter_beside p q POK NAMED APART iter r told o' OUT' (10 + k) n f self args OKF TA' ST' w) as [-> _].
  exact (OWN n f F k self args ST' TA' w).
Qed.

Variable rk : text -> nat.
Variable d : nat.
Hypothesis LAYERED : layered rk d q.
Lemma new_from n f : In f (trait_fns pq n) -> f_lets f = [] /\ exists a fs, f_value f = Some (EStruct a fs).
Proof.
  unfold trait_fns. rewrite flat_map_app. intros I. apply in_app_or in I as [I|I]; [exact (FROM n f I)|]. apply in_flat_map in I as (i & I & J). specialize (LAYERED i I). destruct i; try contradiction J. contradiction LAYERED.
Qed.
Lemma calling_more (al al' : text -> bool) : (forall f, al f = true -> al' f = true) -> forall c e, calling al c e = true -> calling al' c e = true.
Proof.
  intros H. induction c as [|c IH]; intros e P; [discriminate P|].
  assert (L : forall es, forallb (calling al c) es = true -> forallb (calling al' c) es = true) by (intros es Q; rewrite forallb_forall in Q |- *; intros x I; apply IH, Q, I).
  destruct e; cbn [calling] in P |- *; try exact P; try (apply IH; exact P); try (apply L; exact P); repeat rewrite andb_true_iff in *; repeat split; try (apply IH; tauto); try (apply L; tauto).
  - destruct e; try reflexivity. apply H. tauto.
  - apply H. tauto.
  - destruct P as [_ P]. destruct (eqb_bytes f !"map"); [|apply L; exact P]. destruct args as [|x [|y args]]; [reflexivity| |destruct x; discriminate P]. destruct x; try discriminate P. apply IH. exact P.
  - destruct P as [_ P]. rewrite forallb_forall in P |- *. intros x I. apply IH, P, I.
Qed.
Lemma calling_fn_more (al al' : text -> bool) c f : (forall f, al f = true -> al' f = true) -> calling_fn al c f = true -> calling_fn al' c f = true.
Proof.
  intros H. unfold calling_fn. rewrite !andb_true_iff. intros [P1 P2]. split.
  - rewrite forallb_forall in P1 |- *. intros x I. specialize (P1 x I). destruct x; apply (calling_more al al' H), P1.
  - destruct (f_value f); [apply (calling_more al al' H), P2|reflexivity].
Qed.
Lemma layers_brief m : forall n f, fn_of pq n f -> (rk (f_name f) <? m)%nat = true -> brief pq iter r told o o' (10 + m * d) n f.
Proof.
  induction m as [|m IH]; intros n f F R; [apply Nat.ltb_lt in R; lia|]. destruct (which_fn n f F) as [G|(fns & I & J)].
  - replace (10 + S m * d)%nat with (S m * d + 10)%nat by lia. apply brief_more. exact (old_brief n f G).
  - intros k self args ST TA. destruct (fn_found pq QOK n f F) as (_ & OKF & _). pose proof (LAYERED _ I f J) as C. cbn beta in C.
    replace (10 + S m * d + k)%nat with (S (9 + m * d) + (d + k))%nat by lia.
    apply (LayerProofs.fn_ends pq QOK QNAMED iter r told o o' OUT (fun g => (rk g <? m)%nat) (9 + m * d) IH new_from); try assumption.
    eapply calling_fn_more; [|exact C]. intros g Q. apply Nat.ltb_lt in Q, R. apply Nat.ltb_lt. lia.
Qed.
End Program.
