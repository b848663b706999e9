(** From documents to bytes and back. *)
From Verif Require Import Base CompactionModel CompactionSpec CompactionProofs FloatModel FloatProofs StringCompactionModel StringCompactionProofs
  LinkedModel LinkedSpec LinkedProofs DocModel DiffModel DiffWireModel DiffSpec DiffEditSpec DiffProofs DiffProofs2 DiffProofs3 DiffProofs4 DiffEditProofs
  DiffWireProofs DiffWireProofs2 DiffWireProofs3 DiffFrameProofs.

Lemma diff_bytes mem {n} (def : rootdef n) T d : wf_rootdef def -> root_table def = Ok T -> typed_rootdiff mem d def -> readable_root d ->
  exists ks, write_root d T = Ok ks /\
    (zlen ks < 2 ^ 58 -> exists bytes, encode ks = Ok bytes /\ wf_bytes bytes /\
       forall rest, decode (bytes ++ rest) = Ok (map plain ks, zlen bytes, rest) /\
                    forall more, read_root T (map plain ks ++ more) = Ok (fresh_root d, more)).
Proof.
  intros WF ET Ty R. destruct (root_roundtrip mem def T d WF ET Ty R) as (ks & Ew & Wk & Hr).
  exists ks. split; [exact Ew|]. intros L.
  assert (W : wf_kvals ks) by (split; [exact Wk|exact L]).
  destruct (encode_decode ks [] W) as (bytes & Ee & Wb & _). exists bytes. split; [exact Ee|]. split; [exact Wb|].
  intros rest. destruct (encode_decode ks rest W) as (bytes' & Ee' & _ & Hd). rewrite Ee in Ee'. apply Ok_inj in Ee'; subst bytes'.
  split; [exact Hd|exact Hr].
Qed.

Lemma later_reproduced mem ord nx {n} (def : rootdef n) (f t : sabun n) :
  wf_rootdef def -> small_rootdef def -> typed_root mem f def -> typed_root mem t def -> later_root ord def f t ->
  (nx = true -> next_root ord f t) -> fits_memory f t def ->
  exists bytes, get_diff f t def = Ok bytes /\ wf_bytes bytes /\
    forall f', same_root ord nx f' f -> exists r, apply_diff f' def bytes = Ok r /\ same_root ord nx r t.
Proof.
  intros WF Sm Tf Tt La Nx Fit. destruct (root_table_ok def WF) as (T & ET & _).
  destruct (root_diff_ok mem ord nx f t def T WF ET Tf Tt La Nx) as (d & Ed & Ap).
  pose proof (root_produced_typed mem f t def T d WF ET Tf Tt Ed) as Ty.
  pose proof (small_readable_root mem def d WF Sm Ty) as Rd.
  destruct (diff_bytes mem def T d WF ET Ty Rd) as (ks & Ew & H). destruct (H (Fit T d ks ET Ed Ew)) as (bytes & Ee & Wb & Hd).
  exists bytes. split; [unfold get_diff; rewrite ET; cbn [bind]; rewrite Ed; cbn [bind]; rewrite Ew; cbn [bind]; exact Ee|].
  split; [exact Wb|]. intros f' Sf. destruct (Ap f' Sf) as (r & Er & Sr). exists r. split; [|exact Sr].
  destruct (Hd []) as [Hdec Hread]. rewrite app_nil_r in Hdec. specialize (Hread []). rewrite app_nil_r in Hread.
  unfold apply_diff. rewrite ET; cbn [bind]. rewrite Hdec; cbn [bind]. rewrite Hread; cbn [bind]. exact Er.
Qed.

Lemma edits_reproduced mem ord {n} (def : rootdef n) (f t : sabun n) :
  wf_rootdef def -> small_rootdef def -> (forall key id d, hget key def <> Some (id, RVMList d true)) ->
  typed_root mem f def -> typed_root mem t def -> counted_root f -> reached (edit_root ord) f t -> fits_memory f t def ->
  exists bytes, get_diff f t def = Ok bytes /\ wf_bytes bytes /\
    forall f', same_root ord false f' f -> exists r, apply_diff f' def bytes = Ok r /\ same_root ord false r t.
Proof.
  intros WF Sm Nu Tf Tt Cf R Fit.
  exact (later_reproduced mem ord false def f t WF Sm Tf Tt (edits_later mem ord def f t Cf Tf Tt Nu R) ltac:(discriminate) Fit).
Qed.

Lemma same_reproduced mem {n} (def : rootdef n) (f : sabun n) : wf_rootdef def -> typed_root mem f def -> no_nan_root f ->
  (forall key id d, hget key def <> Some (id, RVMList d true)) ->
  exists T bytes, root_table def = Ok T /\ get_root_diff f f def T = Ok (RDiff [] []) /\ get_diff f f def = Ok bytes /\
    forall s : sabun n, apply_diff s def bytes = Ok s.
Proof.
  intros WF Tf Nn Nu. destruct (root_table_ok def WF) as (T & ET & _). pose proof (root_same mem def T f WF ET Tf Nn Nu) as Ed.
  assert (Ty : typed_rootdiff mem (n := n) (RDiff [] []) def).
  { split; [constructor|]. split; [constructor|]. split; intros ? ? []. }
  assert (Rd : readable_root (n := n) (RDiff [] [])) by (intros ? ? []).
  destruct (diff_bytes mem def T _ WF ET Ty Rd) as (ks & Ew & H).
  assert (L : zlen ks < 2 ^ 58). { cbn in Ew. apply Ok_inj in Ew. subst ks. reflexivity. }
  destruct (H L) as (bytes & Ee & _ & Hd). exists T, bytes. split; [exact ET|]. split; [exact Ed|]. split.
  - unfold get_diff. rewrite ET; cbn [bind]. rewrite Ed; cbn [bind]. rewrite Ew; cbn [bind]. exact Ee.
  - intros s. destruct (Hd []) as [Hdec Hread]. rewrite app_nil_r in Hdec. specialize (Hread []). rewrite app_nil_r in Hread.
    unfold apply_diff. rewrite ET; cbn [bind]. rewrite Hdec; cbn [bind]. rewrite Hread; cbn [bind]. reflexivity.
Qed.

Lemma param_bytes mem p vt : acceptable vt (param_qv_type p) = true -> wf_param mem p ->
  exists ks bytes, write_param p vt = Ok ks /\ encode ks = Ok bytes /\
    decode bytes = Ok (map plain ks, zlen bytes, []) /\
    forall rest, read_param (type_of p) vt (map plain ks ++ rest) = Ok (fresh_param p, rest).
Proof.
  intros A W. destruct (param_roundtrip mem p vt A W) as (ks & Ew & Wk & Hr). exists ks.
  assert (L : zlen ks < 2 ^ 58).
  { unfold write_param in Ew. destruct (write_flags vt (param_qv_type p)) as [fs| |] eqn:Ef; try discriminate. cbn [bind] in Ew.
    assert (Lf : zlen fs <= 2) by (destruct vt, (param_qv_type p); cbn in Ef; try discriminate; apply Ok_inj in Ef; subst fs; discriminate).
    destruct (param_qv_type p); [|apply Ok_inj in Ew; subst ks; lia..].
    destruct (write_param2 p) as [v| |] eqn:Ev; try discriminate. cbn [bind] in Ew. apply Ok_inj in Ew; subst ks.
    assert (Lv : zlen v = 1) by (destruct p as [[]|[]|[]|[]|[]|[]|[]]; cbn in Ev; try discriminate; apply Ok_inj in Ev; subst v; reflexivity).
    unfold zlen in *. rewrite app_length. lia. }
  destruct (encode_decode ks [] (conj Wk L)) as (bytes & Ee & _ & Hd). rewrite app_nil_r in Hd. exists bytes. auto.
Qed.

Lemma collect_numbers l : forall acc : list Z, numbers_loop (fun id acc r => Ok (acc ++ [id], r)) l acc [] = Ok (acc ++ l, []).
Proof. induction l as [|i l IH]; intros acc; cbn; [rewrite app_nil_r; reflexivity|]. rewrite IH, <- app_assoc. reflexivity. Qed.

Lemma numbers_visited s : wf_stored s -> numbers_in s = visited s.
Proof.
  intros W. unfold numbers_in. destruct s as [|b|w|l].
  - reflexivity.
  - rewrite visited_u64, read_bits_numbers by apply W. rewrite collect_numbers. reflexivity.
  - rewrite words_loop_numbers by apply W. rewrite collect_numbers. reflexivity.
  - rewrite collect_numbers. reflexivity.
Qed.

Lemma ascending_of_sorted l : Forall (fun i => 0 <= i) l -> StronglySorted Z.lt l -> ascending 0 l.
Proof.
  intros P S. assert (G : forall lo, Forall (fun i => lo <= i) l -> ascending lo l).
  { clear P. induction S as [|x l S IH F]; intros lo H; [exact I|]. apply Forall_cons_iff in H as [H _]. split; [exact H|].
    apply IH. revert F. apply Forall_impl. intros; lia. }
  apply G; exact P.
Qed.

Lemma ascending_nodup l : forall lo, ascending lo l -> NoDup l.
Proof.
  induction l as [|x l IH]; intros lo H; [constructor|]. destruct H as [H1 H2]. constructor; [|eapply IH; exact H2].
  intros I. pose proof (ascending_in _ _ _ H2 I). lia.
Qed.

Lemma sorted_len l : forall lo hi, ascending lo l -> lo <= hi -> Forall (fun i => i < hi) l -> zlen l <= hi - lo.
Proof.
  induction l as [|x l IH]; intros lo hi A LH B; [cbn; lia|]. destruct A as [A1 A2]. apply Forall_cons_iff in B as [B1 B2].
  assert (x + 1 <= hi) by lia. specialize (IH (x + 1) hi A2 H B2). unfold zlen in *. cbn [length]. lia.
Qed.

Lemma NoDup_app' {A} (a b : list A) : NoDup a -> NoDup b -> (forall i, In i a -> ~ In i b) -> NoDup (a ++ b).
Proof.
  induction a as [|x a IH]; intros Ha Hb D; [exact Hb|]. apply NoDup_cons_iff in Ha as [N Ha]. cbn. constructor.
  - intros I. apply in_app_iff in I as [I|I]; [exact (N I)|]. exact (D x (or_introl eq_refl) I).
  - apply IH; [exact Ha|exact Hb|]. intros i I. apply D. right; exact I.
Qed.

Lemma numbers_exact params lists : StronglySorted Z.lt params -> StronglySorted Z.lt lists ->
  Forall (fun i => 0 <= i < 2 ^ 62) params -> Forall (fun i => 0 <= i < 2 ^ 62) lists -> (forall i, In i params -> ~ In i lists) ->
  exists s, store_ids params lists = Ok s /\
    (forall rest, read_stored_ids (map plain (write_stored_ids s) ++ rest) = Ok (s, rest)) /\
    NoDup (numbers_in s) /\ forall i, In i (numbers_in s) <-> In i params \/ In i lists.
Proof.
  intros Sp Sl Fp Fl Dis.
  assert (Ap : ascending 0 params) by (apply ascending_of_sorted; [revert Fp; apply Forall_impl; intros; lia|exact Sp]).
  assert (Al : ascending 0 lists) by (apply ascending_of_sorted; [revert Fl; apply Forall_impl; intros; lia|exact Sl]).
  assert (Lp : zlen params <= 2 ^ 62 - 0) by (apply sorted_len; [exact Ap|lia|revert Fp; apply Forall_impl; intros; lia]).
  assert (Ll : zlen lists <= 2 ^ 62 - 0) by (apply sorted_len; [exact Al|lia|revert Fl; apply Forall_impl; intros; lia]).
  destruct (store_ids_ok params lists Ap Al) as (s & Es & Ws & Z0 & V).
  { revert Fp; apply Forall_impl; intros; lia. }
  { revert Fl; apply Forall_impl; intros; lia. }
  { lia. }
  exists s. split; [exact Es|]. split; [apply stored_roundtrip; exact Ws|]. rewrite numbers_visited by exact Ws.
  destruct s as [|b|w|l].
  - destruct V as [V1 V2]. split; [constructor|exact V2].
  - destruct V as [V1 V2]. split; [eapply ascending_nodup; exact V1|exact V2].
  - destruct V as [V1 V2]. split; [eapply ascending_nodup; exact V1|exact V2].
  - subst l. cbn [visited]. split; [|intros i; apply in_app_iff].
    apply NoDup_app'; [eapply ascending_nodup; exact Ap|eapply ascending_nodup; exact Al|exact Dis].
Qed.

(** ** Order *)

Lemma astep_order {V} (k : Z -> bool) : forall (l : list (Z * V)) id x, k id = false ->
  filter k (ids (without id l)) = filter k (ids l) /\ (forall p, filter k (ids (after p (id, x) l)) = filter k (ids l)).
Proof.
  intros l id x H. induction l as [|[i y] l [IH1 IH2]]; [split; reflexivity|]. split.
  - cbn. destruct (Z.eqb_spec i id); cbn.
    + subst i. rewrite H. exact IH1.
    + unfold without, ids in IH1. rewrite IH1. reflexivity.
  - intros p. cbn. destruct (Z.eqb_spec i p); cbn.
    + rewrite H. reflexivity.
    + specialize (IH2 p). unfold ids in IH2. rewrite IH2. reflexivity.
Qed.

Lemma entry_order {L LD M} ia im (meta : metatables M) (l l' : mlist (item L)) id (e : enumdiff LD) k : apply_entry ia im meta l (id, e) = Ok l' ->
  match e with Modify _ => True | _ => k id = false end -> filter k (ids (fst l')) = filter k (ids (fst l)).
Proof.
  intros E H. destruct l as [l nx]. destruct e as [|prev x|x]; cbn [apply_entry] in E.
  - apply Ok_inj in E; subst l'. cbn [astep fst]. apply astep_order; [exact (Item [] [])|exact H].
  - destruct (new_item_from_diff _ _ _ _) as [it| |]; try discriminate. cbn [bind astep] in E. destruct (has id l); [discriminate|].
    assert (Cons : filter k (ids ((id, it) :: l)) = filter k (ids l)) by (cbn; rewrite H; reflexivity).
    destruct prev as [p|]; [|apply Ok_inj in E; subst l'; exact Cons]. cbn [astep] in E.
    destruct (lookup id ((id, it) :: l)) as [v|]; [|discriminate]. destruct (_ || _); [discriminate|]. apply Ok_inj in E; subst l'. cbn [fst].
    rewrite (proj2 (astep_order k _ id v H)), (proj1 (astep_order k _ id v H)). exact Cons.
  - destruct (lookup id (fst (l, nx))) as [it|]; [|discriminate]. destruct (modify_item_from_diff _ _ _ _ _) as [it'| |]; try discriminate.
    cbn [bind astep fst] in E. apply Ok_inj in E; subst l'. cbn [fst]. unfold ids, assign. rewrite map_map. f_equal. apply map_ext.
    intros [i y]. cbn. destruct (i =? id); reflexivity.
Qed.

Lemma never_reorders n (a : mlistT (S n)) (d : ldiffT (S n)) m b : apply_list_diffT (S n) a d m = Ok b ->
  filter (stays d) (ids (fst b)) = filter (stays d) (ids (fst a)).
Proof.
  cbn [apply_list_diffT]. unfold apply_list_diff. destruct a as [l n0], d as [es nx]. cbn [astep fst]. intros E.
  assert (G : forall es' acc, (forall e, In e es' -> In e es) -> mfold (apply_entry (apply_list_diffT n) (diff_to_new_listT n) m) es' acc = Ok b ->
    filter (stays (es, nx)) (ids (fst b)) = filter (stays (es, nx)) (ids (fst acc))).
  { induction es' as [|[id e] es' IH]; intros acc I E'; cbn [mfold] in E'; [apply Ok_inj in E'; subst; reflexivity|].
    destruct (apply_entry (apply_list_diffT n) (diff_to_new_listT n) m acc (id, e)) as [l1| |] eqn:E1; try discriminate. cbn [bind] in E'.
    rewrite (IH _ (fun e I' => I e (or_intror I')) E'). eapply entry_order; [exact E1|].
    assert (NS : match e with Modify _ => False | _ => True end -> stays (es, nx) id = false).
    { intros He. unfold stays. apply not_true_is_false. intros F. rewrite forallb_forall in F. specialize (F _ (I _ (or_introl eq_refl))).
      cbn [fst snd] in F. rewrite Z.eqb_refl in F. destruct e; [discriminate|discriminate|contradiction]. }
    destruct e; [apply NS; exact Logic.I|apply NS; exact Logic.I|exact Logic.I]. }
  exact (G es (l, nx) (fun e I => I) E).
Qed.

(** ** In the form the properties use *)

Lemma small_readable mem n (def : rootdef n) d : wf_rootdef def -> small_rootdef def -> typed_rootdiff mem d def -> readable_root d.
Proof. apply small_readable_root. Qed.
Lemma produced_typed_root mem n (f t : sabun n) def T d : wf_rootdef def -> root_table def = Ok T ->
  typed_root mem f def -> typed_root mem t def -> get_root_diff f t def T = Ok d -> typed_rootdiff mem d def.
Proof. apply root_produced_typed. Qed.
Lemma same_reproduced' mem n (def : rootdef n) (f : sabun n) : wf_rootdef def -> typed_root mem f def -> no_nan_root f ->
  (forall key id d, hget key def <> Some (id, RVMList d true)) ->
  exists T bytes, root_table def = Ok T /\ get_root_diff f f def T = Ok (RDiff [] []) /\ get_diff f f def = Ok bytes /\
    forall s : sabun n, apply_diff s def bytes = Ok s.
Proof. apply same_reproduced. Qed.

Lemma fresh_same p : same_param (fresh_param p) p.
Proof.
  assert (F : forall b, same_float b b) by (left; reflexivity).
  assert (L : forall l, Forall2 same_float l l) by (induction l; constructor; auto).
  destruct p as [[]|[]|[]|[]|[]|[]|[]]; cbn; auto; reflexivity.
Qed.

Lemma param_refused p vt : acceptable vt (param_qv_type p) = false -> write_param p vt = Err.
Proof. unfold write_param. destruct vt, (param_qv_type p); cbn; intros; try discriminate; reflexivity. Qed.
