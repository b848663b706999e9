(** Documents that are printed and read. *)
From Coq Require Import String.
From Verif Require Import Base FloatModel FloatProofs CompactionSpec StringCompactionModel StringCompactionProofs Json5Model Json5Spec Json5FloatProofs LinkedModel LinkedSpec DocModel DiffSpec DiffProofs ArchiveModel ArchiveWireProofs JsonModel JsonSpec JsonNameProofs JsonProofs PrintModel PrintSpec PrintTextProofs.

(* ------------------------------------------------------------------ *)
(** * Numbers *)

Lemma rne_exact q d : 0 < d -> rne (q * d) d = q.
Proof. intros D. unfold rne. rewrite Z.div_mul, Z.mod_mul by lia. destruct (Z.ltb_spec (2 * 0) d); [reflexivity|lia]. Qed.

Lemma of_int_small v : small v -> of_int F64 v = FNum (v <? 0) (Z.abs v * 2 ^ 1074).
Proof.
  intros S. unfold of_int, fround, unit_exp. change (sub F64) with 0. change (fbits F64) with 52. change (ebits F64) with 11. cbv zeta. change (52 + 1 + (2 ^ 11 - 3) + 0) with 2098.
  set (n := Z.abs v * 2 ^ 1074). set (k := Z.max 0 (Z.log2 n - 52)).
  assert (D : exists q, n = q * 2 ^ k).
  { unfold k, n, small in *. destruct (Z.eq_dec (Z.abs v) 0) as [E|E]; [rewrite E; exists 0; reflexivity|]. rewrite Z.log2_mul_pow2 by lia. set (a := Z.abs v) in *. assert (A : 0 < a <= 2 ^ 53) by lia. clearbody a.
    destruct (Z.eq_dec a (2 ^ 53)) as [->|N].
    - replace (Z.max 0 (1074 + Z.log2 (2 ^ 53) - 52)) with 1075 by (rewrite Z.log2_pow2 by lia; lia). exists (2 ^ 52). rewrite <- !Z.pow_add_r by lia. reflexivity.
    - assert (L : Z.log2 a < 53) by (apply Z.log2_lt_pow2; lia). pose proof (Z.log2_nonneg a). exists (a * 2 ^ (1074 - Z.max 0 (1074 + Z.log2 a - 52))). rewrite <- Z.mul_assoc, <- Z.pow_add_r by lia. do 2 f_equal. lia. }
  destruct D as (q & D). assert (P : 0 < 2 ^ k) by (apply Z.pow_pos_nonneg; lia). replace (rne n (2 ^ k)) with q by (rewrite D; symmetry; apply rne_exact; exact P). rewrite <- D.
  destruct (Z.leb_spec (2 ^ 2098) n) as [L|_]; [|reflexivity]. exfalso. unfold n, small in *. assert (M : Z.abs v * 2 ^ 1074 <= 2 ^ 53 * 2 ^ 1074) by (apply Z.mul_le_mono_nonneg_r; [apply Z.pow_nonneg; lia|lia]).
  rewrite <- Z.pow_add_r in M by lia. assert (2 ^ (53 + 1074) < 2 ^ 2098) by (apply Z.pow_lt_mono_r; lia). lia.
Qed.

Lemma of_int_bits v s n : of_int F64 v = FNum s n -> u64_range (i64_to_f64 v) /\ fdec F64 (i64_to_f64 v) = FNum s n.
Proof.
  intros E. assert (R : repr F64 (of_int F64 v)) by (apply fround_repr; [exact wf_F64|apply Z.mul_nonneg_nonneg; [lia|apply Z.pow_nonneg; lia]]).
  destruct (fdec_fenc F64 _ wf_F64 R) as [A B]. split; [exact B|]. unfold i64_to_f64. rewrite A. exact E.
Qed.
Lemma int_small v : small v -> u64_range (i64_to_f64 v) /\ fdec F64 (i64_to_f64 v) = FNum (v <? 0) (Z.abs v * 2 ^ 1074).
Proof. intros S. apply of_int_bits, of_int_small, S. Qed.

(** a conversion of an integer is whole *)
Lemma int_whole v s n : fdec F64 (i64_to_f64 v) = FNum s n -> n mod 2 ^ 1074 = 0.
Proof.
  intros E. assert (R : repr F64 (of_int F64 v)) by (apply fround_repr; [exact wf_F64|apply Z.mul_nonneg_nonneg; [lia|apply Z.pow_nonneg; lia]]).
  destruct (fdec_fenc F64 _ wf_F64 R) as [A _]. unfold i64_to_f64 in E. rewrite A in E. clear A R.
  destruct (Z_le_gt_dec (Z.abs v) (2 ^ 53)) as [L|L].
  - rewrite of_int_small in E by (unfold small; lia). apply (f_equal (fun v => match v with FNum _ z => z | _ => 0 end)) in E. rewrite <- E. apply Z.mod_mul. apply Z.pow_nonzero; lia.
  - unfold of_int, fround, unit_exp in E. change (sub F64) with 0 in E. change (fbits F64) with 52 in E. cbv zeta in E. set (k := Z.max 0 (Z.log2 (Z.abs v * 2 ^ 1074) - 52)) in E.
    destruct (_ <=? _) in E; [discriminate|]. apply (f_equal (fun v => match v with FNum _ z => z | _ => 0 end)) in E. rewrite <- E.
    assert (K : 1074 <= k). { unfold k. rewrite Z.log2_mul_pow2 by lia. assert (53 <= Z.log2 (Z.abs v)) by (apply Z.log2_le_pow2; lia). lia. }
    replace k with ((k - 1074) + 1074) by lia. rewrite Z.pow_add_r, Z.mul_assoc by lia. apply Z.mod_mul. apply Z.pow_nonzero; lia.
Qed.

Lemma num_inv s n s' n' : FNum s n = FNum s' n' -> s = s' /\ n = n'.
Proof. intros E. split; [exact (f_equal (fun v => match v with FNum b _ => b | _ => true end) E)|exact (f_equal (fun v => match v with FNum _ z => z | _ => 0 end) E)]. Qed.

Lemma means_small v j : small v -> means (json_int v) j -> j = JInt v.
Proof.
  intros S M. destruct (int_small v S) as [U E]. unfold json_int in M. assert (Z1 : 2 ^ 1074 <> 0) by (apply Z.pow_nonzero; lia).
  inversion M as [|?|bits s n i E' W X Y Eb|bits s n E' W Eb| | | |]; subst; rewrite E in E'; apply num_inv in E' as [<- <-].
  - assert (I : i = signed (v <? 0) (Z.abs v)). { rewrite Z.div_mul in Y by exact Z1. apply Y. unfold small in S. lia. } rewrite I. f_equal. unfold signed. destruct (Z.ltb_spec v 0); lia.
  - destruct W. apply Z.mod_mul, Z1.
Qed.
Lemma small_clean v : small v -> clean_number (i64_to_f64 v).
Proof.
  intros S. destruct (int_small v S) as [U E]. split; [exact U|]. exists (v <? 0), (Z.abs v * 2 ^ 1074). split; [exact E|]. intros _. apply Z.mul_lt_mono_pos_r; [apply Z.pow_pos_nonneg; lia|]. unfold small in S. change (2 ^ 63) with 9223372036854775808. change (2 ^ 53) with 9007199254740992 in S. lia.
Qed.
Lemma means_whole v j : means (MNumber (i64_to_f64 v)) j -> exists i, j = JInt i.
Proof. intros M. inversion M as [|?|bits s n i E' W X Y Eb|bits s n E' W Eb| | | |]; subst; [eauto|]. destruct W. eapply int_whole, E'. Qed.
Lemma means_float bits j : clean_float bits -> means (MNumber bits) j -> j = JDouble bits \/ exists i, j = JInt i /\ i64_to_f64 i = bits.
Proof.
  intros [(U & _) N] M. inversion M as [|?|bits' s n i E' W X Y Eb|bits' s n E' W Eb| | | |]; subst; [|left; reflexivity]. right. exists i. split; [reflexivity|]. destruct X as [X|(-> & -> & ->)]; [exact X|]. destruct N.
  exact (fdec_zero F64 bits true wf_F64 U E').
Qed.

(* ------------------------------------------------------------------ *)
(** * Maps *)

Lemma bmap_perm {A} (l : list (name * A)) : NoDup (map fst l) -> Permutation (bmap l) l.
Proof.
  unfold bmap. assert (G : forall acc : smap A, NoDup (map fst l ++ map fst acc) -> Permutation (fold_left (fun m e => sm_insert (fst e) (snd e) m) l acc) (l ++ acc)).
  { induction l as [|[k v] l IH]; intros acc N; [reflexivity|]. cbn [map app fst fold_left snd] in *. inversion N as [|? ? N1 N2]; subst. assert (P : Permutation (sm_insert k v acc) ((k, v) :: acc)) by (apply insert_absent; intros I; apply N1, in_or_app; right; exact I).
    rewrite IH; [rewrite P; symmetry; apply Permutation_middle|]. eapply Permutation_NoDup; [|exact N]. etransitivity; [apply Permutation_middle|]. apply Permutation_app_head. symmetry. apply (Permutation_map fst) in P. exact P. }
  intros N. rewrite G; [rewrite app_nil_r; reflexivity|rewrite app_nil_r; exact N].
Qed.
Lemma set_perm (l : list name) : NoDup l -> Permutation (btree_set l) l.
Proof. intros N. unfold btree_set. assert (E : map fst (map (fun n => (n, tt)) l) = l) by (rewrite map_map; apply map_id). rewrite <- E at 2. apply Permutation_map, bmap_perm. rewrite E. exact N. Qed.

Lemma forall2_perm {A B} (R : A -> B -> Prop) l l' m : Permutation l l' -> Forall2 R l m -> exists m', Permutation m m' /\ Forall2 R l' m'.
Proof.
  intros P. revert m. induction P as [|x l l' P IH|x y l|l l' l'' P1 IH1 P2 IH2]; intros m F.
  - inversion F. exists []. split; constructor.
  - inversion F as [|? b ? m' Rx F']; subst. destruct (IH _ F') as (m'' & P' & F''). exists (b :: m''). split; [constructor; exact P'|constructor; assumption].
  - inversion F as [|? b ? m' Rx F']; subst. inversion F' as [|? c ? m'' Ry F'']; subst. exists (c :: b :: m''). split; [constructor|repeat constructor; assumption].
  - destruct (IH1 _ F) as (m' & P' & F'). destruct (IH2 _ F') as (m'' & P'' & F''). exists m''. split; [etransitivity; eassumption|exact F''].
Qed.

(* ------------------------------------------------------------------ *)
(** * Names *)

Lemma plain_clean n vt : plain_name n -> clean (name_with_suffix n vt).
Proof.
  intros (c & r & -> & Hc & Hr). unfold name_with_suffix.
  assert (G : Forall (fun c => (64 <= c <= 122 /\ c <> 92) \/ 48 <= c <= 57 \/ c = 33 \/ c = 63) (c :: r ++ to_suffix vt)).
  { unfold lower, upper, digit in *. constructor; [lia|]. apply Forall_app. split; [eapply Forall_impl; [|exact Hr]; intros x H; cbn beta in H; lia|]. apply Forall_forall. intros x I. destruct vt; vm_compute in I; lia. }
  exists (c :: r ++ to_suffix vt). cbn [app]. split; [symmetry; apply ascii_bytes; eapply Forall_impl; [|exact G]; intros x H; cbn beta in H; lia|]. eapply Forall_impl; [|exact G]. intros x H. cbn beta in H. split; [left; lia|]. split; [lia|]. split; [lia|]. cbn [line_ends In]. lia.
Qed.
Lemma plain_clean0 n : plain_name n -> clean n.
Proof. intros P. pose proof (plain_clean n Normal P) as H. unfold name_with_suffix in H. cbn in H. rewrite app_nil_r in H. exact H. Qed.
Ltac cln := match goal with |- clean ?t => exists t; split; [vm_compute; reflexivity|];
  let x := fresh in let I := fresh in apply Forall_forall; intros x I; vm_compute in I; split; [left; lia|split; [lia|split; [lia|cbn [line_ends In]; lia]]] end.
Lemma clean_old : clean (txt "Old"). Proof. cln. Qed.
Lemma clean_ref : clean (txt "Ref"). Proof. cln. Qed.
Lemma clean_enum : clean (txt "Enum"). Proof. cln. Qed.

Lemma name_inj n vt n' vt' : plain_name n -> plain_name n' -> name_with_suffix n vt = name_with_suffix n' vt' -> n = n' /\ vt = vt'.
Proof. intros P P' E. pose proof (json_name_written n vt P) as A. rewrite E, (json_name_written n' vt' P') in A. injection A as <- <-. auto. Qed.
Lemma name_not_system n vt x : plain_name n -> name_with_suffix n vt <> system_word x.
Proof. intros P E. pose proof (json_name_written n vt P) as A. rewrite E in A. rewrite (proj2 (json_name_system _ x) eq_refl) in A. discriminate. Qed.
Lemma name_normal n : name_with_suffix n Normal = n.
Proof. unfold name_with_suffix. cbn. apply app_nil_r. Qed.

(* ------------------------------------------------------------------ *)
(** * Parameters *)

Lemma means_arr l j : means (MArray l) j -> exists l', j = JArray l' /\ Forall2 means l l'.
Proof. intros M. inversion M as [| | | |l0 l' F| | |]; subst. exists l'. auto. Qed.
Lemma means_mp m j : means (MMap m) j -> exists m', j = JMap m' /\ Forall2 (fun a b => fst a = fst b /\ means (snd a) (snd b)) m m'.
Proof. intros M. inversion M as [| | | | |m0 m' F| |]; subst. exists m'. auto. Qed.
Lemma means_str s j : means (MString s) j -> j = JString s.
Proof. intros M. inversion M. reflexivity. Qed.
Lemma means_nul j : means MNull j -> j = JNull.
Proof. intros M. inversion M. reflexivity. Qed.
Lemma means_und j : means MUndefined j -> j = JUndefined.
Proof. intros M. inversion M. reflexivity. Qed.
Lemma means_tagged t l j : means (MArray (MString t :: l)) j -> exists l', j = JArray (JString t :: l') /\ Forall2 means l l'.
Proof. intros M. apply means_arr in M as (l' & -> & F). inversion F as [|x y xs ys Mx F']; subst. apply means_str in Mx. subst y. exists ys. auto. Qed.
Lemma means_one v l : Forall2 means [v] l -> exists j, l = [j] /\ means v j.
Proof. intros F. inversion F as [|x y xs ys Mx F']; subst. inversion F'. exists y. auto. Qed.
Lemma means_ints l l' : Forall small l -> Forall2 means (map json_int l) l' -> l' = map JInt l.
Proof.
  intros S. revert l'. induction S as [|v l Sv _ IH]; intros l' F; cbn [map] in F; inversion F as [|x y xs ys Mx F']; subst; [reflexivity|]. cbn [map]. f_equal; [apply means_small; assumption|apply IH, F'].
Qed.

Section Reading.
Variable addr : list Z -> Z.
Variable iter : forall A, hmap A -> hmap A.
Notation arr_of := (arr_of addr iter).
Notation obj_of := (obj_of addr iter).

Lemma arr_S n : arr_of (S n) = json_array_to_rust addr iter (arr_of n) (obj_of n).
Proof. unfold JsonModel.arr_of, JsonModel.obj_of. cbn [convert]. destruct (convert addr iter n). reflexivity. Qed.
Lemma obj_S n : obj_of (S n) = json_obj_to_rust addr iter (arr_of n) (obj_of n).
Proof. unfold JsonModel.arr_of, JsonModel.obj_of. cbn [convert]. destruct (convert addr iter n). reflexivity. Qed.

Lemma ints_read arr t (l : list Z) : t <> AtFloat -> get_array arr (map JInt l) t = Ok (Val (map (fun i => PInt (Val i)) l)).
Proof.
  intros T. assert (E : mmap (array_item arr t) (map JInt l) = Ok (map (fun i => PInt (Val i)) l)).
  { induction l as [|v l IH]; [reflexivity|]. cbn [map mmap]. rewrite IH. destruct t; [congruence| |]; reflexivity. }
  unfold get_array. rewrite E. destruct l as [|v [|w l]]; reflexivity.
Qed.
Lemma to_ints_ok l : to_ints (map (fun i => PInt (Val i)) l) = Some l.
Proof. unfold to_ints. induction l as [|v l IH]; [reflexivity|]. cbn [map map_opt]. rewrite IH. reflexivity. Qed.
Lemma to_u8s_ok l : Forall (fun b => 0 <= b < 256) l -> to_u8s (map (fun i => PInt (Val i)) l) = Some l.
Proof.
  unfold to_u8s. induction 1 as [|v l H _ IH]; [reflexivity|]. cbn [map map_opt]. rewrite IH. destruct (Z.leb_spec 0 v); [|lia]. destruct (Z.ltb_spec v 256); [reflexivity|lia].
Qed.
Lemma to_floats_ok l : to_floats (map (fun f => PFloat (Val f)) l) = Some l.
Proof. unfold to_floats. induction l as [|v l IH]; [reflexivity|]. cbn [map map_opt]. rewrite IH. reflexivity. Qed.

Lemma float_read arr obj f vt j : clean_float f -> means (json_float f) j -> exists a, j = JArray a /\ json_array_to_rust addr iter arr obj a vt = Ok (VaParam (PFloat (Val f)) vt).
Proof.
  intros C M. apply means_tagged in M as (l' & -> & F). apply means_one in F as (y & -> & M). eexists. split; [reflexivity|]. destruct (means_float f y C M) as [-> | (i & -> & <-)]; reflexivity.
Qed.
Lemma floats_read arr obj l l' : Forall clean_float l -> Forall2 means (map json_float l) l' -> get_array (json_array_to_rust addr iter arr obj) l' AtFloat = Ok (Val (map (fun f => PFloat (Val f)) l)).
Proof.
  intros C F. assert (E : mmap (array_item (json_array_to_rust addr iter arr obj) AtFloat) l' = Ok (map (fun f => PFloat (Val f)) l)).
  { revert l' F. induction C as [|v l Cv _ IH]; intros l' F; cbn [map] in F; inversion F as [|x y xs ys Mx F']; subst; [reflexivity|]. cbn [map mmap]. destruct (float_read arr obj v Normal y Cv Mx) as (a & -> & E).
    cbn [array_item]. rewrite E. cbn [bind]. rewrite (IH _ F'). reflexivity. }
  unfold get_array. rewrite E. destruct l as [|v l]; cbn [map] in F; inversion F as [|x y xs ys Mx F']; subst; [reflexivity|]. apply means_tagged in Mx as (a & -> & _). destruct ys; reflexivity.
Qed.

Lemma param_read n p vt j : printable_param p -> means (get_param p) j -> (jdepth j <= n)%nat ->
  exists p', json_item_to_rust addr (arr_of n) vt j = Ok (VaParam p' vt) /\ same_param p p'.
Proof.
  intros P M D.
  assert (Q : forall (t : string) (x y : mval) (jj : jval), means (MArray [MString (txt t); x]) j -> (x = MNull /\ jj = JNull) \/ (x = MUndefined /\ jj = JUndefined) -> j = JArray [JString (txt t); jj] /\ exists n', n = S n').
  { intros t x y jj M' X. apply means_tagged in M' as (l' & -> & F). apply means_one in F as (z & -> & Mz). destruct n as [|n']; [cbn in D; lia|]. split; [|eauto]. destruct X as [[-> ->]|[-> ->]]; [apply means_nul in Mz|apply means_und in Mz]; subst z; reflexivity. }
  destruct p as [q|q|q|q|q|q|q]; cbn [get_param printable_param] in *.
  - destruct q as [b| |]; cbn [to_json] in M.
    + inversion M; subst. exists (PBool (Val b)). split; reflexivity.
    + destruct (Q _ _ MNull JUndefined M (or_intror (conj eq_refl eq_refl))) as (-> & n' & ->). exists (PBool Undefined). cbn [json_item_to_rust]. rewrite arr_S. split; reflexivity.
    + destruct (Q _ _ MNull JNull M (or_introl (conj eq_refl eq_refl))) as (-> & n' & ->). exists (PBool Null). cbn [json_item_to_rust]. rewrite arr_S. split; reflexivity.
  - destruct q as [f| |]; cbn [to_json on_val] in *.
    + destruct n as [|n]; [apply means_tagged in M as (l' & -> & _); cbn in D; lia|]. destruct (float_read (arr_of n) (obj_of n) f vt j P M) as (a & -> & E). exists (PFloat (Val f)). cbn [json_item_to_rust]. rewrite arr_S. split; [exact E|reflexivity].
    + destruct (Q _ _ MNull JUndefined M (or_intror (conj eq_refl eq_refl))) as (-> & n' & ->). exists (PFloat Undefined). cbn [json_item_to_rust]. rewrite arr_S. split; reflexivity.
    + destruct (Q _ _ MNull JNull M (or_introl (conj eq_refl eq_refl))) as (-> & n' & ->). exists (PFloat Null). cbn [json_item_to_rust]. rewrite arr_S. split; reflexivity.
  - destruct q as [v| |]; cbn [to_json on_val] in *.
    + rewrite (means_small v j P M). exists (PInt (Val v)). split; reflexivity.
    + destruct (Q _ _ MNull JUndefined M (or_intror (conj eq_refl eq_refl))) as (-> & n' & ->). exists (PInt Undefined). cbn [json_item_to_rust]. rewrite arr_S. split; reflexivity.
    + destruct (Q _ _ MNull JNull M (or_introl (conj eq_refl eq_refl))) as (-> & n' & ->). exists (PInt Null). cbn [json_item_to_rust]. rewrite arr_S. split; reflexivity.
  - destruct q as [[a s]| |]; cbn [to_json on_val snd] in *.
    + apply means_str in M. subst j. exists (PString (Val (new_arc addr s))). split; reflexivity.
    + destruct (Q _ _ MNull JUndefined M (or_intror (conj eq_refl eq_refl))) as (-> & n' & ->). exists (PString Undefined). cbn [json_item_to_rust]. rewrite arr_S. split; reflexivity.
    + destruct (Q _ _ MNull JNull M (or_introl (conj eq_refl eq_refl))) as (-> & n' & ->). exists (PString Null). cbn [json_item_to_rust]. rewrite arr_S. split; reflexivity.
  - destruct q as [[a l]| |]; cbn [rust_array_to_json on_val snd content] in *.
    + destruct n as [|n]; [apply means_arr in M as (l' & -> & _); cbn in D; lia|]. exists (PIntArray (Val (new_arc addr l))). destruct l as [|v l].
      * apply means_tagged in M as (l' & -> & F). inversion F. subst. cbn [json_item_to_rust]. rewrite arr_S. split; reflexivity.
      * apply means_arr in M as (l' & -> & F). cbn [app] in F. change (json_int v :: map json_int l) with (map json_int (v :: l)) in F. apply means_ints in F; [|exact P]. subst l'. cbn [json_item_to_rust]. rewrite arr_S.
        unfold json_array_to_rust. change (get_array_type (map JInt (v :: l))) with GNoTagInt. rewrite ints_read by discriminate. cbn [bind to_param opt_map]. rewrite to_ints_ok. split; reflexivity.
    + destruct (Q _ _ MNull JUndefined M (or_intror (conj eq_refl eq_refl))) as (-> & n' & ->). exists (PIntArray Undefined). cbn [json_item_to_rust]. rewrite arr_S. split; reflexivity.
    + destruct (Q _ _ MNull JNull M (or_introl (conj eq_refl eq_refl))) as (-> & n' & ->). exists (PIntArray Null). cbn [json_item_to_rust]. rewrite arr_S. split; reflexivity.
  - destruct q as [l| |]; cbn [rust_array_to_json on_val snd content] in *.
    + apply means_tagged in M as (l' & -> & F). destruct n as [|[|n]]; [cbn in D; lia| |].
      * destruct l as [|v l]; [inversion F; subst|exfalso; cbn [map] in F; inversion F as [|x y xs ys Mx F']; subst; apply means_tagged in Mx as (l' & -> & _); unfold list_max in D; cbn [jdepth map list_max fold_right] in D; lia]. exists (PFloatArray (Val [])). split; reflexivity.
      * exists (PFloatArray (Val l)). cbn [json_item_to_rust]. rewrite arr_S. unfold json_array_to_rust at 1. change (get_array_type (JString (txt "FloatArray") :: l')) with (GAT AtFloat). cbn [tl]. rewrite arr_S, (floats_read _ _ l l' P F). cbn [bind to_param opt_map]. rewrite to_floats_ok. split; reflexivity.
    + destruct (Q _ _ MNull JUndefined M (or_intror (conj eq_refl eq_refl))) as (-> & n' & ->). exists (PFloatArray Undefined). cbn [json_item_to_rust]. rewrite arr_S. split; reflexivity.
    + destruct (Q _ _ MNull JNull M (or_introl (conj eq_refl eq_refl))) as (-> & n' & ->). exists (PFloatArray Null). cbn [json_item_to_rust]. rewrite arr_S. split; reflexivity.
  - destruct q as [[a l]| |]; cbn [rust_array_to_json on_val snd content] in *.
    + apply means_tagged in M as (l' & -> & F). destruct n as [|n]; [cbn in D; lia|]. exists (PBinary (Val (new_arc addr l))). cbn [app] in F. apply means_ints in F; [|eapply Forall_impl; [|exact P]; unfold small; change (2 ^ 53) with 9007199254740992; intros b H; cbn beta in *; lia]. subst l'. cbn [json_item_to_rust]. rewrite arr_S.
      unfold json_array_to_rust. change (get_array_type (JString (txt "Binary") :: map JInt l)) with (GAT AtBinary). cbn [tl]. rewrite ints_read by discriminate. cbn [bind to_param opt_map]. rewrite to_u8s_ok by exact P. split; reflexivity.
    + destruct (Q _ _ MNull JUndefined M (or_intror (conj eq_refl eq_refl))) as (-> & n' & ->). exists (PBinary Undefined). cbn [json_item_to_rust]. rewrite arr_S. split; reflexivity.
    + destruct (Q _ _ MNull JNull M (or_introl (conj eq_refl eq_refl))) as (-> & n' & ->). exists (PBinary Null). cbn [json_item_to_rust]. rewrite arr_S. split; reflexivity.
Qed.

(* ------------------------------------------------------------------ *)
(** * Objects *)

Inductive entry : Type :=
| EName (nm : name) (vt : var_type) (j : jval) (v : rvalue)
| EOld (a : list jval) (l : list name)
| ERefs (b : bool) (m : list (name * jval)) (refs : tmp_refs).
Definition entry_kv (e : entry) : name * jval :=
  match e with
  | EName nm vt j _ => (name_with_suffix nm vt, j)
  | EOld a _ => (txt "Old", JArray a)
  | ERefs b m _ => (if b then txt "Enum" else txt "Ref", JMap m)
  end.
Definition entry_ok arr obj (is_ref : bool) (e : entry) : Prop :=
  match e with
  | EName nm vt j v => plain_name nm /\ (if is_ref then json_item_to_rust_ref addr vt j else json_item_to_rust addr arr vt j) = Ok v
  | EOld a l => get_old a = Ok l
  | ERefs _ m refs => get_ref iter obj m = Ok refs
  end.
Definition names_of (e : entry) : list (name * rvalue) := match e with EName nm _ _ v => [(nm, v)] | _ => [] end.
Definition olds_of (e : entry) : list (list name) := match e with EOld _ l => [l] | _ => [] end.
Definition refs_of (e : entry) : list tmp_refs := match e with ERefs b _ r => [TmpRefs (tr_map r) (tr_old r) (b || tr_enum r)] | _ => [] end.
Definition values_of (d : hmap (Z * rvalue)) : list (name * rvalue) := map (fun e => (fst e, snd (snd e))) d.

Lemma last_cons {A} (a : A) l d : last (a :: l) d = last l a.
Proof. revert a d. induction l as [|b l IH]; intros a d; [reflexivity|]. change (last (a :: b :: l) d) with (last (b :: l) d). rewrite (IH b d), (IH b a). reflexivity. Qed.
Lemma values_keys d : map fst (values_of d) = map fst d.
Proof. unfold values_of. rewrite map_map. reflexivity. Qed.

Lemma obj_fold arr obj is_ref es : forall r c, Forall (entry_ok arr obj is_ref) es -> NoDup (map fst (to_default r) ++ map fst (flat_map names_of es)) ->
  (length (flat_map refs_of es) <= 1)%nat -> flat_map refs_of es = [] \/ tr_map (to_refs r) = [] ->
  exists r' c', mfold (obj_step addr iter arr obj is_ref) (map entry_kv es) (r, c) = Ok (r', c') /\
    values_of (to_default r') = values_of (to_default r) ++ flat_map names_of es /\ to_id r' = to_id r /\
    to_refs r' = last (flat_map refs_of es) (to_refs r) /\ to_old r' = last (flat_map olds_of es) (to_old r).
Proof.
  induction es as [|e es IH]; intros r c F N L R.
  - exists r, c. cbn [flat_map]. rewrite app_nil_r. repeat split; reflexivity.
  - inversion F as [|? ? He F']; subst. cbn [map mfold flat_map] in *. destruct e as [nm vt j v|a l|b m refs]; cbn [entry_ok entry_kv names_of olds_of refs_of app] in *.
    + destruct He as [P E]. cbn [map fst] in N. assert (Fr : ~ In nm (map fst (to_default r))). { intros I. apply NoDup_remove_2 in N. apply N, in_or_app. left. exact I. }
      set (r1 := TmpObj (hset nm (c, v) (to_default r)) (to_id r) (to_refs r) (to_old r)).
      assert (S : obj_step addr iter arr obj is_ref (r, c) (name_with_suffix nm vt, j) = Ok (r1, c + 1)). { unfold obj_step. rewrite json_name_written by exact P. rewrite E. reflexivity. }
      rewrite S. cbn [bind]. assert (D1 : to_default r1 = to_default r ++ [(nm, (c, v))]) by (apply hset_fresh; exact Fr).
      destruct (IH r1 (c + 1)) as (r' & c' & E' & V & I & Rf & O); [exact F'| |exact L|exact R|].
      { rewrite D1, map_app. cbn [map fst]. rewrite <- app_assoc. exact N. }
      exists r', c'. split; [exact E'|]. split; [|split; [exact I|split; [exact Rf|exact O]]]. rewrite V, D1. unfold values_of. rewrite map_app, <- app_assoc. reflexivity.
    + set (r1 := TmpObj (to_default r) (to_id r) (to_refs r) l).
      assert (S : obj_step addr iter arr obj is_ref (r, c) (txt "Old", JArray a) = Ok (r1, c)). { unfold obj_step. change (json_name (txt "Old")) with (Some (NSystem SOld)). cbv iota. rewrite He. reflexivity. }
      rewrite S. cbn [bind]. destruct (IH r1 c F' N L R) as (r' & c' & E' & V & I & Rf & O). exists r', c'. split; [exact E'|]. split; [exact V|]. split; [exact I|]. split; [exact Rf|]. rewrite O, last_cons. reflexivity.
    + destruct R as [R|R]; [discriminate|]. set (r1 := TmpObj (to_default r) (to_id r) (TmpRefs (tr_map refs) (tr_old refs) (b || tr_enum refs)) (to_old r)).
      assert (S : obj_step addr iter arr obj is_ref (r, c) (if b then txt "Enum" else txt "Ref", JMap m) = Ok (r1, c)).
      { unfold obj_step. destruct b; [change (json_name (txt "Enum")) with (Some (NSystem SEnum))|change (json_name (txt "Ref")) with (Some (NSystem SRef))]; cbv iota; rewrite R; cbn [is_nil negb]; rewrite He; reflexivity. }
      rewrite S. cbn [bind]. cbn [length] in L. assert (Nr : flat_map refs_of es = []) by (destruct (flat_map refs_of es); [reflexivity|cbn in L; lia]).
      destruct (IH r1 c F' N) as (r' & c' & E' & V & I & Rf & O); [rewrite Nr; cbn; lia|left; exact Nr|]. exists r', c'. split; [exact E'|]. split; [exact V|]. split; [exact I|]. split; [rewrite Rf, Nr; reflexivity|exact O].
Qed.

Lemma obj_read n is_ref es : Forall (entry_ok (arr_of n) (obj_of n) is_ref) es -> NoDup (map fst (flat_map names_of es)) -> (length (flat_map refs_of es) <= 1)%nat ->
  exists o, obj_of (S n) (map entry_kv es) is_ref = Ok o /\ values_of (to_default o) = flat_map names_of es /\ to_id o = None /\
    to_refs o = last (flat_map refs_of es) (TmpRefs [] [] false) /\ to_old o = last (flat_map olds_of es) [].
Proof.
  intros F N L. destruct (obj_fold (arr_of n) (obj_of n) is_ref es new_tmp_obj 0 F N L (or_intror eq_refl)) as (r & c & E & V & I & R & O).
  exists r. split; [|split; [exact V|split; [exact I|split; [exact R|exact O]]]]. rewrite obj_S. unfold json_obj_to_rust. rewrite E. reflexivity.
Qed.

(* ------------------------------------------------------------------ *)
(** * The same members, in another order *)

Definition mirror {A B} (R : A -> B -> Prop) (l : list (name * A)) (l' : list (name * B)) : Prop :=
  exists l2, Permutation l' l2 /\ Forall2 (fun a b => fst a = fst b /\ R (snd a) (snd b)) l l2.
Lemma mirror_of {A B} (R : A -> B -> Prop) l l' : Forall2 (fun a b => fst a = fst b /\ R (snd a) (snd b)) l l' -> mirror R l l'.
Proof. intros F. exists l'. split; [reflexivity|exact F]. Qed.
Lemma mirror_perm {A B} (R : A -> B -> Prop) l l' l2 : mirror R l l' -> Permutation l' l2 -> mirror R l l2.
Proof. intros (l3 & P & F) P2. exists l3. split; [rewrite <- P2; exact P|exact F]. Qed.
Lemma forall2_comp {A B C} (R : A -> B -> Prop) (S : B -> C -> Prop) l : forall m n, Forall2 R l m -> Forall2 S m n -> Forall2 (fun a c => exists b, R a b /\ S b c) l n.
Proof. induction l as [|a l IH]; intros m n F G; inversion F as [|? b ? m' Rb F']; subst; inversion G as [|? c ? n' Sc G']; subst; [constructor|]. constructor; [exists b; auto|eapply IH; eassumption]. Qed.
Lemma forall2_weaken {A B} (R S : A -> B -> Prop) l m : (forall a b, R a b -> S a b) -> Forall2 R l m -> Forall2 S l m.
Proof. intros H. induction 1; constructor; auto. Qed.
Lemma mirror_trans {A B C} (R : A -> B -> Prop) (S : B -> C -> Prop) l m n : mirror R l m -> mirror S m n -> mirror (fun a c => exists b, R a b /\ S b c) l n.
Proof.
  intros (m2 & P & F) (n2 & Q & G). destruct (forall2_perm _ _ _ _ P G) as (n3 & P3 & G3). exists n3. split; [rewrite Q; exact P3|].
  eapply forall2_weaken; [|eapply forall2_comp; [exact F|exact G3]]. intros a c (b & [E1 R1] & E2 & S1). split; [congruence|eauto].
Qed.
Lemma mirror_weaken {A B} (R S : A -> B -> Prop) l l' : (forall a b, R a b -> S a b) -> mirror R l l' -> mirror S l l'.
Proof. intros H (l2 & P & F). exists l2. split; [exact P|]. eapply forall2_weaken; [|exact F]. intros a b [E X]. auto. Qed.
Lemma mirror_keys {A B} (R : A -> B -> Prop) l l' : mirror R l l' -> Permutation (map fst l') (map fst l).
Proof. intros (l2 & P & F). rewrite P. clear P. induction F as [|a b l l2 [E _] _ IH]; [reflexivity|]. cbn [map]. rewrite E, IH. reflexivity. Qed.
Lemma mirror_hget {A B} (R : A -> B -> Prop) l l' k : NoDup (map fst l) -> mirror R l l' ->
  match hget k l, hget k l' with Some a, Some b => R a b | None, None => True | _, _ => False end.
Proof.
  intros N M. pose proof (mirror_keys _ _ _ M) as K. assert (N' : NoDup (map fst l')) by (eapply Permutation_NoDup; [symmetry; exact K|exact N]). destruct M as (l2 & P & F).
  rewrite (hget_perm k l' l2 P N'). clear P K N'. induction F as [|[k1 a] [k2 b] l l2 [E X] _ IH]; [exact Logic.I|]. cbn [fst snd] in *. subst k2. cbn [hget]. destruct (eqb_bytes k1 k); [exact X|]. apply IH. inversion N; assumption.
Qed.
Lemma mirror_in {A B} (R : A -> B -> Prop) l l' k b : mirror R l l' -> In (k, b) l' -> exists a, In (k, a) l /\ R a b.
Proof.
  intros (l2 & P & F) I. apply (Permutation_in _ P) in I. clear P. induction F as [|[k1 x] [k2 y] l l2 [E X] _ IH]; [destruct I|]. cbn [fst snd] in *. subst k2. destruct I as [I|I]; [injection I as <- <-; exists x; split; [left; reflexivity|exact X]|].
  destruct (IH I) as (a & I' & Ra). exists a. split; [right; exact I'|exact Ra].
Qed.

(** numbering anew *)
Lemma renumber_from {A B} (f : A -> res B) (l : list (name * A)) : forall (acc : hmap (Z * B)) i, NoDup (map fst acc ++ map fst l) -> (forall k a, In (k, a) l -> exists b, f a = Ok b) ->
  exists r, mfold (fun r e => let '(idx, (k, a)) := e in b <- f a ; Ok (hset k (idx, b) r)) (enumerate_from i l) acc = Ok (acc ++ r) /\
    Forall2 (fun a b => fst a = fst b /\ f (snd a) = Ok (snd (snd b))) l r.
Proof.
  induction l as [|[k a] l IH]; intros acc i N H; cbn [enumerate_from mfold]; [exists []; rewrite app_nil_r; split; [reflexivity|constructor]|].
  destruct (H k a (or_introl eq_refl)) as (b & E). rewrite E. cbn [bind]. cbn [map fst] in N.
  assert (Fr : ~ In k (map fst acc)) by (intros I; apply NoDup_remove_2 in N; apply N, in_or_app; left; exact I). rewrite hset_fresh by exact Fr.
  destruct (IH (acc ++ [(k, (i, b))]) (i + 1)) as (r & E' & F).
  { rewrite map_app. cbn [map fst]. rewrite <- app_assoc. exact N. }
  { intros k' a' I. apply (H k' a'). right. exact I. }
  exists ((k, (i, b)) :: r). rewrite E', <- app_assoc. split; [reflexivity|]. constructor; [split; [reflexivity|exact E]|exact F].
Qed.
Lemma renumber {A B} (f : A -> res B) (l : list (name * A)) : NoDup (map fst l) -> (forall k a, In (k, a) l -> exists b, f a = Ok b) ->
  exists r, mfold (fun r e => let '(idx, (k, a)) := e in b <- f a ; Ok (hset k (idx, b) r)) (enumerate l) [] = Ok r /\
    mirror (fun a b => f a = Ok (snd b)) l r.
Proof. intros N H. destruct (renumber_from f l [] 0 N H) as (r & E & F). exists r. split; [exact E|apply mirror_of, F]. Qed.

Lemma get_old_ok l : NoDup l -> Forall plain_name l -> get_old (map JString l) = Ok l.
Proof.
  unfold get_old. assert (G : forall acc, NoDup (acc ++ l) -> Forall plain_name l -> mfold (fun result item => match item with JString s => match json_name s with Some (NName nm Normal) => Ok (sinsert nm result) | _ => Err end | _ => Err end) (map JString l) acc = Ok (acc ++ l)).
  { induction l as [|s l IH]; intros acc N P; cbn [map mfold]; [rewrite app_nil_r; reflexivity|]. inversion P as [|? ? Ps P']; subst. pose proof (json_name_written s Normal Ps) as J. rewrite name_normal in J. rewrite J. cbn [bind].
    assert (X : sinsert s acc = acc ++ [s]). { unfold sinsert. destruct (existsb (eqb_bytes s) acc) eqn:E; [|reflexivity]. apply existsb_exists in E as (y & I & E). apply eqb_bytes_eq in E. subst y. exfalso. apply NoDup_remove_2 in N. apply N, in_or_app. left. exact I. }
    rewrite X, IH; [rewrite <- app_assoc; reflexivity|rewrite <- app_assoc; exact N|exact P']. }
  intros N P. apply (G [] N P).
Qed.
Lemma old_read l j : proper_names l -> means (string_set_to_json_short l) j -> exists a l', j = JArray a /\ get_old a = Ok l' /\ forall n, In n l' <-> In n l.
Proof.
  intros [N P] M. pose proof (set_perm l N) as S. unfold string_set_to_json_short in M. apply means_arr in M as (a & -> & F). exists a, (btree_set l). split; [reflexivity|]. split.
  - assert (E : a = map JString (btree_set l)). { clear -F. revert a F. induction (btree_set l) as [|s r IH]; intros a F; cbn [map] in F; inversion F as [|x y xs ys Mx F']; subst; [reflexivity|]. cbn [map]. f_equal; [apply means_str, Mx|apply IH, F']. }
    rewrite E. apply get_old_ok; [eapply Permutation_NoDup; [symmetry; exact S|exact N]|]. eapply Permutation_Forall; [symmetry; exact S|exact P].
  - intros n. split; apply Permutation_in; [exact S|symmetry; exact S].
Qed.

(* ------------------------------------------------------------------ *)
(** * Definitions *)

Hypothesis It : iterates iter.

Lemma iter_mirror {A} (m : hmap A) : mirror eq m (iter A m).
Proof. exists m. split; [apply It|]. induction m as [|a m IH]; constructor; auto. Qed.
Lemma values_mirror (d : hmap (Z * rvalue)) : mirror (fun v e => v = snd e) (values_of d) d.
Proof. apply mirror_of. unfold values_of. induction d as [|a m IH]; constructor; auto. Qed.

(** a printed map and where its parts come from, in any order *)
Lemma entries_of {S} (f : S -> name * mval) (src : list S) (printed : list (name * mval)) (m : list (name * jval)) (Q : S -> entry -> Prop) :
  Permutation printed (map f src) -> Forall2 (fun a b => fst a = fst b /\ means (snd a) (snd b)) printed m ->
  (forall s j, In s src -> In (fst (f s), j) m -> means (snd (f s)) j -> exists e, entry_kv e = (fst (f s), j) /\ Q s e) ->
  exists es es', m = map entry_kv es' /\ Permutation es es' /\ Forall2 Q src es.
Proof.
  intros P F H. destruct (forall2_perm _ _ _ _ P F) as (m' & Pm & F').
  assert (X : exists es, m' = map entry_kv es /\ Forall2 Q src es).
  { assert (H' : forall s j, In s src -> In (fst (f s), j) m' -> means (snd (f s)) j -> exists e, entry_kv e = (fst (f s), j) /\ Q s e) by (intros s j I1 I2; apply H; [exact I1|eapply Permutation_in; [symmetry; exact Pm|exact I2]]).
    clear -F' H'. revert m' F' H'. induction src as [|s src IH]; intros m' F' H'; cbn [map] in F'; inversion F' as [|? [k' j] ? m2 [E M] F2]; subst; [exists []; split; [reflexivity|constructor]|]. cbn [fst snd] in *. subst k'.
    destruct (H' s j) as (e & Ee & Qe); [left; reflexivity|left; reflexivity|exact M|].
    destruct (IH m2 F2) as (es & -> & Fe); [intros s0 j0 I1 I2; apply H'; right; assumption|]. exists (e :: es). split; [cbn [map]; rewrite Ee; reflexivity|constructor; assumption]. }
  destruct X as (es & -> & Fe). destruct (Permutation_map_inv entry_kv es Pm) as (es' & E & P'). exists es, es'. split; [exact E|]. split; [exact P'|exact Fe].
Qed.

(** references *)
Lemma ref_keys (refs : hmap (Z * (qv (list Z) * var_type))) : proper_names (map fst refs) ->
  NoDup (map fst (map (fun e : name * (Z * (qv (list Z) * var_type)) => let '(key, (_, (q, vt))) := e in reconstruct_ref_value key q vt) refs)).
Proof.
  intros [N P]. induction refs as [|[k [i [q vt]]] refs IH]; [constructor|]. cbn [map fst] in *. inversion N as [|? ? N1 N2]; subst. inversion P as [|? ? P1 P2]; subst. constructor; [|apply IH; assumption].
  intros I. apply in_map_iff in I as ([k' x] & E & I). apply in_map_iff in I as ([k2 [i2 [q2 vt2]]] & E2 & I). unfold reconstruct_ref_value in *. cbn [fst] in E. injection E2 as <- <-.
  apply N1. apply in_map_iff. exists (k2, (i2, (q2, vt2))). split; [|exact I]. cbn [fst]. apply (name_inj k2 vt2 k vt); [|exact P1|exact E]. rewrite Forall_forall in P2. apply P2, in_map_iff. exists (k2, (i2, (q2, vt2))). auto.
Qed.

Lemma refs_read n refs m : proper_names (map fst refs) -> (forall key id q vt, In (key, (id, (q, vt))) refs -> on_val (fun s => plain_name s \/ s = []) q) ->
  Forall2 (fun a b => fst a = fst b /\ means (snd a) (snd b)) (ref_def_obj_to_json refs) m ->
  exists refs', get_ref iter (obj_of (S n)) m = Ok (TmpRefs refs' [] false) /\ mirror (fun a b => snd b = snd a) refs refs'.
Proof.
  intros Pn Hq F. unfold ref_def_obj_to_json in F. pose proof (bmap_perm _ (ref_keys refs Pn)) as P.
  destruct (entries_of (fun e : name * (Z * (qv (list Z) * var_type)) => let '(key, (_, (q, vt))) := e in reconstruct_ref_value key q vt) refs _ m
     (fun s e => exists j q', e = EName (fst s) (snd (snd (snd s))) j (VaParam (PString q') (snd (snd (snd s)))) /\ plain_name (fst s) /\
        json_item_to_rust_ref addr (snd (snd (snd s))) j = Ok (VaParam (PString q') (snd (snd (snd s)))) /\ ref_text q' = fst (snd (snd s))) P F) as (es & es' & -> & Pe & Fe).
  { intros [key [id [q vt]]] j I _ M. cbn [fst snd]. unfold reconstruct_ref_value in *. cbn [fst snd] in *.
    assert (Pk : plain_name key). { destruct Pn as [_ Pn]. rewrite Forall_forall in Pn. apply Pn, in_map_iff. exists (key, (id, (q, vt))). auto. }
    destruct q as [s| |].
    - apply means_str in M. subst j. exists (EName key vt (JString s) (VaParam (PString (Val (new_arc addr s))) vt)). split; [reflexivity|]. do 2 eexists. split; [reflexivity|]. split; [exact Pk|]. split; reflexivity.
    - apply means_und in M. subst j. exists (EName key vt JUndefined (VaParam (PString Undefined) vt)). split; [reflexivity|]. do 2 eexists. split; [reflexivity|]. split; [exact Pk|]. split; reflexivity.
    - apply means_nul in M. subst j. exists (EName key vt JNull (VaParam (PString Null) vt)). split; [reflexivity|]. do 2 eexists. split; [reflexivity|]. split; [exact Pk|]. split; reflexivity. }
  assert (X : Forall2 (fun a b => fst a = fst b /\ exists q', snd b = VaParam (PString q') (snd (snd (snd a))) /\ ref_text q' = fst (snd (snd a))) refs (flat_map names_of es)).
  { clear -Fe. induction Fe as [|a e l es (j & q' & -> & _ & _ & E) _ IH]; [constructor|]. cbn [flat_map names_of app]. constructor; [|exact IH]. split; [reflexivity|]. exists q'. split; [reflexivity|exact E]. }
  assert (M1 : mirror (fun a v => exists q', v = VaParam (PString q') (snd (snd a)) /\ ref_text q' = fst (snd a)) refs (flat_map names_of es')).
  { eapply mirror_perm; [apply mirror_of, X|]. apply Permutation_flat_map, Pe. }
  assert (N1 : NoDup (map fst (flat_map names_of es'))) by (eapply Permutation_NoDup; [symmetry; apply (mirror_keys _ _ _ M1)|apply Pn]).
  assert (R0 : flat_map refs_of es' = [] /\ flat_map olds_of es' = []).
  { assert (Fe' : Forall (fun e => refs_of e = [] /\ olds_of e = []) es'). { eapply Permutation_Forall; [exact Pe|]. clear -Fe. induction Fe as [|a e l es (? & ? & -> & _) _ IH]; constructor; auto. }
    clear -Fe'. induction Fe' as [|e es [A B] _ [IA IB]]; [auto|]. cbn [flat_map]. rewrite A, B, IA, IB. auto. }
  destruct R0 as [R0 O0].
  destruct (obj_read n true es') as (o & Eo & V & Ni & Rf & O); [| exact N1|rewrite R0; cbn; lia|].
  { eapply Permutation_Forall; [exact Pe|]. clear -Fe. induction Fe as [|a e l es (? & ? & -> & Pk & E & _) _ IH]; constructor; [split; assumption|exact IH]. }
  rewrite R0 in Rf. rewrite O0 in O. cbn [last] in Rf, O. unfold get_ref. rewrite Eo. cbn [bind]. rewrite Rf, Ni. cbn [tr_map is_nil negb orb is_some].
  assert (M2 : mirror (fun a b => exists q', snd b = VaParam (PString q') (snd (snd a)) /\ ref_text q' = fst (snd a)) refs (iter _ (to_default o))).
  { eapply mirror_weaken; [|eapply mirror_trans; [eapply mirror_trans; [exact M1|rewrite <- V; apply values_mirror]|apply iter_mirror]]. intros a b (c & (v & (q' & -> & Q) & E) & ->). exists q'. split; [symmetry; exact E|exact Q]. }
  destruct (renumber (fun x : Z * rvalue => match snd x with VaParam (PString q) vt => match q with Val s => if negb (is_some (json_simple_name (snd s))) && negb (is_nil (snd s)) then Err else Ok (ref_text q, vt) | _ => Ok (ref_text q, vt) end | _ => Err end) (iter _ (to_default o))) as (r & Er & Mr).
  { eapply Permutation_NoDup; [symmetry; apply (mirror_keys _ _ _ M2)|apply Pn]. }
  { intros k a I. destruct (mirror_in _ _ _ _ _ M2 I) as ([id [q vt]] & I' & q' & -> & Eq). cbn [fst snd] in *. specialize (Hq _ _ _ _ I'). destruct q' as [[x s]| |]; [|eauto|eauto]. cbn [ref_text snd] in *. subst q. cbn [on_val] in Hq.
    destruct Hq as [Hs| ->]; [|cbn [is_nil negb]; rewrite Bool.andb_false_r; eauto]. replace (json_simple_name s) with (Some s) by (symmetry; apply simple_name_spec; auto). cbn [is_some negb andb]. eauto. }
  assert (Ef : mfold (fun result e => let '(idx, (k, (_, v))) := e in
                   match v with
                   | VaParam (PString q) vt =>
                       match q with
                       | Val s =>
                           if negb (is_some (json_simple_name (snd s))) && negb (is_nil (snd s)) then Err
                           else Ok (hset k (idx, (ref_text q, vt)) result)
                       | _ => Ok (hset k (idx, (ref_text q, vt)) result)
                       end
                   | _ => Err
                   end) (enumerate (iter _ (to_default o))) [] = Ok r).
  { rewrite <- Er. apply mfold_ext. intros a [idx [k [i v]]] _. cbn [snd]. destruct v as [[| | |[s| |]| | |] vt| | | | | | |]; try reflexivity. cbn [snd]. destruct (negb _ && negb _); reflexivity. }
  rewrite Ef. cbn [bind]. rewrite O. exists r. split; [reflexivity|]. eapply mirror_weaken; [|eapply mirror_trans; [exact M2|exact Mr]].
  intros [i [q vt]] [i' b] ([i2 v] & (q' & E & Eq) & E2). cbn [fst snd] in *. subst v q. destruct q' as [s| |]; [destruct (_ && _) in E2; [discriminate|]| |]; apply Ok_inj in E2; subst b; reflexivity.
Qed.

(** the parts of a printed definition *)
Definition vt_of_member (v : ldefval def) : var_type := match v with DParam _ vt => vt | DCil _ => Normal | DMil _ u => if u then Undefiable else Normal end.
Definition json_of_member (v : ldefval def) : mval :=
  match v with
  | DParam p _ => get_param p
  | DCil d => MArray [MString (txt "CilDef"); MArray [default_to_json d]]
  | DMil d _ => MArray [MString (txt "MilDef"); MArray [default_to_json d]]
  end.
Definition member_printed (e : name * (Z * ldefval def)) : name * mval := (name_with_suffix (fst e) (vt_of_member (snd (snd e))), json_of_member (snd (snd e))).
Definition def_part (l : ldef def) (s : (name * (Z * ldefval def)) + bool) : name * mval :=
  match s with
  | inl e => member_printed e
  | inr true => (txt "Old", string_set_to_json_short (ld_old l))
  | inr false => (if ld_enum l then txt "Enum" else txt "Ref", MMap (ref_def_obj_to_json (ld_refs l)))
  end.
Definition def_source (l : ldef def) : list ((name * (Z * ldefval def)) + bool) :=
  match ld_old l with [] => [] | _ => [inr true] end ++ match ld_refs l with [] => [] | _ => [inr false] end ++ map inl (ld_members l).

Lemma member_keys (members : hmap (Z * ldefval def)) : proper_names (map fst members) -> NoDup (map fst (map member_printed members)) /\
  forall x, ~ In (system_word x) (map fst (map member_printed members)).
Proof.
  intros [N P]. split.
  - induction members as [|[k [i v]] l IH]; [constructor|]. cbn [map fst] in *. inversion N as [|? ? N1 N2]; subst. inversion P as [|? ? P1 P2]; subst. constructor; [|apply IH; assumption].
    intros I. rewrite map_map in I. apply in_map_iff in I as ([k2 [i2 v2]] & E & I). unfold member_printed in E. cbn [fst snd] in E. apply N1, in_map_iff. exists (k2, (i2, v2)). split; [|exact I].
    apply (name_inj k2 (vt_of_member v2) k (vt_of_member v)); [|exact P1|exact E]. rewrite Forall_forall in P2. apply P2, in_map_iff. exists (k2, (i2, v2)). auto.
  - intros x I. rewrite map_map in I. apply in_map_iff in I as ([k2 [i2 v2]] & E & I). unfold member_printed in E. cbn [fst snd] in E. eapply name_not_system; [|exact E]. rewrite Forall_forall in P. apply P, in_map_iff. exists (k2, (i2, v2)). auto.
Qed.

Lemma def_printed l : proper_names (map fst (ld_members l)) -> exists printed, default_to_json (Def l) = MMap printed /\ Permutation printed (map (def_part l) (def_source l)).
Proof.
  intros P. destruct (member_keys _ P) as [N S]. cbn [default_to_json]. eexists. split; [reflexivity|].
  assert (E : map (fun e : name * (Z * ldefval def) => let '(key, (_, v)) := e in
                match v with
                | DParam p vt => (name_with_suffix key vt, get_param p)
                | DCil d => (key, MArray [MString (txt "CilDef"); MArray [default_to_json d]])
                | DMil d u => (if u then name_with_suffix key Undefiable else key, MArray [MString (txt "MilDef"); MArray [default_to_json d]])
                end) (ld_members l) = map member_printed (ld_members l)).
  { apply map_ext. intros [k [i v]]. unfold member_printed. cbn [fst snd]. destruct v as [p vt|d|d u]; cbn [vt_of_member json_of_member]; [reflexivity|rewrite name_normal; reflexivity|destruct u; [reflexivity|rewrite name_normal; reflexivity]]. }
  rewrite E. clear E. pose proof (bmap_perm _ N) as B.
  assert (K : forall k v, ~ In k (map fst (map member_printed (ld_members l))) -> Permutation (sm_insert k v (bmap (map member_printed (ld_members l)))) ((k, v) :: map member_printed (ld_members l))).
  { intros k v I. rewrite insert_absent; [rewrite B; reflexivity|]. intros J. apply I. eapply Permutation_in; [apply Permutation_map, B|exact J]. }
  assert (So : ~ In (txt "Old") (map fst (map member_printed (ld_members l)))) by exact (S SOld).
  assert (Sr : ~ In (if ld_enum l then txt "Enum" else txt "Ref") (map fst (map member_printed (ld_members l)))) by (destruct (ld_enum l); [exact (S SEnum)|exact (S SRef)]).
  assert (Mi : map (def_part l) (map inl (ld_members l)) = map member_printed (ld_members l)) by (rewrite map_map; reflexivity).
  unfold def_source. rewrite !map_app, Mi. destruct (ld_refs l) as [|r0 rs] eqn:Er.
  - destruct (ld_old l) as [|o0 os] eqn:Eo; [exact B|]. cbn [map def_part app]. rewrite Eo. apply K, So.
  - cbn [map app def_part]. rewrite Er. destruct (ld_old l) as [|o0 os] eqn:Eo.
    + cbn [map app]. apply K, Sr.
    + cbn [map app def_part]. rewrite Eo, insert_absent; [rewrite K by exact Sr; reflexivity|].
      intros J. apply insert_keys in J as [J|J]; [destruct (ld_enum l); discriminate J|]. apply So. eapply Permutation_in; [apply Permutation_map, B|exact J].
Qed.

Lemma def_list_read n m d' : bind (obj_of n m false) (into_list_def_obj iter) = Ok d' -> json_list_to_rust iter (obj_of n) [JArray [JMap m]] = Ok (TmpList [] None (Some d') None).
Proof. intros E. unfold json_list_to_rust. cbn [json_list_loop list_attribute get_default]. destruct (obj_of n m false) as [o| |]; cbn [bind] in *; try discriminate. rewrite E. reflexivity. Qed.

Lemma depth_in (k : name) j m n : In (k, j) m -> (jdepth (JMap m) <= S n)%nat -> (jdepth j <= n)%nat.
Proof. intros I D. cbn [jdepth] in D. fold (dm m) in D. pose proof (dm_in _ _ _ I). lia. Qed.

Lemma into_list_def_ok m0 : (forall k i v, In (k, (i, v)) m0 -> exists dv, into_list_def_value v = Ok dv) -> NoDup (map fst m0) ->
  exists r, to_list_def_val_map iter m0 = Ok r /\ mirror (fun a b => into_list_def_value (snd a) = Ok (snd b)) m0 r.
Proof.
  intros H N. destruct (renumber (fun x : Z * rvalue => into_list_def_value (snd x)) (iter _ m0)) as (r & Er & Mr).
  { apply iter_nodup; [exact It|exact N]. }
  { intros k [i v] I. apply iter_in in I; [|exact It]. exact (H k i v I). }
  exists r. split.
  - unfold to_list_def_val_map. rewrite <- Er. apply mfold_ext. intros a [idx [k [i v]]] _. reflexivity.
  - eapply mirror_weaken; [|eapply mirror_trans; [apply iter_mirror|exact Mr]]. intros a b (c & -> & E). exact E.
Qed.

Lemma hget_some_map {A B} (f : A -> B) k (l : list (name * A)) : hget k (map (fun e => (fst e, f (snd e))) l) = option_map f (hget k l).
Proof. induction l as [|[x a] l IH]; [reflexivity|]. cbn [map hget fst snd]. destruct (eqb_bytes x k); [reflexivity|exact IH]. Qed.

Lemma def_read d : printable_def d -> forall n j, means (default_to_json d) j -> (jdepth j <= n)%nat ->
  exists m d', j = JMap m /\ bind (obj_of n m false) (into_list_def_obj iter) = Ok d' /\ same_def d d'.
Proof.
  induction 1 as [l Pm Pr Po Hp Hc IHc Hm IHm Hq]. intros n j M D. destruct (def_printed l Pm) as (printed & Ed & P). rewrite Ed in M. apply means_mp in M as (m & -> & F).
  destruct n as [|n]; [cbn in D; lia|].
  destruct (entries_of (def_part l) (def_source l) printed m (fun s e => entry_ok (arr_of n) (obj_of n) false e /\
     match s with
     | inl (key, (id, v)) => exists jv rv dv, e = EName key (vt_of_member v) jv rv /\ into_list_def_value rv = Ok dv /\ same_member (Some v) (Some dv)
     | inr true => exists a l', e = EOld a l' /\ forall x, In x l' <-> In x (ld_old l)
     | inr false => exists m' refs', e = ERefs (ld_enum l) m' (TmpRefs refs' [] false) /\ mirror (fun a b => snd b = snd a) (ld_refs l) refs'
     end) P F) as (es & es' & Em & Pe & Fe).
  { intros s j I Ij Mj. pose proof (depth_in _ _ _ _ Ij D) as Dj. clear F P Ij. destruct s as [[key [id v]]|[|]].
    - assert (Im : In (key, (id, v)) (ld_members l)). { unfold def_source in I. apply in_app_or in I as [I|I]; [destruct (ld_old l); [destruct I|destruct I as [I|[]]; discriminate]|]. apply in_app_or in I as [I|I]; [destruct (ld_refs l); [destruct I|destruct I as [I|[]]; discriminate]|]. apply in_map_iff in I as (x & E & I). injection E as ->. exact I. }
      assert (Pk : plain_name key). { destruct Pm as [_ Pm]. rewrite Forall_forall in Pm. apply Pm, in_map_iff. exists (key, (id, v)). auto. }
      cbn [def_part member_printed fst snd] in Mj |- *. destruct v as [p vt|d|d u]; cbn [json_of_member vt_of_member] in Mj |- *.
      + destruct (param_read n p vt j (Hp _ _ _ _ Im) Mj Dj) as (p' & E & Sp). exists (EName key vt j (VaParam p' vt)). split; [reflexivity|]. split; [split; [exact Pk|exact E]|]. exists j, (VaParam p' vt), (DParam p' vt). split; [reflexivity|]. split; [reflexivity|constructor; exact Sp].
      + apply means_tagged in Mj as (l1 & -> & F1). apply means_one in F1 as (j1 & -> & M1). apply means_arr in M1 as (l2 & -> & F2). apply means_one in F2 as (j2 & -> & M2).
        destruct n as [|n1]; [cbn in Dj; lia|]. destruct (IHc _ _ _ Im n1 j2 M2) as (m2 & d2 & -> & E2 & S2); [cbn [jdepth map] in Dj; unfold list_max in Dj; cbn [fold_right] in Dj; lia|].
        exists (EName key Normal (JArray [JString (txt "CilDef"); JArray [JMap m2]]) (VaCilDef d2)). split; [reflexivity|]. split; [split; [exact Pk|]|].
        * cbn [json_item_to_rust]. rewrite arr_S. unfold json_array_to_rust. change (get_array_type [JString (txt "CilDef"); JArray [JMap m2]]) with GCilDef. cbn [tl]. rewrite (def_list_read _ _ _ E2). reflexivity.
        * do 3 eexists. split; [reflexivity|]. split; [reflexivity|constructor; exact S2].
      + apply means_tagged in Mj as (l1 & -> & F1). apply means_one in F1 as (j1 & -> & M1). apply means_arr in M1 as (l2 & -> & F2). apply means_one in F2 as (j2 & -> & M2).
        destruct n as [|n1]; [cbn in Dj; lia|]. destruct (IHm _ _ _ _ Im n1 j2 M2) as (m2 & d2 & -> & E2 & S2); [cbn [jdepth map] in Dj; unfold list_max in Dj; cbn [fold_right] in Dj; lia|].
        exists (EName key (if u then Undefiable else Normal) (JArray [JString (txt "MilDef"); JArray [JMap m2]]) (VaMilDef d2 u)). split; [reflexivity|]. split; [split; [exact Pk|]|].
        * cbn [json_item_to_rust]. rewrite arr_S. unfold json_array_to_rust. change (get_array_type [JString (txt "MilDef"); JArray [JMap m2]]) with GMilDef. cbn [tl]. destruct u; rewrite (def_list_read _ _ _ E2); reflexivity.
        * do 3 eexists. split; [reflexivity|]. split; [reflexivity|constructor; exact S2].
    - cbn [def_part fst snd] in *. destruct (old_read _ _ Po Mj) as (a & l' & -> & Eo & Io). exists (EOld a l'). split; [reflexivity|]. split; [exact Eo|]. exists a, l'. auto.
    - cbn [def_part fst snd] in *. apply means_mp in Mj as (m2 & -> & F2). destruct n as [|n1]; [cbn in Dj; lia|]. destruct (refs_read n1 (ld_refs l) m2 Pr Hq F2) as (refs' & Er & Mr).
      exists (ERefs (ld_enum l) m2 (TmpRefs refs' [] false)). split; [reflexivity|]. split; [exact Er|]. exists m2, refs'. auto. }
  assert (X : Forall2 (fun a b => fst a = fst b /\ exists dv, into_list_def_value (snd b) = Ok dv /\ same_member (Some (snd (snd a))) (Some dv)) (ld_members l) (flat_map names_of es) /\
    ((ld_refs l = [] /\ flat_map refs_of es = []) \/ exists refs', flat_map refs_of es = [TmpRefs refs' [] (ld_enum l)] /\ mirror (fun a b => snd b = snd a) (ld_refs l) refs') /\
    ((ld_old l = [] /\ flat_map olds_of es = []) \/ exists l', flat_map olds_of es = [l'] /\ forall x, In x l' <-> In x (ld_old l)) /\
    Forall (entry_ok (arr_of n) (obj_of n) false) es).
  { clear -Fe. unfold def_source in Fe. apply Forall2_app_inv_l in Fe as (e1 & e2 & F1 & Fe & ->). apply Forall2_app_inv_l in Fe as (e3 & e4 & F3 & F4 & ->).
    assert (A4 : Forall2 (fun a b => fst a = fst b /\ exists dv, into_list_def_value (snd b) = Ok dv /\ same_member (Some (snd (snd a))) (Some dv)) (ld_members l) (flat_map names_of e4) /\
      flat_map refs_of e4 = [] /\ flat_map olds_of e4 = [] /\ Forall (entry_ok (arr_of n) (obj_of n) false) e4).
    { revert e4 F4. induction (ld_members l) as [|[key [id v]] ms IH]; intros e4 F4; cbn [map] in F4; inversion F4 as [|? e ? es [Oe He] F']; subst; [repeat split; constructor|]. cbv beta iota in He. destruct He as (jv & rv & dv & -> & Ei & Sm).
      destruct (IH _ F') as (A & B & C & E). cbn [flat_map names_of refs_of olds_of app]. split; [constructor; [|exact A]|]. { split; [reflexivity|]. exists dv. auto. } split; [exact B|]. split; [exact C|]. constructor; assumption. }
    destruct A4 as (A4 & B4 & C4 & E4). rewrite !flat_map_app, B4, C4.
    assert (A1 : flat_map names_of e1 = [] /\ flat_map refs_of e1 = [] /\ ((ld_old l = [] /\ flat_map olds_of e1 = []) \/ exists l', flat_map olds_of e1 = [l'] /\ forall x, In x l' <-> In x (ld_old l)) /\ Forall (entry_ok (arr_of n) (obj_of n) false) e1).
    { destruct (ld_old l) as [|o0 os] eqn:Eo; inversion F1 as [|? e ? es [Oe He] F']; subst; [repeat split; [left; auto|constructor]|]. cbv beta iota in He. destruct He as (a & l' & -> & Il). inversion F'; subst. repeat split; [right|constructor; [exact Oe|constructor]]. exists l'. split; [reflexivity|exact Il]. }
    assert (A3 : flat_map names_of e3 = [] /\ flat_map olds_of e3 = [] /\ ((ld_refs l = [] /\ flat_map refs_of e3 = []) \/ exists refs', flat_map refs_of e3 = [TmpRefs refs' [] (ld_enum l)] /\ mirror (fun a b => snd b = snd a) (ld_refs l) refs') /\ Forall (entry_ok (arr_of n) (obj_of n) false) e3).
    { destruct (ld_refs l) as [|o0 os] eqn:Eo; inversion F3 as [|? e ? es [Oe He] F']; subst; [repeat split; [left; auto|constructor]|]. cbv beta iota in He. destruct He as (m' & refs' & -> & Mr). inversion F'; subst. repeat split; [right|constructor; [exact Oe|constructor]]. exists refs'. split; [cbn [flat_map refs_of app tr_map tr_old tr_enum]; rewrite Bool.orb_false_r; reflexivity|exact Mr]. }
    destruct A1 as (N1 & R1 & O1 & E1), A3 as (N3 & O3 & R3 & E3). rewrite N1, R1, N3, O3, !app_nil_r. cbn [app]. split; [exact A4|]. split; [exact R3|]. split; [exact O1|]. repeat (apply Forall_app; split); assumption. }
  destruct X as (Xn & Xr & Xo & Xk).
  assert (M1 : mirror (fun a v => exists dv, into_list_def_value v = Ok dv /\ same_member (Some (snd a)) (Some dv)) (ld_members l) (flat_map names_of es')).
  { eapply mirror_perm; [apply mirror_of, Xn|apply Permutation_flat_map, Pe]. }
  assert (N1 : NoDup (map fst (flat_map names_of es'))) by (eapply Permutation_NoDup; [symmetry; apply (mirror_keys _ _ _ M1)|apply Pm]).
  assert (Xr' : (ld_refs l = [] /\ flat_map refs_of es' = []) \/ exists refs', flat_map refs_of es' = [TmpRefs refs' [] (ld_enum l)] /\ mirror (fun a b => snd b = snd a) (ld_refs l) refs').
  { pose proof (Permutation_flat_map refs_of Pe) as Q. destruct Xr as [[A B]|(refs' & B & C)]; rewrite B in Q; [left; split; [exact A|apply Permutation_nil, Q]|right; exists refs'; split; [apply Permutation_length_1_inv, Q|exact C]]. }
  assert (Xo' : (ld_old l = [] /\ flat_map olds_of es' = []) \/ exists l', flat_map olds_of es' = [l'] /\ forall x, In x l' <-> In x (ld_old l)).
  { pose proof (Permutation_flat_map olds_of Pe) as Q. destruct Xo as [[A B]|(l' & B & C)]; rewrite B in Q; [left; split; [exact A|apply Permutation_nil, Q]|right; exists l'; split; [apply Permutation_length_1_inv, Q|exact C]]. }
  destruct (obj_read n false es') as (o & Eo & V & Ni & Rf & O); [eapply Permutation_Forall; [exact Pe|exact Xk]|exact N1|destruct Xr' as [[_ ->]|(? & -> & _)]; cbn; lia|].
  assert (M2 : mirror (fun a b => exists dv, into_list_def_value (snd b) = Ok dv /\ same_member (Some (snd a)) (Some dv)) (ld_members l) (to_default o)).
  { eapply mirror_weaken; [|eapply mirror_trans; [exact M1|rewrite <- V; apply values_mirror]]. intros a b (v & (dv & E & Sm) & ->). exists dv. auto. }
  destruct (into_list_def_ok (to_default o)) as (r & Er & Mr).
  { intros k i v I. destruct (mirror_in _ _ _ _ _ M2 I) as (a & _ & dv & E & _). exists dv. exact E. }
  { eapply Permutation_NoDup; [symmetry; apply (mirror_keys _ _ _ M2)|apply Pm]. }
  exists m. eexists. split; [reflexivity|]. split; [rewrite Em, Eo; cbn [bind]; unfold into_list_def_obj; rewrite Ni, Er; reflexivity|].
  assert (M3 : mirror (fun a b => same_member (Some (snd a)) (Some (snd b))) (ld_members l) r).
  { eapply mirror_weaken; [|eapply mirror_trans; [exact M2|exact Mr]]. intros a b (c & (dv & E & Sm) & E'). rewrite E in E'. apply Ok_inj in E'. subst dv. exact Sm. }
  constructor; cbn [ld_members ld_refs ld_enum ld_old ld_ref_old].
  - intros key. pose proof (mirror_hget _ _ _ key (proj1 Pm) M3) as G. destruct (hget key (ld_members l)) as [a|], (hget key r) as [b|]; cbn [option_map]; [exact G|destruct G|destruct G|constructor].
  - intros key. rewrite Rf. destruct Xr' as [[A ->]|(refs' & -> & Mr')]; cbn [last tr_map]; [rewrite A; reflexivity|]. pose proof (mirror_hget _ _ _ key (proj1 Pr) Mr') as G. destruct (hget key (ld_refs l)) as [a|], (hget key refs') as [b|]; cbn [option_map]; [rewrite G; reflexivity|destruct G|destruct G|reflexivity].
  - intros Nr. rewrite Rf. destruct Xr' as [[A _]|(refs' & -> & Mr')]; [congruence|reflexivity].
  - intros x. rewrite O. destruct Xo' as [[A ->]|(l' & -> & C)]; cbn [last]; [rewrite A; reflexivity|apply C].
  - rewrite Rf. destruct Xr' as [[A ->]|(refs' & -> & Mr')]; reflexivity.
Qed.
End Reading.

(* ------------------------------------------------------------------ *)
(** * What is printed can be read *)

Ltac tags := first [apply printable_string; cln | apply printable_null | apply printable_undefined].
Lemma printable_list l : Forall printable l -> printable (MArray l).
Proof. intros F. apply printable_array. intros x I. rewrite Forall_forall in F. exact (F x I). Qed.
Lemma ints_printable l : Forall small l -> Forall printable (map json_int l).
Proof. intros F. apply Forall_map. eapply Forall_impl; [|exact F]. intros v S. apply printable_number, small_clean, S. Qed.
Lemma float_printable f : clean_float f -> printable (json_float f).
Proof. intros [C _]. apply printable_list. constructor; [tags|]. constructor; [apply printable_number, C|constructor]. Qed.

Lemma param_printable p : printable_param p -> printable (get_param p).
Proof.
  assert (T : forall l, Forall printable l -> printable (MArray l)) by exact printable_list.
  destruct p as [q|q|q|q|q|q|q]; destruct q as [v| |]; cbn [get_param to_json printable_param rust_array_to_json on_val content app]; intros P; try solve [apply T; repeat (constructor; [tags|]); constructor].
  - constructor.
  - apply float_printable, P.
  - apply printable_number, small_clean, P.
  - destruct v as [a s]. apply printable_string, P.
  - destruct v as [a l]. cbn [snd] in *. apply T. destruct l as [|x l]; [constructor; [tags|constructor]|]. apply (ints_printable (x :: l) P).
  - apply T. constructor; [tags|]. apply Forall_map. eapply Forall_impl; [|exact P]. intros f. apply float_printable.
  - destruct v as [a l]. cbn [snd] in *. apply T. constructor; [tags|]. apply ints_printable. eapply Forall_impl; [|exact P]. unfold small. change (2 ^ 53) with 9007199254740992. intros b H. cbn beta in *. lia.
Qed.

Lemma names_printable l : proper_names l -> printable (string_set_to_json_short l).
Proof.
  intros [N P]. apply printable_list, Forall_map. eapply Permutation_Forall; [symmetry; apply set_perm, N|]. eapply Forall_impl; [|exact P]. intros s H. apply printable_string, plain_clean0, H.
Qed.

Lemma refs_printable refs : proper_names (map fst refs) -> (forall key id q vt, In (key, (id, (q, vt))) refs -> on_val (fun s => plain_name s \/ s = []) q) -> printable (MMap (ref_def_obj_to_json refs)).
Proof.
  intros Pn Hq. pose proof (bmap_perm _ (ref_keys refs Pn)) as P. unfold ref_def_obj_to_json. constructor.
  - eapply Permutation_NoDup; [apply Permutation_map; symmetry; exact P|apply ref_keys, Pn].
  - intros k x I. apply (Permutation_in _ P), in_map_iff in I as ([key [id [q vt]]] & E & I). unfold reconstruct_ref_value in E. injection E as <- _. apply plain_clean. destruct Pn as [_ Pn]. rewrite Forall_forall in Pn. apply Pn, in_map_iff. exists (key, (id, (q, vt))). auto.
  - intros k x I. apply (Permutation_in _ P), in_map_iff in I as ([key [id [q vt]]] & E & I). unfold reconstruct_ref_value in E. injection E as _ <-. specialize (Hq _ _ _ _ I). destruct q as [s| |]; [|constructor|constructor]. apply printable_string. destruct Hq as [H| ->]; [apply plain_clean0, H|cln].
Qed.

Lemma def_keys l : proper_names (map fst (ld_members l)) -> NoDup (map fst (map (def_part l) (def_source l))).
Proof.
  intros P. destruct (member_keys _ P) as [N S]. assert (Mi : map (def_part l) (map inl (ld_members l)) = map member_printed (ld_members l)) by (rewrite map_map; reflexivity).
  assert (So : ~ In (txt "Old") (map fst (map member_printed (ld_members l)))) by exact (S SOld).
  assert (Sr : ~ In (if ld_enum l then txt "Enum" else txt "Ref") (map fst (map member_printed (ld_members l)))) by (destruct (ld_enum l); [exact (S SEnum)|exact (S SRef)]).
  assert (Nr : NoDup (map fst (map (def_part l) (match ld_refs l with [] => [] | _ => [inr false] end ++ map inl (ld_members l))))).
  { rewrite map_app, Mi. destruct (ld_refs l); cbn [map app def_part fst]; [exact N|constructor; [exact Sr|exact N]]. }
  unfold def_source. rewrite map_app. destruct (ld_old l); [exact Nr|]. cbn [map app def_part fst]. constructor; [|exact Nr].
  rewrite map_app, Mi. destruct (ld_refs l); cbn [map app def_part fst]; [exact So|]. intros [E|I]; [destruct (ld_enum l); discriminate E|exact (So I)].
Qed.

Lemma def_printable d : printable_def d -> printable (default_to_json d).
Proof.
  induction 1 as [l Pm Pr Po Hp Hc IHc Hm IHm Hq]. destruct (def_printed l Pm) as (printed & Ed & P). rewrite Ed. clear Ed.
  assert (G : forall s, In s (def_source l) -> clean (fst (def_part l s)) /\ printable (snd (def_part l s))).
  { intros [[key [id v]]|[|]] I.
    - assert (Im : In (key, (id, v)) (ld_members l)). { unfold def_source in I. apply in_app_or in I as [I|I]; [destruct (ld_old l); [destruct I|destruct I as [I|[]]; discriminate]|]. apply in_app_or in I as [I|I]; [destruct (ld_refs l); [destruct I|destruct I as [I|[]]; discriminate]|]. apply in_map_iff in I as (x & E & I). injection E as ->. exact I. }
      assert (Pk : plain_name key). { destruct Pm as [_ Pm]. rewrite Forall_forall in Pm. apply Pm, in_map_iff. exists (key, (id, v)). auto. }
      cbn [def_part member_printed fst snd]. split; [apply plain_clean, Pk|]. destruct v as [p vt|d|d u]; cbn [json_of_member].
      + apply param_printable, (Hp _ _ _ _ Im).
      + apply printable_list. constructor; [tags|]. constructor; [|constructor]. apply printable_list. constructor; [apply (IHc _ _ _ Im)|constructor].
      + apply printable_list. constructor; [tags|]. constructor; [|constructor]. apply printable_list. constructor; [apply (IHm _ _ _ _ Im)|constructor].
    - cbn [def_part fst snd]. split; [exact clean_old|apply names_printable, Po].
    - cbn [def_part fst snd]. split; [destruct (ld_enum l); [exact clean_enum|exact clean_ref]|apply refs_printable; assumption]. }
  constructor.
  - eapply Permutation_NoDup; [apply Permutation_map; symmetry; exact P|apply def_keys, Pm].
  - intros k x I. apply (Permutation_in _ P), in_map_iff in I as (s & E & I). destruct (G s I) as [A _]. rewrite E in A. exact A.
  - intros k x I. apply (Permutation_in _ P), in_map_iff in I as (s & E & I). destruct (G s I) as [_ A]. rewrite E in A. exact A.
Qed.

(* ------------------------------------------------------------------ *)
(** * Documents *)

Definition root_entry (r : root_obj) (e : name * (Z * rootvalue)) : list (name * rvalue) :=
  let '(nm, (_, w)) := e in
  match w with
  | WParam p vt => [(nm, VaParam (current p (hget nm (ro_sabun r))) vt)]
  | WMList d u => match hget nm (ro_sabun r) with Some (RMut m) => [(nm, VaMList d u m)] | _ => [] end
  | _ => []
  end.
Definition printable_value (v : rvalue) : Prop :=
  match v with
  | VaParam p _ => printable_param p
  | VaMList d _ m => printable_def d /\ (m = None \/ exists next, m = Some ([], next) /\ 0 <= next <= 2 ^ 53)
  | _ => False
  end.

Lemma root_entry_name r e x : In x (root_entry r e) -> fst x = fst e.
Proof. destruct e as [nm [i [p vt|d t o|d l|d u]]]; cbn [root_entry]; try (intros []; fail). - intros [<-|[]]. reflexivity. - destruct (hget nm (ro_sabun r)) as [[q|m]|]; try (intros []; fail). intros [<-|[]]. reflexivity. Qed.
Lemma root_entries_keys r l : NoDup (map fst l) -> NoDup (map fst (flat_map (root_entry r) l)) /\ forall k, In k (map fst (flat_map (root_entry r) l)) -> In k (map fst l).
Proof.
  induction l as [|e l IH]; intros N; [split; [constructor|auto]|]. cbn [map] in N. inversion N as [|? ? N1 N2]; subst. destruct (IH N2) as [A B].
  assert (C : (exists v, root_entry r e = [(fst e, v)]) \/ root_entry r e = []). { destruct e as [nm [i [p vt|d t o|d m|d u]]]; cbn [root_entry fst]; eauto. destruct (hget nm (ro_sabun r)) as [[q|m]|]; eauto. }
  cbn [flat_map map]. destruct C as [(v & ->)| ->]; cbn [app map fst]; [|split; [exact A|intros k I; right; exact (B k I)]]. split; [constructor; [intros I; exact (N1 (B _ I))|exact A]|]. intros k [<-|I]; [left; reflexivity|right; exact (B k I)].
Qed.
Lemma root_entries_hget r l k : NoDup (map fst l) -> hget k (flat_map (root_entry r) l) = match hget k l with Some a => match root_entry r (k, a) with (_, v) :: _ => Some v | [] => None end | None => None end.
Proof.
  induction l as [|[nm a] l IH]; intros N; [reflexivity|]. cbn [map fst] in N. inversion N as [|? ? N1 N2]; subst. cbn [flat_map hget].
  assert (C : (exists v, root_entry r (nm, a) = [(nm, v)]) \/ root_entry r (nm, a) = []). { destruct a as [i [p vt|d t o|d m|d u]]; cbn [root_entry fst]; eauto. destruct (hget nm (ro_sabun r)) as [[q|m]|]; eauto. }
  destruct (eqb_bytes nm k) eqn:E.
  - apply eqb_bytes_eq in E. subst k. destruct C as [(v & ->)| ->]; cbn [app hget]; [rewrite eqb_bytes_refl; reflexivity|]. apply hget_none. intros I. apply N1. apply (proj2 (root_entries_keys r l N2)), I.
  - destruct C as [(v & ->)| ->]; cbn [app hget]; [rewrite E|]; apply IH, N2.
Qed.

Lemma new_default_ok r : printable_root r -> new_default r = Ok (flat_map (root_entry r) (ro_default r)).
Proof.
  intros ([N _] & _ & H). unfold new_default.
  assert (G : forall l (acc : hmap rvalue), NoDup (map fst acc ++ map fst l) -> (forall key id w, In (key, (id, w)) l -> printable_member w (hget key (ro_sabun r))) ->
    mfold (fun result e => let '(nm, (_, val)) := e in match val with
           | WParam p vt => Ok (hset nm (match hget nm (ro_sabun r) with Some (RParam q) => VaParam q vt | _ => VaParam p vt end) result)
           | _ => match hget nm (ro_sabun r) with Some sab => v <- into_rust_value val sab ; Ok (hset nm v result) | None => Ok result end
           end) l acc = Ok (acc ++ flat_map (root_entry r) l)).
  { clear N H. induction l as [|[nm [i w]] l IH]; intros acc N H; cbn [mfold flat_map]; [rewrite app_nil_r; reflexivity|]. cbn [map fst] in N.
    assert (Fr : ~ In nm (map fst acc)) by (intros I; apply NoDup_remove_2 in N; apply N, in_or_app; left; exact I). pose proof (H nm i w (or_introl eq_refl)) as Hw.
    assert (Hl : forall key id w, In (key, (id, w)) l -> printable_member w (hget key (ro_sabun r))) by (intros key id w' I; apply (H key id w'); right; exact I).
    assert (Add : forall v, NoDup (map fst (acc ++ [(nm, v)]) ++ map fst l)) by (intros v; rewrite map_app; cbn [map fst]; rewrite <- app_assoc; exact N). apply NoDup_remove_1 in N.
    destruct w as [p vt|d t o|d m|d u]; cbn [printable_member root_entry] in *.
    - cbn [bind]. rewrite hset_fresh by exact Fr. rewrite IH by auto. rewrite <- app_assoc. cbn [app]. do 3 f_equal. unfold current. destruct (hget nm (ro_sabun r)) as [[q|m]|]; reflexivity.
    - rewrite Hw. cbn [bind]. rewrite IH by auto. reflexivity.
    - rewrite Hw. cbn [bind]. rewrite IH by auto. reflexivity.
    - assert (S : exists m, hget nm (ro_sabun r) = Some (RMut m)) by (destruct Hw as [_ [-> |(next & -> & _)]]; eauto). destruct S as [m ->]. cbn [into_rust_value bind]. rewrite hset_fresh by exact Fr. rewrite IH by auto. rewrite <- app_assoc. reflexivity. }
  apply (G (ro_default r) [] N H).
Qed.

Lemma root_values r : printable_root r -> Forall (fun e => plain_name (fst e) /\ printable_value (snd e)) (flat_map (root_entry r) (ro_default r)).
Proof.
  intros ([_ P] & _ & H). apply Forall_forall. intros [k v] I. apply in_flat_map in I as ([nm [i w]] & I & Iv). pose proof (root_entry_name _ _ _ Iv) as E. cbn [fst] in E. subst k. cbn [fst snd]. split; [rewrite Forall_forall in P; apply P, in_map_iff; exists (nm, (i, w)); auto|].
  specialize (H nm i w I). destruct w as [p vt|d t o|d m|d u]; cbn [printable_member root_entry] in *.
  - destruct Iv as [Iv|[]]. injection Iv as <-. exact H.
  - destruct Iv.
  - destruct Iv.
  - destruct H as [Hd H]. destruct (hget nm (ro_sabun r)) as [[q|m]|]; try (destruct Iv; fail). destruct Iv as [Iv|[]]. injection Iv as <-. split; [exact Hd|]. destruct H as [H|(next & H & L)]; [left; congruence|right; exists next; split; [congruence|exact L]].
Qed.

Definition vt_of_value (v : rvalue) : var_type := match v with VaParam _ vt => vt | _ => Normal end.
Definition root_part (old : list name) (s : (name * rvalue) + unit) : name * mval :=
  match s with
  | inl e => (name_with_suffix (fst e) (vt_of_value (snd e)), snd (rust_value_to_json_value (snd e) (fst e)))
  | inr _ => (txt "Old", string_set_to_json_short old)
  end.

Lemma root_parts_keys old (l : list (name * rvalue)) : NoDup (map fst l) -> Forall (fun e => plain_name (fst e)) l -> NoDup (map fst (map (root_part old) (inr tt :: map inl l))).
Proof.
  intros N P. cbn [map root_part fst]. rewrite !map_map. constructor.
  - intros I. apply in_map_iff in I as ([k v] & E & I). cbn [root_part fst snd] in E. rewrite Forall_forall in P. exact (name_not_system k (vt_of_value v) SOld (P _ I) E).
  - induction l as [|[k v] l IH]; [constructor|]. cbn [map fst] in *. inversion N as [|? ? N1 N2]; subst. inversion P as [|? ? P1 P2]; subst. constructor; [|apply IH; assumption].
    intros I. apply in_map_iff in I as ([k2 v2] & E & I). cbn [root_part fst snd] in *. apply N1, in_map_iff. exists (k2, v2). split; [|exact I]. rewrite Forall_forall in P2. apply (name_inj k2 (vt_of_value v2) k (vt_of_value v) (P2 _ I) P1 E).
Qed.

Lemma root_printed r : printable_root r -> exists printed, root_to_json r = Ok (MMap printed) /\
  Permutation printed (map (root_part (ro_old r)) (inr tt :: map inl (flat_map (root_entry r) (ro_default r)))).
Proof.
  intros P. pose proof (root_values r P) as V. pose proof (root_entries_keys r (ro_default r) (proj1 (proj1 P))) as [N _]. unfold root_to_json. rewrite new_default_ok by exact P. cbn [bind].
  set (res := flat_map (root_entry r) (ro_default r)) in *. eexists. split; [reflexivity|].
  assert (E : map (fun e : name * rvalue => rust_value_to_json_value (snd e) (fst e)) res = map (root_part (ro_old r)) (map inl res)).
  { rewrite map_map. apply map_ext_in. intros [k v] I. rewrite Forall_forall in V. destruct (V _ I) as [_ Pv]. cbn [fst snd root_part] in *. destruct v; cbn [printable_value] in Pv; try (destruct Pv; fail); cbn [vt_of_value rust_value_to_json_value snd]; [reflexivity|]. destruct (match o with Some _ => _ | None => _ end). cbn [snd]. rewrite name_normal. reflexivity. }
  rewrite E. pose proof (root_parts_keys (ro_old r) res N) as K. cbn [map] in K |- *. cbn [root_part fst] in K |- *. assert (K' := K (Forall_impl _ (fun e H => proj1 H) V)). clear K. inversion K' as [|? ? K1 K2]; subst.
  pose proof (bmap_perm _ K2) as B. rewrite insert_absent; [rewrite B; reflexivity|]. intros I. apply K1. eapply Permutation_in; [apply Permutation_map, B|exact I].
Qed.

Lemma root_printable r v : printable_root r -> root_to_json r = Ok v -> printable v.
Proof.
  intros Pr E. destruct (root_printed r Pr) as (printed & E' & P). rewrite E' in E. apply Ok_inj in E. subst v. pose proof (root_values r Pr) as V. pose proof (root_entries_keys r (ro_default r) (proj1 (proj1 Pr))) as [N _]. set (res := flat_map (root_entry r) (ro_default r)) in *.
  assert (G : forall s, In s (inr tt :: map inl res) -> clean (fst (root_part (ro_old r) s)) /\ printable (snd (root_part (ro_old r) s))).
  { intros s [<-|I]; [split; [exact clean_old|apply names_printable, Pr]|]. apply in_map_iff in I as ([k v] & <- & I). rewrite Forall_forall in V. destruct (V _ I) as [Pk Pv]. cbn [root_part fst snd] in *. split; [apply plain_clean, Pk|].
    destruct v; cbn [printable_value] in Pv; try (destruct Pv; fail); cbn [rust_value_to_json_value snd]; [apply param_printable, Pv|]. destruct Pv as [Pd Pm].
    assert (X : exists next, 0 <= next <= 2 ^ 53 /\ (match o with Some (l, next_id) => (map (fun e : Z * citem => citem_to_json (snd e) (Some (MNumber (i64_to_f64 (fst e))))) l, next_id) | None => ([], 0) end) = ([], next)).
    { destruct Pm as [-> |(next & -> & L)]; [exists 0; split; [lia|reflexivity]|exists next; split; [exact L|reflexivity]]. }
    destruct X as (next & L & ->). cbn [snd]. unfold rust_list_to_json. cbn [app]. apply printable_list. constructor; [tags|]. constructor; [|constructor; [|constructor]].
    - apply printable_list. constructor; [tags|]. constructor; [apply printable_number, small_clean; unfold small; lia|constructor].
    - apply printable_list. constructor; [apply def_printable, Pd|constructor]. }
  constructor.
  - eapply Permutation_NoDup; [apply Permutation_map; symmetry; exact P|]. apply root_parts_keys; [exact N|]. eapply Forall_impl; [|exact V]. intros e H. exact (proj1 H).
  - intros k x I. apply (Permutation_in _ P), in_map_iff in I as (s & E & I). destruct (G s I) as [A _]. rewrite E in A. exact A.
  - intros k x I. apply (Permutation_in _ P), in_map_iff in I as (s & E & I). destruct (G s I) as [_ A]. rewrite E in A. exact A.
Qed.

Section Root.
Variable addr : list Z -> Z.
Variable iter : forall A, hmap A -> hmap A.
Hypothesis It : iterates iter.

Lemma member_names_entries es arr obj : Forall (entry_ok addr iter arr obj false) es -> member_names (map entry_kv es) = map fst (flat_map names_of es).
Proof.
  induction 1 as [|e es He _ IH]; [reflexivity|]. cbn [map flat_map]. rewrite member_names_cons, map_app, IH. f_equal. unfold member_names. cbn [flat_map]. rewrite app_nil_r.
  destruct e as [nm vt j v|a l|b m refs]; cbn [entry_kv fst names_of map]; [rewrite json_name_written by apply He; reflexivity|reflexivity|destruct b; reflexivity].
Qed.

(** the members and the lists of the root *)
Definition root_of (v : rvalue) : rootvalue * option (rootsab mutlist) := match into_root_value v with Ok x => x | _ => (WParam (PBool Null) Normal, None) end.
Lemma root_hash_from (l : hmap (Z * rvalue)) : forall acc sab, NoDup (map fst acc ++ map fst l) -> (forall k, In k (map fst l) -> hget k sab = None) -> (forall k i v, In (k, (i, v)) l -> into_root_value v = Ok (root_of v)) ->
  exists r s, mfold (fun st e => let '(result, sabun) := st in let '(key, (id, value)) := e in
           '(d, v) <- into_root_value value ;
           Ok (hset key (id, d) result, match v with Some v => hset key v sabun | None => sabun end)) l (acc, sab) = Ok (acc ++ r, s) /\
    Forall2 (fun a b => fst a = fst b /\ snd (snd b) = fst (root_of (snd (snd a)))) l r /\
    forall k, hget k s = match hget k l with Some (_, v) => snd (root_of v) | None => hget k sab end.
Proof.
  induction l as [|[k [i v]] l IH]; intros acc sab N Hs H; cbn [mfold]; [exists [], sab; rewrite app_nil_r; repeat split; constructor|]. cbn [map fst] in N, Hs.
  rewrite (H k i v (or_introl eq_refl)). destruct (root_of v) as [d o] eqn:Er. cbn [bind].
  assert (Fr : ~ In k (map fst acc)) by (intros I; apply NoDup_remove_2 in N; apply N, in_or_app; left; exact I). rewrite hset_fresh by exact Fr.
  assert (Nk : ~ In k (map fst l)) by (intros I; apply NoDup_remove_2 in N; apply N, in_or_app; right; exact I).
  destruct (IH (acc ++ [(k, (i, d))]) (match o with Some x => hset k x sab | None => sab end)) as (r & s & E & F & G).
  { rewrite map_app. cbn [map fst]. rewrite <- app_assoc. exact N. }
  { intros k' I. destruct o as [x|]; [rewrite hget_hset_other by (intros ->; exact (Nk I))|]; apply Hs; right; exact I. }
  { intros k' i' v' I. apply (H k' i' v'). right. exact I. }
  exists ((k, (i, d)) :: r), s. rewrite <- app_assoc in E. split; [exact E|]. split; [constructor; [split; [reflexivity|cbn [snd]; rewrite Er; reflexivity]|exact F]|].
  intros k'. rewrite G. cbn [hget]. destruct (eqb_bytes k k') eqn:Ek.
  - apply eqb_bytes_eq in Ek. subst k'. rewrite (proj2 (hget_none k l) Nk), Er. cbn [snd]. destruct o as [x|]; [apply hget_hset_same|apply Hs; left; reflexivity].
  - destruct (hget k' l) as [[i' v']|]; [reflexivity|]. destruct o as [x|]; [|reflexivity]. apply hget_hset_other. intros ->. rewrite eqb_bytes_refl in Ek. discriminate.
Qed.

Definition root_rel (v : rvalue) (x : rootvalue * option (rootsab mutlist)) : Prop :=
  match v with
  | VaParam p vt => exists p', x = (WParam p' vt, None) /\ same_param p p'
  | VaMList d u m => exists d', x = (WMList d' false, Some (RMut (Some ([], match m with Some (_, next) => next | None => 0 end)))) /\ same_def d d'
  | _ => False
  end.

Lemma list_value_read n key d u m j : printable_value (VaMList d u m) -> means (snd (rust_value_to_json_value (VaMList d u m) key)) j -> (jdepth j <= n)%nat ->
  exists rv, json_item_to_rust addr (arr_of addr iter n) Normal j = Ok rv /\ exists x, into_root_value rv = Ok x /\ root_rel (VaMList d u m) x.
Proof.
  intros [Pd Pm] M D. cbn [rust_value_to_json_value] in M.
  assert (X : exists next, 0 <= next <= 2 ^ 53 /\ next = match m with Some (_, next) => next | None => 0 end /\ (match m with Some (l, next_id) => (map (fun e : Z * citem => citem_to_json (snd e) (Some (MNumber (i64_to_f64 (fst e))))) l, next_id) | None => ([], 0) end) = ([], next)).
  { destruct Pm as [-> |(next & -> & L)]; [exists 0; repeat split; lia|exists next; repeat split; lia]. }
  destruct X as (next & L & En & E). rewrite E in M. clear E. cbn [snd rust_list_to_json app] in M. unfold rust_list_to_json in M. cbn [app] in M. apply means_tagged in M as (l1 & -> & F1).
  inversion F1 as [|? j1 ? l2 M1 F2]; subst. apply means_one in F2 as (j2 & -> & M2). apply means_tagged in M1 as (l3 & -> & F3). apply means_one in F3 as (j3 & -> & M3).
  apply means_small in M3; [|unfold small; lia]. subst j3. apply means_arr in M2 as (l4 & -> & F4). apply means_one in F4 as (j4 & -> & M4).
  destruct n as [|n]; [cbn in D; lia|]. destruct (def_read addr iter It d Pd n j4 M4) as (mm & d' & -> & Ed & Sd); [cbn [jdepth map] in D; unfold list_max in D; cbn [fold_right] in D; lia|].
  set (next := match m with Some (_, next) => next | None => 0 end) in *.
  assert (El : json_list_to_rust iter (obj_of addr iter n) [JArray [JString (txt "NextID"); JInt next]; JArray [JMap mm]] = Ok (TmpList [] None (Some d') (Some next))).
  { unfold json_list_to_rust. cbn [json_list_loop list_attribute get_default]. change (eqb_bytes (txt "NextID") (txt "Default")) with false. change (eqb_bytes (txt "NextID") (txt "Old")) with false. change (eqb_bytes (txt "NextID") (txt "NextID")) with true. cbv iota. cbn [bind tl_next is_some].
    destruct (obj_of addr iter n mm false) as [o| |]; cbn [bind] in *; try discriminate. rewrite Ed. cbn [bind tl_default is_some tl_vec tl_old tl_next]. do 3 f_equal. unfold to_unsigned. apply Z.mod_small. change (2 ^ 53) with 9007199254740992 in L. change (2 ^ 64) with 18446744073709551616. lia. }
  eexists. split.
  - cbn [json_item_to_rust]. rewrite arr_S. unfold json_array_to_rust. change (get_array_type (JString (txt "MList") :: [JArray [JString (txt "NextID"); JInt next]; JArray [JMap mm]])) with GMList. cbn [tl]. rewrite El. cbn [bind into_mut_list tl_old is_some tl_default tl_vec tl_next unwrap_or to_mut_list_items enumerate enumerate_from mmap]. unfold into_mut_list, to_mut_list_items. cbn. reflexivity.
  - cbn [into_root_value]. eexists. split; [reflexivity|]. exists d'. split; [reflexivity|exact Sd].
Qed.

Lemma root_read r v j : printable_root r -> root_to_json r = Ok v -> means v j ->
  exists r', json_root_to_rust addr iter j = Ok r' /\
    (forall key, read_back (option_map snd (hget key (ro_default r))) (hget key (ro_sabun r)) (option_map snd (hget key (ro_default r'))) (hget key (ro_sabun r'))) /\
    (forall n, In n (ro_old r') <-> In n (ro_old r)).
Proof.
  intros Pr E M. destruct (root_printed r Pr) as (printed & E' & P). rewrite E' in E. apply Ok_inj in E. subst v. pose proof (root_values r Pr) as V. pose proof (root_entries_keys r (ro_default r) (proj1 (proj1 Pr))) as [N _].
  pose proof (fun k => root_entries_hget r (ro_default r) k (proj1 (proj1 Pr))) as Hg. set (res := flat_map (root_entry r) (ro_default r)) in *.
  apply means_mp in M as (m & -> & F). unfold json_root_to_rust. destruct (jdepth (JMap m)) as [|n] eqn:D; [cbn in D; discriminate|].
  destruct (entries_of (root_part (ro_old r)) (inr tt :: map inl res) printed m (fun s e => entry_ok addr iter (arr_of addr iter n) (obj_of addr iter n) false e /\
     match s with
     | inl (key, v) => exists jv rv x, e = EName key (vt_of_value v) jv rv /\ into_root_value rv = Ok x /\ root_rel v x
     | inr _ => exists a l', e = EOld a l' /\ forall x, In x l' <-> In x (ro_old r)
     end) P F) as (es & es' & Em & Pe & Fe).
  { intros s j I Ij Mj. assert (Dj : (jdepth j <= n)%nat) by (cbn [jdepth] in D; fold (dm m) in D; pose proof (dm_in _ _ _ Ij); lia). destruct I as [<-|I].
    - cbn [root_part fst snd] in *. destruct (old_read (ro_old r) j) as (a & l' & -> & Eo & Io); [apply Pr|exact Mj|]. exists (EOld a l'). split; [reflexivity|]. split; [exact Eo|]. exists a, l'. auto.
    - apply in_map_iff in I as ([key v] & <- & I). rewrite Forall_forall in V. destruct (V _ I) as [Pk Pv]. cbn [root_part fst snd] in *. destruct v as [p vt| | |d u mm| | | |]; cbn [printable_value] in Pv; try (destruct Pv; fail); cbn [vt_of_value] in *.
      + cbn [rust_value_to_json_value snd] in Mj. destruct (param_read addr iter n p vt j Pv Mj Dj) as (p' & Ep & Sp). exists (EName key vt j (VaParam p' vt)). split; [reflexivity|]. split; [split; [exact Pk|exact Ep]|]. do 3 eexists. split; [reflexivity|]. split; [reflexivity|]. exists p'. auto.
      + destruct (list_value_read n key d u mm j Pv Mj Dj) as (rv & Er & x & Ex & Rx). exists (EName key Normal j rv). split; [reflexivity|]. split; [split; [exact Pk|exact Er]|]. do 3 eexists. split; [reflexivity|]. split; [exact Ex|exact Rx]. }
  assert (X : Forall2 (fun a b => fst a = fst b /\ exists x, into_root_value (snd b) = Ok x /\ root_rel (snd a) x) res (flat_map names_of es) /\ flat_map refs_of es = [] /\
    (exists l', flat_map olds_of es = [l'] /\ forall x, In x l' <-> In x (ro_old r)) /\ Forall (entry_ok addr iter (arr_of addr iter n) (obj_of addr iter n) false) es).
  { clear -Fe. inversion Fe as [|? e ? es2 [Oe He] F']; subst. cbv beta iota in He. destruct He as (a & l' & -> & Il). cbn [flat_map names_of refs_of olds_of app].
    assert (A : Forall2 (fun a b => fst a = fst b /\ exists x, into_root_value (snd b) = Ok x /\ root_rel (snd a) x) res (flat_map names_of es2) /\ flat_map refs_of es2 = [] /\ flat_map olds_of es2 = [] /\ Forall (entry_ok addr iter (arr_of addr iter n) (obj_of addr iter n) false) es2).
    { clear -F'. revert es2 F'. induction res as [|[key v] res IH]; intros es2 F'; cbn [map] in F'; inversion F' as [|? e ? es3 [Oe He] F2]; subst; [repeat split; constructor|]. cbv beta iota in He. destruct He as (jv & rv & x & -> & Ex & Rx).
      destruct (IH _ F2) as (A & B & C & G). cbn [flat_map names_of refs_of olds_of app]. split; [constructor; [|exact A]; split; [reflexivity|exists x; auto]|]. split; [exact B|]. split; [exact C|]. constructor; assumption. }
    destruct A as (A & B & C & G). rewrite B, C. split; [exact A|]. split; [reflexivity|]. split; [exists l'; auto|]. constructor; assumption. }
  destruct X as (Xn & Xr & (l' & Xo & Il) & Xk).
  assert (M1 : mirror (fun a v => exists x, into_root_value v = Ok x /\ root_rel a x) res (flat_map names_of es')) by (eapply mirror_perm; [apply mirror_of, Xn|apply Permutation_flat_map, Pe]).
  assert (N1 : NoDup (map fst (flat_map names_of es'))) by (eapply Permutation_NoDup; [symmetry; apply (mirror_keys _ _ _ M1)|exact N]).
  assert (Xr' : flat_map refs_of es' = []) by (pose proof (Permutation_flat_map refs_of Pe) as Q; rewrite Xr in Q; apply Permutation_nil, Q).
  assert (Xo' : flat_map olds_of es' = [l']) by (pose proof (Permutation_flat_map olds_of Pe) as Q; rewrite Xo in Q; apply Permutation_length_1_inv, Q).
  assert (Xk' : Forall (entry_ok addr iter (arr_of addr iter n) (obj_of addr iter n) false) es') by (eapply Permutation_Forall; [exact Pe|exact Xk]).
  destruct (obj_read addr iter n false es' Xk' N1) as (o & Eo & Vo & Ni & Rf & O); [rewrite Xr'; cbn; lia|]. rewrite Xr' in Rf. rewrite Xo' in O. cbn [last] in Rf, O.
  assert (Wo : tmp_wf o /\ numbered (to_default o)).
  { split.
    - pose proof (proj2 (convert_wf addr iter It (S n)) m false) as G. rewrite Em in G. rewrite Eo in G. apply G. rewrite <- Em. cbn [jdepth] in D. unfold dm. lia.
    - eapply (obj_members_in_order addr iter (S n) (map entry_kv es') o Eo). rewrite (member_names_entries es' _ _ Xk'). exact N1. }
  destruct Wo as [(Wn & Wv & _) Wm].
  assert (M2 : mirror (fun a b => exists x, into_root_value (snd b) = Ok x /\ root_rel a x) res (to_default o)).
  { eapply mirror_weaken; [|eapply mirror_trans; [exact M1|rewrite <- Vo; apply values_mirror]]. intros a b (v & H & ->). exact H. }
  assert (M3 : mirror (fun a b => exists x, into_root_value (snd b) = Ok x /\ root_rel a x) res (iter _ (to_default o))).
  { eapply mirror_perm; [exact M2|]. symmetry. apply It. }
  assert (Rt : forall k i v, In (k, (i, v)) (iter _ (to_default o)) -> into_root_value v = Ok (root_of v)).
  { intros k i v I. destruct (mirror_in _ _ _ _ _ M3 I) as (a & _ & x & Ex & _). cbn [snd] in Ex. unfold root_of. rewrite Ex. reflexivity. }
  destruct (root_hash_from (iter _ (to_default o)) [] []) as (d & s & Eh & Fd & Gs); [apply iter_nodup; [exact It|exact Wn]|reflexivity|exact Rt|]. cbn [app] in Eh.
  assert (Eh' : to_root_hash iter (to_default o) = Ok (d, s)) by exact Eh.
  destruct (to_root_hash_ok addr iter It (to_default o) d s Wn Wv Eh') as (_ & Nd & Wd & _).
  destruct (meta_of_ok addr iter It d) as (T & Et & _); [split; [apply Nd, Wm|intros key id v I; pose proof (Wd _ _ _ I) as G; destruct v; exact G]|].
  exists (RootObj d s l' T). rewrite Em, Eo. cbn [bind]. unfold into_root_obj. rewrite Ni, Rf. cbn [is_some tr_map is_nil negb orb]. rewrite Eh'. cbn [bind]. unfold new_root. rewrite Et, O. cbn [bind]. split; [reflexivity|].
  cbn [ro_default ro_sabun ro_old]. split; [|exact Il]. intros key. rewrite Gs. cbn [hget].
  pose proof (mirror_hget _ _ _ key N M3) as G1. pose proof (mirror_hget (fun a b => snd b = fst (root_of (snd a))) (iter _ (to_default o)) d key) as G2.
  assert (Ni' : NoDup (map fst (iter _ (to_default o)))) by (apply iter_nodup; [exact It|exact Wn]). specialize (G2 Ni' (mirror_of _ _ _ Fd)). specialize (Hg key).
  destruct (hget key res) as [a|] eqn:Ea.
  - destruct (hget key (iter _ (to_default o))) as [[i v]|] eqn:Ei; [|destruct G1]. destruct (hget key d) as [[i2 w]|]; [|destruct G2]. destruct G1 as (x & Ex & Rx). cbn [snd] in *. assert (X : root_of v = x) by (unfold root_of; rewrite Ex; reflexivity). rewrite X in *. subst w. cbn [option_map snd].
    destruct (hget key (ro_default r)) as [[i0 w0]|] eqn:E0; [|discriminate]. cbn [option_map snd]. pose proof (proj2 (proj2 Pr) key i0 w0 (hget_in _ _ _ E0)) as Hw. destruct w0 as [p vt|dd t oo|dd ll|dd u]; cbn [root_entry printable_member] in *.
    + apply Some_inj in Hg. subst a. cbn [root_rel] in Rx. destruct Rx as (p' & -> & Sp). cbn [fst snd]. constructor. exact Sp.
    + discriminate.
    + discriminate.
    + destruct (hget key (ro_sabun r)) as [[q|mm]|]; try discriminate. apply Some_inj in Hg. subst a. cbn [root_rel] in Rx. destruct Rx as (d' & -> & Sd). cbn [fst snd]. constructor. exact Sd.
  - destruct (hget key (iter _ (to_default o))) as [[i v]|] eqn:Ei; [destruct G1|]. destruct (hget key d) as [[i2 w]|]; [destruct G2|]. cbn [option_map].
    destruct (hget key (ro_default r)) as [[i0 w0]|] eqn:E0; [|constructor]. cbn [option_map snd]. pose proof (proj2 (proj2 Pr) key i0 w0 (hget_in _ _ _ E0)) as Hw. destruct w0 as [p vt|dd t oo|dd ll|dd u]; cbn [root_entry printable_member] in *; [discriminate|constructor|constructor|].
    destruct Hw as [_ [Hw|(next & Hw & _)]]; rewrite Hw in Hg; discriminate.
Qed.
End Root.
