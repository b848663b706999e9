(** How large a difference is. *)
From Verif Require Import Base CompactionModel CompactionSpec FloatModel StringCompactionModel StringCompactionProofs
  LinkedModel LinkedSpec LinkedProofs DocModel DiffModel DiffWireModel DiffSpec DiffEditSpec DiffProofs DiffProofs2 DiffProofs3 SizeSpec.

(* ------------------------------------------------------------------ *)
(** * Sums *)

Lemma total_app {A} (f : A -> Z) a b : total f (a ++ b) = total f a + total f b.
Proof. unfold total. induction a as [|x a IH]; cbn [app fold_right]; [lia|rewrite IH; lia]. Qed.
Lemma total_nonneg {A} (f : A -> Z) l : (forall a, 0 <= f a) -> 0 <= total f l.
Proof. intros H. unfold total. induction l as [|x l IH]; cbn [fold_right]; [lia|specialize (H x); lia]. Qed.
Lemma total_le {A} (f g : A -> Z) l : (forall a, In a l -> f a <= g a) -> total f l <= total g l.
Proof.
  unfold total. induction l as [|x l IH]; intros H; cbn [fold_right]; [lia|]. pose proof (H x (or_introl eq_refl)). specialize (IH (fun a I => H a (or_intror I))). lia.
Qed.
Lemma total_map {A B} (f : B -> Z) (g : A -> B) l : total f (map g l) = total (fun a => f (g a)) l.
Proof. unfold total. induction l as [|x l IH]; cbn [map fold_right]; [reflexivity|rewrite IH; reflexivity]. Qed.
Lemma total_plus {A} (f g : A -> Z) l : total (fun a => f a + g a) l = total f l + total g l.
Proof. unfold total. induction l as [|x l IH]; cbn [fold_right]; [lia|rewrite IH; lia]. Qed.
Lemma total_cons {A} (f : A -> Z) x l : total f (x :: l) = f x + total f l.
Proof. reflexivity. Qed.
Lemma total_const {A} (c : Z) (l : list A) : total (fun _ => c) l = c * zlen l.
Proof. unfold total. induction l as [|x l IH]; cbn [fold_right]; [change (zlen (@nil A)) with 0; lia|rewrite zlen_cons, IH; lia]. Qed.

Lemma total_binsert {A} (f : Z * A -> Z) k v m : (forall e, 0 <= f e) -> total f (binsert k v m) <= total f m + f (k, v).
Proof.
  intros H. induction m as [|[x a] m IH]; cbn [binsert]; [unfold total; cbn; lia|].
  destruct (k <? x); [rewrite !total_cons; lia|]. destruct (k =? x) eqn:E; rewrite !total_cons; [specialize (H (x, a)); lia|lia].
Qed.

(** the values of the keys of another map *)
Definition at_ {A} (w : A -> Z) (o : option A) : Z := match o with Some a => w a | None => 0 end.
Lemma hget_le {A} (w : A -> Z) key m : (forall a, 0 <= w a) -> at_ w (hget key m) <= total (fun e => if eqb_bytes (fst e) key then w (snd e) else 0) m.
Proof.
  intros H. match goal with |- _ <= total ?f _ => assert (P : forall l, 0 <= total f l) end.
  { intros l. apply total_nonneg. intros [x a]; cbn [fst snd]. destruct (eqb_bytes x key); [apply H|lia]. }
  induction m as [|[x a] m IH]; [cbn; lia|]. rewrite total_cons. cbn [hget fst snd]. specialize (P m). destruct (eqb_bytes x key) eqn:E; cbn [at_]; lia.
Qed.
Lemma total_keys {A B} (w : A -> Z) (m : hmap B) (f : hmap A) : (forall a, 0 <= w a) -> NoDup (map fst m) ->
  total (fun e => at_ w (hget (fst e) f)) m <= total (fun e => if existsb (eqb_bytes (fst e)) (map fst m) then w (snd e) else 0) f.
Proof.
  intros H. induction m as [|[k b] m IH]; intros N.
  - cbn. apply total_nonneg. intros; lia.
  - cbn [map fst] in N. inversion N as [|? ? Ni N']; subst. specialize (IH N'). rewrite total_cons. cbn [fst]. pose proof (hget_le w k f H) as Hk.
    eapply Z.le_trans; [apply Z.add_le_mono; [exact Hk|exact IH]|].
    rewrite <- total_plus. apply total_le. intros [x a] _. cbn [fst snd map existsb]. specialize (H a).
    destruct (eqb_bytes x k) eqn:E; cbn [orb]; [|lia]. apply eqb_bytes_eq in E; subst x.
    destruct (existsb (eqb_bytes k) (map fst m)) eqn:Ex; [|lia]. apply existsb_exists in Ex as (y & I & Ey). apply eqb_bytes_eq in Ey; subst y. contradiction.
Qed.
Lemma total_keys_all {A B} (w : A -> Z) (m : hmap B) (f : hmap A) : (forall a, 0 <= w a) -> NoDup (map fst m) ->
  total (fun e => at_ w (hget (fst e) f)) m <= total (fun e => w (snd e)) f.
Proof.
  intros H N. eapply Z.le_trans; [apply total_keys; assumption|]. apply total_le. intros [x a] _. cbn [fst snd]. specialize (H a). destruct (existsb _ _); lia.
Qed.

Lemma lookup_le {A} (w : A -> Z) id (l : list (Z * A)) : (forall a, 0 <= w a) -> at_ w (lookup id l) <= total (fun e => if fst e =? id then w (snd e) else 0) l.
Proof.
  intros H. match goal with |- _ <= total ?f _ => assert (P : forall l, 0 <= total f l) end.
  { intros m. apply total_nonneg. intros [x a]; cbn [fst snd]. destruct (x =? id); [apply H|lia]. }
  induction l as [|[x a] l IH]; [cbn; lia|]. rewrite total_cons. cbn [lookup fst snd]. specialize (P l). rewrite (Z.eqb_sym id x). destruct (x =? id) eqn:E; cbn [at_]; lia.
Qed.
Lemma total_ids {A B} (w : A -> Z) (m : list (Z * B)) (f : list (Z * A)) : (forall a, 0 <= w a) -> NoDup (ids m) ->
  total (fun e => at_ w (lookup (fst e) f)) m <= total (fun e => if has (fst e) m then w (snd e) else 0) f.
Proof.
  intros H. induction m as [|[k b] m IH]; intros N.
  - cbn. apply total_nonneg. intros; lia.
  - unfold ids in N. cbn [map fst] in N. inversion N as [|? ? Ni N']; subst. specialize (IH N'). rewrite total_cons. cbn [fst]. pose proof (lookup_le w k f H) as Hk.
    eapply Z.le_trans; [apply Z.add_le_mono; [exact Hk|exact IH]|].
    rewrite <- total_plus. apply total_le. intros [x a] _. cbn [fst snd]. specialize (H a). rewrite !has_lookup. cbn [lookup].
    rewrite ?(Z.eqb_sym k x). destruct (x =? k) eqn:E; [|lia]. apply Z.eqb_eq in E; subst x. destruct (lookup k m) as [y|] eqn:Ex; [|lia].
    apply lookup_in' in Ex. destruct Ni. apply in_map_iff. exists (k, y). auto.
Qed.

(* ------------------------------------------------------------------ *)
(** * Values *)

Definition payload (k : kval) : Z :=
  match k with
  | KStr16 s | KStr256 s | KBigStr s | KBinary s | KBinaryArc s => zlen s
  | KBinary8 v => 8 * zlen v
  | KBinary4 v => 4 * zlen v
  | KBinary2 v => 2 * zlen v
  | _ => 0
  end.
Definition cost (ks : list kval) : Z := total (fun k => 19 + payload k) ks.

Lemma payload_nonneg k : 0 <= payload k.
Proof. destruct k; cbn [payload]; try lia; match goal with |- context [zlen ?x] => pose proof (zlen_nonneg x); lia end. Qed.
Lemma cost_app a b : cost (a ++ b) = cost a + cost b.
Proof. apply total_app. Qed.
Lemma cost_cons k l : cost (k :: l) = 19 + payload k + cost l.
Proof. reflexivity. Qed.
Lemma cost_nil : cost [] = 0.
Proof. reflexivity. Qed.
Lemma cost_nonneg l : 0 <= cost l.
Proof. apply total_nonneg. intros k. pose proof (payload_nonneg k). lia. Qed.
Lemma cost_len l : zlen l <= cost l.
Proof. unfold cost. induction l as [|k l IH]; [cbn; lia|]. rewrite zlen_cons, total_cons. pose proof (payload_nonneg k). lia. Qed.

Lemma bits_len n v : zlen (bits_of n v) = Z.of_nat n.
Proof. induction n as [|n IH]; cbn [bits_of]; [reflexivity|]. rewrite zlen_cons, IH. lia. Qed.
Lemma to_bytes_loop_len cap : forall v, zlen (to_bytes_loop cap v) <= Z.of_nat cap.
Proof. induction cap as [|c IH]; intros v; cbn [to_bytes_loop]; [cbn; lia|]. destruct (v =? 0); [cbn; lia|]. rewrite zlen_cons. specialize (IH (v / 256)). lia. Qed.
Lemma removelast_len {A} (l : list A) : zlen (removelast l) <= zlen l - 1 \/ l = [].
Proof.
  destruct l as [|a l]; [auto|]. left. assert (N : a :: l <> []) by discriminate. rewrite (app_removelast_last a N) at 2. unfold zlen. rewrite app_length. cbn [length]. lia.
Qed.
Lemma vi_len cap v : (1 <= cap)%nat -> zlen (vi_encode cap v) <= Z.of_nat cap + 1.
Proof.
  intros C. unfold vi_encode. set (value := if v <? 0 then (v + 1) * -1 else v).
  assert (B : 1 <= zlen (to_bytes cap value) \/ to_bytes cap value = []) by (destruct (to_bytes cap value) as [|x l]; [auto|left; rewrite zlen_cons; pose proof (zlen_nonneg l); lia]).
  assert (H : zlen (to_bytes cap value) <= Z.of_nat cap).
  { unfold to_bytes. destruct (value =? 0); [change (zlen [0]) with 1; lia|apply to_bytes_loop_len]. }
  set (bs := if (length (to_bytes cap value) <? signed_bytes cap v)%nat then to_bytes cap value ++ [0] else to_bytes cap value).
  assert (Hb : zlen bs <= Z.of_nat cap + 1).
  { unfold bs. destruct (_ <? _)%nat; [|lia]. unfold zlen in *. rewrite app_length. cbn [length]. lia. }
  destruct (v <? 0); [|exact Hb]. unfold or_last. destruct (removelast_len bs) as [R|R].
  - unfold zlen in *. rewrite app_length. cbn [length]. lia.
  - rewrite R. cbn. lia.
Qed.
Lemma le_bytes_len k : forall v, zlen (le_bytes k v) = Z.of_nat k.
Proof. induction k as [|k IH]; intros v; cbn [le_bytes]; [reflexivity|]. rewrite zlen_cons, IH. lia. Qed.
Lemma flat_len k v : zlen (flat_map (le_bytes k) v) = Z.of_nat k * zlen v.
Proof. induction v as [|x v IH]; cbn [flat_map]; [change (zlen (@nil Z)) with 0; lia|]. rewrite zlen_app, zlen_cons, le_bytes_len, IH. lia. Qed.
Lemma be_len k v : zlen (be_bytes k v) = Z.of_nat k.
Proof. unfold be_bytes, zlen. rewrite rev_length. apply le_bytes_len. Qed.

Lemma item_len k t d : encode_item k = Ok (t, d) -> zlen t <= 16 /\ zlen d <= 17 + payload k.
Proof.
  destruct k; cbn [encode_item payload]; unfold enc_sized; intros H;
    try (apply Ok_inj, pair_equal_spec in H as [<- <-]; rewrite ?zlen_app, ?bits_len, ?zlen_nil, ?be_len, ?flat_len; repeat match goal with |- context [zlen (vi_encode 8 ?x)] => let V := fresh in pose proof (vi_len 8 x ltac:(lia)) as V; revert V; generalize (zlen (vi_encode 8 x)); intros end; change (zlen [to_unsigned 8 i]) with 1 || idtac; split; lia).
  - destruct (zlen s <? 16); [|discriminate]. apply Ok_inj, pair_equal_spec in H as [<- <-]. rewrite zlen_app, !bits_len. lia.
  - destruct ((zlen (vi_encode 8 i) =? 0) || (9 <=? zlen (vi_encode 8 i))); [discriminate|]. apply Ok_inj, pair_equal_spec in H as [<- <-]. rewrite zlen_app, !bits_len.
    pose proof (vi_len 8 i ltac:(lia)). lia.
  - destruct (256 <=? zlen s); [discriminate|]. apply Ok_inj, pair_equal_spec in H as [<- <-]. rewrite bits_len, zlen_cons. lia.
  - destruct ((zlen (vi_encode 16 int) =? 0) || (17 <=? zlen (vi_encode 16 int))) eqn:E; [discriminate|]. apply Bool.orb_false_iff in E as [_ E]. apply Z.leb_gt in E.
    apply Ok_inj, pair_equal_spec in H as [<- <-]. rewrite !zlen_app, !bits_len. change (zlen [dot]) with 1. lia.
  - destruct (8 <=? i) eqn:E; [discriminate|]. apply Z.leb_gt in E. apply Ok_inj, pair_equal_spec in H as [<- <-]. rewrite !zlen_app, !bits_len. change (zlen (@nil Z)) with 0. lia.
Qed.

Lemma items_len ks : forall t d, encode_items ks = Ok (t, d) -> zlen t + 8 * zlen d <= 8 * cost ks.
Proof.
  induction ks as [|k ks IH]; intros t d H; cbn [encode_items] in H.
  - apply Ok_inj, pair_equal_spec in H as [<- <-]. cbn. lia.
  - destruct (encode_item k) as [[t1 d1]| |] eqn:E1; try discriminate. cbn [bind] in H. destruct (encode_items ks) as [[t2 d2]| |]; try discriminate. cbn [bind] in H.
    apply Ok_inj, pair_equal_spec in H as [<- <-]. apply item_len in E1. specialize (IH t2 d2 eq_refl). rewrite !zlen_app, cost_cons. lia.
Qed.

Lemma pack_len : forall bs, 8 * zlen (pack_bits bs) <= zlen bs + 7.
Proof.
  fix IH 1. intros [|b7 [|b6 [|b5 [|b4 [|b3 [|b2 [|b1 [|b0 rest]]]]]]]]; try (unfold zlen; cbn; lia).
  cbn [pack_bits]. rewrite !zlen_cons. specialize (IH rest). lia.
Qed.

Lemma encode_len ks v : encode ks = Ok v -> zlen v <= 21 + cost ks.
Proof.
  unfold encode. destruct (encode_items ks) as [[t d]| |] eqn:E; try discriminate. cbn [bind]. intros H. apply Ok_inj in H; subst v. apply items_len in E.
  unfold vi_write. cbn [app]. rewrite !zlen_cons, !zlen_app, !zlen_cons, !zlen_app. pose proof (pack_len t). pose proof (vi_len 8 (zlen ks) ltac:(lia)). pose proof (vi_len 8 (zlen (pack_bits t)) ltac:(lia)). lia.
Qed.

(* ------------------------------------------------------------------ *)
(** * What is written of a difference *)

Lemma comp_int_payload i : payload (comp_int i) = 0.
Proof. unfold comp_int. repeat match goal with |- context [if ?b then _ else _] => destruct b end; reflexivity. Qed.
Lemma comp_double_payload i : payload (comp_double i) = 0.
Proof. unfold comp_double. cbv zeta. repeat match goal with |- context [if ?b then _ else _] => destruct b end; try reflexivity. apply comp_int_payload. Qed.
Lemma comp_str_payload s : payload (comp_str s) <= zlen s.
Proof. unfold comp_str. cbv zeta. pose proof (zlen_nonneg s). repeat match goal with |- context [if ?b then _ else _] => destruct b end; cbn; lia. Qed.

Lemma flags_cost vt t f : write_flags vt t = Ok f -> cost f <= 38.
Proof. destruct vt, t; cbn [write_flags]; intros H; try discriminate; apply Ok_inj in H; subst f; cbv; discriminate. Qed.

Lemma content_nonneg p : 0 <= content p.
Proof.
  destruct p as [q|q|q|q|q|q|q]; destruct q as [a| |]; cbn [content]; try lia; match goal with |- context [zlen ?x] => pose proof (zlen_nonneg x); lia end.
Qed.
Lemma ref_content_nonneg q : 0 <= ref_content q.
Proof. destruct q as [s| |]; cbn [ref_content]; try lia. apply zlen_nonneg. Qed.

Lemma param_cost p vt v : write_param p vt = Ok v -> cost v <= 57 + content p.
Proof.
  unfold write_param. intros H. apply bind_ok in H as (f & Ef & H). apply flags_cost in Ef.
  pose proof (content_nonneg p) as Z0.
  destruct (param_qv_type p); [|apply Ok_inj in H; subst v; lia..]. apply bind_ok in H as (w & Ew & H). apply Ok_inj in H; subst v. rewrite cost_app.
  enough (cost w <= 19 + content p) by lia. clear - Ew. destruct p as [q|q|q|q|q|q|q]; destruct q as [a| |]; cbn [write_param2] in Ew; try discriminate; apply Ok_inj in Ew; subst w;
    rewrite cost_cons, cost_nil; cbn [content]; rewrite ?comp_int_payload, ?comp_double_payload; cbn [payload]; try lia; try (unfold zlen; rewrite map_length; lia).
  pose proof (comp_str_payload (snd a)). lia.
Qed.
Lemma ref_cost q vt v : write_ref q vt = Ok v -> cost v <= 57 + ref_content q.
Proof.
  unfold write_ref. intros H. apply bind_ok in H as (f & Ef & H). apply flags_cost in Ef. destruct q as [s| |]; apply Ok_inj in H; subst v; cbn [ref_content]; [|lia..].
  rewrite cost_app, cost_cons, cost_nil. pose proof (comp_str_payload s). lia.
Qed.

Lemma vec_set_len {A} (l : list A) i x r : vec_set l i x = Ok r -> zlen r = zlen l.
Proof.
  unfold vec_set. destruct (0 <=? i) eqn:E0; [|discriminate]. destruct (i <? zlen l) eqn:E1; [|discriminate]. cbn [andb]. intros H. apply Ok_inj in H; subst r.
  apply Z.leb_le in E0. apply Z.ltb_lt in E1. unfold zlen in *. rewrite app_length. cbn [length]. rewrite firstn_length, skipn_length. lia.
Qed.

Lemma update_bits_len keys : forall r r', update_bits keys r = Ok r' -> zlen r' = zlen r.
Proof.
  unfold update_bits. induction keys as [|i keys IH]; intros r r' H; cbn [mfold] in H; [apply Ok_inj in H; subst; reflexivity|].
  apply bind_ok in H as (r1 & E & H). apply IH in H. rewrite H. destruct (zget r (i / 64)); [|discriminate]. eapply vec_set_len; exact E.
Qed.

Lemma cost_ints l : cost (map (fun s => comp_int (i64 s)) l) = 19 * zlen l.
Proof.
  unfold cost. rewrite total_map. induction l as [|x l IH]; [reflexivity|]. rewrite total_cons, zlen_cons, IH, comp_int_payload. lia.
Qed.

Lemma max_and_len_len keys : snd (max_and_len keys) = zlen keys.
Proof. destruct keys; reflexivity. Qed.

Lemma bits_type max len : calc_type max len = TyBits -> 0 <= max -> max / 64 + 1 <= len + 1.
Proof.
  intros H M. unfold calc_type in H. assert (Q : max / 64 <= max / 48) by (apply Z.div_le_compat_l; lia).
  assert (max / 48 <= max / 40) by (apply Z.div_le_compat_l; lia). assert (max / 40 <= max / 32) by (apply Z.div_le_compat_l; lia). assert (max / 32 <= max / 24) by (apply Z.div_le_compat_l; lia).
  destruct (len =? 0); [discriminate|]. destruct (max <? 64); [destruct (len >? _); discriminate|].
  destruct (max <? 32768); [destruct (len >? _) eqn:E; [apply Z.gtb_lt in E; lia|discriminate]|].
  destruct (max <? 8388608); [destruct (len >? _) eqn:E; [apply Z.gtb_lt in E; lia|discriminate]|].
  destruct (max <? 2147483648); destruct (len >? _) eqn:E; try discriminate; apply Z.gtb_lt in E; lia.
Qed.

Lemma stored_cost params lists s : store_ids params lists = Ok s -> cost (write_stored_ids s) <= 76 + 19 * (zlen params + zlen lists).
Proof.
  unfold store_ids. pose proof (max_and_len_len params) as L1. pose proof (max_and_len_len lists) as L2.
  destruct (max_and_len params) as [m1 l1], (max_and_len lists) as [m2 l2]. cbn [snd] in L1, L2. subst l1 l2.
  pose proof (zlen_nonneg params). pose proof (zlen_nonneg lists). set (max := Z.max (Z.max 0 m1) m2). assert (M : 0 <= max) by lia.
  destruct (calc_type max (zlen params + zlen lists)) eqn:E; intros H1.
  - apply Ok_inj in H1; subst s. cbn [write_stored_ids]. rewrite !cost_cons, cost_nil. cbn [payload]. lia.
  - apply bind_ok in H1 as (r & _ & H1). apply bind_ok in H1 as (r' & _ & H1). apply Ok_inj in H1; subst s. cbn [write_stored_ids]. rewrite !cost_cons, cost_nil, comp_int_payload. cbn [payload]. lia.
  - apply bind_ok in H1 as (r & E1 & H1). apply bind_ok in H1 as (r' & E2 & H1). apply Ok_inj in H1; subst s. apply update_bits_len in E1, E2. rewrite E1 in E2.
    assert (LE : zlen r' = max / 64 + 1). { rewrite E2. unfold zlen. rewrite repeat_length, Z2Nat.id; [reflexivity|]. pose proof (Z.div_pos max 64 M ltac:(lia)). lia. }
    apply bits_type in E; [|exact M]. cbn [write_stored_ids app]. rewrite !cost_cons, cost_ints, comp_int_payload. cbn [payload]. lia.
  - apply Ok_inj in H1; subst s. cbn [write_stored_ids app]. rewrite !cost_cons, cost_ints, comp_int_payload, zlen_app. cbn [payload]. lia.
Qed.

(** a loop that appends *)
Lemma append_cost {A} (g : A -> Z) (f : list kval -> A -> res (list kval)) l : (forall r e r', f r e = Ok r' -> cost r' <= cost r + g e) ->
  forall r r', mfold f l r = Ok r' -> cost r' <= cost r + total g l.
Proof.
  intros H. induction l as [|e l IH]; intros r r' E; cbn [mfold] in E; [apply Ok_inj in E; subst; cbn; lia|].
  apply bind_ok in E as (r1 & E1 & E2). apply H in E1. apply IH in E2. rewrite total_cons. lia.
Qed.

Lemma params_cost {M} params (meta : metatable M) v : write_params params meta = Ok v -> cost v <= total (fun e => 57 + content (snd e)) params.
Proof.
  intros H. unfold write_params in H. eapply (append_cost (fun e => 57 + content (snd e))) in H; [rewrite cost_nil in H; lia|].
  intros r [id p] r' E. destruct (meta_get meta id) as [[? [? vt| |]]|]; try discriminate. apply bind_ok in E as (w & Ew & E). apply Ok_inj in E; subst r'.
  rewrite cost_app. apply param_cost in Ew. cbn [snd]. lia.
Qed.
Lemma refs2_cost {M} refs (meta : metatable M) v : write_refs2 refs meta = Ok v -> cost v <= total (fun e => 57 + ref_content (snd e)) refs.
Proof.
  intros H. unfold write_refs2 in H. eapply (append_cost (fun e => 57 + ref_content (snd e))) in H; [rewrite cost_nil in H; lia|].
  intros r [id p] r' E. destruct (meta_get meta id) as [[? [? vt| |]]|]; try discriminate. apply bind_ok in E as (w & Ew & E). apply Ok_inj in E; subst r'.
  rewrite cost_app. apply ref_cost in Ew. cbn [snd]. lia.
Qed.
Lemma refs_cost {M} refs (meta : metatable M) v : write_refs refs meta = Ok v -> cost v <= 76 + total (fun e => 76 + ref_content (snd e)) refs.
Proof.
  unfold write_refs. intros H. apply bind_ok in H as (s & Es & H). apply stored_cost in Es. unfold zlen in Es. rewrite map_length in Es. fold (zlen refs) in Es. cbn [length] in Es.
  assert (Q : total (fun e : Z * qv (list Z) => 76 + ref_content (snd e)) refs = 19 * zlen refs + total (fun e => 57 + ref_content (snd e)) refs).
  { rewrite <- (total_const 19 refs), <- total_plus. unfold total. clear. induction refs as [|e refs IH]; cbn [fold_right]; [reflexivity|]. rewrite IH. lia. }
  assert (P : 0 <= total (fun e : Z * qv (list Z) => 57 + ref_content (snd e)) refs) by (apply total_nonneg; intros e; pose proof (ref_content_nonneg (snd e)); lia).
  rewrite Q. clear Q. destruct s; [apply Ok_inj in H; subst v; lia|..]; apply bind_ok in H as (w & Ew & H); apply Ok_inj in H; subst v; rewrite cost_app; apply refs2_cost in Ew; lia.
Qed.

(* ------------------------------------------------------------------ *)
(** * Sizes of differences *)

Definition dsize_item {LD} (inner : LD -> Z) (d : itemdiff LD) : Z :=
  152 + total (fun e => 76 + content (snd e)) (df_params d) + total (fun e => 38 + at_ inner (snd e)) (df_lists d) + total (fun e => 76 + ref_content (snd e)) (df_refs d).
Definition dsize_enum {LD} (inner : LD -> Z) (e : enumdiff LD) : Z :=
  95 + match e with Delete => 0 | Create _ d | Modify d => dsize_item inner d end.
Definition dsize_list {LD} (inner : LD -> Z) (d : listdiff LD) : Z := 38 + total (fun e => dsize_enum inner (snd e)) (fst d).
Fixpoint dsizeT (n : nat) : ldiffT n -> Z := match n with O => fun _ => 0 | S n => dsize_list (dsizeT n) end.
Definition dsize_root {n} (d : rootdiff (ldiffT n)) : Z :=
  76 + total (fun e => 76 + content (snd e)) (rd_params d) + total (fun e => 38 + at_ (dsizeT n) (snd e)) (rd_lists d).

Lemma total_shift {A} (c : Z) (f g : A -> Z) l : (forall a, f a = c + g a) -> total f l = c * zlen l + total g l.
Proof. intros H. unfold total. induction l as [|e l IH]; cbn [fold_right]; [change (zlen (@nil A)) with 0; lia|]. rewrite IH, H, zlen_cons. lia. Qed.

Section WriteCost.
Context {LD M : Type}.
Variable inner : LD -> M -> res (list kval).
Variable dsize : LD -> Z.
Hypothesis Hd : forall l m v, inner l m = Ok v -> cost v <= dsize l.
Hypothesis Hp : forall l, 0 <= dsize l.

Lemma at_nonneg o : 0 <= at_ dsize o.
Proof. destruct o; cbn [at_]; [apply Hp|lia]. Qed.

Lemma lists_cost lists (meta : metatable M) v : write_ld_lists inner lists meta = Ok v -> cost v <= total (fun e => 19 + at_ dsize (snd e)) lists.
Proof.
  intros H. unfold write_ld_lists in H. eapply (append_cost (fun e => 19 + at_ dsize (snd e))) in H; [rewrite cost_nil in H; lia|].
  intros r [id o] r' E. cbn [snd]. destruct (meta_get meta id) as [[? [? vt|tb|tb]]|]; try discriminate; destruct o as [l|]; try discriminate; cbn [at_].
  - apply bind_ok in E as (w & Ew & E). apply Ok_inj in E; subst r'. apply Hd in Ew. rewrite cost_app. lia.
  - apply bind_ok in E as (w & Ew & E). apply Ok_inj in E; subst r'. apply Hd in Ew. rewrite cost_app, cost_cons. cbn [payload]. lia.
  - apply Ok_inj in E; subst r'. rewrite cost_app, cost_cons, cost_nil. cbn [payload]. lia.
Qed.

Lemma item2_cost d (meta : metatables M) v : write_list_item2 inner d meta = Ok v -> cost v <= dsize_item dsize d.
Proof.
  unfold write_list_item2, dsize_item. intros H. apply bind_ok in H as (s & Es & H). apply stored_cost in Es. unfold zlen in Es. rewrite !map_length in Es. fold (zlen (df_params d)) in Es. fold (zlen (df_lists d)) in Es.
  rewrite (total_shift 19 (fun e : Z * param => 76 + content (snd e)) (fun e => 57 + content (snd e))) by (intros; lia).
  rewrite (total_shift 19 (fun e : Z * option LD => 38 + at_ dsize (snd e)) (fun e => 19 + at_ dsize (snd e))) by (intros; lia).
  assert (0 <= total (fun e : Z * param => 57 + content (snd e)) (df_params d)) by (apply total_nonneg; intros e; pose proof (content_nonneg (snd e)); lia).
  assert (0 <= total (fun e : Z * option LD => 19 + at_ dsize (snd e)) (df_lists d)) by (apply total_nonneg; intros e; pose proof (at_nonneg (snd e)); lia).
  destruct s.
  { apply bind_ok in H as (w & Ew & H). apply Ok_inj in H; subst v. apply refs_cost in Ew. rewrite cost_app. lia. }
  all: apply bind_ok in H as (v1 & E1 & H); apply bind_ok in H as (v2 & E2 & H); apply bind_ok in H as (v3 & E3 & H); apply Ok_inj in H; subst v;
    apply params_cost in E1; apply lists_cost in E2; apply refs_cost in E3; rewrite !cost_app; lia.
Qed.

Lemma entry_cost e (meta : metatables M) v : write_list_item inner e meta = Ok v -> cost v <= 76 + match e with Delete => 0 | Create _ d | Modify d => dsize_item dsize d end.
Proof.
  destruct e as [|prev d|d]; cbn [write_list_item]; intros H.
  - apply Ok_inj in H; subst v. cbv; discriminate.
  - apply bind_ok in H as (w & Ew & H). apply Ok_inj in H; subst v. apply item2_cost in Ew. rewrite !cost_app, !cost_cons, cost_nil. cbn [payload].
    destruct prev as [k|]; rewrite !cost_cons, cost_nil, ?comp_int_payload; cbn [payload]; lia.
  - apply bind_ok in H as (w & Ew & H). apply Ok_inj in H; subst v. apply item2_cost in Ew. rewrite !cost_cons. cbn [payload]. lia.
Qed.

Lemma list_cost l (meta : metatables M) v : write_list inner l meta = Ok v -> cost v <= dsize_list dsize l.
Proof.
  destruct l as [items nx]. unfold write_list, dsize_list. cbn [fst]. intros H. eapply (append_cost (fun e => dsize_enum dsize (snd e))) in H.
  - rewrite !cost_cons, cost_nil, !comp_int_payload in H. lia.
  - intros r [id e] r' E. apply bind_ok in E as (w & Ew & E). apply Ok_inj in E; subst r'. apply entry_cost in Ew. rewrite cost_app, cost_cons, comp_int_payload. unfold dsize_enum. cbn [snd]. lia.
Qed.

Lemma dsize_item_pos d : 0 <= dsize_item dsize d.
Proof.
  unfold dsize_item.
  assert (0 <= total (fun e : Z * param => 76 + content (snd e)) (df_params d)) by (apply total_nonneg; intros e; pose proof (content_nonneg (snd e)); lia).
  assert (0 <= total (fun e : Z * option LD => 38 + at_ dsize (snd e)) (df_lists d)) by (apply total_nonneg; intros e; pose proof (at_nonneg (snd e)); lia).
  assert (0 <= total (fun e : Z * qv (list Z) => 76 + ref_content (snd e)) (df_refs d)) by (apply total_nonneg; intros e; pose proof (ref_content_nonneg (snd e)); lia). lia.
Qed.
Lemma dsize_list_pos l : 0 <= dsize_list dsize l.
Proof.
  unfold dsize_list. assert (0 <= total (fun e : Z * enumdiff LD => dsize_enum dsize (snd e)) (fst l)); [|lia]. apply total_nonneg. intros [id e]. unfold dsize_enum. cbn [snd].
  destruct e as [|? d|d]; [lia|..]; pose proof (dsize_item_pos d); lia.
Qed.
End WriteCost.

Lemma dsizeT_pos n : forall l, 0 <= dsizeT n l.
Proof. induction n as [|n IH]; intros l; cbn [dsizeT]; [lia|]. apply dsize_list_pos. exact IH. Qed.
Lemma listT_cost n : forall l m v, write_listT n l m = Ok v -> cost v <= dsizeT n l.
Proof. induction n as [|n IH]; intros l m v; [destruct l|]. cbn [write_listT dsizeT]. apply list_cost; [exact IH|apply dsizeT_pos]. Qed.

Lemma root_cost n (d : rootdiff (ldiffT n)) T v : write_root d T = Ok v -> cost v <= dsize_root d.
Proof.
  unfold write_root, dsize_root. intros H. apply bind_ok in H as (s & Es & H). apply stored_cost in Es. unfold zlen in Es. rewrite !map_length in Es. fold (zlen (rd_params d)) in Es. fold (zlen (rd_lists d)) in Es.
  rewrite (total_shift 19 (fun e : Z * param => 76 + content (snd e)) (fun e => 57 + content (snd e))) by (intros; lia).
  rewrite (total_shift 19 (fun e : Z * option (ldiffT n) => 38 + at_ (dsizeT n) (snd e)) (fun e => 19 + at_ (dsizeT n) (snd e))) by (intros; lia).
  assert (0 <= total (fun e : Z * param => 57 + content (snd e)) (rd_params d)) by (apply total_nonneg; intros e; pose proof (content_nonneg (snd e)); lia).
  assert (0 <= total (fun e : Z * option (ldiffT n) => 19 + at_ (dsizeT n) (snd e)) (rd_lists d)) by (apply total_nonneg; intros e; pose proof (at_nonneg _ (dsizeT_pos n) (snd e)); lia).
  destruct s; [apply Ok_inj in H; subst v; lia|..].
  all: apply bind_ok in H as (v1 & E1 & H); apply bind_ok in H as (v2 & E2 & H); apply Ok_inj in H; subst v; apply params_cost in E1; apply (lists_cost _ _ (listT_cost n) (dsizeT_pos n)) in E2; rewrite !cost_app; lia.
Qed.

(* ------------------------------------------------------------------ *)
(** * The difference of two documents *)

(** a loop that adds to two maps *)
Lemma total_perm_zero {A} (f : A -> Z) l : (forall a, In a l -> f a = 0) -> total f l = 0.
Proof. unfold total. induction l as [|x l IH]; intros H; cbn [fold_right]; [reflexivity|]. rewrite (H x (or_introl eq_refl)), (IH (fun a I => H a (or_intror I))). reflexivity. Qed.

Section GetSize.
Context {L LD : Type}.
Variable dsize : LD -> Z.
Variable size : L -> Z.
Hypothesis Hp : forall l, 0 <= dsize l.
Hypothesis Hs : forall l, 0 <= size l.

Notation psum := (total (fun e : Z * param => 76 + content (snd e))).
Notation lsum := (total (fun e : Z * option LD => 38 + at_ dsize (snd e))).
Notation rsum := (total (fun e : Z * qv (list Z) => 76 + ref_content (snd e))).
Notation parts := (bmap param * bmap (option LD))%type.

Lemma psum_insert id p m : psum (binsert id p m) <= psum m + 76 + content p.
Proof. eapply Z.le_trans; [apply total_binsert; intros e; pose proof (content_nonneg (snd e)); lia|]. cbn [snd]. lia. Qed.
Lemma lsum_insert id o m : lsum (binsert id o m) <= lsum m + 38 + at_ dsize o.
Proof. eapply Z.le_trans; [apply total_binsert; intros e; pose proof (at_nonneg dsize Hp (snd e)); lia|]. cbn [snd]. lia. Qed.
Lemma rsum_insert id q m : rsum (binsert id q m) <= rsum m + 76 + ref_content q.
Proof. eapply Z.le_trans; [apply total_binsert; intros e; pose proof (ref_content_nonneg (snd e)); lia|]. cbn [snd]. lia. Qed.

Definition both (acc : parts) : Z := psum (fst acc) + lsum (snd acc).

Lemma size_value_nonneg v : 0 <= size_value size v.
Proof.
  destruct v; cbn [size_value]; repeat match goal with |- context [content ?p] => pose proof (content_nonneg p); lia | |- context [match ?o with _ => _ end] => destruct o | |- context [size ?l] => pose proof (Hs l); lia end; lia.
Qed.

Lemma fold_size {A} (g : A -> Z) (P : A -> Prop) (f : parts -> A -> res parts) l : (forall acc e acc', P e -> f acc e = Ok acc' -> both acc' <= both acc + g e) ->
  Forall P l -> forall acc acc', mfold f l acc = Ok acc' -> both acc' <= both acc + total g l.
Proof.
  intros H F. induction F as [|e l Pe F IH]; intros acc acc' E; cbn [mfold] in E; [apply Ok_inj in E; subst; cbn; lia|].
  apply bind_ok in E as (a1 & E1 & E2). apply H in E1; [|exact Pe]. apply IH in E2. rewrite total_cons. lia.
Qed.

Lemma refs_fold (f : bmap (qv (list Z)) -> name * qv (list Z) -> bmap (qv (list Z))) l : (forall m e, rsum (f m e) <= rsum m + (76 + ref_content (snd e))) ->
  forall m, rsum (fold_left f l m) <= rsum m + total (fun e => 76 + ref_content (snd e)) l.
Proof.
  intros H. induction l as [|e l IH]; intros m; cbn [fold_left]; [cbn; lia|]. specialize (IH (f m e)). specialize (H m e). rewrite total_cons. lia.
Qed.
Lemma refs_80 (l : hmap (qv (list Z))) : total (fun e => 76 + ref_content (snd e)) l <= total (fun e => 80 + ref_content (snd e)) l.
Proof. apply total_le. intros; lia. Qed.
Lemma size_item_pos it : 250 <= size_item size it.
Proof.
  unfold size_item. assert (0 <= total (fun e : name * lval L => size_value size (snd e)) (it_values it)) by (apply total_nonneg; intros e; apply size_value_nonneg).
  assert (0 <= total (fun e : name * qv (list Z) => 80 + ref_content (snd e)) (it_refs it)) by (apply total_nonneg; intros e; pose proof (ref_content_nonneg (snd e)); lia). lia.
Qed.

Section New.
Context {D M : Type}.
Variable inner_new : L -> D -> M -> res LD.
Hypothesis Hnew : forall b d m x, inner_new b d m = Ok x -> dsize x <= 42 + size b.

Lemma new_value_size def meta acc e acc' : new_value inner_new def meta acc e = Ok acc' -> both acc' <= both acc + size_value size (snd e).
Proof.
  destruct acc as [ps ls], e as [key v]. unfold new_value, both. cbn [fst snd]. destruct v as [p|?|o]; cbn [size_value].
  - destruct (hget key (ld_members def)) as [[id ?]|]; [|discriminate]. intros H. apply Ok_inj in H; subst acc'. cbn [fst snd]. pose proof (psum_insert id p ps). lia.
  - intros H. apply Ok_inj in H; subst acc'. cbn [fst snd]. lia.
  - assert (W : psum ps + lsum ls <= psum ps + lsum ls + size_value size (LMil o)) by (pose proof (size_value_nonneg (LMil o)); lia).
    destruct (hget key (ld_members def)) as [[id [? ?|?|dd ?]]|]; try (intros H; apply Ok_inj in H; subst acc'; exact W).
    destruct o as [l|].
    + destruct (get_tables (mt_items meta) id) as [tb|]; [|discriminate]. intros H. apply bind_ok in H as (x & Ex & H). apply Ok_inj in H; subst acc'. cbn [fst snd].
      apply Hnew in Ex. pose proof (lsum_insert id (Some x) ls) as Q. cbn [at_] in Q. lia.
    + intros H. apply Ok_inj in H; subst acc'. cbn [fst snd]. pose proof (lsum_insert id None ls) as Q. cbn [at_] in Q. lia.
Qed.


Lemma new_ref_size (def : ldef D) m e : rsum (new_ref def m e) <= rsum m + (76 + ref_content (snd e)).
Proof.
  unfold new_ref. pose proof (ref_content_nonneg (snd e)). destruct (hget (fst e) (ld_refs def)) as [[id ?]|]; [|lia]. pose proof (rsum_insert id (snd e) m). lia.
Qed.
Lemma compare_ref_size from (def : ldef D) m e : rsum (compare_ref (L := L) from def m e) <= rsum m + (76 + ref_content (snd e)).
Proof.
  destruct e as [key q]. unfold compare_ref. cbn [snd]. pose proof (ref_content_nonneg q). destruct (hget key (ld_refs def)) as [[id ?]|]; [|lia]. pose proof (rsum_insert id q m).
  destruct (hget key (it_refs from)) as [q0|]; [|lia]. destruct (negb _); lia.
Qed.

Lemma new_item_size it def meta x : new_item inner_new it def meta = Ok x -> dsize_item dsize x <= size_item size it - 98.
Proof.
  unfold new_item. intros H. apply bind_ok in H as ([ps ls] & E & H). apply Ok_inj in H; subst x. unfold dsize_item, size_item. cbn [df_params df_lists df_refs].
  eapply (fold_size (fun e => size_value size (snd e)) (fun _ => True)) in E; [|intros acc e acc' _; apply new_value_size|apply Forall_forall; auto]. unfold both in E. cbn [fst snd] in E.
  change (psum []) with 0 in E. change (lsum []) with 0 in E.
  pose proof (refs_fold (new_ref def) (it_refs it) (new_ref_size def) []) as R. change (rsum []) with 0 in R. pose proof (refs_80 (it_refs it)). lia.
Qed.

Lemma new_entries_size def meta l : forall acc acc',
  mfold (fun acc e => let '(result, prev_id) := acc in let '(id, it) := e in x <- new_item inner_new it def meta ; Ok (result ++ [(id, Create prev_id x)], Some id)) l acc = Ok acc' ->
  total (fun e => dsize_enum dsize (snd e)) (fst acc') <= total (fun e => dsize_enum dsize (snd e)) (fst acc) + total (fun e => size_item size (snd e)) l.
Proof.
  induction l as [|[id it] l IH]; intros acc acc' E; cbn [mfold] in E; [apply Ok_inj in E; subst; cbn; lia|]. destruct acc as [res prev].
  apply bind_ok in E as (a1 & E1 & E2). apply bind_ok in E1 as (x & Ex & E1). apply Ok_inj in E1; subst a1. apply IH in E2. rewrite total_cons. cbn [fst snd] in *. rewrite total_app, total_cons in E2.
  cbn [snd] in E2. apply new_item_size in Ex. change (dsize_enum dsize (Create prev x)) with (95 + dsize_item dsize x) in E2. change (total (fun e : Z * enumdiff LD => dsize_enum dsize (snd e)) []) with 0 in E2. lia.
Qed.

Lemma new_list_size l def meta x : new_list inner_new l def meta = Ok x -> dsize_list dsize x <= 42 + size_list size l.
Proof.
  unfold new_list. intros H. apply bind_ok in H as ([res prev] & E & H). apply Ok_inj in H; subst x. apply new_entries_size in E. cbn [fst] in E.
  change (total (fun e : Z * enumdiff LD => dsize_enum dsize (snd e)) []) with 0 in E. unfold dsize_list, size_list. cbn [fst]. lia.
Qed.

Section Compare.
Variable inner_diff : L -> L -> D -> M -> res (option LD).
Variable clean : L -> Prop.
Hypothesis Hdiff : forall a b d m x, clean a -> clean b -> inner_diff a b d m = Ok (Some x) -> dsize x <= 42 + size a + size b.

(** members of both *)
Lemma compare_value_size from def meta acc e acc' :
  (forall l, snd e = LMil (Some l) -> clean l) -> (forall key l, hget key (it_values from) = Some (LMil (Some l)) -> clean l) ->
  compare_value inner_diff inner_new from def meta acc e = Ok acc' -> both acc' <= both acc + (size_value size (snd e) + at_ (size_value size) (hget (fst e) (it_values from))).
Proof.
  intros Ce Cf. destruct acc as [ps ls], e as [key v]. cbn [fst snd] in *. pose proof (at_nonneg _ size_value_nonneg (hget key (it_values from))) as P.
  pose proof (size_value_nonneg v) as Pv.
  assert (W : forall acc', Ok (ps, ls) = Ok acc' -> both acc' <= both (ps, ls) + (size_value size v + at_ (size_value size) (hget key (it_values from)))).
  { intros a H. apply Ok_inj in H; subst a. lia. }
  unfold compare_value. destruct v as [p|?|o].
  - cbn [size_value]. destruct (hget key (ld_members def)) as [[id ?]|]; [|apply W].
    assert (Q : forall acc', Ok (binsert id p ps, ls) = Ok acc' -> both acc' <= both (ps, ls) + (80 + content p + at_ (size_value size) (hget key (it_values from)))).
    { intros a H. apply Ok_inj in H; subst a. unfold both. cbn [fst snd]. pose proof (psum_insert id p ps). lia. }
    destruct (hget key (it_values from)) as [[q|?|?]|]; try apply Q. destruct (negb _); [apply Q|apply W].
  - apply W.
  - destruct (hget key (ld_members def)) as [[id [? ?|?|dd ?]]|]; try apply W. destruct (get_tables (mt_items meta) id) as [tb|]; [|discriminate].
    assert (Q : forall l acc', o = Some l -> (x <- inner_new l dd tb ; Ok (ps, binsert id (Some x) ls)) = Ok acc' ->
      both acc' <= both (ps, ls) + (size_value size (LMil o) + at_ (size_value size) (hget key (it_values from)))).
    { intros l a -> H. apply bind_ok in H as (x & Ex & H). apply Ok_inj in H; subst a. apply Hnew in Ex. unfold both. cbn [fst snd size_value]. pose proof (lsum_insert id (Some x) ls) as I. cbn [at_] in I. lia. }
    assert (Q' : forall acc', o = None -> Ok (ps, binsert id None ls) = Ok acc' -> both acc' <= both (ps, ls) + (size_value size (LMil o) + at_ (size_value size) (hget key (it_values from)))).
    { intros a -> H. apply Ok_inj in H; subst a. unfold both. cbn [fst snd size_value]. pose proof (lsum_insert id None ls) as I. cbn [at_] in I. lia. }
    destruct (hget key (it_values from)) as [[q|?|[lf|]]|] eqn:Ef; destruct o as [l|]; try (apply (Q l); reflexivity); try (intros H; apply Q'; [reflexivity|exact H]); try apply W.
    intros H. apply bind_ok in H as (x & Ex & H). destruct x as [x|]; [|revert H; apply W]. apply Ok_inj in H; subst acc'. apply Hdiff in Ex; [|eapply Cf; exact Ef|apply Ce; reflexivity].
    unfold both. cbn [fst snd size_value at_]. pose proof (lsum_insert id (Some x) ls) as I. cbn [at_] in I. lia.
Qed.

Lemma in_hget' {A} key (v : A) m : NoDup (map fst m) -> In (key, v) m -> hget key m = Some v.
Proof. intros N I. apply in_hget; assumption. Qed.

Lemma compare_size from to def meta x : clean_item clean from -> clean_item clean to ->
  compare_items inner_diff inner_new from to def meta = Ok (Some x) -> dsize_item dsize x <= size_item size from + size_item size to - 348.
Proof.
  intros (Nf & Nrf & Cf) (Nt & Nrt & Ct) H. unfold compare_items in H. apply bind_ok in H as ([ps ls] & E & H).
  set (refs := fold_left (compare_ref from def) (it_refs to) []) in *.
  assert (R : rsum refs <= total (fun e => 80 + ref_content (snd e)) (it_refs to)).
  { pose proof (refs_fold (compare_ref from def) (it_refs to) (compare_ref_size from def) []) as R. change (rsum []) with 0 in R. pose proof (refs_80 (it_refs to)). fold refs in R. lia. }
  assert (Rf : 0 <= total (fun e : name * qv (list Z) => 80 + ref_content (snd e)) (it_refs from)) by (apply total_nonneg; intros e; pose proof (ref_content_nonneg (snd e)); lia).
  eapply (fold_size (fun e => size_value size (snd e) + at_ (size_value size) (hget (fst e) (it_values from))) (fun e => forall l, snd e = LMil (Some l) -> clean l)) in E.
  2: { intros acc e acc' Ce Ea. eapply compare_value_size; eassumption. }
  2: { apply Forall_forall. intros [k v] I l Hl. cbn [snd] in Hl. subst v. eapply Ct. apply in_hget'; eassumption. }
  rewrite total_plus in E. pose proof (total_keys_all (size_value size) (it_values to) (it_values from) size_value_nonneg Nt) as K.
  unfold both in E. cbn [fst snd] in E. change (psum []) with 0 in E. change (lsum []) with 0 in E.
  assert (B : forall y, y = IDiff ps ls refs -> dsize_item dsize y <= size_item size from + size_item size to - 348).
  { intros y ->. unfold dsize_item, size_item. cbn [df_params df_lists df_refs]. lia. }
  destruct ps; [destruct refs; [destruct ls|]|]; try discriminate; apply Ok_inj, Some_inj in H; apply B; symmetry; exact H.
Qed.

Notation esum := (total (fun e : Z * enumdiff LD => dsize_enum dsize (snd e))).


Lemma diff_from_size to def meta l : (forall id x, In (id, x) l -> clean_item clean x) -> (forall id y, lookup id (fst to) = Some y -> clean_item clean y) ->
  forall r r', mfold (diff_from inner_diff inner_new to def meta) l r = Ok r' ->
  esum r' <= esum r + (total (fun e => size_item size (snd e)) l + total (fun e => at_ (size_item size) (lookup (fst e) (fst to))) l).
Proof.
  intros Cl Ct. induction l as [|[id it] l IH]; intros r r' E; cbn [mfold] in E; [apply Ok_inj in E; subst; cbn; lia|].
  apply bind_ok in E as (r1 & E1 & E2). apply IH in E2; [|intros; eapply Cl; right; eassumption]. rewrite !total_cons. cbn [fst snd].
  enough (esum r1 <= esum r + (size_item size it + at_ (size_item size) (lookup id (fst to)))) by lia.
  unfold diff_from in E1. pose proof (size_item_pos it) as P. destruct (lookup id (fst to)) as [y|] eqn:Ey; cbn [at_].
  - pose proof (size_item_pos y). apply bind_ok in E1 as (x & Ex & E1). destruct x as [d|]; apply Ok_inj in E1; subst r1; [|lia].
    apply compare_size in Ex; [|eapply Cl; left; reflexivity|eapply Ct; exact Ey]. rewrite total_app, total_cons. cbn [snd]. change (dsize_enum dsize (Modify d)) with (95 + dsize_item dsize d). change (esum []) with 0. lia.
  - apply Ok_inj in E1; subst r1. rewrite total_app, total_cons. cbn [snd]. change (dsize_enum dsize Delete) with 95. change (esum []) with 0. lia.
Qed.

Lemma diff_to_size from def meta l : forall acc acc', mfold (diff_to inner_new from def meta) l acc = Ok acc' ->
  esum (fst acc') <= esum (fst acc) + total (fun e => if has (fst e) (fst from) then 0 else size_item size (snd e)) l.
Proof.
  induction l as [|[id it] l IH]; intros acc acc' E; cbn [mfold] in E; [apply Ok_inj in E; subst; cbn; lia|].
  apply bind_ok in E as (r1 & E1 & E2). apply IH in E2. rewrite !total_cons. cbn [fst snd]. destruct acc as [r prev]. unfold diff_to in E1. destruct (has id (fst from)); cbn [negb] in E1.
  - apply Ok_inj in E1; subst r1. cbn [fst] in *. lia.
  - apply bind_ok in E1 as (x & Ex & E1). apply Ok_inj in E1; subst r1. apply new_item_size in Ex. cbn [fst] in *. rewrite total_app, total_cons in E2. cbn [snd] in E2. change (dsize_enum dsize (Create prev x)) with (95 + dsize_item dsize x) in E2.
    change (esum []) with 0 in E2. lia.
Qed.

Lemma in_lookup'' {A} id (x : A) l : NoDup (ids l) -> In (id, x) l -> lookup id l = Some x.
Proof. intros N I. apply in_lookup; assumption. Qed.

Lemma list_diff_size from to def meta x : clean_list clean from -> clean_list clean to ->
  get_mlist_diff inner_diff inner_new from to def meta = Ok (Some x) -> dsize_list dsize x <= 42 + size_list size from + size_list size to.
Proof.
  intros (Nf & Cf) (Nt & Ct) H. unfold get_mlist_diff in H. apply bind_ok in H as (r1 & E1 & H). apply bind_ok in H as ([r2 prev] & E2 & H).
  apply diff_from_size in E1; [|intros id y I; eapply Cf; apply in_lookup''; eassumption|exact Ct]. apply diff_to_size in E2. cbn [fst] in E2. change (esum []) with 0 in E1.
  pose proof (total_ids (size_item size) (fst from) (fst to) ltac:(intros a; pose proof (size_item_pos a); lia) Nf) as K.
  assert (S : total (fun e : Z * item L => if has (fst e) (fst from) then size_item size (snd e) else 0) (fst to) +
              total (fun e : Z * item L => if has (fst e) (fst from) then 0 else size_item size (snd e)) (fst to) <= total (fun e => size_item size (snd e)) (fst to)).
  { rewrite <- total_plus. apply total_le. intros e _. destruct (has (fst e) (fst from)); lia. }
  assert (B : forall y, y = (r2, snd to) -> dsize_list dsize y <= 42 + size_list size from + size_list size to).
  { intros y ->. unfold dsize_list, size_list. cbn [fst]. lia. }
  destruct r2; [discriminate|]. apply Ok_inj, Some_inj in H. apply B. symmetry. exact H.
Qed.
End Compare.
End New.
End GetSize.

Lemma size_list_pos {L} (size : L -> Z) l : (forall x, 0 <= size x) -> 0 <= size_list size l.
Proof. intros H. apply total_nonneg. intros e. pose proof (size_item_pos size H (snd e)). lia. Qed.
Lemma sizeT_pos n : forall l, 0 <= sizeT n l.
Proof. induction n as [|n IH]; intros l; cbn [sizeT]; [lia|]. apply size_list_pos. exact IH. Qed.
Lemma new_listT_size n : forall l d m x, new_listT n l d m = Ok x -> dsizeT n x <= 42 + sizeT n l.
Proof. induction n as [|n IH]; intros l d m x; [destruct l|]. cbn [new_listT dsizeT sizeT]. apply new_list_size; [apply dsizeT_pos|apply sizeT_pos|exact IH]. Qed.
Lemma list_diffT_size n : forall a b d m x, cleanT n a -> cleanT n b -> get_mlist_diffT n a b d m = Ok (Some x) -> dsizeT n x <= 42 + sizeT n a + sizeT n b.
Proof.
  induction n as [|n IH]; intros a b d m x; [destruct a|]. cbn [get_mlist_diffT dsizeT sizeT cleanT].
  apply list_diff_size; [apply dsizeT_pos|apply sizeT_pos|apply new_listT_size|exact IH].
Qed.

Section Root.
Context {n : nat}.
Definition size_rootval (v : rootsab (mlistT n)) : Z := match v with RParam p => 80 + content p | RMut (Some l) => 80 + sizeT n l | RMut None => 80 end.
Lemma size_rootval_nonneg v : 0 <= size_rootval v.
Proof. destruct v as [p|[l|]]; cbn [size_rootval]; [pose proof (content_nonneg p)|pose proof (sizeT_pos n l)|]; lia. Qed.

Notation bothr := (both (dsizeT n)).

Lemma root_value_size (f : sabun n) def T acc e acc' :
  (forall l, snd e = RMut (Some l) -> cleanT n l) -> (forall key l, hget key f = Some (RMut (Some l)) -> cleanT n l) ->
  root_value f def T acc e = Ok acc' -> bothr acc' <= bothr acc + (size_rootval (snd e) + at_ size_rootval (hget (fst e) f)).
Proof.
  intros Ce Cf. destruct acc as [ps ls], e as [key v]. cbn [fst snd] in *. pose proof (at_nonneg _ size_rootval_nonneg (hget key f)) as P. pose proof (size_rootval_nonneg v) as Pv.
  assert (W : forall acc', Ok (ps, ls) = Ok acc' -> bothr acc' <= bothr (ps, ls) + (size_rootval v + at_ size_rootval (hget key f))).
  { intros a H. apply Ok_inj in H; subst a. lia. }
  unfold root_value. destruct v as [p|o].
  - assert (Q : forall acc', match hget key def with Some (id, _) => Ok (binsert id p ps, ls) | None => Panic end = Ok acc' ->
      bothr acc' <= bothr (ps, ls) + (size_rootval (RParam p) + at_ size_rootval (hget key f))).
    { intros a H. destruct (hget key def) as [[id ?]|]; [|discriminate]. apply Ok_inj in H; subst a. unfold both. cbn [fst snd size_rootval]. pose proof (psum_insert id p ps). lia. }
    destruct (hget key f) as [[q|?]|]; try apply Q. destruct (negb _); [apply Q|apply W].
  - destruct (hget key f) as [[?|fo]|] eqn:Ef; try discriminate.
    assert (Q : forall id x, dsizeT n x <= 42 + at_ (sizeT n) fo + at_ (sizeT n) o -> bothr (ps, binsert id (Some x) ls) <= bothr (ps, ls) + (size_rootval (RMut o) + at_ size_rootval (Some (RMut fo)))).
    { intros id x H. unfold both. cbn [fst snd at_]. pose proof (lsum_insert (dsizeT n) (dsizeT_pos n) id (Some x) ls) as I. cbn [at_] in I. destruct o, fo; cbn [size_rootval at_] in *; lia. }
    assert (Q' : forall id, bothr (ps, binsert id None ls) <= bothr (ps, ls) + (size_rootval (RMut o) + at_ size_rootval (Some (RMut fo)))).
    { intros id. unfold both. cbn [fst snd at_]. pose proof (lsum_insert (dsizeT n) (dsizeT_pos n) id None ls) as I. cbn [at_] in I.
      pose proof (size_rootval_nonneg (RMut fo)). assert (80 <= size_rootval (RMut o)) by (destruct o as [l|]; cbn [size_rootval]; [pose proof (sizeT_pos n l)|]; lia). lia. }
    destruct fo as [fl|], o as [l|]; try apply W; destruct (hget key def) as [[id [? ?| | |dd ?]]|]; try discriminate; destruct (meta_get T id) as [[? [? ?|tb|tb]]|]; try discriminate; intros H.
    + apply bind_ok in H as (x & Ex & H). destruct x as [x|]; [|revert H; apply W]. apply Ok_inj in H; subst acc'. apply Q. cbn [at_]. eapply list_diffT_size; [eapply Cf; exact Ef|apply Ce; reflexivity|exact Ex].
    + apply Ok_inj in H; subst acc'. apply Q'.
    + apply bind_ok in H as (x & Ex & H). apply Ok_inj in H; subst acc'. apply Q. cbn [at_]. apply new_listT_size in Ex. lia.
Qed.

Lemma root_diff_size (f t : sabun n) def T d : clean_root f -> clean_root t -> get_root_diff f t def T = Ok d -> dsize_root d <= size_root f + size_root t - 124.
Proof.
  intros (Nf & Cf) (Nt & Ct) H. unfold get_root_diff in H. apply bind_ok in H as ([ps ls] & E & H). apply Ok_inj in H; subst d.
  assert (F : forall acc acc', mfold (root_value f def T) t acc = Ok acc' -> bothr acc' <= bothr acc + total (fun e => size_rootval (snd e) + at_ size_rootval (hget (fst e) f)) t).
  { apply (fold_size (dsizeT n) _ (fun e => forall l, snd e = RMut (Some l) -> cleanT n l)).
    - intros acc e acc' Ce Ea. eapply root_value_size; eassumption.
    - apply Forall_forall. intros [k v] I l Hl. cbn [snd] in Hl. subst v. eapply Ct. apply in_hget'; eassumption. }
  apply F in E. rewrite total_plus in E. pose proof (total_keys_all size_rootval t f size_rootval_nonneg Nt) as K.
  unfold both in E. cbn [fst snd] in E. unfold dsize_root, size_root. cbn [rd_params rd_lists].
  change (total (fun e : Z * param => 76 + content (snd e)) []) with 0 in E. change (total (fun e : Z * option (ldiffT n) => 38 + at_ (dsizeT n) (snd e)) []) with 0 in E.
  change (total (fun e : name * rootsab (mlistT n) => match snd e with RParam p => 80 + content p | RMut (Some l) => 80 + sizeT n l | RMut None => 80 end)) with (total (fun e : name * rootsab (mlistT n) => size_rootval (snd e))).
  change (total (fun e : list Z * rootsab (mlistT n) => size_rootval (snd e))) with (total (fun e : name * rootsab (mlistT n) => size_rootval (snd e))) in *. lia.
Qed.

Lemma get_diff_size (f t : sabun n) def v : clean_root f -> clean_root t -> get_diff f t def = Ok v -> zlen v <= size_root f + size_root t.
Proof.
  intros Cf Ct H. unfold get_diff in H. apply bind_ok in H as (T & _ & H). apply bind_ok in H as (d & Ed & H). apply bind_ok in H as (ks & Ek & H).
  apply encode_len in H. apply root_cost in Ek. apply root_diff_size in Ed; [lia|assumption..].
Qed.
Lemma values_size (f t : sabun n) def T d ks : clean_root f -> clean_root t -> get_root_diff f t def T = Ok d -> write_root d T = Ok ks -> zlen ks <= size_root f + size_root t.
Proof. intros Cf Ct Ed Ek. apply root_cost in Ek. apply root_diff_size in Ed; [|assumption..]. pose proof (cost_len ks). lia. Qed.
End Root.

(* ------------------------------------------------------------------ *)
(** * Documents of a definition, and the same documents *)

Lemma typed_clean_list mem {D L} (ty : L -> D -> Prop) (cl : L -> Prop) l d : (forall x y, ty x y -> cl x) -> typed_list mem ty l d -> clean_list cl l.
Proof.
  intros H (N & _ & _ & _ & _ & _ & T). split; [exact N|]. intros id it E. destruct (T id it E) as (Nv & Nr & V & _). split; [exact Nv|]. split; [exact Nr|].
  intros key x Hx. destruct (V key _ Hx) as (? & ? & ? & _ & Ty). eapply H; exact Ty.
Qed.
Lemma typedT_clean mem n : forall l d, typedT mem n l d -> cleanT n l.
Proof. induction n as [|n IH]; intros l d; cbn [typedT cleanT]; [tauto|]. apply typed_clean_list. exact IH. Qed.
Lemma typed_clean mem n (s : sabun n) def : typed_root mem s def -> clean_root s.
Proof.
  intros (N & T). split; [exact N|]. intros key l H. destruct (T key _ H) as (? & ? & ? & _ & Ty). eapply typedT_clean; exact Ty.
Qed.

Lemma total_hmap {A} (R : A -> A -> Prop) (P : A -> Prop) (w : A -> Z) : (forall a b, P a -> P b -> R a b -> w a = w b) -> forall (m m' : hmap A), NoDup (map fst m) -> NoDup (map fst m') ->
  (forall key a, hget key m = Some a -> P a) -> (forall key a, hget key m' = Some a -> P a) ->
  (forall key, same_opt R (hget key m) (hget key m')) -> total (fun e => w (snd e)) m = total (fun e => w (snd e)) m'.
Proof.
  intros Hw. induction m as [|[k a] m IH]; intros m' N N' Pm Pm' S.
  - destruct m' as [|[k b] m']; [reflexivity|]. specialize (S k). cbn [hget] in S. rewrite eqb_bytes_refl in S. contradiction.
  - cbn [map fst] in N. inversion N as [|? ? Ni N1]; subst. pose proof (S k) as Sk. cbn [hget] in Sk. rewrite eqb_bytes_refl in Sk. destruct (hget k m') as [b|] eqn:Eb; [|contradiction]. cbn in Sk.
    pose proof (hget_in _ _ _ Eb) as Ib. apply in_split in Ib as (m1 & m2 & ->). rewrite total_app, !total_cons. cbn [snd].
    assert (N2 : NoDup (map fst (m1 ++ m2))) by (rewrite map_app in *; cbn [map fst] in N'; eapply NoDup_remove_1; exact N').
    assert (Nk : ~ In k (map fst (m1 ++ m2))) by (rewrite map_app in *; cbn [map fst] in N'; eapply NoDup_remove_2; exact N').
    assert (G : forall key, hget key (m1 ++ m2) = if eqb_bytes k key then None else hget key (m1 ++ (k, b) :: m2)).
    { intros key. destruct (eqb_bytes k key) eqn:E.
      - apply eqb_bytes_eq in E; subst key. apply hget_none. exact Nk.
      - clear - E. induction m1 as [|[x c] m1 IH]; cbn [app hget]; [rewrite E; reflexivity|]. destruct (eqb_bytes x key); [reflexivity|exact IH]. }
    assert (G0 : forall key, hget key m = if eqb_bytes k key then None else hget key ((k, a) :: m)).
    { intros key. cbn [hget]. destruct (eqb_bytes k key) eqn:E; [|reflexivity]. apply eqb_bytes_eq in E; subst key. apply hget_none. exact Ni. }
    rewrite (IH (m1 ++ m2)); [|exact N1|exact N2| | |].
    + rewrite total_app. rewrite (Hw a b); [lia| | |exact Sk]; [apply (Pm k); cbn [hget]; rewrite eqb_bytes_refl; reflexivity|apply (Pm' k); exact Eb].
    + intros key c Hc. rewrite G0 in Hc. destruct (eqb_bytes k key); [discriminate|]. eapply Pm; exact Hc.
    + intros key c Hc. rewrite G in Hc. destruct (eqb_bytes k key); [discriminate|]. eapply Pm'; exact Hc.
    + intros key. rewrite G, G0. specialize (S key). destruct (eqb_bytes k key); [exact I|exact S].
Qed.

Lemma ForallTwo_len {A B} (R : A -> B -> Prop) l r : Forall2 R l r -> length l = length r.
Proof. induction 1; cbn; [reflexivity|congruence]. Qed.
Lemma content_same p q : same_param p q -> content p = content q.
Proof.
  destruct p as [a|a|a|a|a|a|a], q as [b|b|b|b|b|b|b]; cbn [same_param]; try contradiction; try (intros ->; reflexivity); destruct a as [x| |], b as [y| |]; cbn [same_qv content]; try contradiction; try reflexivity; unfold same_arc; intros H; try (rewrite H; reflexivity).
  unfold zlen. rewrite (ForallTwo_len _ _ _ H). reflexivity.
Qed.

Section SameSize.
Context {L : Type}.
Variable same : L -> L -> Prop.
Variable clean : L -> Prop.
Variable size : L -> Z.
Hypothesis H : forall a b, clean a -> clean b -> same a b -> size a = size b.

Lemma same_size_item x y : clean_item clean x -> clean_item clean y -> same_item same x y -> size_item size x = size_item size y.
Proof.
  intros (Nx & Nrx & Cx) (Ny & Nry & Cy) (V & R). unfold size_item.
  rewrite (total_hmap (same_value same) (fun v => forall l, v = LMil (Some l) -> clean l) (size_value size)) with (m' := it_values y).
  - rewrite (total_hmap eq (fun _ => True) (fun q => 80 + ref_content q)) with (m' := it_refs y); auto; [intros a b _ _ ->; reflexivity|].
    intros key. rewrite R. destruct (hget key (it_refs y)); cbn; auto.
  - intros a b Ca Cb S. destruct a as [p|t|[l|]], b as [q|u|[l'|]]; cbn in S; try contradiction; cbn [size_value]; auto; [rewrite (content_same _ _ S); reflexivity|]. rewrite (H l l'); auto.
  - exact Nx.
  - exact Ny.
  - intros key a Ha l ->. eapply Cx; exact Ha.
  - intros key a Ha l ->. eapply Cy; exact Ha.
  - exact V.
Qed.

Lemma same_size_items : forall a b : list (Z * item L), ids a = ids b -> NoDup (ids a) -> (forall id x, lookup id a = Some x -> clean_item clean x) -> (forall id x, lookup id b = Some x -> clean_item clean x) ->
  (forall id, same_opt (same_item same) (lookup id a) (lookup id b)) -> total (fun e => size_item size (snd e)) a = total (fun e => size_item size (snd e)) b.
Proof.
  induction a as [|[i x] a IH]; intros [|[j y] b] E N Ca Cb S; try discriminate; [reflexivity|]. unfold ids in E, N. cbn [map fst] in E, N. injection E as <- E. inversion N as [|? ? Ni N']; subst.
  rewrite !total_cons. cbn [snd]. rewrite (IH b); [f_equal|exact E|exact N'| | |].
  - apply same_size_item; [apply (Ca i)|apply (Cb i)|specialize (S i)]; cbn [lookup] in *; rewrite ?Z.eqb_refl in *; auto.
  - intros id z Hz. apply (Ca id). cbn [lookup]. destruct (Z.eqb_spec id i) as [->|]; [|exact Hz]. destruct Ni. apply lookup_in' in Hz. apply in_map_iff. exists (i, z). auto.
  - intros id z Hz. apply (Cb id). cbn [lookup]. destruct (Z.eqb_spec id i) as [->|]; [|exact Hz]. destruct Ni. apply lookup_in' in Hz. rewrite E. apply in_map_iff. exists (i, z). auto.
  - intros id. specialize (S id). cbn [lookup] in S. destruct (Z.eqb_spec id i) as [Ei|]; [|exact S]. rewrite Ei in *.
    assert (Na : lookup i a = None) by (apply lookup_none; exact Ni). assert (Nb : lookup i b = None) by (apply lookup_none; unfold ids; rewrite <- E; exact Ni). rewrite Na, Nb. exact I.
Qed.
Lemma same_size_list nx a b : clean_list clean a -> clean_list clean b -> same_list true nx same a b -> size_list size a = size_list size b.
Proof. intros (Na & Ca) (Nb & Cb) (O & I & _). apply same_size_items; assumption. Qed.
End SameSize.

Lemma sameT_size nx n : forall a b, cleanT n a -> cleanT n b -> sameT true nx n a b -> sizeT n a = sizeT n b.
Proof. induction n as [|n IH]; intros a b; cbn [cleanT sameT sizeT]; [auto|]. apply same_size_list. exact IH. Qed.
Lemma same_root_size nx n (a b : sabun n) : clean_root a -> clean_root b -> same_root true nx a b -> size_root a = size_root b.
Proof.
  intros (Na & Ca) (Nb & Cb) S. unfold size_root. f_equal.
  apply (total_hmap (same_rootval true nx) (fun v => forall l, v = RMut (Some l) -> cleanT n l) size_rootval); auto.
  - intros v w Cv Cw R. destruct v as [p|[l|]], w as [q|[l'|]]; cbn in R; try contradiction; cbn [size_rootval]; auto; [rewrite (content_same _ _ R); reflexivity|]. rewrite (sameT_size nx n l l'); auto.
  - intros key v Hv l ->. eapply Ca; exact Hv.
  - intros key v Hv l ->. eapply Cb; exact Hv.
Qed.

Lemma size_fits n (f t : sabun n) def : clean_root f -> clean_root t -> size_root f + size_root t < 2 ^ 58 -> fits_memory f t def.
Proof. intros Cf Ct S T d ks ET Ed Ek. pose proof (values_size f t def T d ks Cf Ct Ed Ek). lia. Qed.
