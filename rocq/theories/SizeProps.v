(** Property C58: how large a difference is. *)
From Verif Require Import Base CompactionModel CompactionSpec FloatModel StringCompactionModel
  LinkedModel LinkedSpec DocModel DiffModel DiffWireModel DiffSpec DiffEditSpec DiffProofs DiffEndProofs DiffSamples SizeSpec SizeProofs.

(** ** C58  A difference is no larger than the two documents

    For every definition and any two documents in which no key and no id occurs
    twice.  [size_root] counts the bytes of all values, 80 more for each value and
    250 more for each item. *)
Theorem C58_size : forall n (def : rootdef n) (f t : sabun n) v, clean_root f -> clean_root t ->
  get_diff f t def = Ok v -> zlen v <= size_root f + size_root t.
Proof. intros n def f t v. apply get_diff_size. Qed.
Print Assumptions C58_size.

(** the size of a document depends on its values only, not on the order in its maps and
    not on where its texts are *)
Theorem C58_same_size : forall n nx (a b : sabun n), clean_root a -> clean_root b -> same_root true nx a b -> size_root a = size_root b.
Proof. intros n nx a b. apply same_root_size. Qed.
Print Assumptions C58_same_size.

(** C14 for documents that are not too large, without a condition on the difference *)
Theorem C58_edits_partial : forall mem n (def : rootdef n) (f t : sabun n),
  wf_rootdef def -> small_rootdef def -> (forall key id d, hget key def <> Some (id, RVMList d true)) ->
  typed_root mem f def -> typed_root mem t def -> counted_root f -> size_root f + size_root t < 2 ^ 58 ->
  reached (edit_root true) f t ->
  exists bytes, get_diff f t def = Ok bytes /\ wf_bytes bytes /\ zlen bytes <= size_root f + size_root t /\
    forall f', same_root true false f' f -> exists r, apply_diff f' def bytes = Ok r /\ same_root true false r t.
Proof.
  intros mem n def f t W S Un Tf Tt C Z R. pose proof (typed_clean _ _ _ _ Tf) as Cf. pose proof (typed_clean _ _ _ _ Tt) as Ct.
  destruct (edits_reproduced mem true def f t W S Un Tf Tt C R (size_fits n f t def Cf Ct Z)) as (bytes & E & B & A).
  exists bytes. split; [exact E|]. split; [exact B|]. split; [eapply C58_size; eassumption|exact A].
Qed.
Print Assumptions C58_edits_partial.

Example C58_size_case : clean_root doc_f /\ clean_root doc_t /\ size_root doc_f + size_root doc_t = 4154 /\
  exists v, get_diff doc_f doc_t a_def = Ok v /\ zlen v = 28.
Proof.
  split; [eapply typed_clean; exact doc_f_typed|]. split; [eapply typed_clean; exact doc_t_typed|]. split; [vm_compute; reflexivity|].
  eexists. split; [vm_compute; reflexivity|vm_compute; reflexivity].
Qed.

(** ** A small change does not make a small difference

    Texts are compared by their addresses (see DiffModel, identity_eq).  A document that is
    loaded twice and not changed gives a difference that holds its texts, as large as they
    may be; the difference of a document with itself is five bytes. *)

Definition text_def : rootdef 0 := [([115], (0, RVParam (PString (Val (0, []))) Normal))].
Definition text_doc (a : Z) (k : nat) : sabun 0 := [([115], RParam (PString (Val (a, repeat 97 k))))].

Lemma repeat_valid k : utf8_valid (repeat 97 k) = true.
Proof. induction k as [|k IH]; [reflexivity|]. cbn [repeat utf8_valid]. exact IH. Qed.

Lemma text_typed a k : Z.of_nat k < 2 ^ 62 -> typed_root (fun _ => repeat 97 k) (text_doc a k) text_def.
Proof.
  intros K. split; [nodup|]. intros key v H. unfold text_doc in H. cbn [hget] in H. destruct (eqb_bytes [115] key) eqn:E; [|discriminate].
  apply Some_inj in H; subst v. exists 0, (PString (Val (0, []))), Normal. split; [cbn [hget text_def]; rewrite E; reflexivity|]. split; [reflexivity|]. split; [reflexivity|].
  split; [reflexivity|]. cbn [snd]. split; [|split].
  - apply Forall_forall. intros x I. apply repeat_spec in I; subst x. cbv; split; discriminate || reflexivity.
  - apply repeat_valid.
  - unfold zlen. rewrite repeat_length. lia.
Qed.

Lemma text_diff k : (0 < k)%nat -> Z.of_nat k < 2 ^ 62 -> exists v, get_diff (text_doc 1 k) (text_doc 2 k) text_def = Ok v /\ Z.of_nat k <= zlen v.
Proof.
  intros K B. assert (E : get_diff (text_doc 1 k) (text_doc 2 k) text_def = encode [KBit true; KBit true; comp_str (repeat 97 k)]) by reflexivity.
  rewrite E. unfold encode. cbn [encode_items encode_item bind]. unfold comp_str. assert (L : zlen (repeat 97 k) = Z.of_nat k) by (unfold zlen; rewrite repeat_length; reflexivity). rewrite L.
  destruct (Z.eqb_spec (Z.of_nat k) 0); [lia|]. destruct (Z.ltb_spec (Z.of_nat k) 16).
  - cbn [encode_item]. rewrite L. destruct (Z.ltb_spec (Z.of_nat k) 16); [|lia]. cbn [bind]. eexists. split; [reflexivity|]. rewrite !zlen_app, L.
    repeat match goal with |- context [zlen (vi_write ?x)] => pose proof (zlen_nonneg (vi_write x)); generalize dependent (zlen (vi_write x)); intros end.
    match goal with |- context [zlen (pack_bits ?x)] => pose proof (zlen_nonneg (pack_bits x)) end. rewrite ?zlen_nil. lia.
  - destruct (Z.ltb_spec (Z.of_nat k) 256).
    + cbn [encode_item]. rewrite L. destruct (Z.leb_spec 256 (Z.of_nat k)); [lia|]. cbn [bind]. eexists. split; [reflexivity|]. cbn [app]. rewrite ?zlen_app, ?zlen_cons, ?zlen_app, L.
      repeat match goal with |- context [zlen (vi_write ?x)] => pose proof (zlen_nonneg (vi_write x)); generalize dependent (zlen (vi_write x)); intros end.
      match goal with |- context [zlen (pack_bits ?x)] => pose proof (zlen_nonneg (pack_bits x)) end. rewrite ?zlen_nil. lia.
    + cbn [encode_item]. unfold enc_sized. rewrite L. cbn [bind]. eexists. split; [reflexivity|]. cbn [app]. rewrite !zlen_app, L.
      repeat match goal with |- context [zlen (vi_write ?x)] => pose proof (zlen_nonneg (vi_write x)); generalize dependent (zlen (vi_write x)); intros end.
      match goal with |- context [zlen (pack_bits ?x)] => pose proof (zlen_nonneg (pack_bits x)) end.
      match goal with |- context [zlen (vi_encode ?c ?x)] => pose proof (zlen_nonneg (vi_encode c x)) end. rewrite ?zlen_nil. lia.
Qed.

Theorem C58_unchanged_refuted : exists def : rootdef 0, forall k, (0 < k)%nat -> Z.of_nat k < 2 ^ 62 ->
  exists mem (f f' : sabun 0) v, typed_root mem f def /\ typed_root mem f' def /\ same_root true true f' f /\
    get_diff f f def = Ok [1; 2; 1; 1; 224] /\ get_diff f f' def = Ok v /\ Z.of_nat k <= zlen v.
Proof.
  exists text_def. intros k K B. destruct (text_diff k K B) as (v & E & L). exists (fun _ => repeat 97 k), (text_doc 1 k), (text_doc 2 k), v.
  split; [apply text_typed; exact B|]. split; [apply text_typed; exact B|]. split.
  - intros key. unfold text_doc. cbn [hget]. destruct (eqb_bytes [115] key); [reflexivity|exact I].
  - split; [reflexivity|]. split; [exact E|exact L].
Qed.
Print Assumptions C58_unchanged_refuted.
