(** Proofs about names (C45). *)
From Coq Require Import String.
From Verif Require Import Base StringCompactionModel StringCompactionProofs DocModel DiffProofs JsonModel JsonSpec.

Lemma is_first_spec c : is_first c = true <-> c = 64 \/ lower c \/ c = 95.
Proof. unfold is_first, lower. lia. Qed.
Lemma is_rest_spec c : is_rest c = true <-> lower c \/ upper c \/ digit c \/ c = 95.
Proof. unfold is_rest, lower, upper, digit. lia. Qed.

Lemma span_of_app f a b : Forall (fun c => f c = true) a -> (match b with [] => True | c :: _ => f c = false end) ->
  span_of f (a ++ b) = (a, b).
Proof.
  induction 1 as [|c a Hc Ha IH]; intros Hb; cbn [app span_of].
  - destruct b as [|c b]; [reflexivity|]. cbn. rewrite Hb. reflexivity.
  - rewrite Hc, IH by exact Hb. reflexivity.
Qed.

Lemma span_of_spec f s a b : span_of f s = (a, b) -> s = a ++ b /\ Forall (fun c => f c = true) a.
Proof.
  revert a b. induction s as [|c s IH]; intros a b; cbn.
  - intros H; injection H as <- <-. auto.
  - destruct (f c) eqn:E.
    + destruct (span_of f s) as [a' b'] eqn:E2. intros H; injection H as <- <-. destruct (IH _ _ eq_refl) as [-> F]. split; [reflexivity|]. constructor; auto.
    + intros H; injection H as <- <-. auto.
Qed.

Lemma analyze_plain n t : plain_name n -> Forall (fun c => c = 33 \/ c = 63) t -> analyze_name (n ++ t) = Some (n, t).
Proof.
  intros (c & r & -> & Hc & Hr) Ht. cbn [app analyze_name]. rewrite (proj2 (is_first_spec c) Hc).
  rewrite span_of_app.
  - replace (forallb is_mark t) with true; [reflexivity|]. symmetry. apply forallb_forall. intros x I. rewrite Forall_forall in Ht.
    destruct (Ht _ I) as [-> | ->]; reflexivity.
  - eapply Forall_impl; [|exact Hr]. intros x Hx. apply is_rest_spec, Hx.
  - destruct t as [|x t]; [exact I|]. inversion Ht as [|? ? [-> | ->] _]; reflexivity.
Qed.

Lemma analyze_spec s n t : analyze_name s = Some (n, t) -> plain_name n /\ s = n ++ t.
Proof.
  destruct s as [|c r]; cbn; [discriminate|]. destruct (is_first c) eqn:Ec; [|discriminate].
  destruct (span_of is_rest r) as [body suffix] eqn:Es. destruct (forallb is_mark suffix); [|discriminate].
  intros H; injection H as <- <-. destruct (span_of_spec _ _ _ _ Es) as [-> F]. split; [|reflexivity].
  exists c, body. split; [reflexivity|]. split; [apply is_first_spec, Ec|].
  eapply Forall_impl; [|exact F]. intros x Hx. apply is_rest_spec, Hx.
Qed.

Lemma marks_chars vt t : marks vt t -> Forall (fun c => c = 33 \/ c = 63) t.
Proof. intros []; repeat (constructor; auto). Qed.

Lemma value_type_marks s vt n : value_type_and_name s = Some (vt, n) <-> plain_name n /\ exists t, marks vt t /\ s = n ++ t.
Proof.
  unfold value_type_and_name. split.
  - destruct (analyze_name s) as [[n' t]|] eqn:E; [|discriminate]. apply analyze_spec in E as [P ->].
    destruct (eqb_bytes t (txt "!?")) eqn:E1; [apply eqb_bytes_eq in E1; subst t; cbn; intros H; injection H as <- <-; split; [exact P|]; eexists; split; [apply marks_both|reflexivity]|].
    destruct (eqb_bytes t (txt "?!")) eqn:E2; [apply eqb_bytes_eq in E2; subst t; cbn; intros H; injection H as <- <-; split; [exact P|]; eexists; split; [apply marks_both'|reflexivity]|].
    cbn [orb].
    destruct (eqb_bytes t (txt "!")) eqn:E3; [apply eqb_bytes_eq in E3; subst t; cbn; intros H; injection H as <- <-; split; [exact P|]; eexists; split; [apply marks_undefined|reflexivity]|].
    destruct (eqb_bytes t (txt "?")) eqn:E4; [apply eqb_bytes_eq in E4; subst t; cbn; intros H; injection H as <- <-; split; [exact P|]; eexists; split; [apply marks_null|reflexivity]|].
    destruct (eqb_bytes t (txt "")) eqn:E5; [apply eqb_bytes_eq in E5; subst t; cbn; intros H; injection H as <- <-; split; [exact P|]; eexists; split; [apply marks_none|reflexivity]|].
    discriminate.
  - intros (P & t & M & ->). rewrite (analyze_plain n t P (marks_chars _ _ M)). destruct M; reflexivity.
Qed.

Lemma plain_not_word n t x : plain_name n -> n ++ t <> system_word x.
Proof.
  intros (c & r & -> & Hc & _) H. destruct x; injection H as H _; unfold lower in Hc; lia.
Qed.

Lemma word_neq s w : s <> w -> eqb_bytes s w = false.
Proof. apply eqb_bytes_neq. Qed.

Lemma json_name_plain s n vt : json_name s = Some (NName n vt) <-> plain_name n /\ exists t, marks vt t /\ s = n ++ t.
Proof.
  unfold json_name. split.
  - destruct (eqb_bytes s (txt "Old")); [discriminate|]. destruct (eqb_bytes s (txt "ID")); [discriminate|].
    destruct (eqb_bytes s (txt "Ref")); [discriminate|]. destruct (eqb_bytes s (txt "Enum")); [discriminate|].
    destruct (value_type_and_name s) as [[vt' n']|] eqn:E; [|discriminate]. intros H; injection H as -> ->. apply value_type_marks, E.
  - intros (P & t & M & ->).
    rewrite (word_neq _ (txt "Old")) by apply (plain_not_word _ _ SOld P). rewrite (word_neq _ (txt "ID")) by apply (plain_not_word _ _ SID P).
    rewrite (word_neq _ (txt "Ref")) by apply (plain_not_word _ _ SRef P). rewrite (word_neq _ (txt "Enum")) by apply (plain_not_word _ _ SEnum P).
    rewrite (proj2 (value_type_marks (n ++ t) vt n)); [reflexivity|]. eauto.
Qed.

Lemma json_name_system s x : json_name s = Some (NSystem x) <-> s = system_word x.
Proof.
  split.
  - unfold json_name. destruct (eqb_bytes s (txt "Old")) eqn:E1; [apply eqb_bytes_eq in E1; intros H; injection H as <-; exact E1|].
    destruct (eqb_bytes s (txt "ID")) eqn:E2; [apply eqb_bytes_eq in E2; intros H; injection H as <-; exact E2|].
    destruct (eqb_bytes s (txt "Ref")) eqn:E3; [apply eqb_bytes_eq in E3; intros H; injection H as <-; exact E3|].
    destruct (eqb_bytes s (txt "Enum")) eqn:E4; [apply eqb_bytes_eq in E4; intros H; injection H as <-; exact E4|].
    destruct (value_type_and_name s) as [[vt n]|]; discriminate.
  - intros ->. destruct x; reflexivity.
Qed.

Lemma to_suffix_marks vt : marks vt (to_suffix vt).
Proof. destruct vt; constructor. Qed.

Lemma json_name_written n vt : plain_name n -> json_name (name_with_suffix n vt) = Some (NName n vt).
Proof. intros P. apply json_name_plain. split; [exact P|]. exists (to_suffix vt). split; [apply to_suffix_marks|reflexivity]. Qed.

Lemma simple_name_spec s n : json_simple_name s = Some n <-> plain_name s /\ n = s.
Proof.
  unfold json_simple_name. split.
  - destruct (json_name s) as [[m vt|]|] eqn:E; try discriminate. destruct vt; try discriminate. intros H; injection H as ->.
    apply json_name_plain in E as (P & t & M & ->). inversion M; subst t. rewrite app_nil_r. auto.
  - intros [P ->]. replace (json_name s) with (Some (NName s Normal)); [reflexivity|]. symmetry. apply json_name_plain.
    split; [exact P|]. exists []. split; [constructor|]. symmetry; apply app_nil_r.
Qed.
