(** Deciding for C54 whether a document is tame; used for the examples. *)
From Coq Require Import String.
From Verif Require Import Base StringCompactionModel StringCompactionProofs DocModel DiffSpec DiffProofs JsonModel JsonSpec IntfModel GenModel GenSpec GenNameProofs GenProofs.

Fixpoint prefixb (p s : list Z) : bool :=
  match p, s with
  | [], _ => true
  | a :: p, b :: s => (a =? b) && prefixb p s
  | _ :: _, [] => false
  end.
Lemma prefixb_starts p : forall s, prefixb p s = false -> ~ starts p s.
Proof.
  intros s F [x ->]. assert (prefixb p (p ++ x) = true); [|congruence]. clear F. induction p as [|a p IH]; [reflexivity|]. cbn [app prefixb]. rewrite Z.eqb_refl, IH. reflexivity.
Qed.
Lemma prefixb_ends p s : prefixb (rev p) (rev s) = false -> ~ ends p s.
Proof. intros F [x ->]. apply prefixb_starts in F. apply F. exists (rev x). apply rev_app_distr. Qed.

Definition lowerb (c : Z) : bool := (97 <=? c) && (c <=? 122).
Definition digitb (c : Z) : bool := (48 <=? c) && (c <=? 57).
Fixpoint tailb (s : list Z) : bool :=
  match s with
  | [] => true
  | c :: r => if c =? 95 then match r with d :: r => lowerb d && tailb r | [] => false end else (lowerb c || digitb c) && tailb r
  end.
Lemma tailb_tail s : tailb s = true -> snake_tail s.
Proof.
  remember (length s) as n eqn:En. assert (Ln : (length s <= n)%nat) by lia. clear En. revert s Ln. induction n as [|n IH]; intros s Ln; destruct s as [|c r]; cbn [length] in Ln; try lia; try (intros _; apply tail_nil).
  cbn [tailb]. destruct (Z.eqb_spec c 95) as [->|N].
  - destruct r as [|d r]; [discriminate|]. intros H. apply andb_prop in H as [A B]. apply tail_word; [unfold lowerb in A; unfold lower; lia|]. apply IH; [cbn [length] in Ln; lia|exact B].
  - intros H. apply andb_prop in H as [A B]. apply tail_char; [unfold lowerb, digitb in A; unfold lower, digit; lia|]. apply IH; [lia|exact B].
Qed.

Definition ordinaryb (s : list Z) : bool :=
  match s with c :: r => lowerb c && tailb r | [] => false end &&
  negb (prefixb (txt "set_") s) && negb (prefixb (txt "ref_") s) &&
  negb (prefixb (rev (txt "_old")) (rev (95 :: s))) && negb (prefixb (rev (txt "_mut")) (rev (95 :: s))) &&
  negb (prefixb (rev (txt "_def_val")) (rev (95 :: s))) && negb (prefixb (rev (txt "_us")) (rev (95 :: s))) &&
  negb (existsb (eqb_bytes s) keywords) && negb (existsb (eqb_bytes s) taken).

Lemma not_in_text s l : existsb (eqb_bytes s) l = false -> ~ In s l.
Proof.
  intros E I. assert (existsb (eqb_bytes s) l = true); [|congruence]. apply existsb_exists. exists s. split; [exact I|apply eqb_bytes_refl].
Qed.

Lemma ordinaryb_ordinary s : ordinaryb s = true -> ordinary s.
Proof.
  unfold ordinaryb. intros H. repeat (apply andb_prop in H; let X := fresh "X" in destruct H as [H X]; apply negb_true_iff in X).
  split; [|split; apply not_in_text; assumption]. split; [|split; [apply prefixb_starts; assumption|split; [apply prefixb_starts; assumption|split; [|split; [|split]]; apply prefixb_ends; assumption]]].
  destruct s as [|c r]; [discriminate|]. apply andb_prop in H as [A B]. exists c, r. split; [reflexivity|]. split; [unfold lowerb in A; unfold lower; lia|apply tailb_tail, B].
Qed.

Fixpoint nodupb (l : list (list Z)) : bool := match l with [] => true | x :: r => negb (existsb (eqb_bytes x) r) && nodupb r end.
Lemma nodupb_iff l : nodupb l = true <-> NoDup l.
Proof.
  induction l as [|x l IH]; cbn [nodupb]; [split; [intros _; apply NoDup_nil|reflexivity]|]. split.
  - intros H. apply andb_prop in H as [A B]. apply negb_true_iff in A. apply NoDup_cons; [apply not_in_text, A|apply IH, B].
  - intros N. inversion N as [|? ? I N']; subst. rewrite (proj2 IH N'), andb_true_r. apply negb_true_iff. destruct (existsb (eqb_bytes x) l) eqn:E; [|reflexivity].
    apply existsb_exists in E as (y & Hy & E). apply eqb_bytes_eq in E. subst y. contradiction.
Qed.

Section Check.
Variable root : hmap (Z * rootvalue).

Definition is_table (key : name) : bool :=
  existsb (fun e => match snd (snd e) with WTable _ _ _ => eqb_bytes (fst e) key | _ => false end) root.
Lemma is_table_in key : is_table key = true -> exists id d rows old, In (key, (id, WTable d rows old)) root.
Proof.
  intros H. apply existsb_exists in H as ((k & id & v) & H & E). cbn [fst snd] in E. destruct v as [p vt|d rows o|d items|d u]; try discriminate. apply eqb_bytes_eq in E. subst k. eauto.
Qed.

Definition local_ok (l : ldef def) : bool :=
  nodupb (map fst (ld_members l)) && forallb (fun e => ordinaryb (fst e)) (ld_members l) && nodupb (map fst (ld_refs l)) &&
  (negb (ld_enum l) || match ld_refs l with [] => false | _ => true end) &&
  forallb (fun e => negb (prefixb (txt "id_") (fst e)) && is_table (fst e)) (ld_refs l).
Fixpoint def_ok (d : def) : bool :=
  let 'Def l := d in
  local_ok l && forallb (fun e => let '(_, (_, v)) := e in match v with DParam _ _ => true | DCil d' => def_ok d' | DMil d' _ => def_ok d' end) (ld_members l).
Definition value_ok (v : rootvalue) : bool :=
  match v with
  | WParam _ _ => true
  | WTable d rows _ => def_ok d && negb (match rows with [] => true | _ => false end) && nodupb (map fst rows) && forallb (fun e => ordinaryb (fst e)) rows
  | WCList d _ | WMList d _ => def_ok d
  end.
Definition tameb : bool := nodupb (map fst root) && forallb (fun e => ordinaryb (fst e) && value_ok (snd (snd e))) root && nodupb (list_names root).

Lemma inner_ok l key id v : def_ok (Def l) = true -> In (key, (id, v)) (ld_members l) -> match v with DParam _ _ => True | DCil d' => def_ok d' = true | DMil d' _ => def_ok d' = true end.
Proof.
  cbn [def_ok]. intros H I. apply andb_prop in H as [_ H]. rewrite forallb_forall in H. specialize (H _ I). cbn beta iota in H. destruct v; [exact Logic.I|exact H|exact H].
Qed.

Lemma tameb_tame : tameb = true -> tame root.
Proof.
  unfold tameb. intros H. apply andb_prop in H as [H N]. apply andb_prop in H as [K F]. rewrite forallb_forall in F.
  assert (V : forall key id v, In (key, (id, v)) root -> ordinary key /\ value_ok v = true).
  { intros key id v I. specialize (F _ I). cbn [fst snd] in F. apply andb_prop in F as [A B]. split; [apply ordinaryb_ordinary, A|exact B]. }
  assert (L : forall stem l, listed root stem l -> def_ok (Def l) = true).
  { intros stem l L. induction L as [key id l rows o I|key id l items I|key id l u I|stem l key id l' _ IH I|stem l key id l' u _ IH I].
    - destruct (V _ _ _ I) as (_ & B). cbn [value_ok] in B. apply andb_prop in B as [B _]. apply andb_prop in B as [B _]. apply andb_prop in B as [B _]. exact B.
    - destruct (V _ _ _ I) as (_ & B). exact B.
    - destruct (V _ _ _ I) as (_ & B). exact B.
    - exact (inner_ok l key id (DCil (Def l')) IH I).
    - exact (inner_ok l key id (DMil (Def l') u) IH I). }
  assert (LO : forall stem l, listed root stem l -> local_ok l = true) by (intros stem l I; apply L in I; cbn [def_ok] in I; apply andb_prop in I; apply I).
  split.
  - apply nodupb_iff, K.
  - intros key (id & v) I. apply (V _ _ _ I).
  - intros stem l I. apply LO in I. unfold local_ok in I. apply andb_prop in I as [I _]. apply andb_prop in I as [I _]. apply andb_prop in I as [I _]. apply andb_prop in I as [A B].
    split; [apply nodupb_iff, A|]. rewrite forallb_forall in B. intros key v J. apply ordinaryb_ordinary. exact (B _ J).
  - intros stem l I. apply LO in I. unfold local_ok in I. apply andb_prop in I as [I C]. apply andb_prop in I as [I B]. apply andb_prop in I as [_ A].
    split; [apply nodupb_iff, A|]. split.
    + intros E. rewrite E in B. cbn [negb orb] in B. destruct (ld_refs l); discriminate.
    + rewrite forallb_forall in C. intros key v J. specialize (C _ J). cbn [fst] in C. apply andb_prop in C as [C D]. apply negb_true_iff in C. split; [apply prefixb_starts, C|apply is_table_in, D].
  - intros key id d rows o I. destruct (V _ _ _ I) as (_ & B). cbn [value_ok] in B. apply andb_prop in B as [B C]. apply andb_prop in B as [B D]. apply andb_prop in B as [_ E].
    split; [destruct rows; [discriminate|discriminate]|]. split; [apply nodupb_iff, D|]. rewrite forallb_forall in C. intros row it J. apply ordinaryb_ordinary. exact (C _ J).
  - apply nodupb_iff, N.
Qed.
End Check.

(* ------------------------------------------------------------------ *)
(** * Identifiers and literals *)

Definition letterb (c : Z) : bool := lowerb c || is_upper c || (c =? 95).
Definition identb (s : list Z) : bool :=
  match s with c :: r => letterb c && forallb (fun c => letterb c || digitb c) r | [] => false end &&
  negb (eqb_bytes s [95]) && negb (existsb (eqb_bytes s) keywords).
Lemma ident_identb s : ident s -> identb s = true.
Proof.
  intros ((c & r & -> & C & R) & U & K). unfold identb. apply andb_true_intro. split; [apply andb_true_intro; split|].
  - apply andb_true_intro. split; [unfold letterb, lowerb, is_upper; unfold lower, upper in C; lia|].
    apply forallb_forall. intros x I. rewrite Forall_forall in R. specialize (R x I). unfold letterb, lowerb, digitb, is_upper; unfold lower, upper, digit in R. lia.
  - apply negb_true_iff. destruct (eqb_bytes (c :: r) [95]) eqn:E; [|reflexivity]. apply eqb_bytes_eq in E. contradiction.
  - apply negb_true_iff. destruct (existsb (eqb_bytes (c :: r)) keywords) eqn:E; [|reflexivity].
    apply existsb_exists in E as (y & Hy & E). apply eqb_bytes_eq in E. subst y. contradiction.
Qed.
Lemma idents_identb l : Forall ident l -> forallb identb l = true.
Proof. intros H. apply forallb_forall. rewrite Forall_forall in H. intros x I. apply ident_identb, H, I. Qed.
