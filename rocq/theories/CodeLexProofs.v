(** Proofs about the lexer of CodeSpec: texts put together from lines, and a lexer for texts with
    names in them that are not known. *)
From Coq Require Import String.
From Verif Require Import Base TextModel DocModel JsonModel JsonSpec GenModel GenSpec CodeModel CodeSpec.

(* ------------------------------------------------------------------ *)
(** * Texts one after another *)

Lemma run_app s a b : run s (a ++ b) =
  match run s a with Some (x, s') => match run s' b with Some (y, e) => Some (x ++ y, e) | None => None end | None => None end.
Proof.
  revert s. induction a as [|c a IH]; intros s; cbn [app run].
  - destruct (run s b) as [[y e]|]; reflexivity.
  - destruct (step s c) as [[p s1]|]; [|reflexivity]. rewrite IH. destruct (run s1 a) as [[x s2]|]; [|reflexivity].
    destruct (run s2 b) as [[y e]|]; [|reflexivity]. now rewrite app_assoc.
Qed.

Lemma run_cons s c r : run s (c :: r) =
  match step s c with Some (a, s') => match run s' r with Some (b, e) => Some (a ++ b, e) | None => None end | None => None end.
Proof. reflexivity. Qed.

(** a text that begins and ends between tokens *)
Definition line (t : text) (ts : list tok) : Prop := run Between t = Some (ts, Between).
Definition lexes (t : text) (ts : list tok) : Prop := lex t = Some ts.

Lemma line_nil : line [] [].
Proof. reflexivity. Qed.
Lemma line_app a b x y : line a x -> line b y -> line (a ++ b) (x ++ y).
Proof. unfold line. intros A B. rewrite run_app, A, B. reflexivity. Qed.
Lemma line_flat {A} (f : A -> text) (g : A -> list tok) l : (forall x, In x l -> line (f x) (g x)) -> line (flat_map f l) (flat_map g l).
Proof.
  induction l as [|x l IH]; intros H; [apply line_nil|]. cbn [flat_map]. apply line_app; [apply H; left; reflexivity|].
  apply IH. intros y Y. apply H. right. exact Y.
Qed.
Lemma line_concat_map {A} (f : A -> text) (g : A -> list tok) l : (forall x, In x l -> line (f x) (g x)) -> line (concat (map f l)) (flat_map g l).
Proof. rewrite <- flat_map_concat_map. apply line_flat. Qed.
Lemma line_lexes t ts : line t ts -> lexes t ts.
Proof. unfold line, lexes, lex. intros ->. cbn. now rewrite app_nil_r. Qed.
Lemma line_eq t x y : line t x -> x = y -> line t y.
Proof. intros H <-. exact H. Qed.
Lemma lexes_eq t x y : lexes t x -> x = y -> lexes t y.
Proof. intros H <-. exact H. Qed.

(** a line feed ends a token *)
Lemma step_newline s : step s 10 = match whole s with Some ts => Some (ts, Between) | None => None end.
Proof. destruct s as [|w|w|w|h]; try reflexivity. cbn. replace (joined h 10) with false; [reflexivity|].
  unfold joined. destruct (h =? 45), (h =? 61), (h =? 58); reflexivity. Qed.
Lemma run_newline s t : run s (t ++ [10]) = match run s t with Some (a, e) => match whole e with Some b => Some (a ++ b, Between) | None => None end | None => None end.
Proof.
  rewrite run_app. destruct (run s t) as [[a e]|]; [|reflexivity]. cbn [run]. rewrite step_newline. destruct (whole e) as [b|]; [|reflexivity]. now rewrite app_nil_r.
Qed.
Lemma lexes_line t ts : lexes t ts <-> line (t ++ [10]) ts.
Proof. unfold lexes, line, lex. rewrite run_newline. destruct (run Between t) as [[a e]|]; [|easy]. destruct (whole e) as [b|]; [|easy].
  split; intros H; [apply Some_inj in H; subst; reflexivity|]. apply Some_inj, pair_equal_spec in H as [-> _]. reflexivity. Qed.

(** tabs before a line *)
Lemma run_tabs n t : run Between (repeat 9 n ++ t) = run Between t.
Proof.
  induction n as [|n IH]; [reflexivity|]. change (repeat 9 (S n) ++ t) with (9 :: (repeat 9 n ++ t)). rewrite run_cons.
  change (step Between 9) with (Some (@nil tok, Between)). cbv iota beta. rewrite IH. destruct (run Between t) as [[y e]|]; reflexivity.
Qed.

Lemma run_tab_line n s : run Between (tab_line n s) = run Between (s ++ [10]).
Proof. unfold tab_line. apply run_tabs. Qed.

Lemma lines_cons s : exists l ls, lines s = l :: ls.
Proof. induction s as [|c s [l [ls IH]]]; cbn [lines]; [eauto|]. destruct (c =? 10); [eauto|]. rewrite IH. eauto. Qed.

(** the lines of a text with tabs before them are the text *)
Lemma run_lines n s : forall l ls, lines s = l :: ls -> forall st, run st (l ++ [10] ++ concat (map (tab_line n) ls)) = run st (s ++ [10]).
Proof.
  induction s as [|c s IH]; intros l ls E st; cbn [lines] in E.
  - injection E as <- <-. reflexivity.
  - destruct (c =? 10) eqn:C.
    + injection E as <- <-. apply Z.eqb_eq in C. subst c. destruct (lines_cons s) as [l' [ls' E']]. rewrite E'. cbn [map concat app].
      cbn [run]. rewrite step_newline. destruct (whole st) as [ts|]; [|reflexivity].
      assert (R : run Between (tab_line n l' ++ concat (map (tab_line n) ls')) = run Between (s ++ [10])); [|rewrite R; reflexivity].
      rewrite <- (IH l' ls' E' Between). unfold tab_line at 1. rewrite <- !app_assoc. apply run_tabs.
    + destruct (lines_cons s) as [l' [ls' E']]. rewrite E' in E. injection E as <- <-. cbn [app run].
      destruct (step st c) as [[p s1]|]; [|reflexivity]. specialize (IH l' ls' E' s1). cbn [app] in IH. rewrite IH. reflexivity.
Qed.

Lemma line_push n t ts : lexes t ts -> line (push n t) ts.
Proof.
  rewrite lexes_line. unfold line, push. destruct (lines_cons t) as [l [ls E]]. rewrite E. cbn [map concat]. unfold tab_line at 1. rewrite <- !app_assoc, run_tabs.
  rewrite (run_lines n t l ls E). auto.
Qed.

Lemma without_newline_eq s : without_newline s = s \/ s = without_newline s ++ [10].
Proof.
  unfold without_newline. destruct (rev s) as [|c r] eqn:E; [left; reflexivity|].
  destruct (Z.eq_dec c 10) as [->|N].
  - right. rewrite <- (rev_involutive s), E. reflexivity.
  - left. destruct c as [|p|p]; try reflexivity. repeat (destruct p as [p|p|]; try reflexivity). congruence.
Qed.

Lemma line_pushed n t ts : line t ts -> line (push_without_newline n t) ts.
Proof.
  intros H. apply line_push. destruct (without_newline_eq t) as [E|E].
  - rewrite E. apply line_lexes. exact H.
  - apply lexes_line. rewrite <- E. exact H.
Qed.

(* ------------------------------------------------------------------ *)
(** * Names *)

Definition wordy (s : text) : Prop := exists c r, s = c :: r /\ forallb word_char (c :: r) = true.
Definition quotable (s : text) : Prop := literal s.

Lemma word_not_special c : word_char c = true -> c <> 34 /\ c <> 92 /\ c <> 10 /\ c <> 13 /\ c <> 39 /\ blank c = false /\ c <> 62 /\ c <> 58.
Proof.
  unfold word_char, blank. intros H.
  assert (B : (97 <= c <= 122) \/ (65 <= c <= 90) \/ (48 <= c <= 57) \/ c = 95).
  { repeat (apply orb_true_iff in H as [H|H]); try apply andb_true_iff in H as [H H']; lia. }
  clear H. lia.
Qed.

Lemma wordy_quotable s : wordy s -> quotable s.
Proof.
  intros [c [r [-> H]]]. unfold quotable, literal. rewrite forallb_forall in H. apply Forall_forall. intros x X. apply H, word_not_special in X. tauto.
Qed.

Lemma run_in_word r : forallb word_char r = true -> forall u, run (InWord u) r = Some ([], InWord (u ++ r)).
Proof.
  induction r as [|c r IH]; intros H u; cbn [run]; [now rewrite app_nil_r|].
  cbn [forallb] in H. apply andb_true_iff in H as [C H]. cbn [step]. rewrite C, (IH H). cbn [app]. rewrite <- app_assoc. reflexivity.
Qed.
Lemma start_word c : word_char c = true -> start c = Some ([], InWord [c]).
Proof. intros C. unfold start. destruct (word_not_special c C) as (_ & _ & _ & _ & _ & -> & _). rewrite C. reflexivity. Qed.
Lemma run_word_between s : wordy s -> run Between s = Some ([], InWord s).
Proof.
  intros [c [r [-> H]]]. cbn [forallb] in H. apply andb_true_iff in H as [C H]. cbn [run step]. rewrite (start_word c C), (run_in_word r H). reflexivity.
Qed.
Lemma run_word_half s h : wordy s -> run (Half h) s = Some ([Mark [h]], InWord s).
Proof.
  intros [c [r [-> H]]]. cbn [forallb] in H. apply andb_true_iff in H as [C H]. cbn [run step].
  replace (joined h c) with false. { rewrite (start_word c C). cbn [after]. rewrite (run_in_word r H). reflexivity. }
  destruct (word_not_special c C) as (_ & _ & _ & _ & _ & _ & N1 & N2). unfold joined.
  lia.
Qed.
Lemma run_in_quote s : quotable s -> forall u, run (InQuote u) s = Some ([], InQuote (u ++ s)).
Proof.
  intros H. induction H as [|c r [A [B [C D]]] H IH]; intros u; cbn [run]; [now rewrite app_nil_r|].
  cbn [step]. destruct (Z.eqb_spec c 34), (Z.eqb_spec c 92), (Z.eqb_spec c 10), (Z.eqb_spec c 13); try lia. cbn [orb]. rewrite IH. cbn [app]. rewrite <- app_assoc. reflexivity.
Qed.
Lemma run_word_in s u : wordy s -> run (InWord u) s = Some ([], InWord (u ++ s)).
Proof. intros [c [r [-> H]]]. apply run_in_word. exact H. Qed.

(* ------------------------------------------------------------------ *)
(** * Texts with unknown names *)

(** a character, a name, and a text that stands between quotation marks *)
Inductive piece : Type := Ch (c : Z) | Wd (s : text) | Ky (s : text).
Fixpoint flat (l : list piece) : text :=
  match l with
  | [] => []
  | Ch c :: r => c :: flat r
  | [Wd s] | [Ky s] => s
  | Wd s :: r | Ky s :: r => s ++ flat r
  end.
Lemma flat_word s r : flat (Wd s :: r) = s ++ flat r.
Proof. destruct r; [symmetry; apply app_nil_r|reflexivity]. Qed.
Lemma flat_key s r : flat (Ky s :: r) = s ++ flat r.
Proof. destruct r; [symmetry; apply app_nil_r|reflexivity]. Qed.
Lemma flat_app a b : flat (a ++ b) = flat a ++ flat b.
Proof.
  induction a as [|[c|s|s] a IH]; [reflexivity| | |]; cbn [app].
  - cbn [flat app]. f_equal. exact IH.
  - rewrite !flat_word, IH. apply app_assoc.
  - rewrite !flat_key, IH. apply app_assoc.
Qed.

Inductive ptok : Type := PWord (l : list piece) | PQuoted (l : list piece) | PLife (l : list piece) | PMark (s : text).
Inductive pcur : Type := QBetween | QWord (l : list piece) | QQuote (l : list piece) | QLife (l : list piece) | QHalf (c : Z).
Definition tok_of (t : ptok) : tok :=
  match t with PWord l => Word (flat l) | PQuoted l => Quoted (flat l) | PLife l => Life (flat l) | PMark s => Mark s end.
Definition cur_of (s : pcur) : cur :=
  match s with QBetween => Between | QWord l => InWord (flat l) | QQuote l => InQuote (flat l) | QLife l => InLife (flat l) | QHalf c => Half c end.

Definition pstart (c : Z) : option (list ptok * pcur) :=
  if blank c then Some ([], QBetween)
  else if word_char c then Some ([], QWord [Ch c])
  else if c =? 34 then Some ([], QQuote [])
  else if c =? 39 then Some ([], QLife [])
  else if half_mark c then Some ([], QHalf c)
  else if lone_mark c then Some ([PMark [c]], QBetween)
  else None.
Definition pafter (t : ptok) (o : option (list ptok * pcur)) : option (list ptok * pcur) :=
  match o with Some (ts, s) => Some (t :: ts, s) | None => None end.
Definition pstep (s : pcur) (p : piece) : option (list ptok * pcur) :=
  match p with
  | Ch c =>
      match s with
      | QBetween => pstart c
      | QWord l => if word_char c then Some ([], QWord (l ++ [p])) else if (c =? 34) || (c =? 39) then None else pafter (PWord l) (pstart c)
      | QQuote l => if c =? 34 then Some ([PQuoted l], QBetween) else if (c =? 92) || (c =? 10) || (c =? 13) then None else Some ([], QQuote (l ++ [p]))
      | QLife l => if word_char c then Some ([], QLife (l ++ [p])) else if c =? 39 then None else pafter (PLife l) (pstart c)
      | QHalf h => if joined h c then Some ([PMark [h; c]], QBetween) else pafter (PMark [h]) (pstart c)
      end
  | Wd _ =>
      match s with
      | QBetween => Some ([], QWord [p])
      | QWord l => Some ([], QWord (l ++ [p]))
      | QQuote l => Some ([], QQuote (l ++ [p]))
      | QHalf h => Some ([PMark [h]], QWord [p])
      | QLife _ => None
      end
  | Ky _ => match s with QQuote l => Some ([], QQuote (l ++ [p])) | _ => None end
  end.
Fixpoint prun (s : pcur) (t : list piece) : option (list ptok * pcur) :=
  match t with
  | [] => Some ([], s)
  | c :: r => match pstep s c with
              | Some (a, s') => match prun s' r with Some (b, e) => Some (a ++ b, e) | None => None end
              | None => None
              end
  end.
Definition good (p : piece) : Prop := match p with Ch _ => True | Wd s => wordy s | Ky s => quotable s end.

Definition lift (o : option (list ptok * pcur)) : option (list tok * cur) :=
  match o with Some (ts, s) => Some (map tok_of ts, cur_of s) | None => None end.
Lemma pstart_start c : start c = lift (pstart c).
Proof. unfold start, pstart. repeat match goal with |- (if ?b then _ else _) = _ => destruct b; [reflexivity|] end. reflexivity. Qed.
Lemma lift_after t o : lift (pafter t o) = after (tok_of t) (lift o).
Proof. destruct o as [[ts s]|]; reflexivity. Qed.

Lemma pstep_run s p a s' : good p -> pstep s p = Some (a, s') -> run (cur_of s) (flat [p]) = Some (map tok_of a, cur_of s').
Proof.
  intros G E. destruct p as [c|u|u]; cbn [flat].
  - assert (R : step (cur_of s) c = Some (map tok_of a, cur_of s')); [|cbn [run]; rewrite R; now rewrite app_nil_r].
    change (Some (map tok_of a, cur_of s')) with (lift (Some (a, s'))). rewrite <- E.
    destruct s as [|l|l|l|h]; cbn [pstep cur_of step].
    + apply pstart_start.
    + destruct (word_char c); [cbn [lift map cur_of]; rewrite flat_app; reflexivity|]. destruct ((c =? 34) || (c =? 39)); [reflexivity|]. rewrite lift_after, pstart_start. reflexivity.
    + destruct (c =? 34); [reflexivity|]. destruct ((c =? 92) || (c =? 10) || (c =? 13)); [reflexivity|]. cbn [lift map cur_of]. rewrite flat_app. reflexivity.
    + destruct (word_char c); [cbn [lift map cur_of]; rewrite flat_app; reflexivity|]. destruct (c =? 39); [reflexivity|]. rewrite lift_after, pstart_start. reflexivity.
    + destruct (joined h c); [reflexivity|]. rewrite lift_after, pstart_start. reflexivity.
  - cbn [good] in G. destruct s as [|l|l|l|h]; cbn [pstep] in E; try discriminate E; apply Some_inj, pair_equal_spec in E as [<- <-]; cbn [cur_of map tok_of]; rewrite ?flat_app.
    + apply run_word_between. exact G.
    + apply run_word_in. exact G.
    + apply run_in_quote, wordy_quotable. exact G.
    + apply run_word_half. exact G.
  - cbn [good] in G. destruct s as [|l|l|l|h]; cbn [pstep] in E; try discriminate E; apply Some_inj, pair_equal_spec in E as [<- <-]; cbn [cur_of map tok_of]; rewrite ?flat_app.
    apply run_in_quote. exact G.
Qed.

Lemma prun_run l : Forall good l -> forall s a e, prun s l = Some (a, e) -> run (cur_of s) (flat l) = Some (map tok_of a, cur_of e).
Proof.
  induction 1 as [|p l G H IH]; intros s a e E; cbn [prun] in E.
  - apply Some_inj, pair_equal_spec in E as [<- <-]. reflexivity.
  - destruct (pstep s p) as [[b s']|] eqn:P; [|discriminate E]. destruct (prun s' l) as [[c e']|] eqn:R; [|discriminate E]. apply Some_inj, pair_equal_spec in E as [<- <-].
    change (p :: l) with ([p] ++ l). rewrite flat_app, run_app, (pstep_run s p b s' G P), (IH s' c e' R), map_app. reflexivity.
Qed.

Lemma line_pieces l t ts : Forall good l -> flat l = t -> prun QBetween l = Some (ts, QBetween) -> line t (map tok_of ts).
Proof. intros G <- E. apply (prun_run l G QBetween ts QBetween E). Qed.

Definition pwhole (s : pcur) : option (list ptok) :=
  match s with QBetween => Some [] | QWord l => Some [PWord l] | QLife l => Some [PLife l] | QHalf h => Some [PMark [h]] | QQuote _ => None end.
Definition plex (l : list piece) : option (list ptok) :=
  match prun QBetween l with Some (a, s) => match pwhole s with Some b => Some (a ++ b) | None => None end | None => None end.
Lemma lexes_pieces l t ts : Forall good l -> flat l = t -> plex l = Some ts -> lexes t (map tok_of ts).
Proof.
  intros G <- E. unfold plex in E. destruct (prun QBetween l) as [[a s]|] eqn:R; [|discriminate E]. apply (prun_run l G) in R. cbn [cur_of] in R.
  unfold lexes, lex. rewrite R. destruct s as [|u|u|u|h]; cbn [pwhole] in E; try discriminate E; apply Some_inj in E; subst ts; rewrite map_app; reflexivity.
Qed.

(** what is asked of the names among the pieces *)
Fixpoint all_good (l : list piece) : Prop :=
  match l with [] => True | Ch _ :: r => all_good r | p :: r => good p /\ all_good r end.
Lemma all_good_forall l : all_good l -> Forall good l.
Proof. induction l as [|[c|s|s] l IH]; intros H; [constructor|constructor; [exact Logic.I|apply IH, H]| |]; (constructor; [exact (proj1 H)|apply IH; exact (proj2 H)]). Qed.

(** the pieces of a text; names have their properties among the hypotheses *)
Ltac pieces e :=
  lazymatch e with
  | ?a ++ ?b => let x := pieces a in let y := pieces b in constr:(x ++ y)
  | txt ?s => let x := eval vm_compute in (map Ch (txt s)) in constr:(x)
  | @nil Z => constr:(@nil piece)
  | ?c :: ?r => let y := pieces r in constr:(Ch c :: y)
  | ?x => match goal with
          | _ : wordy x |- _ => constr:([Wd x])
          | _ : quotable x |- _ => constr:([Ky x])
          end
  end.
Ltac goods := apply all_good_forall; cbn [all_good good]; repeat (apply conj; [assumption|]); exact Logic.I.
Ltac by_pieces :=
  lazymatch goal with
  | |- line ?t _ => let l := pieces t in let l := eval cbv [app] in l in
      let r := eval vm_compute in (prun QBetween l) in
      lazymatch r with Some (?ts, QBetween) =>
        apply (line_pieces l t ts); [goods | first [vm_compute; reflexivity | rewrite <- ?app_assoc; vm_compute; reflexivity] | vm_compute; reflexivity] end
  | |- lexes ?t _ => let l := pieces t in let l := eval cbv [app] in l in
      let r := eval vm_compute in (plex l) in
      lazymatch r with Some ?ts =>
        apply (lexes_pieces l t ts); [goods | first [vm_compute; reflexivity | rewrite <- ?app_assoc; vm_compute; reflexivity] | vm_compute; reflexivity] end
  end.
(** names become variables *)
Ltac unknown := repeat match goal with
  | H : wordy ?x |- _ => lazymatch x with _ _ => revert H; generalize x; intros ? H end
  | H : quotable ?x |- _ => lazymatch x with _ _ => revert H; generalize x; intros ? H end
  end.
(** a text of lines *)
Ltac by_lines :=
  lazymatch goal with
  | |- line [] _ => apply line_nil
  | |- line (push ?n ?t ++ ?r) _ => eapply line_app; [apply line_push; by_pieces | by_lines]
  | |- line (push ?n ?t) _ => apply line_push; by_pieces
  | |- line ?t _ => by_pieces
  end.
