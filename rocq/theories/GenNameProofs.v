(** Proofs for C54: the names the generator makes. *)
From Coq Require Import String.
From Verif Require Import Base DocModel DiffSpec JsonModel JsonSpec IntfModel GenModel GenSpec.

(* ------------------------------------------------------------------ *)
(** * Snake names and type names *)

Lemma to_upper_lower c : lower c -> to_upper c = c - 32.
Proof. unfold lower, to_upper. intros H. destruct (Z.leb_spec 97 c), (Z.leb_spec c 122); cbn [andb]; lia. Qed.
Lemma to_lower_upper c : lower c -> to_lower (c - 32) = c.
Proof. unfold lower, to_lower, is_upper. intros H. destruct (Z.leb_spec 65 (c - 32)), (Z.leb_spec (c - 32) 90); cbn [andb]; lia. Qed.
Lemma is_upper_lower c : lower c -> is_upper (c - 32) = true.
Proof. unfold lower, is_upper. intros H. destruct (Z.leb_spec 65 (c - 32)), (Z.leb_spec (c - 32) 90); cbn [andb]; lia. Qed.
Lemma is_upper_not c : lower c \/ digit c -> is_upper c = false.
Proof. unfold lower, digit, is_upper. intros H. destruct (Z.leb_spec 65 c), (Z.leb_spec c 90); cbn [andb]; lia. Qed.
Lemma to_lower_lower c : lower c -> to_lower c = c.
Proof. intros H. unfold to_lower. rewrite is_upper_not by auto. reflexivity. Qed.

Lemma snake_rest_id r : snake_tail r -> snake_rest r = r.
Proof.
  induction 1 as [|c r H _ IH|c r H _ IH]; [reflexivity| |].
  - cbn [snake_rest]. rewrite (is_upper_not _ H). cbn. rewrite IH. reflexivity.
  - cbn [snake_rest]. change (is_upper 95) with false. rewrite is_upper_not by auto. cbn. rewrite IH. reflexivity.
Qed.

Lemma snake_id s : snake s -> to_snake_name s = s.
Proof.
  intros (c & r & -> & H & T). unfold to_snake_name. rewrite to_lower_lower, snake_rest_id by assumption.
  destruct (Z.eqb_spec c 64); [unfold lower in H; lia|reflexivity].
Qed.

Lemma type_rest_back r : snake_tail r -> snake_rest (type_rest false r) = r.
Proof.
  induction 1 as [|c r H _ IH|c r H _ IH]; [reflexivity| |].
  - cbn [type_rest]. destruct (Z.eqb_spec c 95); [unfold lower, digit in H; lia|]. cbn [snake_rest]. rewrite (is_upper_not _ H). cbn. rewrite IH. reflexivity.
  - cbn [type_rest]. change (95 =? 95) with true. cbn [type_rest]. cbn iota. destruct (Z.eqb_spec c 95); [unfold lower in H; lia|].
    cbn [snake_rest]. rewrite to_upper_lower, is_upper_lower, to_lower_upper by assumption. cbn. rewrite IH. reflexivity.
Qed.

(** the type name tells the name *)
Lemma type_name_back s : snake s -> to_snake_name (to_type_name s) = s.
Proof.
  intros (c & r & -> & H & T). unfold to_type_name. destruct (Z.eqb_spec c 64); [unfold lower in H; lia|].
  cbn [app]. unfold to_snake_name. rewrite to_upper_lower, to_lower_upper, type_rest_back by assumption.
  destruct (Z.eqb_spec (c - 32) 64); [unfold lower in H; lia|reflexivity].
Qed.

Lemma type_name_inj s t : snake s -> snake t -> to_type_name s = to_type_name t -> s = t.
Proof. intros S T E. rewrite <- (type_name_back s S), <- (type_name_back t T), E. reflexivity. Qed.

(** [_old] in a name is [Old] in the type name *)
Lemma snake_tail_app a b : snake_tail a -> snake_tail b -> snake_tail (a ++ b).
Proof. induction 1; intros B; cbn; [exact B|apply tail_char; auto|apply tail_word; auto]. Qed.

(** texts as lists of bytes *)
Ltac bytes := repeat match goal with |- context [txt ?s] => let t := eval vm_compute in (txt s) in change (txt s) with t end.
Ltac bytes_in H := repeat match type of H with context [txt ?s] => let t := eval vm_compute in (txt s) in change (txt s) with t in H end.

Lemma tail_old : snake_tail (txt "_old").
Proof. bytes. apply (tail_word 111); [unfold lower; lia|]. repeat (apply tail_char; [left; unfold lower; lia|]). apply tail_nil. Qed.

Lemma snake_old s old : snake s -> snake (with_old s old).
Proof.
  intros (c & r & -> & H & T). destruct old; cbn [with_old]; [|exists c, r; auto]. exists c, (r ++ txt "_old"). split; [reflexivity|]. split; [exact H|].
  apply snake_tail_app; [exact T|exact tail_old].
Qed.

Lemma type_rest_app r b : snake_tail r -> type_rest false (r ++ b) = type_rest false r ++ type_rest false b.
Proof.
  induction 1 as [|c r H _ IH|c r H _ IH]; [reflexivity| |].
  - cbn [app type_rest]. destruct (Z.eqb_spec c 95); [unfold lower, digit in H; lia|]. rewrite IH. reflexivity.
  - cbn [app type_rest]. change (95 =? 95) with true. cbn iota. cbn [type_rest]. destruct (Z.eqb_spec c 95); [unfold lower in H; lia|]. rewrite IH. reflexivity.
Qed.

Lemma variant_old s old : snake s -> variant_name s old = to_type_name (with_old s old).
Proof.
  intros (c & r & -> & H & T). destruct old; [|reflexivity]. cbn [variant_name with_old to_type_name app]. destruct (Z.eqb_spec c 64); [unfold lower in H; lia|].
  cbn [app]. rewrite type_rest_app by assumption. reflexivity.
Qed.

(* ------------------------------------------------------------------ *)
(** * Characters *)

Lemma tail_chars r : snake_tail r -> Forall (fun c => lower c \/ digit c \/ c = 95) r.
Proof.
  induction 1 as [|c r H _ IH|c r H _ IH]; [apply Forall_nil| |].
  - apply Forall_cons; [tauto|exact IH].
  - apply Forall_cons; [tauto|]. apply Forall_cons; [tauto|exact IH].
Qed.

Lemma snake_chars s : snake s -> Forall (fun c => lower c \/ digit c \/ c = 95) s.
Proof. intros (c & r & -> & H & T). constructor; [tauto|]. apply tail_chars, T. Qed.

Lemma snake_literal s : snake s -> literal s.
Proof. intros S. apply snake_chars in S. eapply Forall_impl; [|exact S]. cbn beta. unfold lower, digit. intros; lia. Qed.

Lemma type_rest_chars r : snake_tail r -> Forall (fun c => lower c \/ upper c \/ digit c \/ c = 95) (type_rest false r).
Proof.
  induction 1 as [|c r H _ IH|c r H _ IH]; [constructor| |].
  - cbn [type_rest]. destruct (Z.eqb_spec c 95); [unfold lower, digit in H; lia|]. constructor; [tauto|exact IH].
  - cbn [type_rest]. change (95 =? 95) with true. cbn iota. cbn [type_rest]. destruct (Z.eqb_spec c 95); [unfold lower in H; lia|].
    constructor; [|exact IH]. rewrite to_upper_lower by assumption. right; left. unfold lower in H. unfold upper. lia.
Qed.

(** type names start with a capital letter *)
Lemma type_name_shape s : snake s -> exists c r, to_type_name s = c :: r /\ upper c /\ Forall (fun c => lower c \/ upper c \/ digit c \/ c = 95) r.
Proof.
  intros (c & r & -> & H & T). unfold to_type_name. destruct (Z.eqb_spec c 64); [unfold lower in H; lia|]. cbn [app]. exists (to_upper c), (type_rest false r).
  split; [reflexivity|]. split; [|apply type_rest_chars, T]. rewrite to_upper_lower by assumption. unfold lower in H. unfold upper. lia.
Qed.

(** the only keyword with a capital letter is [Self] *)
Lemma capital_keyword s c r : s = c :: r -> upper c -> In s keywords -> s = txt "Self".
Proof.
  intros -> U I. unfold keywords in I. cbn [map In] in I. unfold upper in U.
  repeat (destruct I as [I|I]; [first [exact (eq_sym I)|exfalso; vm_compute in I; injection I as <-; lia]|]). destruct I.
Qed.

Lemma type_ident s suf : snake s -> Forall (fun c => lower c \/ upper c \/ digit c \/ c = 95) suf -> to_type_name s ++ suf <> txt "Self" -> ident (to_type_name s ++ suf).
Proof.
  intros S F N. destruct (type_name_shape s S) as (c & r & E & U & R). rewrite E in *. split; [|split].
  - exists c, (r ++ suf). split; [reflexivity|]. split; [tauto|]. apply Forall_app; auto.
  - intros H. injection H as -> _. unfold upper in U. lia.
  - intros I. apply N. apply (capital_keyword _ c (r ++ suf)); [reflexivity|exact U|exact I].
Qed.

Lemma variant_ident s old : snake s -> ~ In s keywords -> ident (variant_name s old).
Proof.
  intros S K. rewrite variant_old by exact S. pose proof (snake_old s old S) as S'. rewrite <- (app_nil_r (to_type_name _)).
  apply type_ident; [exact S'|constructor|]. rewrite app_nil_r. intros H. pose proof (type_name_back _ S') as B. rewrite H in B.
  assert (E : with_old s old = txt "self") by (rewrite <- B; reflexivity). destruct old; cbn [with_old] in E.
  - apply (f_equal (@rev Z)) in E. rewrite rev_app_distr in E. vm_compute in E. discriminate.
  - apply K. rewrite E. unfold keywords. cbn [map In]. do 23 right. left. reflexivity.
Qed.

Lemma variant_inj s o t p : snake s -> snake t -> ~ ends (txt "_old") (95 :: s) -> ~ ends (txt "_old") (95 :: t) -> variant_name s o = variant_name t p -> s = t.
Proof.
  intros S T Es Et. rewrite !variant_old by assumption. intros E. apply type_name_inj in E; [|apply snake_old; assumption|apply snake_old; assumption].
  destruct o, p; cbn [with_old] in E; [apply app_inv_tail in E; exact E| | |exact E]; exfalso.
  - apply Et. exists (95 :: s). rewrite <- E. reflexivity.
  - apply Es. exists (95 :: t). rewrite E. reflexivity.
Qed.

(* ------------------------------------------------------------------ *)
(** * Types *)

Definition suffixes : list (list Z) := map txt ["CItem"; "MItem"; "Table"; "TableID"; "Enum"; "Kind"]%string.

Ltac back H := apply (f_equal (@rev Z)) in H; rewrite ?rev_app_distr in H; vm_compute in H.

Lemma type_inj s t a b : snake s -> snake t -> In a suffixes -> In b suffixes -> to_type_name s ++ a = to_type_name t ++ b -> s = t /\ a = b.
Proof.
  intros S T A B E. assert (a = b).
  { unfold suffixes in A, B. cbn [map In] in A, B.
    repeat (destruct A as [<-|A]; [repeat (destruct B as [<-|B]; [first [reflexivity|exfalso; apply (f_equal (@rev Z)) in E; rewrite !rev_app_distr in E; discriminate E]|]); destruct B|]); destruct A. }
  subst b. apply app_inv_tail in E. split; [apply type_name_inj; assumption|reflexivity].
Qed.

Lemma suffix_ident s a : snake s -> In a suffixes -> ident (to_type_name s ++ a).
Proof.
  intros S A. apply type_ident; [exact S| |].
  - unfold suffixes in A. cbn [map In] in A. repeat (destruct A as [<-|A]; [bytes; repeat (apply Forall_cons; [unfold lower, upper; lia|]); apply Forall_nil|]); destruct A.
  - unfold suffixes in A. cbn [map In] in A. intros E.
    repeat (destruct A as [<-|A]; [apply (f_equal (@rev Z)) in E; rewrite !rev_app_distr in E; discriminate E|]); destruct A.
Qed.

Lemma root_type s a : In a suffixes -> to_type_name s ++ a <> txt "RootIntf".
Proof.
  intros A E. unfold suffixes in A. cbn [map In] in A.
  repeat (destruct A as [<-|A]; [apply (f_equal (@rev Z)) in E; rewrite !rev_app_distr in E; discriminate E|]); destruct A.
Qed.

(* ------------------------------------------------------------------ *)
(** * Methods *)

Definition pres : list (list Z) := map txt [""; "set_"; "ref_"; "ref_id_"; "set_ref_"]%string.
Definition sufs : list (list Z) := map txt [""; "_mut"; "_def_val"; "_us"; "_old"; "_old_mut"; "_old_def_val"; "_old_us"]%string.

(** a word at the end of a prefixed name is at the end of the name *)
Lemma ends_of_prefixed p x w : In p pres -> In w (map txt ["_old"; "_mut"; "_def_val"; "_us"]%string) -> ends w (p ++ x) -> ends w (95 :: x).
Proof.
  intros P W (z & E).
  assert (G : p = [] \/ exists q, p = q ++ [95] /\ In q (map txt ["set"; "ref"; "ref_id"; "set_ref"]%string)).
  { unfold pres in P. cbn [map In] in P. destruct P as [<-|[<-|[<-|[<-|[<-|[]]]]]]; [left; reflexivity| | | |]; right.
    - exists (txt "set"). split; [reflexivity|]. cbn [map In]. tauto.
    - exists (txt "ref"). split; [reflexivity|]. cbn [map In]. tauto.
    - exists (txt "ref_id"). split; [reflexivity|]. cbn [map In]. tauto.
    - exists (txt "set_ref"). split; [reflexivity|]. cbn [map In]. tauto. }
  destruct G as [->|(q & -> & Q)].
  - cbn [app] in E. exists (95 :: z). rewrite E. reflexivity.
  - rewrite <- app_assoc in E. cbn [app] in E. apply app_eq_app in E as (l & [[Eq Ew]|[_ Ex]]); [|exists l; exact Ex].
    destruct l as [|a [|b l]]; [exists []; cbn [app] in *; exact (eq_sym Ew)| |]; exfalso.
    + clear Eq. cbn [map In] in W. repeat (destruct W as [<-|W]; [bytes_in Ew; discriminate Ew|]). destruct W.
    + assert (A : a = 95 /\ (b = 111 \/ b = 109 \/ b = 100 \/ b = 117)).
      { cbn [map In] in W. repeat (destruct W as [<-|W]; [bytes_in Ew; injection Ew as <- <- _; tauto|]). destruct W. }
      destruct A as (-> & B). clear Ew W x w.
      cbn [map In] in Q. repeat (destruct Q as [<-|Q]; [bytes_in Eq; do 8 (destruct z as [|? z]; [cbn [app] in Eq; try discriminate Eq; injection Eq; intros; subst; lia|]; cbn [app] in Eq; try discriminate Eq; injection Eq as _ Eq)|]). destruct Q.
Qed.

(** what is made from the name [key]: [pre], the name, [suf] *)
Definition made : Type := (list Z * name * list Z)%type.
Definition made_name (m : made) : list Z := let '(pre, key, suf) := m in pre ++ key ++ suf.
Definition makeable (m : made) : Prop :=
  let '(pre, key, suf) := m in
  unadorned key /\ In pre pres /\ In suf sufs /\ (pre = txt "ref_" -> ~ starts (txt "id_") key) /\ (pre = [] -> suf = [] -> ~ In key keywords).

Lemma suffix_unique p x s p' x' s' : In p pres -> In p' pres -> In s sufs -> In s' sufs -> unadorned x -> unadorned x' ->
  p ++ x ++ s = p' ++ x' ++ s' -> s = s'.
Proof.
  intros P P' S S' (_ & _ & _ & U1 & U2 & U3 & U4) (_ & _ & _ & U1' & U2' & U3' & U4') E. rewrite !app_assoc in E.
  assert (N : forall w, In w (map txt ["_old"; "_mut"; "_def_val"; "_us"]%string) -> ~ ends w (p ++ x)).
  { intros w W H. apply (ends_of_prefixed p x w P W) in H. cbn [map In] in W. destruct W as [<-|[<-|[<-|[<-|[]]]]]; contradiction. }
  assert (N' : forall w, In w (map txt ["_old"; "_mut"; "_def_val"; "_us"]%string) -> ~ ends w (p' ++ x')).
  { intros w W H. apply (ends_of_prefixed p' x' w P' W) in H. cbn [map In] in W. destruct W as [<-|[<-|[<-|[<-|[]]]]]; contradiction. }
  clear U1 U2 U3 U4 U1' U2' U3' U4' P P'. generalize dependent (p ++ x). generalize dependent (p' ++ x'). clear p x p' x'. intros y' N' y E N.
  assert (I1 : In (txt "_old") (map txt ["_old"; "_mut"; "_def_val"; "_us"]%string)) by (cbn [map In]; tauto).
  assert (I2 : In (txt "_mut") (map txt ["_old"; "_mut"; "_def_val"; "_us"]%string)) by (cbn [map In]; tauto).
  assert (I3 : In (txt "_def_val") (map txt ["_old"; "_mut"; "_def_val"; "_us"]%string)) by (cbn [map In]; tauto).
  assert (I4 : In (txt "_us") (map txt ["_old"; "_mut"; "_def_val"; "_us"]%string)) by (cbn [map In]; tauto).
  pose proof (N _ I1) as A1. pose proof (N _ I2) as A2. pose proof (N _ I3) as A3. pose proof (N _ I4) as A4.
  pose proof (N' _ I1) as B1. pose proof (N' _ I2) as B2. pose proof (N' _ I3) as B3. pose proof (N' _ I4) as B4.
  clear N N' I1 I2 I3 I4. unfold ends in *.
  change (txt "_old_mut") with (txt "_old" ++ txt "_mut") in *. change (txt "_old_def_val") with (txt "_old" ++ txt "_def_val") in *. change (txt "_old_us") with (txt "_old" ++ txt "_us") in *.
  unfold sufs in S, S'. cbn [map In] in S, S'.
  change (txt "_old_mut") with (txt "_old" ++ txt "_mut") in *. change (txt "_old_def_val") with (txt "_old" ++ txt "_def_val") in *. change (txt "_old_us") with (txt "_old" ++ txt "_us") in *.
  change (txt "") with (@nil Z) in *.
  repeat (destruct S as [<-|S]; [repeat (destruct S' as [<-|S']; [
    first [ reflexivity
          | exfalso; rewrite ?app_nil_r, ?app_assoc in E;
            first [ (apply app_inv_tail in E);
                    first [ apply A1; eexists; exact E | apply B1; eexists; exact (eq_sym E) ]
                  | apply A1; eexists; exact E | apply B1; eexists; exact (eq_sym E)
                  | apply A2; eexists; exact E | apply B2; eexists; exact (eq_sym E)
                  | apply A3; eexists; exact E | apply B3; eexists; exact (eq_sym E)
                  | apply A4; eexists; exact E | apply B4; eexists; exact (eq_sym E)
                  | apply (f_equal (@rev Z)) in E; rewrite !rev_app_distr in E; discriminate E ] ] |]); destruct S'|]); destruct S.
Qed.

Lemma prefix_unique p x p' x' : In p pres -> In p' pres -> unadorned x -> unadorned x' ->
  (p = txt "ref_" -> ~ starts (txt "id_") x) -> (p' = txt "ref_" -> ~ starts (txt "id_") x') -> p ++ x = p' ++ x' -> p = p'.
Proof.
  intros P P' (_ & U1 & U2 & _) (_ & U1' & U2' & _) N N' E. unfold starts in *.
  unfold pres in P, P'. cbn [map In] in P, P'.
  change (txt "ref_id_") with (txt "ref_" ++ txt "id_") in *. change (txt "set_ref_") with (txt "set_" ++ txt "ref_") in *. change (txt "") with (@nil Z) in *.
  repeat (destruct P as [<-|P]; [repeat (destruct P' as [<-|P']; [
    first [ reflexivity
          | exfalso; rewrite <- ?app_assoc in E; rewrite ?app_nil_l in E;
            first [ apply U1; eexists; exact E | apply U1'; eexists; exact (eq_sym E)
                  | apply U2; eexists; exact E | apply U2'; eexists; exact (eq_sym E)
                  | (apply app_inv_head in E);
                    first [ apply U2; eexists; exact E | apply U2'; eexists; exact (eq_sym E)
                          | apply N; [reflexivity|]; eexists; exact E | apply N'; [reflexivity|]; eexists; exact (eq_sym E) ]
                  | discriminate E ] ] |]); destruct P'|]); destruct P.
Qed.

(** the name tells what it is made from *)
Lemma made_inj m m' : makeable m -> makeable m' -> made_name m = made_name m' -> m = m'.
Proof.
  destruct m as [[p x] s], m' as [[p' x'] s']. cbn [makeable made_name]. intros (U & P & S & N & _) (U' & P' & S' & N' & _) E.
  assert (s = s') by (eapply (suffix_unique p x s p' x' s'); assumption). subst s'.
  rewrite !app_assoc in E. apply app_inv_tail in E. assert (p = p') by (eapply (prefix_unique p x p' x'); assumption). subst p'.
  apply app_inv_head in E. subst. reflexivity.
Qed.

Lemma made_nodup l : Forall makeable l -> NoDup l -> NoDup (map made_name l).
Proof.
  intros F N. induction N as [|m l I N IH]; [apply NoDup_nil|]. inversion F as [|? ? M F']; subst. cbn [map]. apply NoDup_cons; [|apply IH, F'].
  intros H. apply in_map_iff in H as (m' & E & H). rewrite Forall_forall in F'. apply made_inj in E; [|apply F', H|exact M]. subst m'. contradiction.
Qed.

(** keywords have no [_] *)
Lemma keyword_plain s : In s keywords -> ~ In 95 s.
Proof.
  unfold keywords. cbn [map In]. intros I.
  repeat (destruct I as [<-|I]; [bytes; cbn [In]; lia|]). destruct I.
Qed.

Lemma made_ident m : makeable m -> ident (made_name m).
Proof.
  destruct m as [[p x] s]. cbn [makeable made_name]. intros ((S & _) & P & Q & _ & K).
  assert (Fp : Forall (fun c => lower c \/ digit c \/ c = 95) p).
  { unfold pres in P. cbn [map In] in P. repeat (destruct P as [<-|P]; [bytes; repeat (apply Forall_cons; [unfold lower; lia|]); apply Forall_nil|]). destruct P. }
  assert (Fs : Forall (fun c => lower c \/ digit c \/ c = 95) s).
  { unfold sufs in Q. cbn [map In] in Q. repeat (destruct Q as [<-|Q]; [bytes; repeat (apply Forall_cons; [unfold lower; lia|]); apply Forall_nil|]). destruct Q. }
  pose proof (snake_chars x S) as Fx.
  assert (C : exists c r, p ++ x ++ s = c :: r /\ lower c).
  { destruct S as (c & r & -> & L & _). unfold pres in P. cbn [map In] in P.
    destruct P as [<-|P]; [exists c, (r ++ s); split; [reflexivity|exact L]|].
    repeat (destruct P as [<-|P]; [bytes; eexists; eexists; split; [cbn [app]; reflexivity|unfold lower; lia]|]). destruct P. }
  destruct C as (c & r & E & L). assert (F : Forall (fun c => lower c \/ digit c \/ c = 95) (c :: r)) by (rewrite <- E; repeat (apply Forall_app; split); assumption).
  split; [|split].
  - exists c, r. split; [exact E|]. split; [tauto|]. inversion F; subst. eapply Forall_impl; [|eassumption]. cbn beta. tauto.
  - rewrite E. intros H. injection H as -> _. unfold lower in L. lia.
  - intros I. destruct p as [|p0 p].
    + destruct s as [|s0 s].
      * rewrite app_nil_r in I. cbn [app] in I. exact (K eq_refl eq_refl I).
      * apply keyword_plain in I. apply I. rewrite !in_app_iff. right; right. unfold sufs in Q. cbn [map In] in Q.
        destruct Q as [Q|Q]; [discriminate Q|]. repeat (destruct Q as [Q|Q]; [rewrite <- Q; left; reflexivity|]). destruct Q.
    + apply keyword_plain in I. apply I. rewrite in_app_iff. left. unfold pres in P. cbn [map In] in P.
      destruct P as [P|P]; [discriminate P|]. repeat (destruct P as [P|P]; [rewrite <- P; bytes; cbn [In]; tauto|]). destruct P.
Qed.
