(** C49: documents that are printed as JSON and read. *)
From Coq Require Import String.
From Verif Require Import Base FloatModel TextModel CompactionSpec StringCompactionModel ArchiveModel Json5Model Json5Spec DocModel JsonModel JsonSpec JsonNameProofs JsonProofs JsonProps PrintModel PrintSpec PrintTextProofs PrintProofs PrintItemProofs PrintShowProofs Json5Props.

(** The text of a value is read as the value, if its strings have no quotation marks,
    backslashes and ends of lines and its whole numbers are below 2^63. *)
Theorem C49_text : forall letter part show v, letters_apart letter part -> shows show -> printable v ->
  exists j, parse_file letter part (to_string_pretty show v) = Some j /\ means v j.
Proof. exact pretty_read. Qed.
Print Assumptions C49_text.

(** What is asked of [f64::to_string] can be met. *)
Example C49_shows : shows exact_text /\ exact_text 13841926044713903718 = txt "-6.0999999999999996447286321199499070644378662109375" /\ exact_text 4891288408196988160 = txt "10000000000000000000".
Proof. split; [exact exact_shows|]. split; vm_compute; reflexivity. Qed.

(** A document whose lists have no items is read from its text, apart from tables and
    constant lists, and lists that can be undefined; the values are defaults then.  Missing
    for the full statement: items of lists, which cannot be read (C49_items_refuted), what is
    lost (C49_lost_refuted), and the texts and numbers of C49_text_refuted and
    C49_numbers_refuted. *)
Theorem C49_back_partial : forall letter part show addr iter r, letters_apart letter part -> shows show -> iterates iter -> printable_root r ->
  exists r', printed_and_read letter part show addr iter r r' /\
    (forall key, read_back (option_map snd (hget key (ro_default r))) (hget key (ro_sabun r)) (option_map snd (hget key (ro_default r'))) (hget key (ro_sabun r'))) /\
    (forall n, In n (ro_old r') <-> In n (ro_old r)).
Proof.
  intros letter part show addr iter r A S It P. destruct (root_printed r P) as (printed & E & _). destruct (C49_text letter part show _ A S (root_printable r _ P E)) as (j & Ej & M).
  destruct (root_read addr iter It r _ j P E M) as (r' & R & H). exists r'. split; [|exact H]. exists (MMap printed), j. auto.
Qed.
Print Assumptions C49_back_partial.

Definition sample_def : def :=
  Def (LDef [(txt "x", (0, DParam (PFloat (Val 4602678819172646912)) Nullable));
             (txt "in", (1, DMil (Def (LDef [(txt "y", (0, DParam (PBool (Val true)) Normal))] [] false [] [])) true))]
            [(txt "t", (0, (Val (txt "row"), Undefiable)))] true [txt "w"] []).
Definition sample_root : root_obj :=
  RootObj [(txt "a", (0, WParam (PInt (Val 5)) Undefiable)); (txt "s", (1, WParam (PString (Val (0, txt "text"))) Normal)); (txt "l", (2, WMList sample_def false));
           (txt "t", (3, WTable (Def (LDef [] [] false [] [])) [(txt "row", CItem [] [])] [])); (txt "f", (4, WParam (PFloatArray (Val [4602678819172646912; 4607182418800017408])) Normal))]
          [(txt "a", RParam (PInt (Val 7))); (txt "l", RMut (Some ([], 3)))] [txt "old"] [].
Definition sample_back : root_obj :=
  RootObj [(txt "a", (0, WParam (PInt (Val 7)) Undefiable)); (txt "f", (1, WParam (PFloatArray (Val [4602678819172646912; 4607182418800017408])) Normal));
           (txt "l", (2, WMList (Def (LDef [(txt "in", (0, DMil (Def (LDef [(txt "y", (0, DParam (PBool (Val true)) Normal))] [] false [] [])) true)); (txt "x", (1, DParam (PFloat (Val 4602678819172646912)) Nullable))]
                                           [(txt "t", (0, (Val (txt "row"), Undefiable)))] true [txt "w"] [])) false));
           (txt "s", (3, WParam (PString (Val (0, txt "text"))) Normal))]
          [(txt "l", RMut (Some ([], 3)))] [txt "old"]
          [Some (txt "a", MParam TInt Undefiable); Some (txt "f", MParam TFloatArray Normal);
           Some (txt "l", MMList (Meta (Tables [Some (txt "in", MOptMil (Meta (Tables [Some (txt "y", MParam TBool Normal)] []))); Some (txt "x", MParam TFloat Nullable)] [Some (txt "t", MParam TString Undefiable)])));
           Some (txt "s", MParam TString Normal)].
Ltac plain := match goal with |- plain_name ?s => refine (proj1 (proj1 (simple_name_spec s s) _)); vm_compute; reflexivity end.
Ltac proper := split; [repeat constructor; cbn; intuition discriminate|repeat (constructor; [plain|]); constructor].
Lemma clean_ascii s : to_bytes s = s -> forallb (fun c => (32 <=? c) && (c <? 128) && negb (c =? 34) && negb (c =? 92)) s = true -> clean s.
Proof.
  intros E F. rewrite forallb_forall in F. exists s. split; [symmetry; exact E|]. apply Forall_forall. intros c I. specialize (F c I). cbn beta in F. split; [left; lia|]. split; [lia|]. split; [lia|]. unfold line_ends. cbn [In]. lia.
Qed.
Ltac asc := apply clean_ascii; vm_compute; reflexivity.
Lemma half_clean : clean_float 4602678819172646912.
Proof.
  split; [|discriminate]. split; [split; [discriminate|reflexivity]|]. exists false, (2 ^ 1073). split; [vm_compute; reflexivity|]. intros _. apply Z.ltb_lt. vm_compute. reflexivity.
Qed.
Lemma one_clean : clean_float 4607182418800017408.
Proof.
  split; [|discriminate]. split; [split; [discriminate|reflexivity]|]. exists false, (2 ^ 1074). split; [vm_compute; reflexivity|]. intros _. apply Z.ltb_lt. vm_compute. reflexivity.
Qed.
Example C49_sample : printable_root sample_root /\ printed_and_read ascii_letter ascii_part exact_text (fun _ => 0) in_place sample_root sample_back.
Proof.
  split.
  - split; [proper|]. split; [proper|]. intros key id w H. cbn [sample_root ro_default ro_sabun In] in *.
    repeat (destruct H as [H|H]; [apply pair_equal_spec in H as [<- H]; apply pair_equal_spec in H as [<- <-]|]); [| | | | |destruct H].
    + split; [discriminate|vm_compute; discriminate].
    + cbn [printable_member printable_param on_val content]. asc.
    + split; [|right; exists 3; split; [reflexivity|split; [discriminate|vm_compute; discriminate]]]. unfold sample_def. constructor; cbn [ld_members ld_refs ld_old].
      * proper.
      * proper.
      * proper.
      * intros key id p vt [H|[H|[]]]; [|discriminate]. injection H as <- <- <- <-. exact half_clean.
      * intros key id d [H|[H|[]]]; discriminate.
      * intros key id d u [H|[H|[]]]; [discriminate|]. injection H as <- <- <- <-. constructor; cbn [ld_members ld_refs ld_old].
        -- proper.
        -- proper.
        -- proper.
        -- intros key id p vt [H|[]]. injection H as <- <- <- <-. exact Logic.I.
        -- intros key id d [H|[]]; discriminate.
        -- intros key id d u [H|[]]; discriminate.
        -- intros key id q vt [].
      * intros key id q vt [H|[]]. injection H as <- <- <- <-. left. plain.
    + reflexivity.
    + constructor; [exact half_clean|constructor; [exact one_clean|constructor]].
  - unfold printed_and_read. do 2 eexists. split; [vm_compute; reflexivity|]. split; [vm_compute; reflexivity|vm_compute; reflexivity].
Qed.

(** A document with an item in a list cannot be read from its text: numbers of items are
    printed without a point, read as integers, and integers are not accepted as numbers of
    items. *)
Theorem C49_items_refuted : forall letter part show addr iter r v key id d u l next, letters_apart letter part -> shows show ->
  root_to_json r = Ok v -> printable v -> proper_names (map fst (ro_default r)) ->
  In (key, (id, WMList d u)) (ro_default r) -> hget key (ro_sabun r) = Some (RMut (Some (l, next))) -> l <> [] ->
  ~ exists r', printed_and_read letter part show addr iter r r'.
Proof.
  intros letter part show addr iter r v key id d u l next A S E P N I H L (r' & v' & j' & E' & Ej' & R). rewrite E in E'. apply Ok_inj in E'. subst v'.
  destruct (C49_text letter part show v A S P) as (j & Ej & M). rewrite Ej in Ej'. apply Some_inj in Ej'. subst j'. exact (items_unread addr iter r v j key id d u l next E M N I H L r' R).
Qed.
Print Assumptions C49_items_refuted.

Definition item_root : root_obj :=
  RootObj [(txt "l", (0, WMList (Def (LDef [(txt "x", (0, DParam (PInt (Val 0)) Normal))] [] false [] [])) false))] [(txt "l", RMut (Some ([(0, CItem [(txt "x", VParam (PInt (Val 1)))] [])], 1)))] [] [].
Lemma small_printable n : small n -> printable (MNumber (i64_to_f64 n)).
Proof. intros H. constructor. apply small_clean, H. Qed.
Example C49_items_case : exists v, root_to_json item_root = Ok v /\ printable v /\ proper_names (map fst (ro_default item_root)).
Proof.
  eexists. split; [vm_compute; reflexivity|]. split; [|proper].
  assert (Z0 : printable (MNumber 0)) by (apply (small_printable 0); split; vm_compute; discriminate).
  assert (O : printable (MNumber 4607182418800017408)) by (constructor; exact (proj1 one_clean)).
  constructor; cbn [map fst].
  - repeat constructor; cbn; intuition discriminate.
  - intros k x [H|[H|[]]]; injection H as <- <-; asc.
  - intros k x [H|[H|[]]]; injection H as <- <-; constructor; [intros x []|]. intros x [<-|[<-|[<-|[<-|[]]]]]; [constructor; asc| | |].
    + constructor. intros x [<-|[<-|[]]]; [constructor; asc|exact O].
    + constructor. intros x [<-|[]]. constructor; cbn [map fst]; [repeat constructor; cbn; intuition discriminate| |]; intros k x [H|[]]; injection H as <- <-; [asc|exact Z0].
    + constructor; cbn [map fst]; [repeat constructor; cbn; intuition discriminate| |]; intros k x [H|[H|[]]]; injection H as <- <-; try (asc); assumption.
Qed.

(** Tables and constant lists are gone, lists that can be undefined cannot any more, and an
    undefined list is an empty one. *)
Theorem C49_lost_refuted : forall letter part show addr iter r r' key id, letters_apart letter part -> shows show -> iterates iter -> printable_root r ->
  printed_and_read letter part show addr iter r r' ->
  (forall d rows old, In (key, (id, WTable d rows old)) (ro_default r) -> hget key (ro_default r') = None) /\
  (forall d l, In (key, (id, WCList d l)) (ro_default r) -> hget key (ro_default r') = None) /\
  (forall d u, In (key, (id, WMList d u)) (ro_default r) -> exists id' d', hget key (ro_default r') = Some (id', WMList d' false)) /\
  (forall d u, In (key, (id, WMList d u)) (ro_default r) -> hget key (ro_sabun r) = Some (RMut None) -> hget key (ro_sabun r') = Some (RMut (Some ([], 0)))).
Proof.
  intros letter part show addr iter r r' key id A S It P (v & j & E & Ej & R). destruct (C49_back_partial letter part show addr iter r A S It P) as (r2 & (v2 & j2 & E2 & Ej2 & R2) & B & _).
  rewrite E in E2. apply Ok_inj in E2. subst v2. rewrite Ej in Ej2. apply Some_inj in Ej2. subst j2. rewrite R in R2. apply Ok_inj in R2. subst r2. specialize (B key).
  assert (G : forall w, In (key, (id, w)) (ro_default r) -> option_map snd (hget key (ro_default r)) = Some w).
  { intros w I. rewrite (DiffProofs.in_hget _ _ _ (proj1 (proj1 P)) I). reflexivity. }
  repeat split; intros.
  - apply G in H. rewrite H in B. inversion B as [| | |d' rows' old' s' X1 X2 X3|]; subst. destruct (hget key (ro_default r')) as [a|]; [discriminate|reflexivity].
  - apply G in H. rewrite H in B. inversion B as [| | | |d' l' s' X1 X2 X3]; subst. destruct (hget key (ro_default r')) as [a|]; [discriminate|reflexivity].
  - apply G in H. rewrite H in B. inversion B as [| |d0 u0 l0 d' Sd X1 X2 X3 X4| |]; subst. destruct (hget key (ro_default r')) as [[id' w]|]; [|discriminate]. cbn [option_map snd] in X3. injection X3 as <-. eauto.
  - apply G in H. rewrite H, H0 in B. inversion B as [| |d0 u0 l0 d' Sd X1 X2 X3 X4| |]; subst. reflexivity.
Qed.
Print Assumptions C49_lost_refuted.

Definition lost_root : root_obj :=
  RootObj [(txt "l", (0, WMList (Def (LDef [] [] false [] [])) true)); (txt "c", (1, WCList (Def (LDef [] [] false [] [])) [CItem [] []]))] [(txt "l", RMut None)] [] [].
Example C49_lost_case : printable_root lost_root.
Proof.
  split; [proper|]. split; [proper|]. intros key id w [H|[H|[]]]; apply pair_equal_spec in H as [<- H]; apply pair_equal_spec in H as [<- <-]; [|reflexivity]. split; [|left; reflexivity].
  constructor; cbn [ld_members ld_refs ld_old]; try proper; intros ? ? ? ? [] || intros ? ? ? [].
Qed.

Lemma ascii_file letter part s : unicode_tables letter part -> forallb (fun c => (0 <=? c) && (c <? 128)) (chars s) = true -> parse_file letter part s = parse_file ascii_letter ascii_part s.
Proof. intros T F. unfold parse_file. rewrite (ascii_reads letter part (chars s) T); [reflexivity|apply all_ascii, F]. Qed.

(** Texts with quotation marks or ends of lines and infinite values are printed so that they
    are not read, and a text with a backslash is read as another.  Large whole numbers are
    printed without an exponent and are no integers of 64 bits. *)
Theorem C49_text_refuted : forall letter part show, unicode_tables letter part -> shows show ->
  parse_file letter part (to_string_pretty show (MString [97; 34; 98])) = None /\
  parse_file letter part (to_string_pretty show (MString [97; 10; 98])) = None /\
  parse_file letter part (to_string_pretty show (MString [97; 92; 110; 98])) = Some (JString [97; 10; 98]) /\
  (forall bits, u64_range bits -> (forall s n, fdec F64 bits <> FNum s n) -> parse_file letter part (to_string_pretty show (MNumber bits)) = None) /\
  parse_file letter part (to_string_pretty exact_text (MNumber 4891288408196988160)) = None.
Proof.
  intros letter part show T S. split; [|split; [|split; [|split]]].
  1-3: rewrite ascii_file by (exact T || (vm_compute; reflexivity)); vm_compute; reflexivity.
  - intros bits U N. unfold to_string_pretty. cbn [write]. specialize (S bits U). destruct (fdec F64 bits) as [|s|s n]; [| |destruct (N s n eq_refl)]; rewrite S.
    + rewrite ascii_file by (exact T || (vm_compute; reflexivity)). vm_compute. reflexivity.
    + destruct s; rewrite ascii_file by (exact T || (vm_compute; reflexivity)); vm_compute; reflexivity.
  - rewrite ascii_file by (exact T || (vm_compute; reflexivity)). vm_compute. reflexivity.
Qed.
Print Assumptions C49_text_refuted.

(** 2^53 + 1 is rounded, and the negative zero is zero *)
Definition number_root (p : param) : root_obj := RootObj [(txt "a", (0, WParam p Normal))] [] [] [].
Theorem C49_numbers_refuted : forall letter part show addr, letters_apart letter part -> shows show ->
  (exists r', printed_and_read letter part show addr in_place (number_root (PInt (Val (2 ^ 53 + 1)))) r' /\ hget (txt "a") (ro_default r') = Some (0, WParam (PInt (Val (2 ^ 53))) Normal)) /\
  (exists r', printed_and_read letter part show addr in_place (number_root (PFloat (Val (2 ^ 63)))) r' /\ hget (txt "a") (ro_default r') = Some (0, WParam (PFloat (Val 0)) Normal)).
Proof.
  intros letter part show addr A S.
  assert (Ca : clean (txt "a")) by asc. assert (Cf : clean (txt "Float")) by asc.
  assert (Pr : forall x, printable x -> printable (MMap [(txt "Old", MArray []); (txt "a", x)])).
  { intros x Px. constructor; [repeat constructor; cbn; intuition discriminate| |]; intros k y [H|[H|[]]]; apply pair_equal_spec in H as [<- <-]; try assumption; [exact clean_old|constructor; intros z []]. }
  split.
  - set (v := MNumber (i64_to_f64 (2 ^ 53))). assert (E : root_to_json (number_root (PInt (Val (2 ^ 53 + 1)))) = Ok (MMap [(txt "Old", MArray []); (txt "a", v)])) by (vm_compute; reflexivity).
    assert (Sm : small (2 ^ 53)) by (split; vm_compute; discriminate).
    destruct (C49_text letter part show _ A S (Pr v (small_printable _ Sm))) as (j & Ej & M). apply means_mp in M as (m & -> & F). inversion F as [|? [k1 j1] ? m1 [K1 M1] F1]; subst. inversion F1 as [|? [k2 j2] ? m2 [K2 M2] F2]; subst. inversion F2; subst. cbn [fst snd] in *. subst k1 k2.
    apply means_arr in M1 as (l1 & -> & Fl). inversion Fl; subst. apply (means_small _ _ Sm) in M2. subst j2.
    eexists. split; [exists (MMap [(txt "Old", MArray []); (txt "a", v)]); eexists; split; [exact E|]; split; [exact Ej|vm_compute; reflexivity]|vm_compute; reflexivity].
  - set (w := MNumber (2 ^ 63)). set (v := MArray [MString (txt "Float"); w]). assert (E : root_to_json (number_root (PFloat (Val (2 ^ 63)))) = Ok (MMap [(txt "Old", MArray []); (txt "a", v)])) by (vm_compute; reflexivity).
    assert (D : fdec F64 (2 ^ 63) = FNum true 0) by (vm_compute; reflexivity).
    assert (Pw : printable w). { constructor. split; [split; [vm_compute; discriminate|vm_compute; reflexivity]|]. exists true, 0. split; [exact D|]. intros _. apply Z.ltb_lt. vm_compute. reflexivity. }
    assert (Pv : printable v). { constructor. intros x [<-|[<-|[]]]; [constructor; exact Cf|exact Pw]. }
    destruct (C49_text letter part show _ A S (Pr v Pv)) as (j & Ej & M). apply means_mp in M as (m & -> & F). inversion F as [|? [k1 j1] ? m1 [K1 M1] F1]; subst. inversion F1 as [|? [k2 j2] ? m2 [K2 M2] F2]; subst. inversion F2; subst. cbn [fst snd] in *. subst k1 k2.
    apply means_arr in M1 as (l1 & -> & Fl). inversion Fl; subst. apply means_tagged in M2 as (l2 & -> & F3). apply means_one in F3 as (j3 & -> & M3).
    assert (X : j3 = JInt 0).
    { inversion M3 as [| |bits s n i Ef Em Ei Ev|bits s n Ef Em| | | |]; subst; assert (Ef' : FNum s n = FNum true 0) by (rewrite <- Ef; exact D); apply num_inv in Ef' as [-> ->].
      - f_equal. apply Ev. vm_compute. discriminate.
      - exfalso. apply Em. apply Z.mod_0_l. vm_compute. discriminate. }
    subst j3. eexists. split; [exists (MMap [(txt "Old", MArray []); (txt "a", v)]); eexists; split; [exact E|]; split; [exact Ej|vm_compute; reflexivity]|vm_compute; reflexivity].
Qed.
Print Assumptions C49_numbers_refuted.
