(** C50: the reader of source texts. *)
From Coq Require Import String.
From Verif Require Import Base FloatModel CompactionModel CompactionSpec StringCompactionModel ArchiveModel DocModel DiffSpec JsonModel JsonSpec LoadSpec LoadProofs ValidModel EmbedSpec EmbedProofs EmbedProps Json5Model Json5Spec Json5Proofs Json5FloatProofs Json5NumberProofs Json5StringProofs Json5ValueProofs Json5TextProofs.

(** A value is read from a text exactly if the grammar gives it to the text. *)
Theorem C50_reads : forall letter part s v, letters_apart letter part -> (from_str letter part s = Ok v <-> text_of letter part s v).
Proof. intros letter part s v A. exact (reads_texts letter part A s v). Qed.
Print Assumptions C50_reads.

(** Every text is read or rejected. *)
Theorem C50_total : forall letter part s, from_str letter part s <> Panic.
Proof. intros letter part s. apply (from_str_sound letter part s). Qed.
Print Assumptions C50_total.

(** No text has two values. *)
Theorem C50_unique : forall letter part s v v', letters_apart letter part -> text_of letter part s v -> text_of letter part s v' -> v = v'.
Proof. intros letter part s v v' A H H'. apply (C50_reads letter part s v A) in H. apply (C50_reads letter part s v' A) in H'. rewrite H in H'. apply Ok_inj in H'. exact H'. Qed.
Print Assumptions C50_unique.

(** Only what the tables say about the characters of the text matters. *)
Theorem C50_tables : forall letter part letter' part' s, letters_apart letter part -> letters_apart letter' part' ->
  (forall c, In c s -> letter c = letter' c /\ part c = part' c) -> from_str letter part s = from_str letter' part' s.
Proof.
  intros letter part letter' part' s A A' G. pose proof (C50_total letter part s) as N. pose proof (C50_total letter' part' s) as N'.
  destruct (from_str letter part s) as [v| |] eqn:E; [| |congruence].
  - apply (C50_reads _ _ _ _ A) in E. apply (text_agree letter part letter' part') in E; [|exact G]. apply (C50_reads _ _ _ _ A') in E. congruence.
  - destruct (from_str letter' part' s) as [v| |] eqn:E'; [|reflexivity|congruence]. apply (C50_reads _ _ _ _ A') in E'. apply (text_agree letter' part' letter part) in E'; [|intros c I; destruct (G c I); auto]. apply (C50_reads _ _ _ _ A) in E'. congruence.
Qed.
Print Assumptions C50_tables.

(** tables that know only ASCII *)
Example ascii_tables : unicode_tables ascii_letter ascii_part.
Proof.
  split; [|intros c _; auto]. intros c H I. assert (E : existsb (Z.eqb c) (blanks ++ [33; 63; 58; 47; 34; 39; 125]) = true) by (apply existsb_exists; exists c; split; [exact I|apply Z.eqb_refl]).
  unfold blanks, line_ends in E. cbn [existsb app] in E. unfold ascii_letter, ascii_part in H. lia.
Qed.
Lemma ascii_reads letter part s : unicode_tables letter part -> Forall (fun c => 0 <= c < 128) s -> from_str letter part s = from_str ascii_letter ascii_part s.
Proof.
  intros [A G] F. apply C50_tables; [exact A|apply ascii_tables|]. intros c I. rewrite Forall_forall in F. apply G. apply F. exact I.
Qed.
Lemma all_ascii s : forallb (fun c => (0 <=? c) && (c <? 128)) s = true -> Forall (fun c => 0 <= c < 128) s.
Proof. intros H. apply Forall_forall. intros c I. rewrite forallb_forall in H. apply H in I. lia. Qed.
Ltac ascii := apply all_ascii; vm_compute; reflexivity.

Definition sample_text : list Z := txt "// a source
{ ""list"": [1, 0xfF, -2.5e-1, +.5E+1, ], 'b?': ""x\n\
y\x41\u00e9"", c!: undefined, /* end */ }".
Definition sample_value : jval :=
  JMap [(txt "list", JArray [JInt 1; JInt 255; JDouble 13821547256400052224; JDouble 4617315517961601024]);
        (txt "b?", JString ([120; 10; 121; 65; 195; 169])); (txt "c!", JUndefined)].
Example C50_case : forall letter part, unicode_tables letter part -> text_of letter part sample_text sample_value.
Proof.
  intros letter part T. apply C50_reads; [apply T|]. rewrite (ascii_reads letter part sample_text T); [vm_compute; reflexivity|]. ascii.
Qed.

(* ------------------------------------------------------------------ *)
(** * Values *)

(** Characters and their bytes: UTF-8. *)
Theorem C50_utf8 : (forall bs, wf_bytes bs -> utf8_valid bs = true -> Forall scalar (chars bs) /\ to_bytes (chars bs) = bs) /\
  (forall s, Forall scalar s -> wf_bytes (to_bytes s) /\ utf8_valid (to_bytes s) = true /\ chars (to_bytes s) = s).
Proof.
  split.
  - intros bs W V. destruct (chars_valid (length bs) bs (le_n _) W V) as (A & B & _). auto.
  - intros s F. destruct (to_bytes_valid s F) as (A & B & C & _). auto.
Qed.
Print Assumptions C50_utf8.

(** The value of a file: the Rust types admit it, no key comes twice in an object, every
    string is UTF-8, and no number is infinite or not a number. *)
Theorem C50_values : forall letter part content v, wf_bytes content -> zlen content < 2 ^ 58 ->
  parse_file letter part content = Some v -> everywhere read_node v.
Proof.
  intros letter part content v W L E. unfold parse_file in E. destruct (utf8_valid content) eqn:V; [|discriminate]. destruct (from_str letter part (chars content)) as [v0| |] eqn:F; try discriminate. injection E as <-.
  apply from_str_sound in F. destruct (chars_valid (length content) content (le_n _) W V) as (A & _ & B). apply (text_nodes letter part (chars content) v0 F A). lia.
Qed.
Print Assumptions C50_values.
Lemma everywhere_weaken (P Q : jval -> Prop) v : (forall v, P v -> Q v) -> everywhere P v -> everywhere Q v.
Proof. intros H. induction 1 as [v Hv _ IHa _ IHm]. constructor; auto. Qed.

(** Therefore the conditions on sources in C52 are about their ids and names only. *)
Theorem C50_typed_partial : forall addr mem iter letter part files r, iterates iter -> (forall s, mem (addr s) = s) ->
  (forall path content, In (path, content) files -> wf_bytes content /\ zlen content < 2 ^ 58) ->
  NoDup (source_names (parse_file letter part) files) -> zlen (source_names (parse_file letter part) files) <= 2 ^ 62 ->
  all_files (everywhere unique_node) (parse_file letter part) files ->
  load_root addr iter (parse_file letter part) files true = Ok r ->
  exists n (def : rootdef n) (s : sabun n), is_rootdef (ro_default r) def /\ is_sabun (ro_sabun r) s /\
    wf_rootdef def /\ typed_root mem s def.
Proof.
  intros addr mem iter letter part files r It Hm S N L U E. apply (C52_typed_partial addr mem iter (parse_file letter part) files r It Hm N L); auto.
  intros path content v I P. destruct (S path content I) as [W Z0]. eapply everywhere_weaken; [|eapply C50_values; eauto]. intros v0 [R _]. exact R.
Qed.
Print Assumptions C50_typed_partial.

(** a source as it is in its file *)
Definition source_text : list Z := txt "{ // two items
  name: 'a',
  list: [""MList"", [{ x: 1, ""l!"": [""MilDef"", [{ y: .5 }]] }],
    { x: 3, },
    { l: [""Mil"", { y: 2.0 }, {}] },
  ],
}".
Example C50_typed_case : exists r, load_root text_addr JsonProps.in_place (parse_file ascii_letter ascii_part) [(txt "src/root.json5", source_text)] true = Ok r /\
  map fst (ro_sabun r) = [txt "list"] /\
  source_names (parse_file ascii_letter ascii_part) [(txt "src/root.json5", source_text)] = [txt "name"; txt "list"].
Proof. eexists. split; [vm_compute; reflexivity|]. split; vm_compute; reflexivity. Qed.

(** Texts that are JSON are read as JSON, but for what [json_value] leaves out. *)
Theorem C50_json_partial : forall letter part s v, letters_apart letter part -> json_of s v -> from_str letter part s = Ok v.
Proof. intros letter part s v A J. apply (C50_reads letter part s v A). apply json_of_text. exact J. Qed.
Print Assumptions C50_json_partial.
Example C50_json_case : json_of (txt " {""a"" : [-1, ""\n""]}") (JMap [(txt "a", JArray [JInt (-1); JString [10]])]).
Proof.
  exists [32], (txt "{""a"" : [-1, ""\n""]}"), []. split; [reflexivity|]. split; [constructor; [cbn; tauto|constructor]|]. split; [|constructor].
  change (txt "{""a"" : [-1, ""\n""]}") with ([123] ++ txt """a"" : [-1, ""\n""]" ++ [125]). apply json_object; [|constructor; [intros []|constructor]]. apply json_last.
  change (txt """a"" : [-1, ""\n""]") with ([] ++ txt """a""" ++ [32] ++ [58] ++ [32] ++ txt "[-1, ""\n""]" ++ []). change (txt "a") with (to_bytes (txt "a")).
  apply json_pair; [constructor| |constructor; [cbn; tauto|constructor]|constructor; [cbn; tauto|constructor]| |constructor].
  { split; [reflexivity|]. change (txt "a") with [97]. constructor; [apply json_char; lia|constructor]. }
  change (txt "[-1, ""\n""]") with ([91] ++ txt "-1, ""\n""" ++ [93]). apply json_array. change (txt "-1, ""\n""") with ([] ++ txt "-1" ++ [] ++ [44] ++ txt " ""\n""").
  apply json_more_elements; [constructor| |constructor|].
  - apply json_num. change (txt "-1") with ([45] ++ [49]). change (-1) with (with_sign [45] 1). apply json_int; [right; reflexivity|right; exists 49, []; repeat split; try constructor; unfold is_digit; lia| |unfold i64_range; cbn; lia].
    change [49] with ([] ++ [49]). change 1 with (0 * 10 + 1). apply reads_digit; [constructor|left; unfold is_digit; lia|lia].
  - change (txt " ""\n""") with ([32] ++ txt """\n""" ++ []). apply json_element; [constructor; [cbn; tauto|constructor]| |constructor]. change [10] with (to_bytes [10]). apply json_text. exists [([92; 110], [10])]. repeat split. constructor; [|constructor]. apply json_escape. cbn. tauto.
Qed.

(* ------------------------------------------------------------------ *)
(** * Where it is not JSON5 *)

(** [Infinity] and [NaN] are in the grammar, and [parse_number] knows them, but they are
    taken for integers and rejected. *)
Theorem C50_infinite_refuted : forall letter part sg w, sign sg -> w = txt "Infinity" \/ w = txt "NaN" ->
  text_rule letter part (sg ++ w) <> None /\ from_str letter part (sg ++ w) = Err.
Proof. intros letter part sg w [-> | [-> | ->]] [-> | ->]; (split; [vm_compute; discriminate|vm_compute; reflexivity]). Qed.
Print Assumptions C50_infinite_refuted.

(** Hexadecimal numbers with a sign, or with more than 32 bits, are rejected; also integers
    and doubles beyond their types. *)
Theorem C50_numbers_refuted : forall letter part,
  from_str letter part (txt "0xffffffff") = Ok (JInt 4294967295) /\ from_str letter part (txt "0x100000000") = Err /\
  from_str letter part (txt "-0x1") = Err /\ from_str letter part (txt "+0x1") = Err /\
  from_str letter part (txt "9223372036854775808") = Err /\ from_str letter part (txt "9223372036854775808.0") = Ok (JDouble 4890909195324358656) /\
  from_str letter part (txt "1e309") = Err /\
  (** the sign of zero *)
  from_str letter part (txt "-0") = Ok (JInt 0) /\ from_str letter part (txt "-0.0") = Ok (JDouble 9223372036854775808).
Proof. intros letter part. repeat split; vm_compute; reflexivity. Qed.
Print Assumptions C50_numbers_refuted.

(** Characters outside the basic plane cannot be escaped; U+2028 and U+2029 cannot be in
    strings. *)
Theorem C50_strings_refuted : forall letter part,
  from_str letter part (txt """\ud83d\ude00""") = Err /\
  from_str letter part ([34; 8232; 34]) = Err /\ from_str letter part ([34; 8233; 34]) = Err /\
  from_str letter part ([34; 128512; 34]) = Ok (JString [240; 159; 152; 128]).
Proof. intros letter part. repeat split; vm_compute; reflexivity. Qed.
Print Assumptions C50_strings_refuted.

(** Keys are taken as they are written: an escaped letter makes another key, and a key given
    twice is found only if it is written in the same way. *)
Theorem C50_keys_refuted : forall letter part, unicode_tables letter part ->
  from_str letter part (txt "{""a"":1,""\u0061"":2}") = Ok (JMap [(txt "a", JInt 1); (txt "\u0061", JInt 2)]) /\
  from_str letter part (txt "{a:1,\u0061:2}") = Ok (JMap [(txt "a", JInt 1); (txt "\u0061", JInt 2)]) /\
  from_str letter part (txt "{""\n"":1}") = Ok (JMap [(txt "\n", JInt 1)]) /\
  from_str letter part (txt "{""a"":1,'a':2}") = Err /\ from_str letter part (txt "{""a"":1,a:2}") = Err /\
  (** a surrogate alone is no string but a key *)
  from_str letter part (txt """\ud800""") = Err /\ from_str letter part (txt "{""\ud800"":1}") = Ok (JMap [(txt "\ud800", JInt 1)]).
Proof. intros letter part T. repeat split; rewrite (ascii_reads letter part _ T) by ascii; vm_compute; reflexivity. Qed.
Print Assumptions C50_keys_refuted.

(* ------------------------------------------------------------------ *)
(** * Lines *)

(** The number of the line, for messages: how many line feeds are before the position. *)
Theorem C50_line : forall before, line_num before = Ok (1 + Z.of_nat (count_occ Z.eq_dec before 10)).
Proof. intros before. exact (line_loop_ok before 1). Qed.
Print Assumptions C50_line.

(** A carriage return ends a comment, but does not count. *)
Theorem C50_line_refuted : forall letter part, exists before, before = txt "// a" ++ [13] /\
  from_str letter part (before ++ txt "1") = Ok (JInt 1) /\ from_str letter part (txt "// a1") = Err /\ line_num before = Ok 1.
Proof. intros letter part. eexists. split; [reflexivity|]. split; [vm_compute; reflexivity|]. split; vm_compute; reflexivity. Qed.
Print Assumptions C50_line_refuted.
