(** C05 and C06: string compaction and URL-safe text. *)
From Verif Require Import Base CompactionModel CompactionSpec TextModel
  StringCompactionModel StringCompactionSpec StringCompactionProofs.

(** C05, full statement (false of the code): every list of strings survives
    [compress_strings] and [decompress].  "12:30" comes back as "12.30". *)
Theorem C05_strings_refuted : exists strs, Forall (rust_string (2 ^ 63)) strs /\
  exists bytes out, compress_strings strs = Ok bytes /\
    decompress bytes = Ok ([Some out], zlen bytes) /\ strs <> [out].
Proof.
  exists [[49; 50; 58; 51; 48]]. split.
  - constructor; [|constructor]. split; [repeat constructor; lia|]. split; [reflexivity|]. reflexivity.
  - eexists; exists [49; 50; 46; 51; 48]. split; [vm_compute; reflexivity|].
    split; [vm_compute; reflexivity|]. discriminate.
Qed.
Print Assumptions C05_strings_refuted.

(** C05, exact: the list always comes back with the same length and order, all
    bytes are consumed, and a string is altered exactly if it is a separated
    number.  Missing from the full statement: the separated numbers. *)
Theorem C05_strings_exact_partial : forall strs rest,
  Forall (rust_string (2 ^ 63)) strs -> zlen strs < 2 ^ 58 ->
  exists bytes out, compress_strings strs = Ok bytes /\
    decompress (bytes ++ rest) = Ok (out, zlen bytes) /\
    Forall2 (fun s o => o = Some s <-> ~ separated_number s) strs out.
Proof. exact strings_exact. Qed.
Print Assumptions C05_strings_exact_partial.

Theorem C05_strings_lossless_partial : forall strs rest,
  Forall (rust_string (2 ^ 63)) strs -> zlen strs < 2 ^ 58 ->
  Forall (fun s => ~ separated_number s) strs ->
  exists bytes, compress_strings strs = Ok bytes /\
    decompress (bytes ++ rest) = Ok (map Some strs, zlen bytes).
Proof. exact strings_lossless. Qed.
Print Assumptions C05_strings_lossless_partial.

(** "-12.50", "abc", "007" and "true" survive. *)
Example C05_case : exists bytes,
  compress_strings [[45; 49; 50; 46; 53; 48]; [97; 98; 99]; [48; 48; 55]; [116; 114; 117; 101]] = Ok bytes /\
  decompress bytes = Ok ([Some [45; 49; 50; 46; 53; 48]; Some [97; 98; 99]; Some [48; 48; 55];
                          Some [116; 114; 117; 101]], zlen bytes).
Proof. eexists; split; [vm_compute; reflexivity|vm_compute; reflexivity]. Qed.

(** a string meeting the hypotheses of the lossless theorem *)
Example C05_hypotheses : rust_string (2 ^ 63) [45; 53; 46; 48] /\ ~ separated_number [45; 53; 46; 48].
Proof.
  assert (H : rust_string (2 ^ 63) [45; 53; 46; 48]).
  { split; [repeat constructor; lia|]. split; reflexivity. }
  split; [exact H|]. intros Hn.
  apply (separated_number_altered [45; 53; 46; 48] (proj1 H) eq_refl Hn). vm_compute. reflexivity.
Qed.

(** C06, full statement (false of the code): [get_bytes (get_url_string b) = b].
    Two bytes come back as three. *)
Theorem C06_url_refuted : exists b text out, wf_bytes b /\
  get_url_string b = Some text /\ get_bytes text = Some out /\ out <> b.
Proof.
  exists [1; 2]. eexists; eexists. split; [repeat constructor; unfold wf_byte; lia|].
  split; [vm_compute; reflexivity|]. split; [vm_compute; reflexivity|]. discriminate.
Qed.
Print Assumptions C06_url_refuted.

(** C06, exact: encoding never fails, uses only URL-safe characters, and decodes
    to the same bytes, followed by one zero byte unless the number of bytes is a
    multiple of three.  Missing from the full statement: that extra byte. *)
Theorem C06_url_exact_partial : forall b, wf_bytes b ->
  exists text, get_url_string b = Some text /\ Forall url_char text /\
    zlen text = (8 * zlen b + 5) / 6 /\
    get_bytes text = Some (b ++ (if zlen b mod 3 =? 0 then [] else [0])).
Proof. exact url_roundtrip. Qed.
Print Assumptions C06_url_exact_partial.

(** different byte strings have different texts *)
Theorem C06_url_injective : forall a b, wf_bytes a -> wf_bytes b ->
  get_url_string a = get_url_string b -> a = b.
Proof. exact url_injective. Qed.
Print Assumptions C06_url_injective.

Example C06_case : exists text, get_url_string [255; 0; 128] = Some text /\
  get_bytes text = Some [255; 0; 128].
Proof. eexists; split; [vm_compute; reflexivity|vm_compute; reflexivity]. Qed.
