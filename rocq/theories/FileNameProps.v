(** C21-C24: history file names, hash folder names, creation times. *)
From Verif Require Import Base CompactionModel TextModel FileNameModel FileNameSpec FileNameProofs.

(** ** C21  History file names round-trip *)

(** Full statement: [forall p, valid_props p -> analyze_file_name (filename p) = Ok (Some p)].
    It fails ([C21_names_refuted]) for tagged names and for numbers of nine or
    more digits.  What holds: exactly the untagged positions with smaller numbers
    are read back; every other name is ignored by the listing, or crashes it. *)
Theorem C21_names_partial : forall p, valid_props p ->
  (readable p -> analyze_file_name (filename p) = Ok (Some p)) /\
  (~ readable p -> analyze_file_name (filename p) = Ok None \/ analyze_file_name (filename p) = Panic) /\
  (analyze_file_name (filename p) = Panic <-> exists t, p_tag p = Some t /\ crashing_tag t).
Proof. exact analyze_name. Qed.
Print Assumptions C21_names_partial.

Example C21_case : let p := Props 12 3 [0; 99999999; 5] None in
  valid_props p /\ readable p /\
  filename p = [40; 51; 41; 95; 49; 50; 95; 48; 95; 57; 57; 57; 57; 57; 57; 57; 57; 95; 53; 46; 104; 105; 115] /\
  analyze_file_name (filename p) = Ok (Some p).
Proof.
  split; [|split; [|split; vm_compute; reflexivity]].
  - unfold valid_props, u32. cbn [p_control p_prev p_order p_tag].
    split; [lia|]. split; [lia|]. split; [repeat constructor; lia|]. split; [discriminate|exact I].
  - unfold readable. cbn [p_control p_prev p_order p_tag]. split; [reflexivity|]. split; [lia|]. repeat constructor; lia.
Qed.

(** a tag "v1" makes the file invisible, a tag ending in a multi-byte character
    or an empty one crashes the reader, and so do nine digits hide a file *)
Theorem C21_names_refuted :
  (let p := Props 0 0 [0] (Some [118; 49]) in valid_props p /\ analyze_file_name (filename p) = Ok None) /\
  (let p := Props 0 0 [0] (Some [195; 169]) in valid_props p /\ analyze_file_name (filename p) = Panic) /\
  (let p := Props 0 0 [0] (Some []) in valid_props p /\ analyze_file_name (filename p) = Panic) /\
  (let p := Props 100000000 100000000 [0] None in valid_props p /\ analyze_file_name (filename p) = Ok None).
Proof.
  assert (Hv : forall c t, u32 c -> utf8_valid t = true -> valid_props (Props c c [0] (Some t)) /\ valid_props (Props c c [0] None)).
  { intros c t Hc Ht. unfold valid_props, u32 in *. cbn [p_control p_prev p_order p_tag].
    assert (Forall (fun n => 0 <= n < 2 ^ 32) [0]) by (constructor; [lia|constructor]).
    assert ([0] <> []) by discriminate. tauto. }
  assert (H0 : u32 0) by (unfold u32; lia).
  assert (H1 : u32 100000000) by (unfold u32; lia).
  split; [|split; [|split]]; (split; [|vm_compute; reflexivity]).
  - now apply Hv.
  - now apply Hv.
  - now apply Hv.
  - now apply (Hv 100000000 []).
Qed.
Print Assumptions C21_names_refuted.

(** file_name_props.rs L5 promises that the metadata precisely restores the
    name it was read from; "_00_0.his" and "(0)_0_0.his" are read but restored
    as "_0_0.his". *)
Theorem C21_restore_refuted :
  (exists s p, analyze_file_name s = Ok (Some p) /\ filename p <> s) /\
  (exists s1 s2, s1 <> s2 /\ analyze_file_name s1 = analyze_file_name s2 /\
     exists p, analyze_file_name s1 = Ok (Some p)).
Proof.
  split.
  - exists [95; 48; 48; 95; 48; 46; 104; 105; 115], (Props 0 0 [0] None).
    split; [vm_compute; reflexivity|]. vm_compute. discriminate.
  - exists [95; 48; 95; 48; 46; 104; 105; 115], [40; 48; 41; 95; 48; 95; 48; 46; 104; 105; 115].
    split; [discriminate|]. split; [vm_compute; reflexivity|].
    exists (Props 0 0 [0] None). vm_compute; reflexivity.
Qed.
Print Assumptions C21_restore_refuted.

(** reading a name always ends *)
Theorem C21_reading_ends : forall s, analyze_file_name s <> Err.
Proof. exact analyze_total. Qed.
Print Assumptions C21_reading_ends.

(** ** C22  Distinct history positions have distinct file names *)
Theorem C22_names_distinct : forall p q, valid_props p -> valid_props q ->
  filename p = filename q -> p = q.
Proof. exact filename_inj. Qed.
Print Assumptions C22_names_distinct.

(** a tag that contains the separator does not collide *)
Example C22_case : filename (Props 1 1 [2; 3] None) <> filename (Props 12 12 [3] None) /\
  filename (Props 1 1 [2] (Some [35; 95; 49])) <> filename (Props 1 1 [2] (Some [35])).
Proof. split; vm_compute; discriminate. Qed.

(** ** C23  Hash folder names round-trip *)
Theorem C23_folder_names : forall h, 0 <= h < 2 ^ 128 ->
  Forall is_hex (hash_to_folder_name h) /\ length (hash_to_folder_name h) = 32%nat /\
  folder_name_to_hash (hash_to_folder_name h) = Ok (Some h).
Proof. exact folder_name. Qed.
Print Assumptions C23_folder_names.

Theorem C23_folder_names_distinct : forall h h', 0 <= h < 2 ^ 128 -> 0 <= h' < 2 ^ 128 ->
  hash_to_folder_name h = hash_to_folder_name h' -> h = h'.
Proof.
  intros h h' H H' E. apply folder_name in H as (_ & _ & H). apply folder_name in H' as (_ & _ & H').
  rewrite E, H' in H. apply Ok_inj in H. apply Some_inj in H. now symmetry.
Qed.
Print Assumptions C23_folder_names_distinct.

Example C23_case : hash_to_folder_name (255 * 2 ^ 64 + 10) =
  [48;48;48;48;48;48;48;48;48;48;48;48;48;48;102;102;48;48;48;48;48;48;48;48;48;48;48;48;48;48;48;97].
Proof. vm_compute. reflexivity. Qed.

(** Full statement: every other name is rejected ([Ok None]).  What holds: a name
    is accepted only if it is the name of the hash returned; it is rejected when
    it is not 32 bytes long or its first character that is not a lower-case
    hexadecimal digit lies above the digits; otherwise reading it panics. *)
Theorem C23_other_names_partial : forall s,
  match folder_name_to_hash s with
  | Ok (Some h) => 0 <= h < 2 ^ 128 /\ s = hash_to_folder_name h
  | Ok None => length s <> 32%nat \/
      exists a c b, s = a ++ c :: b /\ Forall is_hex a /\ ~ is_hex c /\ ~ crashing_char c
  | Panic => length s = 32%nat /\ exists a c b, s = a ++ c :: b /\ Forall is_hex a /\ crashing_char c
  | Err => False
  end.
Proof. exact folder_exact. Qed.
Print Assumptions C23_other_names_partial.

(** 32 bytes "A..." (a capital letter) crash the reader instead of being rejected *)
Theorem C23_other_names_refuted : exists s, length s = 32%nat /\ folder_name_to_hash s = Panic.
Proof. exists (repeat 65 32). split; vm_compute; reflexivity. Qed.
Print Assumptions C23_other_names_refuted.

(** ** C24  Folder creation times round-trip *)
Theorem C24_times : forall t, valid_time t ->
  (0 <= fst t -> exists b, create_time_dat t = Ok b /\ zlen b = 12 /\
     forall rest, from_time_dat (b ++ rest) = Ok t) /\
  (fst t < 0 -> create_time_dat t = Err).
Proof. exact time_round. Qed.
Print Assumptions C24_times.

Example C24_case : valid_time (1700000000, 999999999) /\
  (b <- create_time_dat (1700000000, 999999999) ; from_time_dat b) = Ok (1700000000, 999999999).
Proof. split; [unfold valid_time; cbn [fst snd]; lia|vm_compute; reflexivity]. Qed.

(** reading any file: an error when it is short, a panic when the time is out of
    the range of [SystemTime], a valid time otherwise *)
Theorem C24_read : forall b, wf_bytes b ->
  match from_time_dat b with
  | Ok t => 12 <= zlen b /\ valid_time t /\ 0 <= fst t
  | Err => zlen b < 12
  | Panic => 12 <= zlen b /\ 2 ^ 63 <= le_value (firstn 8 b) + le_value (firstn 4 (skipn 8 b)) / 10 ^ 9
  end.
Proof. exact time_read. Qed.
Print Assumptions C24_read.

Example C24_read_case : from_time_dat (repeat 255 12) = Panic.
Proof. vm_compute. reflexivity. Qed.
