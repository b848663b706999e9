(** Which strings string compaction alters, stated without the model. *)
From Verif Require Import Base TextModel.

(** Length in bytes of a UTF-8 character, from its first byte. *)
Definition utf8_char_bytes (c : Z) : Z :=
  if c <? 128 then 1 else if c <? 224 then 2 else if c <? 240 then 3 else 4.

(** An optional minus, digits not starting with zero, one character that is
    neither a digit nor a dot nor a line feed, and possibly more digits; the
    digits read as one number fit an i128 and fewer than 256 bytes follow the
    first byte of the separating character.  Example: "12:30". *)
Definition separated_number (s : list Z) : Prop :=
  exists (minus : bool) d c more tail,
    s = (if minus then [45] else []) ++ d ++ (c :: more) ++ tail /\
    Forall (fun x => is_digit x = true) d /\ d <> [] /\ hd 0 d <> 48 /\
    is_digit c = false /\ c <> 46 /\ c <> 10 /\ zlen (c :: more) = utf8_char_bytes c /\
    Forall (fun x => is_digit x = true) tail /\
    zlen more + zlen tail < 256 /\
    (if minus then digits_value (d ++ tail) <= 2 ^ 127 else digits_value (d ++ tail) < 2 ^ 127).

(** The URL-safe alphabet: A-Z, a-z, 0-9, '-' and '_'. *)
Definition url_char (c : Z) : Prop :=
  65 <= c <= 90 \/ 97 <= c <= 122 \/ 48 <= c <= 57 \/ c = 45 \/ c = 95.
