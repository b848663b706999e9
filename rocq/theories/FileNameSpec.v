(** What the file and folder names are expected to do. *)
From Verif Require Import Base CompactionModel TextModel FileNameModel.

(** what the Rust types guarantee: u32 numbers, a tag that is a [String], and
    an order that [FileNameProps::new] accepts *)
Definition u32 (n : Z) : Prop := 0 <= n < 2 ^ 32.
Definition valid_props (p : props) : Prop :=
  u32 (p_control p) /\ u32 (p_prev p) /\ Forall u32 (p_order p) /\ p_order p <> [] /\
  match p_tag p with Some t => utf8_valid t = true | None => True end.

(** positions whose file names can be read back *)
Definition readable (p : props) : Prop :=
  p_tag p = None /\ p_control p < 100000000 /\ Forall (fun n => n < 100000000) (p_order p).

(** tags that crash the reader: the text before the first '#' is empty or ends
    with a byte that continues a multi-byte character *)
Definition crashing_tag (t : list Z) : Prop :=
  exists u r, t ++ [35] = u ++ 35 :: r /\ ~ In 35 u /\ (u = [] \/ 128 <= last u 0 < 192).

(** lower-case hexadecimal digits *)
Definition is_hex (c : Z) : Prop := 48 <= c <= 57 \/ 97 <= c <= 102.
(** characters on which the subtractions of the reader go below zero *)
Definition crashing_char (c : Z) : Prop := c < 48 \/ 58 <= c < 97.

(** a [SystemTime] *)
Definition valid_time (t : systime) : Prop := - 2 ^ 63 <= fst t < 2 ^ 63 /\ 0 <= snd t < 10 ^ 9.
