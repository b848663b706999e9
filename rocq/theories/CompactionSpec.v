(** What a Rust value of type [KVal] is, independent of the codec. *)
From Verif Require Import Base CompactionModel.

(** A Rust [String] of fewer than [bound] bytes. *)
Definition rust_string (bound : Z) (s : list Z) : Prop :=
  wf_bytes s /\ utf8_valid s = true /\ zlen s < bound.

(** The values the Rust type admits, with the size limits of the three short
    kinds (the encoder panics beyond them).  A Rust vector never occupies
    2^63 bytes or more. *)
Definition wf_kval (k : kval) : Prop :=
  match k with
  | KNull | KBit _ | KBool _ => True
  | KByte i => -128 <= i < 128
  | KStr16 s => rust_string 16 s
  | KInt i => i64_range i
  | KFloat b => 0 <= b < 2 ^ 32
  | KStr256 s => rust_string 256 s
  | KDouble b => 0 <= b < 2 ^ 64
  | KDecimal i dot => i128_range i /\ wf_byte dot
  | KBigStr s => rust_string (2 ^ 63) s
  | KBinary v | KBinaryArc v => wf_bytes v /\ zlen v < 2 ^ 63
  | KBinary8 v => Forall (fun x => 0 <= x < 2 ^ 64) v /\ 8 * zlen v < 2 ^ 63
  | KBinary4 v => Forall (fun x => 0 <= x < 2 ^ 32) v /\ 4 * zlen v < 2 ^ 63
  | KBinary2 v => Forall (fun x => 0 <= x < 2 ^ 16) v /\ 2 * zlen v < 2 ^ 63
  | KUndefined i => 0 <= i < 8
  end.

(** A vector of [KVal] (at least 32 bytes each) has fewer than 2^58 elements. *)
Definition wf_kvals (l : list kval) : Prop := Forall wf_kval l /\ zlen l < 2 ^ 58.

(** A shared binary is read back as a plain binary. *)
Definition plain (k : kval) : kval :=
  match k with KBinaryArc v => KBinary v | k => k end.

(** The values the encoder cannot write. *)
Definition oversized (k : kval) : bool :=
  match k with
  | KStr16 s => 16 <=? zlen s
  | KStr256 s => 256 <=? zlen s
  | KUndefined i => 8 <=? i
  | _ => false
  end.
