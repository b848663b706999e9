(** Model of the IEEE-754 operations dochy_compaction uses, and of the
    compaction of floats.  Citations relative to /repo/dochy_compaction/src. *)
From Verif Require Import Base CompactionModel.

(** A float's meaning.  [FNum s n] is the number (-1)^s * n * 2^-1074: every
    finite f64 and f32 is an integer multiple of 2^-1074. *)
Inductive fval : Type :=
| FNaN
| FInf (s : bool)
| FNum (s : bool) (n : Z).

(** An IEEE-754 interchange format: fraction bits, exponent bits, and the
    exponent of the smallest subnormal in units of 2^-1074. *)
Record fmt : Type := Fmt { fbits : Z; ebits : Z; sub : Z }.
Definition F64 : fmt := Fmt 52 11 0.
Definition F32 : fmt := Fmt 23 8 925.

Definition unit_exp : Z := 1074.

(** Meaning of a bit pattern (IEEE-754 section 3.4). *)
Definition fdec (f : fmt) (bits : Z) : fval :=
  let s := negb (bits / 2 ^ (fbits f + ebits f) =? 0) in
  let e := (bits / 2 ^ fbits f) mod 2 ^ ebits f in
  let m := bits mod 2 ^ fbits f in
  if e =? 2 ^ ebits f - 1 then (if m =? 0 then FInf s else FNaN)
  else if e =? 0 then FNum s (m * 2 ^ sub f)
  else FNum s ((2 ^ fbits f + m) * 2 ^ (e - 1 + sub f)).

(** Bit pattern of a representable meaning.  The payload of a NaN produced by a
    conversion is left open by Rust; a fixed quiet NaN stands for it. *)
Definition fenc (f : fmt) (v : fval) : Z :=
  match v with
  | FNaN => (2 ^ (ebits f + 1) - 1) * 2 ^ (fbits f - 1)
  | FInf s => (if s then 2 ^ (fbits f + ebits f) else 0) + (2 ^ ebits f - 1) * 2 ^ fbits f
  | FNum s n =>
      (if s then 2 ^ (fbits f + ebits f) else 0) +
      (if n <? 2 ^ (fbits f + sub f) then n / 2 ^ sub f
       else let k := Z.log2 n - fbits f in
            (k - sub f + 1) * 2 ^ fbits f + (n / 2 ^ k - 2 ^ fbits f))
  end.

(** Division rounding to nearest, ties to even. *)
Definition rne (n d : Z) : Z :=
  let q := n / d in let r := n mod d in
  if 2 * r <? d then q else if d <? 2 * r then q + 1 else if Z.even q then q else q + 1.

(** Rounding a magnitude to the format (IEEE-754 section 4.3.1). *)
Definition fround (f : fmt) (s : bool) (n : Z) : fval :=
  let k := Z.max (sub f) (Z.log2 n - fbits f) in
  let n' := rne n (2 ^ k) * 2 ^ k in
  if 2 ^ (fbits f + 1 + (2 ^ ebits f - 3) + sub f) <=? n' then FInf s else FNum s n'.

(** [as f32] / [as f64] between the float types *)
Definition fcast (f : fmt) (v : fval) : fval :=
  match v with FNum s n => fround f s n | v => v end.

(** [iN as fM] *)
Definition of_int (f : fmt) (v : Z) : fval := fround f (v <? 0) (Z.abs v * 2 ^ unit_exp).

Definition signed (s : bool) (n : Z) : Z := if s then - n else n.

(** [fN as iM]: truncation, saturating, NaN to 0 *)
Definition to_int (w : Z) (v : fval) : Z :=
  match v with
  | FNaN => 0
  | FInf s => if s then - 2 ^ (w - 1) else 2 ^ (w - 1) - 1
  | FNum s n =>
      Z.max (- 2 ^ (w - 1)) (Z.min (2 ^ (w - 1) - 1) (signed s (n / 2 ^ unit_exp)))
  end.

(** [trunc] *)
Definition ftrunc (v : fval) : fval :=
  match v with FNum s n => FNum s (n / 2 ^ unit_exp * 2 ^ unit_exp) | v => v end.

(** [==] *)
Definition feq (a b : fval) : bool :=
  match a, b with
  | FInf s, FInf s' => Bool.eqb s s'
  | FNum s n, FNum s' n' => signed s n =? signed s' n'
  | _, _ => false
  end.

(** basic_compaction.rs L7-23 *)
Definition comp_double (bits : Z) : kval :=
  if bits =? 2 ^ 63 then KDouble bits else
  let num := fdec F64 bits in
  let int := ftrunc num in
  if negb (feq int num) then KDouble bits
  else if feq (of_int F64 (to_int 64 int)) int then comp_int (to_int 64 int)
  else if feq (fcast F64 (fcast F32 num)) num then KFloat (fenc F32 (fcast F32 num))
  else KDouble bits.

(** basic_compaction.rs L26-40 *)
Definition comp_float (bits : Z) : kval :=
  if bits =? 2 ^ 31 then KFloat bits else
  let num := fdec F32 bits in
  let int := ftrunc num in
  if negb (feq int num) then KFloat bits
  else if feq (of_int F32 (to_int 32 int)) int then comp_int (to_int 64 int)
  else KFloat bits.

(** kval_enum.rs L56-66 *)
Definition as_f64 (k : kval) : option Z :=
  match k with
  | KBit b => Some (fenc F64 (of_int F64 (if b then 1 else 0)))
  | KByte i => Some (fenc F64 (of_int F64 i))
  | KInt i => Some (fenc F64 (of_int F64 i))
  | KFloat f => Some (fenc F64 (fcast F64 (fdec F32 f)))
  | KDouble d => Some d
  | _ => None
  end.

(** kval_enum.rs L69-79 *)
Definition as_f32 (k : kval) : option Z :=
  match k with
  | KBit b => Some (fenc F32 (of_int F32 (if b then 1 else 0)))
  | KByte i => Some (fenc F32 (of_int F32 i))
  | KInt i => Some (fenc F32 (of_int F32 i))
  | KFloat f => Some f
  | KDouble d => Some (fenc F32 (fcast F32 (fdec F64 d)))
  | _ => None
  end.
