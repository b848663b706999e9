(** Model of the comparison of averages that decides on the phase of the next save: f64
    division and order.  Citations are relative to /repo/dochy_fs/src/imp/history/algo. *)
From Verif Require Import Base CompactionModel FloatModel PhaseModel.

(** Rounding the magnitude [n / d], in units of 2^-1074, to a format (IEEE-754 section 4.3.1).
    The logarithm of the quotient is that of its integer part, or the quotient is below the
    smallest normal number. *)
Definition fround_quot (f : fmt) (s : bool) (n d : Z) : fval :=
  let k := Z.max (sub f) (Z.log2 (n / d) - fbits f) in
  let n' := rne n (d * 2 ^ k) * 2 ^ k in
  if 2 ^ (fbits f + 1 + (2 ^ ebits f - 3) + sub f) <=? n' then FInf s else FNum s n'.

(** [/] (IEEE-754 sections 5.4.1, 6.1 and 7.2-7.3) *)
Definition fdiv (f : fmt) (a b : fval) : fval :=
  match a, b with
  | FNaN, _ | _, FNaN | FInf _, FInf _ => FNaN
  | FInf s, FNum s' _ => FInf (xorb s s')
  | FNum s _, FInf s' => FNum (xorb s s') 0
  | FNum s n, FNum s' m =>
      if m =? 0 then (if n =? 0 then FNaN else FInf (xorb s s'))
      else fround_quot f (xorb s s') (n * 2 ^ unit_exp) m
  end.

(** [>] (IEEE-754 section 5.11) *)
Definition fgt (a b : fval) : bool :=
  match a, b with
  | FNaN, _ | _, FNaN => false
  | FInf s, FInf s' => negb s && s'
  | FInf s, FNum _ _ => negb s
  | FNum _ _, FInf s' => s'
  | FNum s n, FNum s' n' => signed s' n' <? signed s n
  end.

(** should_shift_to_parent_phase.rs L11, L16 and L19: [size as f64 / len as f64] twice, and
    [>].  This is the parameter [greater] of [PhaseModel]. *)
Definition f64_greater (size1 len1 size2 len2 : Z) : bool :=
  fgt (fdiv F64 (of_int F64 size1) (of_int F64 len1)) (fdiv F64 (of_int F64 size2) (of_int F64 len2)).

(** quotients as computed by any IEEE-754 implementation: 1/3, 2/3, 10/3, 5e-324/2, 1/0 *)
Example fdiv_third : fenc F64 (fdiv F64 (of_int F64 1) (of_int F64 3)) = 0x3FD5555555555555.
Proof. vm_compute. reflexivity. Qed.
Example fdiv_two_thirds : fenc F64 (fdiv F64 (of_int F64 2) (of_int F64 3)) = 0x3FE5555555555555.
Proof. vm_compute. reflexivity. Qed.
Example fdiv_ten_thirds : fenc F64 (fdiv F64 (of_int F64 (-10)) (of_int F64 3)) = 0xC00AAAAAAAAAAAAB.
Proof. vm_compute. reflexivity. Qed.
Example fdiv_tiny : fdiv F64 (fdec F64 1) (of_int F64 2) = FNum false 0.
Proof. vm_compute. reflexivity. Qed.
Example fdiv_zero : fdiv F64 (of_int F64 1) (of_int F64 0) = FInf false.
Proof. vm_compute. reflexivity. Qed.
