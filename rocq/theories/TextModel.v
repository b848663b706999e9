(** Decimal text: the parts of the Rust standard library ([to_string] and
    [parse] of integers) the modelled code relies on.  Text is a list of UTF-8
    bytes. *)
From Verif Require Import Base.

Definition is_digit (c : Z) : bool := (48 <=? c) && (c <=? 57).

(** least significant digit first *)
Fixpoint digs (fuel : nat) (n : Z) : list Z :=
  match fuel with
  | O => []
  | S f => if n <? 10 then [48 + n] else (48 + n mod 10) :: digs f (n / 10)
  end.

(** [to_string] of an unsigned integer.  The fuel (number of binary digits)
    always suffices: [print_uint_stop] in TextProofs. *)
Definition print_uint (n : Z) : list Z := rev (digs (S (Z.to_nat (Z.log2 n))) n).

(** [to_string] of a signed integer *)
Definition print_int (n : Z) : list Z :=
  if n <? 0 then 45 :: print_uint (- n) else print_uint n.

(** value of a digit string *)
Definition digits_value (ds : list Z) : Z :=
  fold_left (fun acc c => acc * 10 + (c - 48)) ds 0.

(** [str::parse::<i128>] restricted to the strings the callers pass (an
    optional minus followed by at least one digit). *)
Definition parse_i128 (minus : bool) (ds : list Z) : option Z :=
  let v := if minus then - digits_value ds else digits_value ds in
  if (- 2 ^ 127 <=? v) && (v <? 2 ^ 127) then Some v else None.

(** longest prefix of digits and the rest *)
Fixpoint span_digits (s : list Z) : list Z * list Z :=
  match s with
  | [] => ([], [])
  | c :: r => if is_digit c then let (d, t) := span_digits r in (c :: d, t) else ([], s)
  end.
