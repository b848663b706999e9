(** Model of the choice of the next save position and of the sizes recorded in
    every history file.  Citations are relative to
    /repo/dochy_fs/src/imp/history/algo. *)
From Verif Require Import Base CompactionModel.

(** u64 and usize addition of a debug build *)
Definition uadd (a b : Z) : res Z := if a + b <? 2 ^ 64 then Ok (a + b) else Panic.

(* ------------------------------------------------------------------ *)
(** * Options *)

(** history_options.rs L98-101 and L180-183: the builder has the same fields *)
Record cumulative : Type := Cumulative { limit_nth : option Z; limit_count : option Z }.

(** history_options.rs L34-40 and L127-135; the two flags for multi-threading
    choose between implementations with the same result (C34) and are left out *)
Record options : Type := Options { max_phase : nat; update_phase_0 : bool; cumul : option cumulative }.

(** history_options.rs L114-122 CumulativeOptions::from *)
Definition cumulative_from (c : cumulative) : res cumulative :=
  match limit_nth c with
  | Some 0 => Err
  | _ => match limit_count c with Some 0 => Err | _ => Ok c end
  end.

(** history_options.rs L71-93 HistoryOptions::from *)
Definition build (b : options) : res options :=
  let inconsistent :=
    match max_phase b with
    | O => negb (update_phase_0 b) ||
           match cumul b with
           | Some c => match limit_nth c, limit_count c with None, None => false | _, _ => true end
           | None => false
           end
    | _ => false
    end in
  if inconsistent then Err else
  match cumul b with
  | Some c => c <- cumulative_from c ; Ok (Options (max_phase b) (update_phase_0 b) (Some c))
  | None => Ok b
  end.

(** history_options.rs L166-176 and L201-208: the default *)
Definition default_options : options := Options 3 true (Some (Cumulative (Some 1) (Some 10))).

(** history_options.rs L56 is_cumulative *)
Definition is_cumulative (op : options) : bool := match cumul op with Some _ => true | None => false end.

(* ------------------------------------------------------------------ *)
(** * Recorded sizes *)

(** phase_data_item.rs L5-9 *)
Record pitem : Type := PItem { my_size : Z; desc_size : Z; desc_len : Z }.
(** phase_data.rs L8-10 *)
Definition pdata : Type := list pitem.

(** phase_data_item.rs L12-17 *)
Definition pitem_new (size : Z) : pitem := PItem size 0 0.

(** phase_data_item.rs L19-22 *)
Definition pitem_add (size : Z) (it : pitem) : res pitem :=
  s <- uadd (desc_size it) size ;
  n <- uadd (desc_len it) 1 ;
  Ok (PItem (my_size it) s n).

(** the loop of phase_data.rs L18-20 *)
Fixpoint add_all (size : Z) (d : pdata) : res pdata :=
  match d with
  | [] => Ok []
  | it :: r => it <- pitem_add size it ; r <- add_all size r ; Ok (it :: r)
  end.

(** phase_data.rs L13-15 new *)
Definition pdata_new (size : Z) : pdata := [pitem_new size].

(** phase_data.rs L17-22 push *)
Definition push (d : pdata) (size : Z) : res pdata := d <- add_all size d ; Ok (d ++ [pitem_new size]).

(** phase_data.rs L29-35 pop_and_push; popping while the length is above
    [next_phase] is cutting to that length *)
Definition pop_and_push (d : pdata) (next_phase : nat) (size : Z) : res pdata := push (firstn next_phase d) size.

(** ascending order; [sort_by_key] on numbers *)
Fixpoint insert_sorted (x : Z) (l : list Z) : list Z :=
  match l with [] => [x] | y :: r => if x <=? y then x :: l else y :: insert_sorted x r end.
Definition sort (l : list Z) : list Z := fold_right insert_sorted [] l.

(** phase_data.rs L72-81 get_nth_largest_files_size; the subtraction panics
    below zero *)
Definition get_nth_largest (d : pdata) (nth : Z) : res (option Z) :=
  let nth := if nth =? 0 then 1 else nth in
  let sizes := sort (map my_size d) in
  if zlen sizes <? nth then Panic else Ok (nth_error sizes (Z.to_nat (zlen sizes - nth))).

(** phase_data_item.rs L28-32 *)
Definition encode_pitem (it : pitem) : list kval :=
  [comp_int (to_signed 64 (my_size it)); comp_int (to_signed 64 (desc_size it)); comp_int (to_signed 64 (desc_len it))].

(** phase_data.rs L48-55 encode *)
Definition encode_pdata (d : pdata) : list kval :=
  comp_int (to_signed 64 (zlen d)) :: flat_map encode_pitem d.

(** phase_data_item.rs L42-49 *)
Definition read_int (vals : list kval) : res (Z * list kval) :=
  match vals with
  | v :: r => match as_i64 v with Some i => Ok (i, r) | None => Err end
  | [] => Err
  end.

(** phase_data_item.rs L34-39 *)
Definition decode_pitem (vals : list kval) : res (pitem * list kval) :=
  '(a, vals) <- read_int vals ;
  '(b, vals) <- read_int vals ;
  '(c, vals) <- read_int vals ;
  Ok (PItem (to_unsigned 64 a) (to_unsigned 64 b) (to_unsigned 64 c), vals).

(** the loop of phase_data.rs L65-68 *)
Fixpoint decode_pitems (n : nat) (vals : list kval) : res pdata :=
  match n with
  | O => Ok []
  | S n => '(it, vals) <- decode_pitem vals ; r <- decode_pitems n vals ; Ok (it :: r)
  end.

(** phase_data.rs L57-70 decode.  A length above the number of values left is an
    error of the loop or of [vec_with_capacity_safe]; the early test keeps the
    loop count small. *)
Definition decode_pdata (vals : list kval) : res pdata :=
  match vals with
  | [] => Err
  | v :: r =>
      match as_i64 v with
      | None => Err
      | Some i => let len := to_unsigned 64 i in
                  if zlen r <? len then Err else decode_pitems (Z.to_nat len) r
      end
  end.

(* ------------------------------------------------------------------ *)
(** * The next position *)

Section Next.
(** the comparison of the two quotients of should_shift_to_parent_phase.rs L9-20,
    from the sizes and lengths: [greater size1 len1 size2 len2] *)
Variable greater : Z -> Z -> Z -> Z -> bool.

(** should_shift_to_parent_phase.rs L4-20 *)
Definition should_shift (parent_size descendant_size descendant_len current_size current_len : Z) : res bool :=
  s <- uadd parent_size descendant_size ;
  size1 <- uadd s current_size ;
  l <- uadd 1 descendant_len ;
  len1 <- uadd l current_len ;
  Ok (greater size1 len1 s l).

(** calc_next_phase.rs L25-38: whether the first step goes on although the sizes
    do not ask for it *)
Definition over_limit (d : pdata) (op : options) (parent : pitem) : res bool :=
  match cumul op with
  | None => Ok false
  | Some cu =>
      if match limit_count cu with Some c => c <=? desc_len parent | None => false end then Ok true else
      match limit_nth cu with
      | None => Ok false
      | Some nth =>
          size <- get_nth_largest d nth ;
          Ok match size with Some s => s <=? desc_size parent | None => false end
      end
  end.

(** the loop of calc_next_phase.rs L13-44 over the items in reverse, [i] steps
    up, and L45-49 after it *)
Fixpoint climb (d : pdata) (op : options) (i : nat) (r : list pitem) : res nat :=
  match r with
  | current :: r' =>
    match r' with
    | parent :: _ =>
      total <- uadd (my_size current) (desc_size current) ;
      len <- uadd 1 (desc_len current) ;
      shift <- should_shift (my_size parent) (desc_size parent) (desc_len parent) total len ;
      if shift then climb d op (S i) r' else
      match i with
      | O => over <- over_limit d op parent ;
             if over then climb d op (S i) r' else Ok (length d - 1)%nat
      | _ => Ok (length d - 1 - i)%nat
      end
    | [] => Ok (if update_phase_0 op then 0%nat else 1%nat)
    end
  | [] => Ok (if update_phase_0 op then 0%nat else 1%nat)
  end.

(** calc_next_phase.rs L5-50 *)
Definition calc_next_phase (d : pdata) (op : options) : res nat :=
  if (length d <=? max_phase op)%nat then Ok (length d) else climb d op 0 (rev d).

End Next.
