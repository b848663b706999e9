(** Cursors that are kept while their list changes.

    The list types of the interface (/repo/dochy_core/src/imp/intf/mlist_ptr.rs) are raw pointers
    without lifetimes: [MListPtr] is changed while any number of [MListPtrIter] of it exist.  A
    program is a sequence of changes of one list, of making cursors and of using them.  Line
    numbers are those of mlist_ptr.rs unless another file is named. *)
From Verif Require Import Base LinkedModel.

Section Cursors.
Context {V : Type}.

(** where a cursor is made: L138-145 iter_const, iter_mut; L147-154 iter_from_last_const,
    iter_from_last_mut; L156-163 iter_from_id_const, iter_from_id_mut *)
Inductive place : Type := AtFirst | AtLast | AtId (id : Z).

(** one step of a program: a change of the list (L94-136; linked_m.rs), making a cursor, and the
    methods of [MListPtrIter] (L189-228).  The [_const] and [_mut] forms give the same item and are
    one step here. *)
Inductive cop : Type :=
| CChange (o : lop V)
| COpen (p : place)
| CNext (i : nat) | CPrev (i : nat) | CCurrent (i : nat)
| CAvailable (i : nat) | CIsFirst (i : nat) | CIsLast (i : nat).

(** what a step answers *)
Inductive canswer : Type := AChanged (r : lret) | AOpened (b : bool) | AItem (x : option (Z * V)) | ABool (b : bool).

(** L138-163 with linked_m.rs L359-388: the address of the node; only [iter_from_id] can give
    no cursor *)
Definition open_at (m : lmap) (p : place) : option Z :=
  match p with AtFirst => Some (iter m) | AtLast => Some (iter_from_last m) | AtId id => iter_from_id m id end.

(** One step; [a] is the address the allocator gives if the step needs one, [Err] an address that
    an allocator does not give.  A cursor that was never made is a [Panic]. *)
Definition cstep (a : Z) (h : heap V) (m : lmap) (cs : list Z) (o : cop) : res (heap V * lmap * list Z * canswer) :=
  match o with
  | CChange o =>
      if negb (addresses_ok h [a]) then Err else
      '(h, m, r) <- lstep a h m o ; Ok (h, m, cs, AChanged r)
  | COpen p =>
      match open_at m p with
      | Some c => Ok (h, m, cs ++ [c], AOpened true)
      | None => Ok (h, m, cs, AOpened false)
      end
  | CNext i =>
      c <- unwrap (nth_error cs i) ; '(x, c') <- cur_next h m c ; Ok (h, m, lset i c' cs, AItem x)
  | CPrev i =>
      c <- unwrap (nth_error cs i) ; '(x, c') <- cur_prev h m c ; Ok (h, m, lset i c' cs, AItem x)
  | CCurrent i => c <- unwrap (nth_error cs i) ; x <- cur_current h c ; Ok (h, m, cs, AItem x)
  | CAvailable i => c <- unwrap (nth_error cs i) ; Ok (h, m, cs, ABool (cur_available c))
  | CIsFirst i => c <- unwrap (nth_error cs i) ; b <- cur_is_first h m c ; Ok (h, m, cs, ABool b)
  | CIsLast i => c <- unwrap (nth_error cs i) ; b <- cur_is_last h m c ; Ok (h, m, cs, ABool b)
  end.

(** the steps of a program in order, with the addresses the allocator gives *)
Fixpoint crun (h : heap V) (m : lmap) (cs : list Z) (prog : list (Z * cop))
  : res (heap V * lmap * list Z * list canswer) :=
  match prog with
  | [] => Ok (h, m, cs, [])
  | (a, o) :: prog =>
      '(h, m, cs, x) <- cstep a h m cs o ;
      '(h, m, cs, xs) <- crun h m cs prog ;
      Ok (h, m, cs, x :: xs)
  end.

(** the loop the comment at L201-203 has in mind: go on with [next] (L189-199), and remove
    (L110-113) the item it gave if [p] says so.  [fuel] bounds the number of rounds; running out of
    it is [Err], which the theorem excludes.  The items are those that were visited. *)
Fixpoint sweep (p : Z -> V -> bool) (fuel : nat) (h : heap V) (m : lmap) (c : Z)
  : res (heap V * lmap * list (Z * V)) :=
  match fuel with
  | O => Err
  | S fuel =>
      '(x, c) <- cur_next h m c ;
      match x with
      | None => Ok (h, m, [])
      | Some (id, v) =>
          '(h, m) <- (if p id v then '(h, m, _) <- lm_remove h m id ; Ok (h, m) else Ok (h, m)) ;
          '(h, m, seen) <- sweep p fuel h m c ;
          Ok (h, m, (id, v) :: seen)
      end
  end.

(** the same loop from the end, with [prev] (L201-211) *)
Fixpoint sweep_back (p : Z -> V -> bool) (fuel : nat) (h : heap V) (m : lmap) (c : Z)
  : res (heap V * lmap * list (Z * V)) :=
  match fuel with
  | O => Err
  | S fuel =>
      '(x, c) <- cur_prev h m c ;
      match x with
      | None => Ok (h, m, [])
      | Some (id, v) =>
          '(h, m) <- (if p id v then '(h, m, _) <- lm_remove h m id ; Ok (h, m) else Ok (h, m)) ;
          '(h, m, seen) <- sweep_back p fuel h m c ;
          Ok (h, m, (id, v) :: seen)
      end
  end.

End Cursors.

Arguments cop : clear implicits.
Arguments canswer : clear implicits.
