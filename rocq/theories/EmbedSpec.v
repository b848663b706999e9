(** C52: loaded documents as documents of the model of differences. *)
From Verif Require Import Base LinkedModel LinkedSpec DocModel JsonModel.

(** [e] is the definition [d] *)
Definition is_defval {D} (R : def -> D -> Prop) (v : ldefval def) (w : ldefval D) : Prop :=
  match v, w with
  | DParam p vt, DParam q ut => p = q /\ vt = ut
  | DCil d, DCil e => R d e
  | DMil d u, DMil e u' => R d e /\ u = u'
  | _, _ => False
  end.
Fixpoint is_def (n : nat) : def -> defT n -> Prop :=
  match n with
  | O => fun _ _ => False
  | S n => fun d e =>
      Forall2 (fun a b => fst a = fst b /\ fst (snd a) = fst (snd b) /\ is_defval (is_def n) (snd (snd a)) (snd (snd b)))
        (ld_members (undef d)) (ld_members e) /\
      ld_refs (undef d) = ld_refs e /\ ld_enum (undef d) = ld_enum e /\
      ld_old (undef d) = ld_old e /\ ld_ref_old (undef d) = ld_ref_old e
  end.

(** [l'] is the list made of the items of [l]; an empty one starts with the id 0 *)
Definition is_value {L} (R : mutlist -> L -> Prop) (v : cval) (w : lval L) : Prop :=
  match v, w with
  | VParam p, LParam q => p = q
  | VCil _, LCil _ => True
  | VMil None, LMil None => True
  | VMil (Some l), LMil (Some l') => R l l'
  | _, _ => False
  end.
Definition is_item {L} (R : mutlist -> L -> Prop) (c : citem) (it : item L) : Prop :=
  Forall2 (fun a b => fst a = fst b /\ is_value R (snd a) (snd b)) (ci_values c) (it_values it) /\ ci_refs c = it_refs it.
Fixpoint is_mlist (n : nat) : mutlist -> mlistT n -> Prop :=
  match n with
  | O => fun _ _ => False
  | S n => fun l l' =>
      Forall2 (fun a b => fst a = fst b /\ is_item (is_mlist n) (snd a) (snd b)) (fst l) (fst l') /\
      snd l' = match fst l with [] => 0 | _ => snd l end
  end.

Definition is_rootval {D} (R : def -> D -> Prop) (v : rootvalue) (w : rootval D) : Prop :=
  match v, w with
  | WParam p vt, RVParam q ut => p = q /\ vt = ut
  | WTable _ _ _, RVTable => True
  | WCList _ _, RVCList => True
  | WMList d u, RVMList e u' => R d e /\ u = u'
  | _, _ => False
  end.
Definition is_rootdef {n} (d : hmap (Z * rootvalue)) (e : rootdef n) : Prop :=
  Forall2 (fun a b => fst a = fst b /\ fst (snd a) = fst (snd b) /\ is_rootval (is_def n) (snd (snd a)) (snd (snd b))) d e.

Definition is_rootsab {L} (R : mutlist -> L -> Prop) (v : rootsab mutlist) (w : rootsab L) : Prop :=
  match v, w with
  | RParam p, RParam q => p = q
  | RMut None, RMut None => True
  | RMut (Some l), RMut (Some l') => R l l'
  | _, _ => False
  end.
Definition is_sabun {n} (d : hmap (rootsab mutlist)) (s : sabun n) : Prop :=
  Forall2 (fun a b => fst a = fst b /\ is_rootsab (is_mlist n) (snd a) (snd b)) d s.
