(** Shared vocabulary of the model: outcomes of Rust calls, bytes, machine ranges. *)
From Coq Require Export List ZArith Bool Lia.
From Coq Require Export ZifyBool ZifyNat ZifyN.
Export ListNotations.
Open Scope Z_scope.

Ltac Zify.zify_post_hook ::= Z.div_mod_to_equations.

(** Outcome of a Rust call.  [Ok] and [Err] are the two sides of [Result];
    [Panic] is a panic of a debug build (arithmetic overflow, slice index out
    of bounds, [unwrap] on [None], explicit [panic!]/[unreachable!]). *)
Inductive res (A : Type) : Type :=
| Ok (a : A)
| Err
| Panic.
Arguments Ok {A} a.
Arguments Err {A}.
Arguments Panic {A}.

(** The [?] operator and plain sequencing: errors and panics propagate. *)
Definition bind {A B} (r : res A) (f : A -> res B) : res B :=
  match r with Ok a => f a | Err => Err | Panic => Panic end.
Notation "x <- e ; k" := (bind e (fun x => k)) (at level 60, e at next level, right associativity, only parsing).
Notation "' p <- e ; k" := (bind e (fun y => match y with p => k end))
  (at level 60, p pattern, e at next level, right associativity, only parsing).

Definition is_ok {A} (r : res A) : bool := match r with Ok _ => true | _ => false end.
Definition is_panic {A} (r : res A) : bool := match r with Panic => true | _ => false end.

(** [Option::ok_or(..)?] *)
Definition ok_or {A} (o : option A) : res A := match o with Some a => Ok a | None => Err end.

(** A byte is an integer in 0..=255. *)
Definition wf_byte (b : Z) : Prop := 0 <= b < 256.
Definition wf_bytes (l : list Z) : Prop := Forall wf_byte l.

(** Two's complement reinterpretation of the low [w] bits ([as iN]). *)
Definition to_signed (w v : Z) : Z :=
  let u := v mod 2 ^ w in if u <? 2 ^ (w - 1) then u else u - 2 ^ w.
(** Reinterpretation as unsigned ([as uN]). *)
Definition to_unsigned (w v : Z) : Z := v mod 2 ^ w.

Definition i64_range (v : Z) : Prop := - 2 ^ 63 <= v < 2 ^ 63.
Definition i128_range (v : Z) : Prop := - 2 ^ 127 <= v < 2 ^ 127.
Definition u64_range (v : Z) : Prop := 0 <= v < 2 ^ 64.

Definition zlen {A} (l : list A) : Z := Z.of_nat (length l).

Lemma zlen_nonneg {A} (l : list A) : 0 <= zlen l.
Proof. unfold zlen; lia. Qed.
Lemma zlen_app {A} (l m : list A) : zlen (l ++ m) = zlen l + zlen m.
Proof. unfold zlen; rewrite app_length; lia. Qed.
Lemma zlen_cons {A} (x : A) (l : list A) : zlen (x :: l) = 1 + zlen l.
Proof. unfold zlen; cbn [length]; lia. Qed.
Lemma zlen_nil {A} : zlen (@nil A) = 0.
Proof. reflexivity. Qed.

Lemma bind_ok {A B} (r : res A) (f : A -> res B) b :
  bind r f = Ok b -> exists a, r = Ok a /\ f a = Ok b.
Proof. destruct r; cbn; intros H; try discriminate; eauto. Qed.

Lemma firstn_app_exact {A} (l m : list A) : firstn (length l) (l ++ m) = l.
Proof. rewrite firstn_app, Nat.sub_diag, firstn_all, firstn_O, app_nil_r; reflexivity. Qed.
Lemma skipn_app_exact {A} (l m : list A) : skipn (length l) (l ++ m) = m.
Proof. rewrite skipn_app, Nat.sub_diag, skipn_all; reflexivity. Qed.

Lemma Ok_inj {A} (a b : A) : Ok a = Ok b -> a = b.
Proof. congruence. Qed.
Lemma Some_inj {A} (a b : A) : Some a = Some b -> a = b.
Proof. congruence. Qed.
