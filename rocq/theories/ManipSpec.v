(** * ManipSpec: manipulators of one group replace each other. *)
From Verif Require Import Base FmtModel ManipModel.
From Coq Require Import ZArith List.
Import ListNotations.
Local Open Scope Z_scope.

(** The groups: number base, float notation, alignment; the other flags stand alone. *)
Inductive group := Base_ | Float_ | Adjust_ | Alone (m : manip).
Definition group_of (m : manip) : group :=
  match m with
  | Dec | Oct | Hex => Base_
  | Fixed | Scientific => Float_
  | Left | Right | Internal => Adjust_
  | m => Alone m
  end.
(** The last manipulator of a group in a sequence, if any. *)
Definition same_group (g : group) (m : manip) : bool :=
  match g, group_of m with
  | Base_, Base_ | Float_, Float_ | Adjust_, Adjust_ => true
  | Alone a, Alone b => bit a =? bit b
  | _, _ => false
  end.
Definition last_of (g : group) (ms : list manip) : option manip := find (same_group g) (rev ms).
(** The flag of [m] is on. *)
Definition on (fl : Z) (m : manip) : bool := Z.testbit fl (bit m).
