(** * PermSpec *)
From Verif Require Import Base Order.
(** Descending order: no element is less than a later one. *)
Definition Descending {A : Type} (lt : A -> A -> bool) (l : list A) : Prop :=
  StronglySorted (fun x y => lt x y = false) l.
