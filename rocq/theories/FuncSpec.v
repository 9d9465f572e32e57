(** * FuncSpec: lexicographic order, and the value of an argument. *)
From Verif Require Import Base Order FuncModel.
From Coq Require Import ZArith.

(** First by the first halves; where neither is less, by the second halves. *)
Definition Lexicographic {A B} (lta : A -> A -> bool) (ltb : B -> B -> bool) (u v : A * B) : Prop :=
  lta (fst u) (fst v) = true \/
  (lta (fst u) (fst v) = false /\ lta (fst v) (fst u) = false /\ ltb (snd u) (snd v) = true).
(** == holds exactly where neither is less. *)
Definition eq_is_equiv {A} (lt eq : A -> A -> bool) : Prop :=
  forall x y, eq x y = true <-> lt x y = false /\ lt y x = false.
(** Descending order: no element is greater than an earlier one. *)
Definition Descending {A} (lt : A -> A -> bool) (l : list A) : Prop := StronglySorted (fun x y => lt x y = false) l.
(** The value the expression had. *)
Definition arg_value (m : list Z) (a : arg) : option Z :=
  match a with Rvalue v => Some v | Lvalue l => nth_error m l | ConstLvalue l => nth_error m l end.
