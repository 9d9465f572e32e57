(** * TypelistSpec: what the typelist algorithms are meant to compute, on lists. *)
From Coq Require Import List Arith Bool ZArith.
From Verif Require Import TypelistModel.
Import ListNotations.

(** The typelist that holds the types [l]. *)
Fixpoint tlist (l : list ty) : ty := match l with [] => NullType | x :: t => Typelist x (tlist t) end.
(** A type that is neither NullType nor itself a typelist. *)
Definition plain (x : ty) : Prop := exists n, x = Other n.

(** The types that have not occurred before, in order ([seen]: those that have). *)
Fixpoint firsts (seen l : list ty) : list ty :=
  match l with
  | [] => []
  | x :: t => if in_dec ty_dec x seen then firsts seen t else x :: firsts (x :: seen) t
  end.
(** [super] is a class hierarchy: a partial order. *)
Record Hierarchy (super : ty -> ty -> bool) : Prop := {
  h_refl : forall a, super a a = true;
  h_trans : forall a b c, super a b = true -> super b c = true -> super a c = true;
  h_antisym : forall a b, super a b = true -> super b a = true -> a = b }.
(** No type comes after one it is derived from. *)
Definition derived_first (super : ty -> ty -> bool) (l : list ty) : Prop :=
  forall i j a b, i < j -> nth_error l i = Some a -> nth_error l j = Some b -> super a b = true -> a = b.
