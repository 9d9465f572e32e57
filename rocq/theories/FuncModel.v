(** * FuncModel: function objects, pair's operators and make_pair. *)
From Verif Require Import Base.
From Coq Require Import ZArith.

Section Functors.
  Context {T : Type}.
  Variable lt eq : T -> T -> bool.       (* operator< and operator== of T *)
  (** ufunction.h:63-68 [equal_to] ... [less_equal] (a, b). *)
  Definition f_equal_to (a b : T) : bool := eq a b.
  Definition f_not_equal_to (a b : T) : bool := negb (eq a b).
  Definition f_greater (a b : T) : bool := lt b a.
  Definition f_less (a b : T) : bool := lt a b.
  Definition f_greater_equal (a b : T) : bool := negb (lt a b).
  Definition f_less_equal (a b : T) : bool := negb (lt b a).
  (** ufunction.h:69 [compare]: a < b ? -1 : (b < a), an int. *)
  Definition f_compare (a b : T) : Z := if lt a b then (-1)%Z else if lt b a then 1%Z else 0%Z.
  (** uutility.h:189-207: the operators made from < and ==. *)
  Definition op_ne (x y : T) : bool := negb (eq x y).
  Definition op_gt (x y : T) : bool := lt y x.
  Definition op_le (x y : T) : bool := negb (lt y x).
  Definition op_ge (x y : T) : bool := negb (lt x y).
End Functors.

(** ufunction.h:137-162 [unary_negate]. *)
Definition unary_negator {A} (f : A -> bool) (v : A) : bool := negb (f v).
(** ufunction.h:164-218 [binder1st], [binder2nd]. *)
Definition bind1st {A B C} (f : A -> B -> C) (v : A) (v2 : B) : C := f v v2.
Definition bind2nd {A B C} (f : A -> B -> C) (v : B) (v1 : A) : C := f v1 v.
(** ufunction.h:229-279 [unary_compose], [binary_compose]. *)
Definition compose1 {A B C} (f : B -> C) (g : A -> B) (x : A) : C := f (g x).
Definition compose2 {A B C D} (f : B -> C -> D) (g : A -> B) (h : A -> C) (x : A) : D := f (g x) (h x).
(** ufunction.h:76-83 [project1st], [project2nd]. *)
Definition project1st {A B} (a : A) (b : B) : A := a.
Definition project2nd {A B} (a : A) (b : B) : B := b.
(** ufunction.h:345-381 [mem_var1], [mem_var2]: the member is the function that
    reads it out of an object.  [mem_var_equal_to], [mem_var_less] (384-418). *)
Definition mem_var1 {T V R} (pv : T -> V) (f : V -> R) (p : T) : R := f (pv p).
Definition mem_var2 {T V R} (pv : T -> V) (f : V -> V -> R) (p1 p2 : T) : R := f (pv p1) (pv p2).
Definition mem_var_equal_to1 {T V} (eq : V -> V -> bool) (pv : T -> V) (v : V) : T -> bool := mem_var1 pv (bind2nd (f_equal_to eq) v).
Definition mem_var_less1 {T V} (lt : V -> V -> bool) (pv : T -> V) (v : V) : T -> bool := mem_var1 pv (bind2nd (f_less lt) v).
Definition mem_var_equal_to2 {T V} (eq : V -> V -> bool) (pv : T -> V) : T -> T -> bool := mem_var2 pv (f_equal_to eq).
Definition mem_var_less2 {T V} (lt : V -> V -> bool) (pv : T -> V) : T -> T -> bool := mem_var2 pv (f_less lt).
(** ufunction.h:426-462 [dereference]: the pointee is the function that
    reads memory; null and dangling pointers are not modelled. *)
Definition deref1 {P T R} (mem : P -> T) (f : T -> R) (p : P) : R := f (mem p).
Definition deref2 {P T R} (mem : P -> T) (f : T -> T -> R) (p1 p2 : P) : R := f (mem p1) (mem p2).
(** umap.h:12-20 [pair_compare_first], [pair_compare_first_key]. *)
Definition pair_compare_first {K V} (comp : K -> K -> bool) (a b : K * V) : bool := comp (fst a) (fst b).
Definition pair_compare_first_key {K V} (comp : K -> K -> bool) (a : K * V) (b : K) : bool := comp (fst a) b.

Section Pair.
  Context {A B : Type}.
  Variables (lta eqa : A -> A -> bool) (ltb eqb : B -> B -> bool).
  (** upair.h:35 [operator==]. *)
  Definition pair_eq (u v : A * B) : bool := eqa (fst u) (fst v) && eqb (snd u) (snd v).
  (** upair.h:36 [operator<]. *)
  Definition pair_lt (u v : A * B) : bool := lta (fst u) (fst v) || (eqa (fst u) (fst v) && ltb (snd u) (snd v)).
  (** upair.h:37 [swap]: the new pairs. *)
  Definition pair_swap (u v : A * B) : (A * B) * (A * B) :=
    let (x, y) := ((fst u, fst v), (snd u, snd v)) in ((snd x, snd y), (fst x, fst y)).
End Pair.

(** ** make_pair *)
(** An argument: a temporary, a variable, a constant variable. *)
Inductive arg := Rvalue (v : Z) | Lvalue (l : nat) | ConstLvalue (l : nat).
(** A half of a pair: its own object or a reference to a variable. *)
Inductive half := Own (v : Z) | Bound (l : nat).
(** upair.h:61-69: of the two overloads the second (copying) is chosen when
    both arguments are constant variables, otherwise the first, for which T1
    and T2 are references to variables (21-58: the members are of these types). *)
Definition forward_half (a : arg) : half :=
  match a with Rvalue v => Own v | Lvalue l => Bound l | ConstLvalue l => Bound l end.
Definition make_pair (m : list Z) (a b : arg) : outcome (half * half) :=
  match a, b with
  | ConstLvalue i, ConstLvalue j => x <- rd m i ;; y <- rd m j ;; Ok (Own x, Own y)
  | _, _ => Ok (forward_half a, forward_half b)
  end.
Definition half_value (m : list Z) (h : half) : outcome Z := match h with Own v => Ok v | Bound l => rd m l end.
(** upair.h:31-32,49: conversion to a pair of values copies. *)
Definition to_values (m : list Z) (p : half * half) : outcome (half * half) :=
  x <- half_value m (fst p) ;; y <- half_value m (snd p) ;; Ok (Own x, Own y).
(** p.first = v: what the variables and the half are then. *)
Definition set_half (m : list Z) (h : half) (v : Z) : outcome (list Z * half) :=
  match h with Own _ => Ok (m, Own v) | Bound l => m' <- wr m l v ;; Ok (m', h) end.
