(** * TupleSpec. *)
From Verif Require Import Base Order.
From Coq Require Import ZArith.

(** Combine two lists of the same length, element by element. *)
Definition map2 {A B C} (f : A -> B -> C) (a : list A) (b : list B) : list C :=
  map (fun p => f (fst p) (snd p)) (combine a b).

(** [a] comes before [b] in the lexicographic order: at the first place where
    they are not equivalent, [a] has the lesser element. *)
Definition lex_before {T} (lt : T -> T -> bool) (a b : list T) : Prop :=
  exists i x y, nth_error a i = Some x /\ nth_error b i = Some y /\ lt x y = true /\
    forall j x' y', j < i -> nth_error a j = Some x' -> nth_error b j = Some y' -> equiv lt x' y' = true.

(** The values of the integer type of [w] bits. *)
Definition of_type (sgn : bool) (w x : Z) : Prop :=
  if sgn then (- 2 ^ (w - 1) <= x < 2 ^ (w - 1))%Z else (0 <= x < 2 ^ w)%Z.
