(** * QsortSpec: what ISO C says about qsort. *)
From Verif Require Import Base Order.
From Coq Require Import ZArith.

(** A callback that "consistently" defines a total ordering (ISO C 7.22.5.4):
    the sign of [cmp y x] is opposite to that of [cmp x y], and "not greater"
    is transitive. *)
Definition consistent {A} (cmp : A -> A -> Z) : Prop :=
  (forall x y, Z.sgn (cmp y x) = - Z.sgn (cmp x y))%Z /\
  (forall x y z, (cmp x y <= 0 -> cmp y z <= 0 -> cmp x z <= 0)%Z).

(** With such a callback qsort leaves the same elements in ascending order;
    nothing is said about the order of those that compare equal. *)
Definition qsort_contract {A} (qs : (A -> A -> Z) -> list A -> list A) : Prop :=
  forall cmp l, consistent cmp ->
    Permutation (qs cmp l) l /\ StronglySorted (fun x y => (cmp x y <= 0)%Z) (qs cmp l).
