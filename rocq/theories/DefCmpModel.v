(** * DefCmpModel: the algorithms of ualgo.h that supply a comparison object
    made for the element type of the first range, called on two ranges of
    (perhaps different) integer types.  The operator() of equal_to<T> and
    less<T> (ufunction.h:39-41, 63, 66) takes const T&, so each element is
    converted to T first. *)
From Verif Require Import Base RangeModel ArrayModel MinMaxModel.
From Coq Require Import ZArith List.
Import ListNotations.
Local Open Scope Z_scope.

(** ufunction.h:63 [equal_to] and ufunction.h:66 [less] for the type [t]. *)
Definition eq_as (t : ity) (x y : Z) : bool := conv t x =? conv t y.
Definition less_as (t : ity) (x y : Z) : bool := conv t x <? conv t y.

(** ualgo.h:488-493 [search]: [a] holds the first range, of elements of type [t], at [first1, last1). *)
Definition search_default (t : ity) (a : list Z) (first1 last1 : nat) (pat : list Z) : outcome nat :=
  search (eq_as t) a first1 last1 pat.
(** ualgo.h:506-511 [search_n]: the value may be of another type, too. *)
Definition search_n_default (t : ity) (l : list Z) (count : nat) (v : Z) : nat := search_n (eq_as t) l count v.
(** ualgo.h:515-520 [find_first_of]. *)
Definition find_first_of_default (t : ity) (l1 l2 : list Z) : nat := find_first_of (eq_as t) l1 l2.
(** ualgo.h:525-530 [includes]. *)
Definition includes_default (t : ity) (l1 l2 : list Z) : bool := includes (less_as t) l1 l2.
(** ualgo.h:538-543 [set_union]: the elements are copied to the result as they are. *)
Definition set_union_default (t : ity) (l1 l2 : list Z) : outcome (list Z) := set_union (less_as t) l1 l2.
(** ualgo.h:547-552 [set_intersection]. *)
Definition set_intersection_default (t : ity) (l1 l2 : list Z) : outcome (list Z) := set_intersection (less_as t) l1 l2.
(** ualgo.h:556-561 [set_difference]. *)
Definition set_difference_default (t : ity) (l1 l2 : list Z) : outcome (list Z) := set_difference (less_as t) l1 l2.
(** ualgo.h:565-570 [set_symmetric_difference]. *)
Definition set_symmetric_difference_default (t : ity) (l1 l2 : list Z) : outcome (list Z) := set_symmetric_difference (less_as t) l1 l2.
(** ualgo.h:583-588 [lexicographical_compare]. *)
Definition lexicographical_compare_default (t : ity) (l1 l2 : list Z) : bool := lexicographical_compare (less_as t) l1 l2.
