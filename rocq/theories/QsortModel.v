(** * QsortModel: sort, which hands the range to C's qsort.

    qsort itself is not part of /repo: the model takes it as an argument [qs],
    a function of the comparison callback and the elements. *)
From Verif Require Import Base.
From Coq Require Import ZArith.

Section Sort.
  Context {A S : Type}.
  (** A comparison type [Compare]: its objects have a state [S], [app s] is
      [operator()] of an object in state [s]; [init] is the state of an object
      declared without an initialiser, [None] if it is indeterminate (a
      pointer to a function). *)
  Variable app : S -> A -> A -> bool.
  Variable init : option S.
  (** The C library's qsort. *)
  Variable qs : (A -> A -> Z) -> list A -> list A.

  (** ualgo.h:432-438 [qsort_adapter] for a comparison object in state [s]. *)
  Definition qsort_adapter (s : S) (x y : A) : Z :=
    if app s x y then (-1)%Z else if app s y x then 1%Z else 0%Z.
  (** ualgo.h:444-451 [sort (first, last, Compare)]: the argument [given] has
      no name in the source; the adapter declares its own object.  Calling
      through an indeterminate pointer is [UB]; qsort compares as soon as
      there are two elements. *)
  Definition sort (a : list A) (first last : nat) (given : S) : outcome (list A) :=
    if (first <=? last) && (last <=? length a) then
      match init with
      | Some s => Ok (firstn first a ++ qs (qsort_adapter s) (slice a first last) ++ skipn last a)
      | None => if last - first <? 2 then Ok a else UB
      end
    else UB.
  (** upredalgo.h:270-274 [nth_element (first, nth, last, comp)]. *)
  Definition nth_element (a : list A) (first nth last : nat) (given : S) : outcome (list A) :=
    sort a first last given.
End Sort.
