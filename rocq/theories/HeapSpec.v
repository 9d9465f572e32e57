(** * HeapSpec: what a binary heap is (independent of the model). *)
From Verif Require Import Base Order.

(** A sequentially encoded binary tree: the children of position [i] are
    [2i+1] and [2i+2]; no child is greater than its parent. *)
Definition Heap {A} (lt : A -> A -> bool) (l : list A) : Prop :=
  forall i c x y, c = 2 * i + 1 \/ c = 2 * i + 2 ->
    nth_error l i = Some x -> nth_error l c = Some y -> lt x y = false.

(** [x] is a largest element of [l]. *)
Definition Largest {A} (lt : A -> A -> bool) (x : A) (l : list A) : Prop :=
  In x l /\ forall y, In y l -> lt x y = false.
