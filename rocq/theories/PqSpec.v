(** * PqSpec: the abstract bag a priority queue stands for. *)
From Verif Require Import Base Order HeapSpec.

Inductive pq_op (A : Type) : Type :=
| PqPush (x : A)
| PqPop.
Arguments PqPush {A} x.
Arguments PqPop {A}.

(** [BagRun lt ops b out b']: executing [ops] on the bag [b] can deliver the
    popped values [out], each a largest element of the bag at the time of its
    pop, and leave the bag [b'].  Bags are lists up to permutation. *)
Inductive BagRun {A} (lt : A -> A -> bool) : list (pq_op A) -> list A -> list A -> list A -> Prop :=
| BagDone b b' : Permutation b b' -> BagRun lt [] b [] b'
| BagPush x ops b out b' :
    BagRun lt ops (x :: b) out b' -> BagRun lt (PqPush x :: ops) b out b'
| BagPop m ops b b1 out b' :
    Largest lt m b -> Permutation b (m :: b1) ->
    BagRun lt ops b1 out b' -> BagRun lt (PqPop :: ops) b (m :: out) b'.

(** No pop is issued on an empty queue, starting with [n] elements. *)
Fixpoint pops_ok {A} (n : nat) (ops : list (pq_op A)) : Prop :=
  match ops with
  | [] => True
  | PqPush _ :: t => pops_ok (S n) t
  | PqPop :: t => match n with O => False | S k => pops_ok k t end
  end.
