(** * MatrixSpec: matrices as functions of row and column. *)
From Verif Require Import Base.

(** [m] holds the [NY] rows of [NX] columns of [f], row after row. *)
Definition is_matrix {T} (NX NY : nat) (m : list T) (f : nat -> nat -> T) : Prop :=
  length m = NY * NX /\ forall r c, r < NY -> c < NX -> nth_error m (r * NX + c) = Some (f r c).
(** [t] holds the [N] values of [f]. *)
Definition is_tuple {T} (N : nat) (t : list T) (f : nat -> T) : Prop :=
  length t = N /\ forall i, i < N -> nth_error t i = Some (f i).

(** ((0 + f 0) + f 1) + ... + f (n-1) *)
Fixpoint sum_to {T} (zero : T) (add : T -> T -> T) (n : nat) (f : nat -> T) : T :=
  match n with
  | O => zero
  | S n' => add (sum_to zero add n' f) (f n')
  end.

Definition identity {T} (zero one : T) (r c : nat) : T := if Nat.eqb r c then one else zero.
