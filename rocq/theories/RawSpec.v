(** * RawSpec: what is where in a block of storage. *)
From Coq Require Import List Arith.
Import ListNotations.

Section Spec.
  Context {T : Type}.
  Implicit Types (cells : list (option T)).
  (** Living objects with these values from cell [i] on. *)
  Definition objects_at cells (i : nat) (xs : list T) : Prop :=
    forall j x, nth_error xs j = Some x -> nth_error cells (i + j) = Some (Some x).
  (** [n] cells of raw memory from [i] on. *)
  Definition raw_at cells (i n : nat) : Prop := forall j, j < n -> nth_error cells (i + j) = Some None.
  (** Only the [n] cells from [i] on may differ. *)
  Definition only_at cells cells' (i n : nat) : Prop :=
    length cells' = length cells /\ forall j, j < i \/ i + n <= j -> nth_error cells' j = nth_error cells j.
End Spec.

(** How many of [n] constructor calls return before one throws, by the answers
    the world gives ([false]: it throws; no answer: it returns). *)
Fixpoint returning (ans : list bool) (n : nat) : nat :=
  match n, ans with
  | O, _ => 0
  | S _, [] => n
  | S k, true :: t => S (returning t k)
  | S _, false :: _ => 0
  end.
