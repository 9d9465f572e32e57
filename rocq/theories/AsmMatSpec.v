(** * AsmMatSpec: what the SSE products store. *)
From Coq Require Import ZArith List Bool.
From Verif Require Import AsmModel AsmSpec.
Import ListNotations.
Local Open Scope Z_scope.

Section Spec.
  Context {E : Type}.
  (** Row vector t times matrix m (rows m 0 .. m 3), component j. *)
  Definition component (add mul : E -> E -> E) (t : nat -> E) (m : nat -> nat -> E) (j : nat) : E :=
    add (add (mul (t 0%nat) (m 0%nat j)) (mul (t 1%nat) (m 1%nat j)))
        (add (mul (t 2%nat) (m 2%nat j)) (mul (t 3%nat) (m 3%nat j))).
  (** What is computed instead: for even j the third component of t is used
      in place of the second. *)
  Definition component_computed (add mul : E -> E -> E) (t : nat -> E) (m : nat -> nat -> E) (j : nat) : E :=
    component add mul (fun i => if Nat.eqb i 1 && Nat.even j then t 2%nat else t i) m j.

  (** A vector and a row-major 4x4 matrix in memory. *)
  Definition vec_at (m : Z -> E) (a : Z) (i : nat) : E := m (a + Z.of_nat i).
  Definition mat_at (m : Z -> E) (a : Z) (i j : nat) : E := m (a + 4 * Z.of_nat i + Z.of_nat j).

  (** The program's own code between the statements leaves these registers alone. *)
  Definition leaves (rs : list reg) (g : nat -> gap E) : Prop :=
    forall k r l old, In r rs -> g k old r l = old r l.
End Spec.
Definition handed_over : list reg := [X 0; X 4; X 5; X 6; X 7].
