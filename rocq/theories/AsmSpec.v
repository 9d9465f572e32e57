(** * What a SIMD statement may do, said without its instructions *)

From Verif Require Import AsmModel.
From Coq Require Import ZArith List.
Import ListNotations.
Local Open Scope Z_scope.

Section Spec.
  Context {E : Type}.

  (** The n cells from address a. *)
  Definition cells (m : Z -> E) (a : Z) (n : nat) : list E := map (fun i => m (a + Z.of_nat i)) (seq 0 n).

  (** Nothing outside the given ranges (address, length) has changed. *)
  Definition only (ranges : list (Z * nat)) (m m' : Z -> E) : Prop :=
    forall x, (forall a n, In (a, n) ranges -> ~ (a <= x < a + Z.of_nat n)) -> m' x = m x.

  (** Every register outside the list holds what it held: a value the compiler
      keeps in one of them survives. *)
  Definition keeps (clob : list reg) (s s' : mach E) : Prop :=
    forall r, ~ In r clob -> forall l, regs s' r l = regs s r l.

  (** The statement keeps its promise, from every state of the machine. *)
  Definition honest (zero : E) (b : asm E) : Prop :=
    forall s, keeps (clobbers b) s (exec zero b s).

  (** The two ranges have no cell in common. *)
  Definition apart (a : Z) (m : nat) (b : Z) (n : nat) : Prop := a + Z.of_nat m <= b \/ b + Z.of_nat n <= a.

  Fixpoint map2 (f : E -> E -> E) (a b : list E) : list E :=
    match a, b with x :: a', y :: b' => f x y :: map2 f a' b' | _, _ => [] end.
End Spec.
