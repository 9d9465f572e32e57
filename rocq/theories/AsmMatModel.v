(** * AsmMatModel: the SSE product of 4x4 matrices.

    Like AsmModel.vector_matrix, with the statements that are repeated for
    every row. *)
From Coq Require Import ZArith List.
From Verif Require Import AsmModel.
Import ListNotations.
Local Open Scope Z_scope.

Section Mat.
  Context {E : Type}.
  (** ulaalgo.h:133-143 [operator* (matrix<4,4,float>, matrix<4,4,float>)]: m2 is
      loaded once into xmm4..7, then for each of [n] rows the row is loaded and
      transformed; the loop of 4 rows is [rows 4]. *)
  Fixpoint rows (add mul : E -> E -> E) (n : nat) (m1 result : Z) : list (asm E) :=
    match n with
    | O => []
    | S k => load_vector m1 :: transform add mul result :: rows add mul k (m1 + 4) (result + 4)
    end.
  Definition matrix_matrix (add mul : E -> E -> E) (m1 m2 result : Z) : list (asm E) :=
    load_matrix m2 :: rows add mul 4 m1 result.
End Mat.
