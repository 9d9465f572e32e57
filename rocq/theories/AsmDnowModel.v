(** * AsmDnowModel: the 3DNow! product of a row vector and a 4x4 matrix, for
    processors with 3DNow! and without SSE, and the portable one. *)
From Coq Require Import ZArith List.
From Verif Require Import AsmModel.
Import ListNotations.
Local Open Scope Z_scope.

Section Dnow.
  Context {E : Type}.
  (** punpckhdq r, r: both lanes of an mm register become lane 1. *)
  Definition dup_high (r : reg) : instr E := Sh 5 r r.
  (** ulaalgo.h:149-199 [operator* (tuple<4,float>, matrix<4,4,float>)] with
      __3DNOW__; [t], [m] and [result] are addresses, the matrix is stored by
      rows.  pfmul and pfadd are [mul] and [add] on both lanes. *)
  Definition dnow_product (add mul : E -> E -> E) (t m result : Z) : list (asm E) :=
    [mkasm [
       Ld 2 t (M 0); Ld 2 (t + 2) (M 1);
       Mv (M 0) (M 2);
       Ld 2 m (M 3);
       Dup (M 0);
       Ld 2 (m + 4) (M 4);
       Op mul (M 0) (M 3);
       dup_high (M 2);
       Op mul (M 2) (M 4);
       Ld 2 (m + 2) (M 5);
       Ld 2 (m + 6) (M 7);
       Mv (M 1) (M 6);
       Op mul (M 0) (M 5);
       Ld 2 (m + 8) (M 0);
       Dup (M 1);
       Op mul (M 2) (M 7);
       Ld 2 (m + 10) (M 2);
       Op mul (M 1) (M 0);
       Op add (M 4) (M 3);
       Ld 2 (m + 12) (M 4);
       Op mul (M 1) (M 2);
       Op add (M 7) (M 5);
       Ld 2 (m + 14) (M 1);
       dup_high (M 6);
       Op add (M 0) (M 3);
       Op mul (M 6) (M 4);
       Op mul (M 6) (M 1);
       Op add (M 2) (M 5);
       Op add (M 4) (M 3);
       St 2 (M 3) result;
       Op add (M 1) (M 5);
       St 2 (M 5) (result + 2)] all_mm;
     mkasm [] []; reset_mmx].
  (** ulaalgo.h:203-210 the same without processor extensions: component [i]. *)
  Definition portable_component (add mul : E -> E -> E) (t : nat -> E) (m : nat -> nat -> E) (i : nat) : E :=
    add (add (add (mul (t 0%nat) (m 0%nat i)) (mul (t 1%nat) (m 1%nat i))) (mul (t 2%nat) (m 2%nat i))) (mul (t 3%nat) (m 3%nat i)).
End Dnow.
