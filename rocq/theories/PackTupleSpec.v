(** * PackTupleSpec: tuples as their elements. *)
From Coq Require Import List ZArith.
From Verif Require Import MinMaxModel PackTupleModel.
Local Open Scope Z_scope.
(** The tuple at address a: n elements of w bytes, signed or not. *)
Definition elements (s : bool) (w n : nat) (m : bytemem) (a : Z) : list Z :=
  map (fun i => conv (Ity (8 * Z.of_nat w) s) (load w m (a + Z.of_nat (w * i)))) (seq 0 n).
Definition bytes_ok (m : bytemem) : Prop := forall x, 0 <= m x < 256.
(** Two objects of n bytes: the same or apart. *)
Definition separate (a b : Z) (n : nat) : Prop := a = b \/ a + Z.of_nat n <= b \/ b + Z.of_nat n <= a.
Definition outside (a : Z) (n : nat) (x : Z) : Prop := ~ (a <= x < a + Z.of_nat n).
