(** * PtrAlgoSpec: where an array lies. *)
From Verif Require Import Base StoreModel.
From Coq Require Import ZArith.

(** A block of [n] elements of [es] bytes at the address [base], four-aligned,
    below the stack, with everything inside the address space. *)
Definition block_at (e : env) (es base : Z) (n : nat) : Prop :=
  (0 <= base /\ base mod 4 = 0 /\ base + es * Z.of_nat n <= stack_at e /\
   stack_at e + es * Z.of_nat n < 2 ^ 64 - 15)%Z.
