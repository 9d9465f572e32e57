(** * FillSpec: what a fill should do to memory. *)
From Coq Require Import ZArith List Bool.
Local Open Scope Z_scope.

(** [m'] is [m] with [n] copies of the value whose bytes are [v] at [dest]. *)
Definition filled_with {A} (m : Z -> option A) (dest n : Z) (v : list A) (m' : Z -> option A) : Prop :=
  let es := Z.of_nat (length v) in
  forall x, m' x = if (dest <=? x) && (x <? dest + es * n)
                   then nth_error v (Z.to_nat ((x - dest) mod es)) else m x.
