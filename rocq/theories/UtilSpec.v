(** * UtilSpec: specification vocabulary for the integer utilities. *)
From Coq Require Import List ZArith.
Import ListNotations.
Local Open Scope Z_scope.

(** The number of one bits among bits 0 .. n-1. *)
Definition ones (n : nat) (v : Z) : Z :=
  Z.of_nat (length (filter (fun i => Z.testbit v (Z.of_nat i)) (seq 0 n))).

(** [x op x op ... op x], [n >= 1] operands. *)
Fixpoint iterop {T} (op : T -> T -> T) (x : T) (n : nat) : T :=
  match n with
  | O | S O => x
  | S m => op (iterop op x m) x
  end.

(** The fractions a/b and c/d are the same rational number. *)
Definition same_ratio (p q : Z * Z) : Prop := fst p * snd q = fst q * snd p.

(** Lowest terms with a positive denominator. *)
Definition lowest (p : Z * Z) : Prop := 0 < snd p /\ Z.gcd (fst p) (snd p) = 1.
