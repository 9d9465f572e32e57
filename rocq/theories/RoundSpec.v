(** * RoundSpec: the integer nearest to a floating point number. *)
From Verif Require Import RoundModel.
From Coq Require Import ZArith List.
Local Open Scope Z_scope.

(** n is nearest to m * 2^e, and of two nearest the even one.  Everything is
    multiplied by 2^k, k = max 0 (-e), to speak of integers. *)
Definition scale (x : fp) : Z := 2 ^ Z.max 0 (- expo x).
Definition scaled (x : fp) : Z := mant x * 2 ^ Z.max 0 (expo x).      (* m * 2^e * scale *)
Definition nearest_even (x : fp) (n : Z) : Prop :=
  2 * Z.abs (scaled x - n * scale x) <= scale x /\
  (2 * Z.abs (scaled x - n * scale x) = scale x -> Z.even n = true).
(** A value of the type float: 24 bits of mantissa. *)
Definition is_float (x : fp) : Prop := Z.abs (mant x) < 2 ^ 24.
Definition fits (t : ity) (n : Z) : Prop := tlo t <= n <= thi t.
