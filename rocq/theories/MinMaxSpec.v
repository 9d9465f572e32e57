(** * MinMaxSpec: orders and ranges of integer types. *)
From Verif Require Import Base MinMaxModel.
From Coq Require Import ZArith List.
Import ListNotations.
Local Open Scope Z_scope.

(** A strict weak order. *)
Definition weak_order {A} (lt : A -> A -> bool) : Prop :=
  (forall a, lt a a = false) /\ (forall a b c, lt a b = true -> lt b c = true -> lt a c = true) /\
  (forall a b c, lt a b = false -> lt b c = false -> lt a c = false).
(** A type of C++: at least 8 bits, at most 64. *)
Definition int_type (t : ity) : Prop := In (bits t) [8; 16; 32; 64].
Definition fits (t : ity) (v : Z) : Prop := lo t <= v <= hi t.
