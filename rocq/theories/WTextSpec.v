(** * WTextSpec: the characters of a text. *)
From Verif Require Import Base Utf8Spec.
From Coq Require Import ZArith.
Local Open Scope Z_scope.
(** The characters that are not delimiters. *)
Definition chars_of (isd : Z -> bool) (txt : list Z) : list Z := filter (fun c => negb (isd c)) txt.
(** Wide characters as text: each after some delimiters, and some at the end. *)
Fixpoint wide_text (l : list (list Z * Z)) (trail : list Z) : list Z :=
  match l with [] => trail | (d, v) :: t => d ++ encode v ++ wide_text t trail end.
