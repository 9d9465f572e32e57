(** * IsIterSpec: what iterating over a stream should visit. *)
From Verif Require Import Base IstrSpec.
From Coq Require Import ZArith.

(** Every word of a text is followed by a delimiter ([p] holds of 0). *)
Definition finished (p : Z -> bool) (txt : list Z) : Prop := p (last txt 0%Z) = true.
(** A text of numbers, each followed by [d]. *)
Definition terminated (d : Z) (ts : list (list Z)) : list Z := concat (map (fun t => t ++ [d]) ts).
