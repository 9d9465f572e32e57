(** * MinMaxModel: min, max, clamp, minmax and VectorElement. *)
From Verif Require Import Base.
From Coq Require Import ZArith List.
Import ListNotations.
Local Open Scope Z_scope.

Section Generic.
  Context {A : Type}.
  Variable lt : A -> A -> bool.        (* operator< or the comparison object *)
  (** uutility.h:48-56 [min], [max], both arguments of one type. *)
  Definition min2 (a b : A) : A := if lt a b then a else b.
  Definition max2 (a b : A) : A := if lt b a then a else b.
  (** ualgo.h:610-617 [clamp], both forms. *)
  Definition clamp (v l h : A) : A := if lt v l then l else if lt h v then h else v.
  (** ualgo.h:639-644 [minmax] of two variables: references to them. *)
  Definition minmax2 (a b : A) : A * A := if lt a b then (a, b) else (b, a).
  (** ualgo.h:651-660 [minmax] of a list; it reads the first element of an empty list. *)
  Definition minmax_list (l : list A) : outcome (A * A) :=
    match l with
    | [] => UB
    | x :: _ => Ok (fold_left (fun r i => (min2 (fst r) i, max2 (snd r) i)) l (x, x))
    end.
  (** ualgo.h:661-672 [minmax] of a list with a comparison. *)
  Definition minmax_list_comp (l : list A) : outcome (A * A) :=
    match l with
    | [] => UB
    | x :: _ => Ok (fold_left (fun r i => (if lt i (fst r) then i else fst r, if lt (snd r) i then i else snd r)) l (x, x))
    end.
End Generic.

(** uutility.h:59-60 [VectorElement]: the index used in an array of [n]. *)
Definition element_index (n i : Z) : Z := min2 Z.ltb i (n - 1).

(** Integer types: width in bits and signedness.  Conversion wraps. *)
Record ity := Ity { bits : Z; sgn : bool }.
Definition lo (t : ity) : Z := if sgn t then - 2 ^ (bits t - 1) else 0.
Definition hi (t : ity) : Z := if sgn t then 2 ^ (bits t - 1) - 1 else 2 ^ bits t - 1.
Definition conv (t : ity) (v : Z) : Z :=
  let r := v mod 2 ^ bits t in if sgn t && (2 ^ (bits t - 1) <=? r) then r - 2 ^ bits t else r.
(** C++ usual arithmetic conversions (expr.arith.conv): narrower than int is
    converted to int; then the wider; of equal width, unsigned. *)
Definition promote (t : ity) : ity := if bits t <? 32 then Ity 32 true else t.
Definition common (t u : ity) : ity :=
  let p := promote t in let q := promote u in
  if bits p <? bits q then q else if bits q <? bits p then p
  else Ity (bits p) (sgn p && sgn q).
(** uutility.h:48-56 [min], [max] with arguments of two integer types: compared
    in the common type, returned in the first. *)
Definition min_of (t u : ity) (a b : Z) : Z :=
  let c := common t u in if conv c a <? conv c b then a else conv t b.
Definition max_of (t u : ity) (a b : Z) : Z :=
  let c := common t u in if conv c b <? conv c a then a else conv t b.
