(** * StringFindSpec: order and occurrences. *)
From Coq Require Import List ZArith.
From Verif Require Import StringFindModel.
Import ListNotations.
Local Open Scope Z_scope.

(** Lexicographic order of byte sequences. *)
Inductive lex : list Z -> list Z -> Prop :=
| lex_nil y t : lex [] (y :: t)
| lex_lt x y s t : x < y -> lex (x :: s) (y :: t)
| lex_eq x s t : lex s t -> lex (x :: s) (x :: t).

(** Byte [c] is at position [i]; pattern [p] occurs at position [i]. *)
Definition byte_at (s : list Z) (c i : Z) : Prop := 0 <= i /\ nth_error s (Z.to_nat i) = Some c.
Definition occurs (s p : list Z) (i : Z) : Prop := 0 <= i /\ exists a b, s = a ++ p ++ b /\ length a = Z.to_nat i.
Definition one_of (s set : list Z) (i : Z) : Prop := exists c, byte_at s c i /\ In c set.
Definition none_of (s set : list Z) (i : Z) : Prop := exists c, byte_at s c i /\ ~ In c set.

(** [r] is the smallest position from [pos] on with [P], or npos if there is none. *)
Definition is_first (P : Z -> Prop) (pos r : Z) : Prop :=
  (pos <= r /\ P r /\ forall k, pos <= k < r -> ~ P k) \/ (r = npos /\ forall k, pos <= k -> ~ P k).
(** [r] is the largest position up to [pos] with [P], or npos if there is none. *)
Definition is_last (P : Z -> Prop) (pos r : Z) : Prop :=
  (r <= pos /\ P r /\ forall k, r < k <= pos -> ~ P k) \/ (r = npos /\ forall k, k <= pos -> ~ P k).
