(** * ByteSpec: what a block move should do to memory. *)
From Coq Require Import ZArith Bool.
Local Open Scope Z_scope.

(** All addresses of [a, a+n) are mapped. *)
Definition mapped {A} (m : Z -> option A) (a n : Z) : Prop :=
  forall x, a <= x < a + n -> m x <> None.

(** [m'] is [m] with the [n] bytes at [src] copied to [dest]. *)
Definition copied {A} (m : Z -> option A) (src n dest : Z) (m' : Z -> option A) : Prop :=
  forall x, m' x = if (dest <=? x) && (x <? dest + n) then m (x - dest + src) else m x.

(** [m'] is [m] with [n] bytes at [dest] set to [v]. *)
Definition filled {A} (m : Z -> option A) (dest n : Z) (v : A) (m' : Z -> option A) : Prop :=
  forall x, m' x = if (dest <=? x) && (x <? dest + n) then Some v else m x.

(** The ranges [a, a+n) and [b, b+k) have no common address. *)
Definition disjoint (a n b k : Z) : Prop := a + n <= b \/ b + k <= a.

(** On [first, last) the two halves are exchanged. *)
Definition rotated {A} (m : Z -> option A) (first middle last : Z) (m' : Z -> option A) : Prop :=
  (forall x, first <= x < first + (last - middle) -> m' x = m (x - first + middle)) /\
  (forall x, first + (last - middle) <= x < last -> m' x = m (x - (last - middle))).

(** Outside the given ranges memory is unchanged. *)
Definition same_outside {A} (m : Z -> option A) (a n b k : Z) (m' : Z -> option A) : Prop :=
  forall x, ~ (a <= x < a + n) -> ~ (b <= x < b + k) -> m' x = m x.
