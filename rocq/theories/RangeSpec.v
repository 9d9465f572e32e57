(** * RangeSpec: specification vocabulary for the searching, filtering and
    set algorithms.  Independent of the model. *)
From Verif Require Import Base Order.

(** [n] is the first position below [len] where [P] holds, or [len] if none. *)
Definition FirstOrEnd (P : nat -> Prop) (len n : nat) : Prop :=
  (n < len /\ P n /\ forall i, i < n -> ~ P i) \/
  (n = len /\ forall i, i < len -> ~ P i).

(** [n] is the last position below [len] where [P] holds, or [len] if none. *)
Definition LastOrEnd (P : nat -> Prop) (len n : nat) : Prop :=
  (n < len /\ P n /\ forall i, n < i < len -> ~ P i) \/
  (n = len /\ forall i, i < len -> ~ P i).

(** The element at position [i] exists and satisfies [p]. *)
Definition holds_at {A} (p : A -> bool) (l : list A) (i : nat) : Prop :=
  exists x, nth_error l i = Some x /\ p x = true.

(** The elements at [i] and [i+1] exist and are related by [p]. *)
Definition holds_at2 {A} (p : A -> A -> bool) (l : list A) (i : nat) : Prop :=
  exists x y, nth_error l i = Some x /\ nth_error l (S i) = Some y /\ p x y = true.

(** [pat] matches the elements of [l] starting at position [i], inside [l]. *)
Definition occurs_at {A B} (comp : A -> B -> bool) (pat : list B) (l : list A) (i : nat) : Prop :=
  forall k y, nth_error pat k = Some y ->
    exists x, nth_error l (i + k) = Some x /\ comp x y = true.

(** The first element of [l] and every element that is not [p]-equal to the
    element directly before it: the heads of the runs. *)
Definition run_heads {A} (p : A -> A -> bool) (l : list A) : list A :=
  match l with
  | [] => []
  | x :: t => x :: map snd (filter (fun xy => negb (p (snd xy) (fst xy))) (combine l t))
  end.

(** Lexicographic strict order: a proper prefix is smaller; otherwise the
    first position where the elements differ decides. *)
Definition LexLt {A} (lt : A -> A -> bool) (l1 l2 : list A) : Prop :=
  exists n,
    (forall i, i < n -> exists x y, nth_error l1 i = Some x /\ nth_error l2 i = Some y /\
                                    lt x y = false /\ lt y x = false) /\
    match nth_error l1 n, nth_error l2 n with
    | Some x, Some y => lt x y = true
    | None, Some _ => True
    | _, None => False
    end.

(** Number of elements of [l] equivalent to [v]. *)
Definition mult {A} (lt : A -> A -> bool) (v : A) (l : list A) : nat :=
  countp (equiv lt v) l.
