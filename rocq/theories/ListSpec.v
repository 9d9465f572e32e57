(** * ListSpec: lists as mathematical sequences. *)
From Verif Require Import Base Order RangeSpec VectorSpec ListModel.
From Coq Require Import ZArith.
Local Open Scope nat_scope.

Section Spec.
  Context {T : Type}.
  Variable es : Z.
  Variable eqb lt : T -> T -> bool.
  Variable srt : list T -> list T.        (* some way to sort, see [Sorts] *)

  (** Merging: the head of [a] goes first if it is less than the head of [b]. *)
  Fixpoint merge_seq (a : list T) : list T -> list T :=
    fix go (b : list T) : list T :=
      match a, b with
      | [], _ => b
      | _, [] => a
      | x :: s, y :: t => if lt x y then x :: merge_seq s b else y :: go t
      end.

  Definition lget (s : list (list T)) (i : nat) : list T := nth i s [].
  Fixpoint lput (s : list (list T)) (i : nat) (l : list T) : list (list T) :=
    match s, i with
    | [], _ => []
    | _ :: t, O => l :: t
    | x :: t, S j => x :: lput t j l
    end.
  Definition from (first : option nat) : nat := match first with None => 0 | Some i => i end.
  Definition upto (last : option nat) (l : list T) : nat := match last with None => length l | Some i => i end.

  (** The new value of list [i] (and of list [j] for splice); LContents returns it. *)
  Definition list_step (s : list (list T)) (o : lop T) : list (list T) * list T :=
    match o with
    | LPushFront i x => (lput s i (x :: lget s i), [])
    | LPopFront i => (lput s i (tl (lget s i)), [])
    | LPushBack i x => (lput s i (lget s i ++ [x]), [])
    | LPopBack i => (lput s i (removelast (lget s i)), [])
    | LInsert i ip l => (lput s i (firstn ip (lget s i) ++ l ++ skipn ip (lget s i)), [])
    | LErase i ep n => (lput s i (firstn ep (lget s i) ++ skipn (ep + n) (lget s i)), [])
    | LRemove i x => (lput s i (filter (fun y => negb (eqb y x)) (lget s i)), [])
    | LRemoveIf i p => (lput s i (filter (fun y => negb (p y)) (lget s i)), [])
    | LUnique i => (lput s i (run_heads eqb (lget s i)), [])
    | LReverse i => (lput s i (rev (lget s i)), [])
    | LSort i => (lput s i (srt (lget s i)), [])
    | LMerge i j => (lput s i (merge_seq (lget s i) (lget s j)), [])
    | LSplice i ip j f l =>
        let part := slice (lget s j) (from f) (upto l (lget s j)) in
        (lput (lput s i (firstn ip (lget s i) ++ part ++ skipn ip (lget s i)))
              j (firstn (from f) (lget s j) ++ skipn (upto l (lget s j)) (lget s j)), [])
    | LClear i => (lput s i [], [])
    | LAssign i l => (lput s i l, [])
    | LContents i => (s, lget s i)
    end.

  (** What the caller guarantees.  [big]: the size in bytes of the result; the
      operations that move elements in the middle need an element size that is
      a multiple of four (C54). *)
  Definition fits (n : nat) : Prop := (es * Z.of_nat n <= 2 ^ 31)%Z.
  Definition list_pre (s : list (list T)) (o : lop T) : Prop :=
    match o with
    | LPushFront i _ | LPushBack i _ => i < length s /\ fits (S (length (lget s i)))
    | LPopFront i | LPopBack i => i < length s /\ lget s i <> []
    | LInsert i ip l => i < length s /\ ip <= length (lget s i) /\ fits (length (lget s i) + length l) /\ (es mod 4 = 0)%Z
    | LErase i ep n => i < length s /\ ep + n <= length (lget s i) /\ (es mod 4 = 0)%Z
    | LMerge i j => i < length s /\ j < length s /\ i <> j /\ fits (length (lget s i) + length (lget s j))
    | LSplice i ip j f l =>
        i < length s /\ j < length s /\ i <> j /\ ip <= length (lget s i) /\
        from f <= upto l (lget s j) /\ upto l (lget s j) <= length (lget s j) /\
        fits (length (lget s i) + (upto l (lget s j) - from f)) /\ (es mod 4 = 0)%Z
    | LAssign i l => i < length s /\ fits (length l)
    | LRemove i _ | LRemoveIf i _ | LUnique i | LReverse i | LSort i | LClear i | LContents i => i < length s
    end.
  Fixpoint list_pres (s : list (list T)) (ops : list (lop T)) : Prop :=
    match ops with
    | [] => True
    | o :: t => list_pre s o /\ list_pres (fst (list_step s o)) t
    end.
End Spec.
(** [srt] gives the same elements in ascending order; which of the ascending
    orders is left open for elements neither of which is less. *)
Definition Sorts {T} (lt : T -> T -> bool) (srt : list T -> list T) : Prop :=
  forall l, Permutation (srt l) l /\ Ascending lt (srt l).
