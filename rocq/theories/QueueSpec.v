(** * QueueSpec: first-in first-out queues and last-in first-out stacks. *)
From Verif Require Import Base QueueModel.
From Coq Require Import ZArith.
Local Open Scope nat_scope.

Section Spec.
  Context {T : Type}.
  Variable es : Z.
  (** A queue is the sequence of the values not yet delivered, oldest first;
      the flag says whether anything was popped since it was constructed. *)
  Definition fifo : Type := (list T * bool)%type.
  Definition get (s : list fifo) (i : nat) : list T := fst (nth i s ([], false)).
  Definition popped (s : list fifo) (i : nat) : bool := snd (nth i s ([], false)).
  Fixpoint put (s : list fifo) (i : nat) (q : fifo) : list fifo :=
    match s, i with
    | [], _ => []
    | _ :: t, O => q :: t
    | x :: t, S j => x :: put t j q
    end.
  Definition fifo_step (s : list fifo) (o : qop T) : list fifo * qout T :=
    match o with
    | QNew i => (put s i ([], false), QNone)
    | QOf i l => (put s i (l, false), QNone)
    | QCopy i j => (put s i (get s j, false), QNone)
    | QMove i j => (put (put s i (nth j s ([], false))) j ([], false), QNone)
    | QPush i x => (put s i (get s i ++ [x], popped s i), QNone)
    | QPop i => (put s i (tl (get s i), true), QNone)
    | QFront i => (s, match get s i with x :: _ => QVal x | [] => QNone end)
    | QBack i => (s, match rev (get s i) with x :: _ => QVal x | [] => QNone end)
    | QSize i => (s, QNum (Z.of_nat (length (get s i))))
    | QEmpty i => (s, QBool (match get s i with [] => true | _ => false end))
    | QLess i j => (s, QBool (length (get s i) <? length (get s j)))
    end.
  (** What the caller guarantees: existing queues, nothing taken out of an
      empty one, and room: at most 2^31 bytes for twice the elements. *)
  Definition fifo_pre (s : list fifo) (o : qop T) : Prop :=
    match o with
    | QNew i | QSize i | QEmpty i => i < length s
    | QOf i l => i < length s /\ (es * Z.of_nat (length l) <= 2 ^ 31)%Z
    | QCopy i j => i < length s /\ j < length s /\ i <> j /\ (es * Z.of_nat (length (get s j)) <= 2 ^ 31)%Z
    | QMove i j => i < length s /\ j < length s /\ i <> j
    | QPush i _ => i < length s /\ (es * Z.of_nat (2 * length (get s i) + 1) <= 2 ^ 31)%Z
    | QPop i | QFront i | QBack i => i < length s /\ get s i <> []
    | QLess i j => i < length s /\ j < length s
    end.
  (** A queue is copied only before anything was popped from it, or empty. *)
  Definition copy_pre (s : list fifo) (o : qop T) : Prop :=
    match o with
    | QCopy _ j => popped s j = false \/ get s j = []
    | _ => True
    end.
  Fixpoint fifo_pres (pre : list fifo -> qop T -> Prop) (s : list fifo) (ops : list (qop T)) : Prop :=
    match ops with
    | [] => True
    | o :: t => pre s o /\ fifo_pres pre (fst (fifo_step s o)) t
    end.
  Definition empty_queues (n : nat) : list fifo := repeat ([], false) n.

  (** Stacks: the top first. *)
  Definition lifo_step (s : list T) (o : kop T) : list T * qout T :=
    match o with
    | KOf l => (rev l, QNone)
    | KPush x => (x :: s, QNone)
    | KPop => (tl s, QNone)
    | KTop => (s, match s with x :: _ => QVal x | [] => QNone end)
    | KSize => (s, QNum (Z.of_nat (length s)))
    | KEmpty => (s, QBool (match s with [] => true | _ => false end))
    end.
  Definition lifo_pre (s : list T) (o : kop T) : Prop :=
    (es * Z.of_nat (length (fst (lifo_step s o))) <= 2 ^ 31)%Z /\
    match o with KPop | KTop => s <> [] | _ => True end.
  Fixpoint lifo_pres (s : list T) (ops : list (kop T)) : Prop :=
    match ops with
    | [] => True
    | o :: t => lifo_pre s o /\ lifo_pres (fst (lifo_step s o)) t
    end.
End Spec.
