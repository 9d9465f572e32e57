(** * VecLinkSpec: what a vector linked to an array of numbers should do.

    The pair of the caller's array and the vector's own sequence.  While the
    vector is linked its elements are the array's; an operation that needs
    storage gives the vector a copy of its own.  Only [v[i] = x] on a linked
    vector reaches the array. *)
From Coq Require Import List ZArith.
From Verif Require Import StoreModel VectorModel VectorSpec VecLinkModel.
Import ListNotations.

Section Spec.
  Context {T : Type}.
  Variable es : Z.
  Variable dflt : T.

  Record spec := mkspec { s_arr : list T; s_linked : bool; s_seq : list T }.

  (** Operations after which the vector has storage of its own. *)
  Definition needs_storage (l : list T) (o : vop T) : bool :=
    match o with
    | OpPushBack _ => true
    | OpInsert _ _ => true
    | OpInsertN _ n _ => negb (Nat.eqb (length l + n) 0)
    | OpInsertRange _ x => negb (Nat.eqb (length l + length x) 0)
    | OpErase _ _ => negb (Nat.eqb (length l) 0)
    | OpResize n | OpResizeWith n _ | OpAssignN n _ | OpReserve n _ => negb (Nat.eqb n 0)
    | OpAssign x => negb (Nat.eqb (length x) 0)
    | OpPopBack | OpClear | OpShrink | OpDeallocate => false
    end.
  Definition put (l : list T) (i : nat) (x : T) : list T := firstn i l ++ x :: skipn (S i) l.

  Definition spec_step (s : spec) (o : lop T) : spec :=
    match o with
    | LOp o => mkspec (s_arr s) (s_linked s && negb (needs_storage (s_seq s) o)) (seq_step dflt (s_seq s) o)
    | LSet i x => mkspec (if s_linked s then put (s_arr s) i x else s_arr s) (s_linked s) (put (s_seq s) i x)
    | LCopyLink => mkspec (s_arr s) (s_linked s && Nat.eqb (length (s_seq s)) 0) (s_seq s)
    end.
  Fixpoint spec_run (s : spec) (ops : list (lop T)) : spec :=
    match ops with [] => s | o :: t => spec_run (spec_step s o) t end.

  (** What the caller must guarantee: valid positions, at most 2^31 bytes, and
      on a linked vector no reserve of less than it holds. *)
  Definition lop_pre (s : spec) (o : lop T) : Prop :=
    match o with
    | LOp o => op_pre es dflt (s_seq s) o /\ op_moves_ok es (s_seq s) o = true /\
               match o with OpReserve n _ => s_linked s = true -> length (s_seq s) <= n | _ => True end
    | LSet i _ => i < length (s_seq s)
    | LCopyLink => True
    end.
  Fixpoint lops_pre (s : spec) (ops : list (lop T)) : Prop :=
    match ops with [] => True | o :: t => lop_pre s o /\ lops_pre (spec_step s o) t end.
  (** No assignment through the vector. *)
  Definition no_set (o : lop T) : Prop := match o with LSet _ _ => False | _ => True end.
End Spec.
Arguments spec : clear implicits.
