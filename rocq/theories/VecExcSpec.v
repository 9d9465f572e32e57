(** * VecExcSpec: what an exception may leave behind in a vector. *)
From Coq Require Import List ZArith Bool.
From Verif Require Import Base StoreModel VectorModel VectorSpec VecExcModel.
Import ListNotations.

(** How many of the answers were "it throws". *)
Definition refusals (l : list bool) : nat := length (filter negb l).

Section Spec.
  Context {T : Type}.
  Variable es : Z.
  Variable dflt : T.

  (** What the sequence may be after an operation threw. *)
  Variable left_by : list T -> vop T -> list T -> Prop.

  (** The program uses valid positions and at most 2^31 bytes, whichever of its
      operations throw. *)
  Fixpoint prog_pre (l : list T) (p : prog T) : Prop :=
    match p with
    | Stop => True
    | Do o k kt => op_pre es dflt l o /\ prog_pre (seq_step dflt l o) k /\
                   forall l', left_by l o l' -> prog_pre l' kt
    end.
  (** [ends l p fs l']: the program started with the sequence [l] ends with
      [l']; [fs] says of each operation it executed whether it returned. *)
  Inductive ends : list T -> prog T -> list bool -> list T -> Prop :=
  | ends_stop l : ends l Stop [] l
  | ends_returned l o k kt fs l' : ends (seq_step dflt l o) k fs l' -> ends l (Do o k kt) (true :: fs) l'
  | ends_threw l o k kt l1 fs l' : left_by l o l1 -> ends l1 kt fs l' -> ends l (Do o k kt) (false :: fs) l'.
  Fixpoint uses (ok : vop T -> Prop) (p : prog T) : Prop :=
    match p with Stop => True | Do o k kt => ok o /\ uses ok k /\ uses ok kt end.
End Spec.

(** The strong guarantee: nothing changed. *)
Definition unchanged {T} (l : list T) (o : vop T) (l' : list T) : Prop := l' = l.
(** The weak one, for operations other than push_back and insert: unchanged,
    or some of the elements have been assigned already. *)
Definition partly {T} (dflt : T) (l : list T) (o : vop T) (l' : list T) : Prop :=
  l' = l \/
  match o with
  | OpAssign x => exists k, k < length x /\ l' = firstn k x ++ skipn k (seq_resize l (length x) dflt)
  | OpAssignN n x => exists k, k < n /\ l' = repeat x k ++ skipn k (seq_resize l n dflt)
  | _ => False
  end.
Definition not_inserting {T} (o : vop T) : Prop :=
  match o with OpPushBack _ | OpInsert _ _ | OpInsertN _ _ _ | OpInsertRange _ _ => False | _ => True end.
