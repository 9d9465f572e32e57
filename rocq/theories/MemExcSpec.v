(** * MemExcSpec: what memory blocks and strings may look like after bad_alloc. *)
From Coq Require Import List ZArith Bool.
From Verif Require Import Base StoreModel VectorSpec MemModel MemSpec StringModel StringSpec MemExcModel.
Import ListNotations.
Local Open Scope Z_scope.

(** How many of the answers were "no memory". *)
Definition refused (l : list bool) : nat := length (filter negb l).

Section Programs.
  Context {O S : Type}.
  Variable pre : S -> O -> Prop.
  Variable step left : S -> O -> S.      (* after the operation returned, after it threw *)

  (** The program respects the preconditions, whichever operations throw. *)
  Fixpoint prog_pre (s : S) (p : xprog O) : Prop :=
    match p with
    | Stop => True
    | Do o k kt => pre s o /\ prog_pre (step s o) k /\ prog_pre (left s o) kt
    end.
  (** The program started in [s] ends in [s']; [fs] says of each operation it
      executed whether it returned. *)
  Inductive ends : S -> xprog O -> list bool -> S -> Prop :=
  | ends_stop s : ends s Stop [] s
  | ends_returned s o k kt fs s' : ends (step s o) k fs s' -> ends s (Do o k kt) (true :: fs) s'
  | ends_threw s o k kt fs s' : ends (left s o) kt fs s' -> ends s (Do o k kt) (false :: fs) s'.
  Fixpoint uses (ok : O -> Prop) (p : xprog O) : Prop :=
    match p with Stop => True | Do o k kt => ok o /\ uses ok k /\ uses ok kt end.
End Programs.

(** The strong guarantee. *)
Definition as_before {O S} (s : S) (o : O) : S := s.

(** Operations on memory blocks other than link and manage. *)
Definition not_linking (o : mop) : Prop := match o with MLink _ _ _ | MManage _ _ => False | _ => True end.

(** Strings: as before; but a variable whose new string could not be
    constructed has none, and assign (n, c) may leave an empty string. *)
Definition string_left (ss : list (list (option Z))) (o : sop) : list (list (option Z)) :=
  match o with
  | SCopyOf i _ | SOfFill i _ _ | SSubstr i _ _ _ | SAssignFill i _ _ => put ss i []
  | _ => ss
  end.

(** The program never writes in place to a linked string, and never reserves on
    one that was moved from (the restrictions of C36, C37). *)
Fixpoint careful_prog (e : env) (nul : ptr) (h0 : heap) (ss : list (list (option Z))) (s : mwstate) (p : xprog sop) : Prop :=
  match p with
  | Stop => True
  | Do o k kt => careful_op h0 ss (xms s) o /\
      forall s' r, xsstep e nul s o = Ok (s', r) ->
        match r with
        | Returned => careful_prog e nul h0 (sspec_step h0 ss o) s' k
        | NoMemory => careful_prog e nul h0 (string_left ss o) s' kt
        end
  end.
