(** * OStrSpec: what a user expects of text output streams. *)
From Verif Require Import Base UtilModel StoreModel MemModel StringModel StreamModel FileModel OStrModel.
From Coq Require Import ZArith.
Local Open Scope Z_scope.

(** The bytes an operation adds to the stream. *)
Definition bytes_of (o : oop) : list Z :=
  match o with OWrite l => l | OPut c => [c] | OFormat t => t | OFlush | OClear => [] end.

(** What an operation may have contributed when it ended with [r]: everything
    if it returned, a first part if the memory ran out. *)
Definition contributed (o : oop) (r : res unit) (p : list Z) : Prop :=
  match r with
  | Val _ => p = bytes_of o
  | Thrown x => x = bad_alloc /\ exists q, bytes_of o = p ++ q
  end.

Inductive contributions : list oop -> list (res unit) -> list Z -> Prop :=
| contr_nil : contributions [] [] []
| contr_cons o r p ops rs W : contributed o r p -> contributions ops rs W -> contributions (o :: ops) (r :: rs) (p ++ W).

(** The literal "" lies in its own read-only block. *)
Definition has_nul (h : heap) (nul : ptr) : Prop :=
  exists b base, nul = Some (b, 0) /\ nth_error h b = Some (mkblk [Some 0] base Literal).

(** What the stream has buffered and not yet handed on. *)
Definition buffered (s : ost) : outcome (list (option Z)) := load_n (s_heap s) (s_vptr s) (s_pos s).
