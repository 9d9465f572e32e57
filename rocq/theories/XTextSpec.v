(** * XTextSpec: the words for the classes of exceptions, and numbers in texts. *)
From Verif Require Import Base StrOpsModel StrOpsSpec XTextModel.
From Coq Require Import ZArith List String.
Import ListNotations.
Local Open Scope string_scope.
Local Open Scope list_scope.
Local Open Scope Z_scope.

Definition class_word (c : mclass) : string :=
  match c with
  | ErrorMessage => "error" | LogicError => "logic error" | DomainError => "domain error" | InvalidArgument => "invalid argument"
  | LengthError => "length error" | OutOfRange => "out of range" | RuntimeError => "runtime error"
  | RangeError => "range error" | OverflowError => "overflow error" | UnderflowError => "underflow error"
  end.
(** [t] is a C string: no zero in it. *)
Definition c_text (t : list Z) : Prop := Forall (fun x => x <> 0) t.
(** No per cent sign: printf copies it. *)
Definition literal (t : list Z) : Prop := Forall (fun x => x <> 37) t.
(** [t] is the decimal notation of [n], with a minus sign if it is negative. *)
Definition decimal (t : list Z) (n : Z) : Prop :=
  numeral 10 t n \/ (exists ds, t = 45 :: ds /\ numeral 10 ds (- n)).
(** No small letter. *)
Definition upper (t : list Z) : Prop := Forall (fun c => ~ (97 <= c <= 122)) t.
