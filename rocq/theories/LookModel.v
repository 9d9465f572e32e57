(** * LookModel: printing a value by its name in a table. *)
From Verif Require Import Base UtilModel StoreModel MemModel StringModel StreamModel FileModel OStrModel.
From Coq Require Import ZArith.
Local Open Scope Z_scope.

(** strmsize.h:88 [Names[min(uoff_t(v),uoff_t(nNames-1))]]; [nNames] is the
    length of the table, each name is given by its characters before the zero.
    Reading a pointer outside the table is undefined. *)
Definition lookup_name (names : list (list Z)) (v : Z) : outcome (list Z) :=
  let i := Z.min (u64 v) (u64 (Z.of_nat (length names) - 1)) in
  if i <? Z.of_nat (length names) then
    match nth_error names (Z.to_nat i) with Some t => Ok t | None => UB end
  else UB.
(** strmsize.h:85-90 [operator<< (ostringstream&, const T&)] for each of the
    values: what it writes, sostream.h:145 and 41 [iwrite (const char* )]. *)
Fixpoint lookup_ops (names : list (list Z)) (vs : list Z) : outcome (list oop) :=
  match vs with
  | [] => Ok []
  | v :: vs => t <- lookup_name names v ;; r <- lookup_ops names vs ;; Ok (OWrite t :: r)
  end.
