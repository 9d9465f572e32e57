(** * StrConvModel: the conversions of a string to a C string. *)
From Coq Require Import List ZArith.
From Verif Require Import Base StoreModel MemModel StringModel.
Local Open Scope Z_scope.

(** ustring.h:268-272 [operator const value_type* () const], with assertions:
    a null string gives a null pointer; *end() is read for the assertion. *)
Definition to_const_chars (h : heap) (m : mb) : outcome ptr :=
  match mptr m with
  | None => Ok None
  | Some _ =>
      l <- load_n h (padd (mptr m) (msize m)) 1 ;;
      match l with
      | [Some 0] => Ok (mptr m)
      | _ => UB
      end
  end.
(** ustring.h:275-279 [operator value_type* ()], with assertions: as above,
    but end() must not be null. *)
Definition to_chars (h : heap) (m : mb) : outcome ptr :=
  match mptr m with
  | None => UB
  | Some _ => to_const_chars h m
  end.
