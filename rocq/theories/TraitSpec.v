(** * TraitSpec: what the traits are meant to say (ISO C++14 20.10, 18.3.2). *)
From Coq Require Import List Arith Bool ZArith.
From Verif Require Import TraitModel.
Import ListNotations.

(** The types the grammar of C++ allows: no references to references or to
    void, no pointers to references, no arrays of references, functions or void. *)
Definition refd (t : cty) : Prop := match t with LRef _ | RRef _ => False | F Void _ _ => False | _ => True end.
Definition elem (t : cty) : Prop := match t with LRef _ | RRef _ | Func _ => False | F Void _ _ => False | _ => True end.
Fixpoint wf (t : cty) : Prop :=
  match t with
  | F _ _ _ | Class _ _ _ | Enum _ _ _ | MemFun _ _ _ _ _ | Func _ => True
  | Ptr u _ _ | MemObj _ u _ _ => match u with LRef _ | RRef _ => False | _ => wf u end
  | LRef u | RRef u => refd u /\ wf u
  | ArrU u | Arr u _ => elem u /\ wf u
  end.

(** The integer types. *)
Definition integer (f : fund) : bool := match f with Float | Double | LDouble | Void => false | _ => true end.
Definition floating (f : fund) : bool := match f with Float | Double | LDouble => true | _ => false end.
(** Those with negative values on x86-64 Linux. *)
Definition has_negatives (f : fund) : bool :=
  match f with Char_ | SChar | Short | Int | Long | LLong | WChar | Float | Double | LDouble => true | _ => false end.
(** The values of an integer type: two's complement of its size. *)
Definition value (f : fund) (x : Z) : Prop :=
  match f with
  | Bool_ => 0 <= x <= 1
  | _ => if has_negatives f then - 2 ^ (bits f - 1) <= x <= 2 ^ (bits f - 1) - 1 else 0 <= x <= 2 ^ bits f - 1
  end%Z.
(** The type T[d1][d2]...: [None] for an unknown bound. *)
Fixpoint array_of (dims : list (option nat)) (t : cty) : cty :=
  match dims with [] => t | None :: d => ArrU (array_of d t) | Some n :: d => Arr (array_of d t) n end.
(** The primary type categories of 20.10.4.1, for the types of this model. *)
Inductive category := CVoid | CInt | CFloat | CPtr | CMemObj | CMemFun | CArray | CLRef | CRRef | CClass | CEnum | CFunc.
Definition category_of (t : cty) : category :=
  match t with
  | F Void _ _ => CVoid | F f _ _ => if floating f then CFloat else CInt
  | Class _ _ _ => CClass | Enum _ _ _ => CEnum | Ptr _ _ _ => CPtr
  | MemObj _ _ _ _ => CMemObj | MemFun _ _ _ _ _ => CMemFun
  | LRef _ => CLRef | RRef _ => CRRef | ArrU _ | Arr _ _ => CArray | Func _ => CFunc
  end.
(** The question the library asks for each category. *)
Definition ask (c : category) : cty -> bool :=
  match c with
  | CVoid => is_void | CInt => is_integral | CFloat => is_floating_point | CPtr => is_pointer
  | CMemObj => is_member_object_pointer | CMemFun => is_member_function_pointer
  | CArray => is_array | CLRef => is_lvalue_reference | CRRef => is_rvalue_reference
  | CClass => is_class | CEnum => is_enum | CFunc => is_function
  end.
Definition category_eqb (a b : category) : bool :=
  match a, b with
  | CVoid, CVoid | CInt, CInt | CFloat, CFloat | CPtr, CPtr | CMemObj, CMemObj | CMemFun, CMemFun
  | CArray, CArray | CLRef, CLRef | CRRef, CRRef | CClass, CClass | CEnum, CEnum | CFunc, CFunc => true
  | _, _ => false
  end.
