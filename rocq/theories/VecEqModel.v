(** * VecEqModel: equality of vectors (and of the containers made of them). *)
From Verif Require Import Base.
From Coq Require Import ZArith.
Local Open Scope Z_scope.

(** __builtin_memcmp (p, q, n) == 0. *)
Fixpoint memcmp0 (a b : list Z) (n : nat) : outcome bool :=
  match n with
  | O => Ok true
  | S n' =>
      match a, b with
      | x :: a', y :: b' => if x =? y then memcmp0 a' b' n' else Ok false
      | _, _ => UB
      end
  end.

(** uvector.h:46 [operator==], cmemlink.h:61-62: [a] and [b] are the elements
    of the vectors, [repr] the bytes of an element object in memory, [same]
    whether both use one buffer.  The same for list, set, multiset, map and
    multimap, which inherit it, and for stack. *)
Definition vec_eq {T} (repr : T -> list Z) (same : bool) (a b : list T) : outcome bool :=
  let da := flat_map repr a in
  let db := flat_map repr b in
  if Nat.eqb (length db) (length da) then
    if same then Ok true else memcmp0 db da (length da)
  else Ok false.

(** The object representation of a ustl::string: the vtable pointer of
    memblock, the address of the text, the size and the capacity (cmemlink.h:80-81,
    memblock.h:59).  [text] is what the string holds. *)
Record str_obj := { s_vptr : Z; s_addr : Z; s_cap : Z; s_text : list Z }.
Fixpoint le (n : nat) (x : Z) : list Z :=
  match n with O => [] | S n' => x mod 256 :: le n' (x / 256) end.
Definition str_repr (s : str_obj) : list Z :=
  le 8 (s_vptr s) ++ le 8 (s_addr s) ++ le 8 (Z.of_nat (length (s_text s))) ++ le 8 (s_cap s).
