(** * SerialTypes: the types that can be written and read, as a language.
    uspecial.h:44-69 (pair), uarray.h:66-69, utuple.h:74-77, ubitset.h:118-122 (array, tuple, bitset), uvector.h:105-107 with uctrstrm.h:67-110 (vector; the
    other containers are vectors: uset.h:28, umap.h:28, umultiset.h, umultimap.h). *)
From Verif Require Import Base UtilModel StreamModel SerialModel.
From Coq Require Import ZArith.
Local Open Scope Z_scope.

Inductive ty : Type :=
| TInt (w : nat)            (* unsigned integers of w bytes *)
| TStr                      (* string *)
| TVec (t : ty)             (* vector <t>, and the other containers built on it *)
| TPair (a b : ty)          (* pair <a,b> *)
| TArr (tup : bool) (n : nat) (t : ty).  (* tuple <n,t> if [tup]; else array <t,n>, matrix, bitset *)

Fixpoint val (t : ty) : Type :=
  match t with
  | TInt _ => Z
  | TStr => list Z
  | TVec t => list (val t)
  | TPair a b => (val a * val b)%type
  | TArr _ _ t => list (val t)
  end.
Fixpoint codec_of (dbg : bool) (t : ty) : codec (val t) :=
  match t return codec (val t) with
  | TInt w => c_int dbg w
  | TStr => c_string dbg
  | TVec t => c_container dbg (codec_of dbg t)
  | TPair a b => c_pair (codec_of dbg a) (codec_of dbg b)
  | TArr tup n t => c_array tup n (codec_of dbg t)
  end.
