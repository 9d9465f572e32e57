(** * GrowModel: element by element growth of vectors and strings on the heap.

    The vector of the source, for elements of [es] bytes that are moved and
    copied bytewise, on the heap of MemModel: here every call of realloc
    that gets a block leaves a new entry in the heap, so allocations can be
    counted.  (VectorModel has the same code with elements instead of bytes.) *)
From Verif Require Import Base UtilModel StoreModel MemModel StringModel.
From Coq Require Import ZArith.
Local Open Scope Z_scope.

Section Grow.
  Variable e : env.
  (** uvector.h:321-324 [push_back (v)] with 140-147 [append_hole (1)]: reserve
      size() + sizeof(T) bytes, construct behind the end, set the size. *)
  Definition hv_push_back (es : Z) (h : heap) (m : mb) (x : list (option Z)) : outcome (heap * mb) :=
    let nsz := u64 (msize m + es) in
    ' (h, m) <- reserve e 0 h m nsz false ;;
    h <- store_n h (padd (mptr m) (msize m)) x ;;
    Ok (h, mkmb (mptr m) nsz (mcap m)).
  Fixpoint hv_pushes (es : Z) (h : heap) (m : mb) (xs : list (list (option Z))) : outcome (heap * mb) :=
    match xs with
    | [] => Ok (h, m)
    | x :: t => ' (h, m) <- hv_push_back es h m x ;; hv_pushes es h m t
    end.
  (** ustring.h:110, 138 [push_back (c)], [operator+= (c)] for each character. *)
  Fixpoint str_pushes (nul : ptr) (h : heap) (m : mb) (cs : list Z) : outcome (heap * mb) :=
    match cs with
    | [] => Ok (h, m)
    | c :: t => ' (h, m) <- str_push_back e nul h m c ;; str_pushes nul h m t
    end.
End Grow.
