(** * ListOwnModel: merge and splice of a list with itself.

    As in ListModel, but both arguments are one list, whose size, elements and
    iterators change under way. *)
From Verif Require Import Base StoreModel VectorModel RefArgModel ListModel.
From Coq Require Import ZArith.
Local Open Scope nat_scope.

Section Own.
  Context {T : Type}.
  Variable e : env.
  Variable es : Z.
  Variable dflt : T.

  (** ulist.h:59-64 [l.merge (l)] with ualgo.h:238-252: l.size () has doubled
      when the arguments of merge are evaluated, so that the first range is
      [end, end); the loop is not entered, and copy (l.begin(), l.end(),
      begin()) copies the list onto itself. *)
  Definition l_merge_own (v : vec T) : outcome (vec T) :=
    let n := vsize v in
    v <- insert_list e es v 0 (repeat dflt n) ;;
    ' (v, _) <- in_place v (fun l => l <- copy_in (length l) l 0 0 ;; Ok (l, tt)) ;;
    Ok v.
  (** ulist.h:67-76 [l.splice (l.begin()+ip, l, l.begin()+i, l.begin()+j)]: the
      insertion is one of own elements (RefArgModel); first and last are the
      same addresses afterwards, or dangling if the block has moved (then the
      insertion has read freed memory already). *)
  Definition l_splice_own (v : vec T) (ip i j : nat) : outcome (vec T) :=
    v <- insert_range_own e es v ip i j ;; erase e es v i (j - i).
End Own.
