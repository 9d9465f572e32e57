(** * CtrModel: the container versions of the algorithms (uctralgo.h) on a
    vector.

    The iterators are pointers into the vector's block.  The algorithms run in
    place on the elements (ListModel.in_place); a value passed by reference is
    not an element of the vector. *)
From Verif Require Import Base StoreModel VectorModel ArrayModel RangeModel ListModel PtrAlgoModel QsortModel.
From Verif Require RefArgModel FunObjModel.
From Coq Require Import ZArith.
Local Open Scope nat_scope.

(** ualgo.h:295-307 [remove_copy (first, last, result, rfirst, rlast)] with
    [result == first] at the start; the iterators in [rs] are positions. *)
Fixpoint skip_below (rs : list nat) (i : nat) : list nat :=
  match rs with
  | r :: t => if r <? i then skip_below t i else rs
  | [] => []
  end.
Fixpoint remove_at_loop {T} (n : nat) (a : list T) (first result : nat) (rs : list nat) : outcome (list T * nat) :=
  match n with
  | O => Ok (a, result)
  | S k =>
      let rs := skip_below rs first in
      match rs with
      | r :: _ =>
          if first =? r then remove_at_loop k a (S first) result rs
          else x <- rd a first ;; a <- wr a result x ;; remove_at_loop k a (S first) (S result) rs
      | [] => x <- rd a first ;; a <- wr a result x ;; remove_at_loop k a (S first) (S result) rs
      end
  end.

Section Ctr.
  Context {T : Type}.
  Variable e : env.
  Variable es : Z.
  Variable dflt : T.
  Variable eqb lt : T -> T -> bool.
  Variable qs : (T -> T -> Z) -> list T -> list T.   (* qsort(3) *)

  (** An algorithm that returns nothing. *)
  Definition on_elements (v : vec T) (alg : list T -> outcome (list T)) : outcome (vec T) :=
    ' (v, _) <- in_place v (fun l => l <- alg l ;; Ok (l, tt)) ;; Ok v.

  (** uctralgo.h:281-285 [remove (ctr, rfirst, rlast)]. *)
  Definition c_remove_at (v : vec T) (rs : list nat) : outcome (vec T) :=
    ' (v, i) <- in_place v (fun l => remove_at_loop (length l) l 0 0 rs) ;; erase e es v i (vsize v - i).
  (** uctralgo.h:361-369 [rotate (ctr, offset)]; a failing assertion is [UB]. *)
  Definition c_rotate (v : vec T) (off : Z) : outcome (vec T) :=
    if (Z.abs off <? Z.of_nat (vsize v))%Z then
      on_elements v (fun l =>
        rotate_cells e es (malloc_at e (vcap v)) l 0
          (Z.to_nat (if (0 <? off)%Z then Z.of_nat (vsize v) - off else - off)%Z) (length l))
    else UB.
  (** uctralgo.h:434-438 [sort (ctr)]. *)
  Definition c_sort (v : vec T) : outcome (vec T) :=
    on_elements v (fun l => sort (fun _ : unit => lt) (Some tt) qs l 0 (length l) tt).
  (** uctralgo.h:452-456 [stable_sort (ctr)]. *)
  Definition c_stable_sort (v : vec T) : outcome (vec T) :=
    on_elements v (fun l => p_stable_sort e es (malloc_at e (vcap v)) lt l 0 (length l)).
  (** uctralgo.h:228-232 [random_shuffle (ctr)]. *)
  Definition c_random_shuffle (v : vec T) (rnd : nat -> nat) : outcome (vec T) :=
    on_elements v (fun l => random_shuffle rnd l 0 (length l)).
  (** uctralgo.h:159-163, 170-174, 118-122 [replace], [replace_if],
      [transform (ctr, op)]. *)
  Definition c_replace (v : vec T) (o n : T) : outcome (vec T) :=
    on_elements v (fun l => Ok (replace eqb l o n)).
  Definition c_replace_if (v : vec T) (p : T -> bool) (n : T) : outcome (vec T) :=
    on_elements v (fun l => Ok (replace_if p l n)).
  Definition c_transform (v : vec T) (op : T -> T) : outcome (vec T) :=
    on_elements v (fun l => Ok (transform op l)).
  (** uctralgo.h:209-213, 219-223 [fill (ctr, value)], ualgobase.h:133-137, and
      [generate (ctr, gen)], ualgo.h:157-162; the [k]th call of the generator
      gives [g k]. *)
  Definition c_fill (v : vec T) (x : T) : outcome (vec T) :=
    on_elements v (fun l => RefArgModel.fill_loop l (RefArgModel.Val x) (length l) 0).
  Definition c_generate (v : vec T) (g : nat -> T) : outcome (vec T) :=
    on_elements v (fun l =>
      ' (l, _, _) <- FunObjModel.fo_generate (fun k (_ : unit) => (S k, Some (g k))) (length l) l 0 0 ;; Ok l).

  (** Histories: vector operations and algorithms in any order. *)
  Inductive cop : Type :=
  | CVec (o : vop T) | CRemove (x : T) | CRemoveIf (p : T -> bool) | CRemoveAt (rs : list nat)
  | CUnique | CReverse | CRotate (off : Z) | CSort | CStableSort | CShuffle (rnd : nat -> nat)
  | CReplace (o n : T) | CReplaceIf (p : T -> bool) (n : T) | CTransform (op : T -> T)
  | CFill (x : T) | CGenerate (g : nat -> T).
  Definition c_step (v : vec T) (o : cop) : outcome (vec T) :=
    match o with
    | CVec o => vstep e es dflt v o
    | CRemove x => l_remove e es eqb v x
    | CRemoveIf p => l_remove_if e es v p
    | CRemoveAt rs => c_remove_at v rs
    | CUnique => l_unique e es eqb v
    | CReverse => l_reverse v
    | CRotate off => c_rotate v off
    | CSort => c_sort v
    | CStableSort => c_stable_sort v
    | CShuffle rnd => c_random_shuffle v rnd
    | CReplace o n => c_replace v o n
    | CReplaceIf p n => c_replace_if v p n
    | CTransform op => c_transform v op
    | CFill x => c_fill v x
    | CGenerate g => c_generate v g
    end.
  Fixpoint c_run (v : vec T) (ops : list cop) : outcome (vec T) :=
    match ops with
    | [] => Ok v
    | o :: t => v <- c_step v o ;; c_run v t
    end.
  (** uctralgo.h:381-413 [lower_bound], [upper_bound], [binary_search] and 420-429
      [equal_range] of a container; the iterators are given as positions. *)
  Definition c_lower_bound (v : vec T) (x : T) : outcome nat :=
    l <- contents v ;; lower_bound lt l 0 (length l) x.
  Definition c_upper_bound (v : vec T) (x : T) : outcome nat :=
    l <- contents v ;; upper_bound lt l 0 (length l) x.
  Definition c_binary_search (v : vec T) (x : T) : outcome bool :=
    l <- contents v ;; binary_search lt l 0 (length l) x.
  Definition c_equal_range (v : vec T) (x : T) : outcome (nat * nat) :=
    l <- contents v ;; equal_range lt lt l 0 (length l) x.
End Ctr.
Arguments cop : clear implicits.
