(** * ListModel: ulist.h, a vector with list operations.

    The algorithms run in place on the elements: here on the sequence read
    from the vector's cells, whose result is assigned back to the cells.
    sort() is qsort(3), an argument [qs] here (QsortModel).  Arguments passed by reference are
    not elements of the list, except in [l_remove_own]; merge and splice take
    another list. *)
From Verif Require Import Base StoreModel VectorModel ArrayModel QsortModel.
From Coq Require Import ZArith.
Local Open Scope nat_scope.

Section List_.
  Context {T : Type}.
  Variable e : env.
  Variable es : Z.
  Variable dflt : T.                      (* T() *)
  Variable eqb lt : T -> T -> bool.       (* operator==, operator< *)
  Variable qs : (T -> T -> Z) -> list T -> list T.   (* the C library's qsort *)

  (** An algorithm on [begin(), end()) that returns an iterator. *)
  Definition in_place {X} (v : vec T) (alg : list T -> outcome (list T * X)) : outcome (vec T * X) :=
    l <- contents v ;; ' (l, x) <- alg l ;; cells <- assign_cells (vcells v) 0 l ;;
    Ok (mkvec cells (vsize v) (vcap v), x).

  (** ulist.h:36, 54; 37 [push_front], [pop_front]. *)
  Definition l_push_front (v : vec T) (x : T) : outcome (vec T) := insert1 e es v 0 x.
  Definition l_pop_front (v : vec T) : outcome (vec T) := erase e es v 0 1.
  (** ulist.h:42 with uctralgo.h:297-300 [remove_if]. *)
  Definition l_remove_if (v : vec T) (p : T -> bool) : outcome (vec T) :=
    ' (v, i) <- in_place v (fun l => remove_if p l 0 (length l)) ;; erase e es v i (vsize v - i).
  (** ulist.h:40 with uctralgo.h:268-271 [remove]. *)
  Definition l_remove (v : vec T) (x : T) : outcome (vec T) := l_remove_if v (fun y => eqb y x).
  (** ulist.h:44 with uctralgo.h:326-329 [unique]. *)
  Definition l_unique (v : vec T) : outcome (vec T) :=
    ' (v, i) <- in_place v (fun l => unique eqb l 0 (length l)) ;; erase e es v i (vsize v - i).
  (** ulist.h:43 with uctralgo.h:353-356 [reverse]. *)
  Definition l_reverse (v : vec T) : outcome (vec T) :=
    ' (v, _) <- in_place v (fun l => l <- reverse l 0 (length l) ;; Ok (l, tt)) ;; Ok v.
  (** ulist.h:45 with uctralgo.h:434-438 [sort]. *)
  Definition l_sort (v : vec T) : outcome (vec T) :=
    ' (v, _) <- in_place v (fun l => l <- QsortModel.sort (fun _ : unit => lt) (Some tt) qs l 0 (length l) tt ;; Ok (l, tt)) ;; Ok v.

  (** ualgobase.h:77-83 [copy] inside an array, upwards. *)
  Fixpoint copy_in (n : nat) (a : list T) (first result : nat) : outcome (list T) :=
    match n with
    | O => Ok a
    | S k => x <- rd a first ;; a <- wr a result x ;; copy_in k a (S first) (S result)
    end.
  Fixpoint copy_from (l : list T) (a : list T) (result : nat) : outcome (list T) :=
    match l with
    | [] => Ok a
    | x :: t => a <- wr a result x ;; copy_from t a (S result)
    end.
  (** ualgo.h:238-252 [merge]: the first range is [first1, last1) of the array
      that is also written, the second one is [l2]. *)
  Fixpoint merge_in (fuel : nat) (a : list T) (first1 last1 : nat) (l2 : list T) (result : nat) : outcome (list T) :=
    if first1 <? last1 then
      match l2 with
      | [] => copy_in (last1 - first1) a first1 result
      | y :: t2 =>
          match fuel with
          | O => NoFuel
          | S f =>
              x <- rd a first1 ;;
              if lt x y then a <- wr a result x ;; merge_in f a (S first1) last1 l2 (S result)
              else a <- wr a result y ;; merge_in f a first1 last1 t2 (S result)
          end
      end
    else copy_from l2 a result.
  (** ulist.h:59-64 [merge], uvector.h:267-272 [insert_space]: the new elements
      are default constructed (left indeterminate for arithmetic types; no one
      reads them). *)
  Definition l_merge (v w : vec T) : outcome (vec T) :=
    let n := vsize w in
    v <- insert_list e es v 0 (repeat dflt n) ;;
    l2 <- contents w ;;
    ' (v, _) <- in_place v (fun l => l <- merge_in (length l + n) l n (length l) l2 0 ;; Ok (l, tt)) ;;
    Ok v.
  (** ulist.h:67-76 [splice]: [None] is the default argument nullptr. *)
  Definition l_splice (v : vec T) (ip : nat) (w : vec T) (first last : option nat) : outcome (vec T * vec T) :=
    let f := match first with None => 0 | Some i => i end in
    let l := match last with None => vsize w | Some i => i end in
    if (l <? f) || (vsize w <? l) then UB else
    lw <- contents w ;;
    v <- insert_list e es v ip (slice lw f l) ;;
    w <- erase e es w f (l - f) ;;
    Ok (v, w).

  (** ulist.h:40 [remove (l[k])]: the value is a reference to the element [k],
      read anew at each comparison. *)
  Fixpoint remove_own_loop (fuel : nat) (a : list T) (k first last result : nat) : outcome (list T * nat) :=
    if first =? last then Ok (a, result) else
    match fuel with
    | O => NoFuel
    | S f =>
        x <- rd a first ;; v <- rd a k ;;
        if negb (eqb x v) then a <- wr a result x ;; remove_own_loop f a k (S first) last (S result)
        else remove_own_loop f a k (S first) last result
    end.
  Definition l_remove_own (v : vec T) (k : nat) : outcome (vec T) :=
    ' (v, i) <- in_place v (fun l => remove_own_loop (length l) l k 0 (length l) 0) ;; erase e es v i (vsize v - i).

  (** ** Histories over several lists *)
  Inductive lop : Type :=
  | LPushFront (i : nat) (x : T) | LPopFront (i : nat) | LPushBack (i : nat) (x : T) | LPopBack (i : nat)
  | LInsert (i ip : nat) (l : list T) | LErase (i ep n : nat)
  | LRemove (i : nat) (x : T) | LRemoveIf (i : nat) (p : T -> bool) | LUnique (i : nat) | LReverse (i : nat) | LSort (i : nat)
  | LMerge (i j : nat) | LSplice (i ip j : nat) (first last : option nat)
  | LClear (i : nat) | LAssign (i : nat) (l : list T) | LContents (i : nat).

  Definition l_on (s : list (vec T)) (i : nat) (f : vec T -> outcome (vec T)) : outcome (list (vec T) * list T) :=
    v <- rd s i ;; v <- f v ;; s <- wr s i v ;; Ok (s, []).
  Definition l_step (s : list (vec T)) (o : lop) : outcome (list (vec T) * list T) :=
    match o with
    | LPushFront i x => l_on s i (fun v => l_push_front v x)
    | LPopFront i => l_on s i l_pop_front
    | LPushBack i x => l_on s i (fun v => push_back e es v x)
    | LPopBack i => l_on s i pop_back
    | LInsert i ip l => l_on s i (fun v => insert_list e es v ip l)
    | LErase i ep n => l_on s i (fun v => erase e es v ep n)
    | LRemove i x => l_on s i (fun v => l_remove v x)
    | LRemoveIf i p => l_on s i (fun v => l_remove_if v p)
    | LUnique i => l_on s i l_unique
    | LReverse i => l_on s i l_reverse
    | LSort i => l_on s i l_sort
    | LMerge i j => w <- rd s j ;; l_on s i (fun v => l_merge v w)
    | LSplice i ip j f l =>
        v <- rd s i ;; w <- rd s j ;; ' (v, w) <- l_splice v ip w f l ;;
        s <- wr s i v ;; s <- wr s j w ;; Ok (s, [])
    | LClear i => l_on s i clear
    | LAssign i l => l_on s i (fun v => assign e es dflt v l)
    | LContents i => v <- rd s i ;; l <- contents v ;; Ok (s, l)
    end.
End List_.
Arguments lop : clear implicits.
