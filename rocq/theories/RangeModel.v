(** * RangeModel: the algorithms of ualgo.h / upredalgo.h that only walk forward.

    An input range [first, last) is the list of the elements still to be read:
    [first != last] is "the list is not empty", [*first] is its head, [++first]
    is its tail.  An iterator returned into a range is modelled by its offset
    from [first] ([length l] is [last]).  An output iterator is modelled by the
    list of the values assigned through it, in order.  Simplification: input
    and output ranges of the [_copy] algorithms do not overlap (the in-place
    uses, where they do, are modelled on arrays in ArrayModel.v). *)
From Verif Require Import Base.

Section Range.
  Context {A : Type}.

  (** ualgo.h:28-34 [find]; [eqb x v] is [*first == value]. *)
  Fixpoint find (eqb : A -> A -> bool) (l : list A) (v : A) : nat :=
    match l with
    | [] => 0
    | x :: t => if negb (eqb x v) then S (find eqb t v) else 0
    end.

  (** upredalgo.h:33-39 [find_if]. *)
  Fixpoint find_if (pred : A -> bool) (l : list A) : nat :=
    match l with
    | [] => 0
    | x :: t => if negb (pred x) then S (find_if pred t) else 0
    end.

  (** ualgo.h:39-47 and upredalgo.h:45-53 [adjacent_find] (the first is the
      second with [p x y := (x == y)]).  [prev] is the element before [l]. *)
  Fixpoint adjacent_find_loop (p : A -> A -> bool) (prev : A) (l : list A) : nat :=
    match l with
    | [] => 1                       (* ++first == last: return last *)
    | x :: t => if p prev x then 0  (* return prev *)
                else S (adjacent_find_loop p x t)
    end.
  Definition adjacent_find (p : A -> A -> bool) (l : list A) : nat :=
    match l with
    | [] => 0
    | x :: t => adjacent_find_loop p x t
    end.

  (** ualgo.h:52-59 and upredalgo.h:59-66 [mismatch]: both iterators advance in
      step, so one offset describes the returned pair.  [l2] is all the storage
      readable from [first2]; reading past it is UB. *)
  Fixpoint mismatch {B} (comp : A -> B -> bool) (l1 : list A) (l2 : list B) : outcome nat :=
    match l1 with
    | [] => Ok 0
    | x :: t1 => match l2 with
                 | [] => UB
                 | y :: t2 => if comp x y then n <- mismatch comp t1 t2 ;; Ok (S n)
                              else Ok 0
                 end
    end.

  (** ualgo.h:65-69, upredalgo.h:73-77 [equal]. *)
  Definition equal {B} (comp : A -> B -> bool) (l1 : list A) (l2 : list B) : outcome bool :=
    n <- mismatch comp l1 l2 ;; Ok (Nat.eqb n (length l1)).

  (** ualgo.h:76-84 [count]. *)
  Fixpoint count_loop (eqb : A -> A -> bool) (l : list A) (v : A) (total : nat) : nat :=
    match l with
    | [] => total
    | x :: t => count_loop eqb t v (if eqb x v then S total else total)
    end.
  Definition count eqb l v := count_loop eqb l v 0.

  (** upredalgo.h:85-93 [count_if]. *)
  Fixpoint count_if_loop (pred : A -> bool) (l : list A) (total : nat) : nat :=
    match l with
    | [] => total
    | x :: t => count_if_loop pred t (if pred x then S total else total)
    end.
  Definition count_if pred l := count_if_loop pred l 0.

  (** ualgo.h:96-102 [transform] (unary). *)
  Fixpoint transform {B} (op : A -> B) (l : list A) : list B :=
    match l with [] => [] | x :: t => op x :: transform op t end.

  (** ualgo.h:116-122 [transform] (binary); reading past the second range is UB. *)
  Fixpoint transform2 {B C} (op : A -> B -> C) (l1 : list A) (l2 : list B) : outcome (list C) :=
    match l1 with
    | [] => Ok []
    | x :: t1 => match l2 with
                 | [] => UB
                 | y :: t2 => r <- transform2 op t1 t2 ;; Ok (op x y :: r)
                 end
    end.

  (** ualgo.h:129-135 [replace]: in place, position by position. *)
  Fixpoint replace (eqb : A -> A -> bool) (l : list A) (old_value new_value : A) : list A :=
    match l with
    | [] => []
    | x :: t => (if eqb x old_value then new_value else x) :: replace eqb t old_value new_value
    end.

  (** upredalgo.h:101-107 [replace_if]. *)
  Fixpoint replace_if (pred : A -> bool) (l : list A) (new_value : A) : list A :=
    match l with
    | [] => []
    | x :: t => (if pred x then new_value else x) :: replace_if pred t new_value
    end.

  (** ualgo.h:193-199 [reverse_copy]: [*result = *--last] until first == last. *)
  Fixpoint reverse_copy_loop (fuel : nat) (l : list A) (last : nat) (result : list A)
    : outcome (list A) :=
    if Nat.eqb last 0 then Ok result else
    match fuel with
    | O => NoFuel
    | S fuel' => x <- rd l (last - 1) ;; reverse_copy_loop fuel' l (last - 1) (result ++ [x])
    end.
  Definition reverse_copy (l : list A) : outcome (list A) :=
    reverse_copy_loop (length l) l (length l) [].

  (** ualgobase.h:77-83 [copy] to a non-overlapping destination. *)
  Fixpoint copy_out (l : list A) (result : list A) : list A :=
    match l with [] => result | x :: t => copy_out t (result ++ [x]) end.

  (** ualgo.h:229-233 [rotate_copy]; [middle] is an offset. *)
  Definition rotate_copy (l : list A) (middle : nat) (result : list A) : list A :=
    copy_out (firstn middle l) (copy_out (skipn middle l) result).

  (** ualgo.h:238-252 [merge].  [fuel] bounds the loop by the total number of
      elements left. *)
  Fixpoint merge_loop (fuel : nat) (lt : A -> A -> bool) (l1 l2 result : list A)
    : outcome (list A) :=
    match l1, l2 with
    | x :: t1, y :: t2 =>
        match fuel with
        | O => NoFuel
        | S fuel' =>
            if lt x y then merge_loop fuel' lt t1 l2 (result ++ [x])
            else merge_loop fuel' lt l1 t2 (result ++ [y])
        end
    | _, _ => match l1 with
              | _ :: _ => Ok (copy_out l1 result)   (* if (first1 < last1) *)
              | [] => Ok (copy_out l2 result)
              end
    end.
  Definition merge lt l1 l2 := merge_loop (length l1 + length l2) lt l1 l2 [].

  (** ualgo.h:275-285 [remove_copy] (by value). *)
  Fixpoint remove_copy (eqb : A -> A -> bool) (l : list A) (v : A) (result : list A) : list A :=
    match l with
    | [] => result
    | x :: t => remove_copy eqb t v (if negb (eqb x v) then result ++ [x] else result)
    end.

  (** ualgo.h:295-307 [remove_copy] (by a range of iterators).  [pos] is the
      offset of [first]; [r] are the offsets of the iterators in [rfirst,rlast). *)
  Fixpoint skip_less (pos : nat) (r : list nat) : list nat :=
    match r with
    | [] => []
    | q :: t => if Nat.ltb q pos then skip_less pos t else r
    end.
  Fixpoint remove_copy_its (l : list A) (pos : nat) (r : list nat) (result : list A) : list A :=
    match l with
    | [] => result
    | x :: t =>
        let r' := skip_less pos r in
        let keep := match r' with [] => true | q :: _ => negb (Nat.eqb pos q) end in
        remove_copy_its t (S pos) r' (if keep then result ++ [x] else result)
    end.

  (** upredalgo.h:16-26 [copy_if]. *)
  Fixpoint copy_if (pred : A -> bool) (l : list A) (result : list A) : list A :=
    match l with
    | [] => result
    | x :: t => copy_if pred t (if pred x then result ++ [x] else result)
    end.

  (** upredalgo.h:134-140 [remove_copy_if]. *)
  Fixpoint remove_copy_if (pred : A -> bool) (l : list A) (result : list A) : list A :=
    match l with
    | [] => result
    | x :: t => remove_copy_if pred t (if negb (pred x) then result ++ [x] else result)
    end.

  (** ualgo.h:331-342, upredalgo.h:169-180 [unique_copy].  [cur] is [*result],
      the last element written. *)
  Fixpoint unique_copy_loop (p : A -> A -> bool) (l : list A) (result : list A) (cur : A)
    : list A :=
    match l with
    | [] => result
    | x :: t => if negb (p x cur) then unique_copy_loop p t (result ++ [x]) x
                else unique_copy_loop p t result cur
    end.
  Definition unique_copy (p : A -> A -> bool) (l : list A) (result : list A) : list A :=
    match l with
    | [] => result
    | x :: t => unique_copy_loop p t (result ++ [x]) x
    end.

  (** upredalgo.h:312-323 [search_n].  [i] is the offset of [first], [n] the
      length of the current run. [first - --n] on success. *)
  Fixpoint search_n_loop (comp : A -> A -> bool) (l : list A) (i n count : nat) (v : A) : nat :=
    match l with
    | [] => i
    | x :: t => if negb (comp x v) then search_n_loop comp t (S i) 0 count v
                else if Nat.eqb (S n) count then i - n
                else search_n_loop comp t (S i) (S n) count v
    end.
  Definition search_n comp l count v := search_n_loop comp l 0 0 count v.

  (** upredalgo.h:328-336 [find_first_of]; the inner loop. *)
  Fixpoint any_match {B} (comp : A -> B -> bool) (x : A) (l2 : list B) : bool :=
    match l2 with
    | [] => false
    | y :: t => if comp x y then true else any_match comp x t
    end.
  Fixpoint find_first_of {B} (comp : A -> B -> bool) (l1 : list A) (l2 : list B) : nat :=
    match l1 with
    | [] => 0
    | x :: t => if any_match comp x l2 then 0 else S (find_first_of comp t l2)
    end.

  (** upredalgo.h:342-351 [includes]. *)
  Fixpoint includes (lt : A -> A -> bool) (l1 l2 : list A) : bool :=
    match l1, l2 with
    | x :: t1, y :: t2 =>
        if lt y x then false
        else includes lt t1 (if negb (lt x y) then t2 else l2)
    | _, [] => true
    | _, _ => false
    end.

  (** upredalgo.h:360-372 [set_union]. *)
  Fixpoint set_union_loop (fuel : nat) (lt : A -> A -> bool) (l1 l2 result : list A)
    : outcome (list A) :=
    match l1, l2 with
    | x :: t1, y :: t2 =>
        match fuel with
        | O => NoFuel
        | S fuel' =>
            if lt y x then set_union_loop fuel' lt l1 t2 (result ++ [y])
            else set_union_loop fuel' lt t1 (if negb (lt x y) then t2 else l2) (result ++ [x])
        end
    | _, _ => Ok (copy_out l2 (copy_out l1 result))
    end.
  Definition set_union lt l1 l2 := set_union_loop (length l1 + length l2) lt l1 l2 [].

  (** upredalgo.h:377-388 [set_intersection]. *)
  Fixpoint set_intersection_loop (fuel : nat) (lt : A -> A -> bool) (l1 l2 result : list A)
    : outcome (list A) :=
    match l1, l2 with
    | x :: t1, y :: t2 =>
        match fuel with
        | O => NoFuel
        | S fuel' =>
            let b1ge2 := negb (lt x y) in
            let b2ge1 := negb (lt y x) in
            set_intersection_loop fuel' lt (if b2ge1 then t1 else l1) (if b1ge2 then t2 else l2)
              (if b1ge2 && b2ge1 then result ++ [x] else result)
        end
    | _, _ => Ok result
    end.
  Definition set_intersection lt l1 l2 :=
    set_intersection_loop (length l1 + length l2) lt l1 l2 [].

  (** upredalgo.h:393-404 [set_difference]. *)
  Fixpoint set_difference_loop (fuel : nat) (lt : A -> A -> bool) (l1 l2 result : list A)
    : outcome (list A) :=
    match l1, l2 with
    | x :: t1, y :: t2 =>
        match fuel with
        | O => NoFuel
        | S fuel' =>
            let b1ge2 := negb (lt x y) in
            let b2ge1 := negb (lt y x) in
            set_difference_loop fuel' lt (if b2ge1 then t1 else l1) (if b1ge2 then t2 else l2)
              (if negb b1ge2 then result ++ [x] else result)
        end
    | _, _ => Ok (copy_out l1 result)
    end.
  Definition set_difference lt l1 l2 :=
    set_difference_loop (length l1 + length l2) lt l1 l2 [].

  (** upredalgo.h:409-422 [set_symmetric_difference]. *)
  Fixpoint set_symdiff_loop (fuel : nat) (lt : A -> A -> bool) (l1 l2 result : list A)
    : outcome (list A) :=
    match l1, l2 with
    | x :: t1, y :: t2 =>
        match fuel with
        | O => NoFuel
        | S fuel' =>
            let b1l2 := lt x y in
            let b2l1 := lt y x in
            set_symdiff_loop fuel' lt (if negb b2l1 then t1 else l1) (if negb b1l2 then t2 else l2)
              (if b1l2 then result ++ [x] else if b2l1 then result ++ [y] else result)
        end
    | _, _ => Ok (copy_out l2 (copy_out l1 result))
    end.
  Definition set_symmetric_difference lt l1 l2 :=
    set_symdiff_loop (length l1 + length l2) lt l1 l2 [].

  (** upredalgo.h:427-434 [is_sorted]: [i] runs one ahead of [first]. *)
  Fixpoint is_sorted_loop (lt : A -> A -> bool) (prev : A) (l : list A) : bool :=
    match l with
    | [] => true
    | x :: t => if lt x prev then false else is_sorted_loop lt x t
    end.
  Definition is_sorted lt (l : list A) : bool :=
    match l with [] => true | x :: t => is_sorted_loop lt x t end.

  (** upredalgo.h:439-449 [lexicographical_compare]. *)
  Fixpoint lexicographical_compare (lt : A -> A -> bool) (l1 l2 : list A) : bool :=
    match l1, l2 with
    | x :: t1, y :: t2 =>
        if lt x y then true
        else if lt y x then false
        else lexicographical_compare lt t1 t2
    | [], _ :: _ => true
    | _, [] => false
    end.

  (** upredalgo.h:502-510 [max_element]: [i] offset of [first], [r] offset of
      [result], [rv] is [*result].  The empty range returns [first] unread. *)
  Fixpoint max_element_loop (lt : A -> A -> bool) (l : list A) (i r : nat) (rv : A) : nat :=
    match l with
    | [] => r
    | x :: t => if lt rv x then max_element_loop lt t (S i) i x
                else max_element_loop lt t (S i) r rv
    end.
  Definition max_element lt (l : list A) : nat :=
    match l with [] => 0 | x :: _ => max_element_loop lt l 0 0 x end.

  (** upredalgo.h:515-523 [min_element]. *)
  Fixpoint min_element_loop (lt : A -> A -> bool) (l : list A) (i r : nat) (rv : A) : nat :=
    match l with
    | [] => r
    | x :: t => if lt x rv then min_element_loop lt t (S i) i x
                else min_element_loop lt t (S i) r rv
    end.
  Definition min_element lt (l : list A) : nat :=
    match l with [] => 0 | x :: _ => min_element_loop lt l 0 0 x end.

  (** ualgo.h:675-698 [minmax_element] (both overloads). *)
  Fixpoint minmax_loop (lt : A -> A -> bool) (l : list A) (i r1 : nat) (v1 : A) (r2 : nat) (v2 : A)
    : nat * nat :=
    match l with
    | [] => (r1, r2)
    | x :: t =>
        let '(r1', v1') := if lt x v1 then (i, x) else (r1, v1) in
        let '(r2', v2') := if lt v2 x then (i, x) else (r2, v2) in
        minmax_loop lt t (S i) r1' v1' r2' v2'
    end.
  Definition minmax_element lt (l : list A) : nat * nat :=
    match l with [] => (0, 0) | x :: _ => minmax_loop lt l 0 0 x 0 x end.

  (** ualgo.h:611-616 [clamp]. *)
  Definition clamp (lt : A -> A -> bool) (v l h : A) : A :=
    if lt v l then l else if lt h v then h else v.
End Range.
