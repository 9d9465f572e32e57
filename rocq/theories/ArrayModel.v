(** * ArrayModel: the random access and in-place algorithms of ualgo.h,
    upredalgo.h and uheap.h on one array.

    The storage is a list [a]; an iterator is an index into it.  Reading or
    writing outside [a] is [UB].  [fuel] arguments bound the loops; running
    out gives [NoFuel], which the theorems exclude. *)
From Verif Require Import Base RangeModel.

Section Arr.
  Context {A : Type}.

  (** ualgobase.h:52-67 [swap] / [iter_swap]. *)
  Definition iter_swap (a : list A) (i j : nat) : outcome (list A) :=
    t <- rd a i ;;
    y <- rd a j ;;
    a1 <- wr a i y ;;
    wr a1 j t.

  (** ualgo.h:183-188 [reverse].  The loop test [distance (first, --last) > 0]
      is [first < last - 1]; it is written [first + 1 < last] because [--last]
      from an empty range at the start of the storage is a position before it,
      which is compared but never dereferenced. *)
  Fixpoint reverse_loop (fuel : nat) (a : list A) (first last : nat) : outcome (list A) :=
    if Nat.ltb (first + 1) last then
      match fuel with
      | O => NoFuel
      | S fuel' =>
          a1 <- iter_swap a first (last - 1) ;;
          reverse_loop fuel' a1 (first + 1) (last - 1)
      end
    else Ok a.
  Definition reverse (a : list A) (first last : nat) : outcome (list A) :=
    reverse_loop (last - first) a first last.

  (** ualgo.h:17-22 [swap_ranges] on disjoint parts of one array. *)
  Fixpoint swap_ranges_loop (n : nat) (a : list A) (first result : nat) : outcome (list A) :=
    match n with
    | O => Ok a
    | S n' => a1 <- iter_swap a first result ;; swap_ranges_loop n' a1 (S first) (S result)
    end.
  Definition swap_ranges a first last result := swap_ranges_loop (last - first) a first result.

  (** ualgo.h:204-215 [rotate] (generic): the swapping loop in the middle. *)
  Fixpoint rotate_swap_loop (fuel : nat) (a : list A) (first middle last : nat)
    : outcome (list A * nat * nat) :=
    if negb (Nat.eqb first middle) && negb (Nat.eqb middle last) then
      match fuel with
      | O => NoFuel
      | S fuel' =>
          a1 <- iter_swap a first (last - 1) ;;
          rotate_swap_loop fuel' a1 (first + 1) middle (last - 1)
      end
    else Ok (a, first, last).
  (** Returns the array and the returned iterator. *)
  Definition rotate (a : list A) (first middle last : nat) : outcome (list A * nat) :=
    if Nat.eqb first middle || Nat.eqb middle last then Ok (a, first)
    else
      a1 <- reverse a first middle ;;
      a2 <- reverse a1 middle last ;;
      ' (a3, f, l) <- rotate_swap_loop (last - first) a2 first middle last ;;
      a4 <- reverse a3 f (if Nat.eqb f middle then l else middle) ;;
      Ok (a4, f).

  (** ualgo.h:257-266 [inplace_merge]: the inner [while ( *first < *middle)]. *)
  Fixpoint im_skip (fuel : nat) (lt : A -> A -> bool) (a : list A) (first middle : nat)
    : outcome nat :=
    x <- rd a first ;;
    m <- rd a middle ;;
    if lt x m then
      match fuel with
      | O => NoFuel
      | S fuel' => im_skip fuel' lt a (first + 1) middle
      end
    else Ok first.
  Fixpoint inplace_merge_loop (fuel : nat) (lt : A -> A -> bool) (a : list A)
           (first middle last : nat) : outcome (list A) :=
    if Nat.eqb middle last then Ok a else
    match fuel with
    | O => NoFuel
    | S fuel' =>
        f <- im_skip (length a) lt a first middle ;;
        a1 <- reverse a f middle ;;
        a2 <- reverse a1 f (middle + 1) ;;
        inplace_merge_loop fuel' lt a2 (f + 1) (middle + 1) last
    end.
  Definition inplace_merge lt a first middle last :=
    inplace_merge_loop (last - middle) lt a first middle last.

  (** ualgo.h:275-285 via ualgo.h:318-322 [remove] (and upredalgo.h:133-156
      [remove_if]): [remove_copy] with the destination in the same array. *)
  Fixpoint remove_if_loop (fuel : nat) (drop : A -> bool) (a : list A) (first last result : nat)
    : outcome (list A * nat) :=
    if Nat.eqb first last then Ok (a, result) else
    match fuel with
    | O => NoFuel
    | S fuel' =>
        x <- rd a first ;;
        if negb (drop x) then
          a1 <- wr a result x ;;
          remove_if_loop fuel' drop a1 (first + 1) last (result + 1)
        else remove_if_loop fuel' drop a (first + 1) last result
    end.
  Definition remove_if (drop : A -> bool) a first last :=
    remove_if_loop (last - first) drop a first last first.
  Definition remove (eqb : A -> A -> bool) a first last (v : A) :=
    remove_if (fun x => eqb x v) a first last.

  (** ualgo.h:331-342 via ualgo.h:354-358 [unique] (upredalgo.h:169-197 with a
      predicate): [unique_copy] with the destination in the same array. *)
  Fixpoint unique_loop (fuel : nat) (p : A -> A -> bool) (a : list A) (first last result : nat)
    : outcome (list A * nat) :=
    if Nat.eqb (first + 1) last then Ok (a, result + 1) else
    match fuel with
    | O => NoFuel
    | S fuel' =>
        x <- rd a (first + 1) ;;
        r <- rd a result ;;
        if negb (p x r) then
          a1 <- wr a (result + 1) x ;;
          unique_loop fuel' p a1 (first + 1) last (result + 1)
        else unique_loop fuel' p a (first + 1) last result
    end.
  Definition unique (p : A -> A -> bool) a first last : outcome (list A * nat) :=
    if Nat.eqb first last then Ok (a, first) else
      x <- rd a first ;;
      a1 <- wr a first x ;;            (* *result = *first with result == first *)
      unique_loop (last - first) p a1 first last first.

  (** ualgo.h:365-377, upredalgo.h:205-217 [lower_bound]. *)
  Fixpoint lower_bound_loop {B} (fuel : nat) (lt : A -> B -> bool) (a : list A) (v : B)
           (first last : nat) : outcome nat :=
    if Nat.eqb first last then Ok first else
    match fuel with
    | O => NoFuel
    | S fuel' =>
        let mid := first + (last - first) / 2 in
        x <- rd a mid ;;
        if lt x v then lower_bound_loop fuel' lt a v (mid + 1) last
        else lower_bound_loop fuel' lt a v first mid
    end.
  Definition lower_bound {B} (lt : A -> B -> bool) a first last (v : B) :=
    lower_bound_loop (last - first) lt a v first last.

  (** ualgo.h:393-405, upredalgo.h:235-247 [upper_bound]. *)
  Fixpoint upper_bound_loop {B} (fuel : nat) (lt : B -> A -> bool) (a : list A) (v : B)
           (first last : nat) : outcome nat :=
    if Nat.eqb first last then Ok last else
    match fuel with
    | O => NoFuel
    | S fuel' =>
        let mid := first + (last - first) / 2 in
        x <- rd a mid ;;
        if lt v x then upper_bound_loop fuel' lt a v first mid
        else upper_bound_loop fuel' lt a v (mid + 1) last
    end.
  Definition upper_bound {B} (lt : B -> A -> bool) a first last (v : B) :=
    upper_bound_loop (last - first) lt a v first last.

  (** ualgo.h:382-387 [binary_search] (operator< version). *)
  Definition binary_search (lt : A -> A -> bool) a first last v : outcome bool :=
    found <- lower_bound lt a first last v ;;
    if Nat.eqb found last then Ok false
    else x <- rd a found ;; Ok (negb (lt v x)).

  (** upredalgo.h:223-228 [binary_search] (comparator version). *)
  Definition binary_search_comp (comp : A -> A -> bool) a first last v : outcome bool :=
    found <- lower_bound comp a first last v ;;
    if Nat.eqb found last then Ok false
    else x <- rd a found ;; Ok (negb (comp x v)).

  (** ualgo.h:410-418, upredalgo.h:253-261 [equal_range]. *)
  Fixpoint equal_range_loop {B} (fuel : nat) (gt : B -> A -> bool) (a : list A) (v : B)
           (second last : nat) : outcome nat :=
    if Nat.eqb second last then Ok second else
      x <- rd a second ;;
      if negb (gt v x) then
        match fuel with
        | O => NoFuel
        | S fuel' => equal_range_loop fuel' gt a v (second + 1) last
        end
      else Ok second.
  Definition equal_range {B} (lt : A -> B -> bool) (gt : B -> A -> bool) a first last (v : B)
    : outcome (nat * nat) :=
    f <- lower_bound lt a first last v ;;
    s <- equal_range_loop (last - first) gt a v f last ;;
    Ok (f, s).

  (** upredalgo.h:279-291 [search] / 296-307 [find_end]: the comparison loop
      [for (; i != last2 && comp( *j, *i); ++i, ++j)]; true if [i == last2]. *)
  Fixpoint match_at {B} (comp : A -> B -> bool) (a : list A) (j : nat) (pat : list B)
    : outcome bool :=
    match pat with
    | [] => Ok true
    | y :: t => x <- rd a j ;; if comp x y then match_at comp a (S j) t else Ok false
    end.
  (** [slast = last1 - n2 + 1]; [first1 < slast] is [first1 + n2 < last1 + 1]. *)
  Fixpoint search_loop {B} (fuel : nat) (comp : A -> B -> bool) (a : list A)
           (first1 last1 : nat) (pat : list B) : outcome nat :=
    if Nat.ltb (first1 + length pat) (last1 + 1) then
      match fuel with
      | O => NoFuel
      | S fuel' =>
          b <- match_at comp a first1 pat ;;
          if b then Ok first1 else search_loop fuel' comp a (first1 + 1) last1 pat
      end
    else Ok last1.
  Definition search {B} (comp : A -> B -> bool) a first1 last1 (pat : list B) :=
    search_loop (last1 - first1 + 1) comp a first1 last1 pat.

  (** upredalgo.h:296-307 [find_end].  [s = last1 - n2] may lie before [first1],
      in which case the loop is not entered. *)
  Fixpoint find_end_loop {B} (fuel : nat) (comp : A -> B -> bool) (a : list A)
           (first1 last1 s : nat) (pat : list B) : outcome nat :=
    if Nat.ltb first1 s then
      match fuel with
      | O => NoFuel
      | S fuel' =>
          b <- match_at comp a s pat ;;
          if b then Ok s else find_end_loop fuel' comp a first1 last1 (s - 1) pat
      end
    else Ok last1.
  Definition find_end {B} (comp : A -> B -> bool) a first1 last1 (pat : list B) :=
    if Nat.ltb last1 (length pat) then Ok last1
    else find_end_loop (last1 - first1) comp a first1 last1 (last1 - length pat) pat.

  (** ualgo.h:467-474 [stable_sort].  [for (j = i; j-- > first && comp( *i,*j);)]:
      the test [j > first] is made before the decrement; [++j] afterwards
      undoes it, so the result is the smallest [k] in [first, i] such that
      [*i] is less than every element of [k, i). *)
  Fixpoint ss_inner (fuel : nat) (lt : A -> A -> bool) (a : list A) (first i j : nat)
    : outcome nat :=
    if Nat.ltb first j then
      match fuel with
      | O => NoFuel
      | S fuel' =>
          x <- rd a i ;;
          y <- rd a (j - 1) ;;
          if lt x y then ss_inner fuel' lt a first i (j - 1)
          else Ok j                   (* stopped at j-1; ++j *)
      end
    else Ok j.                        (* j-- > first failed: now j-1; ++j *)
  Fixpoint stable_sort_loop (fuel : nat) (lt : A -> A -> bool) (a : list A) (first i last : nat)
    : outcome (list A) :=
    if Nat.ltb (i + 1) last then
      match fuel with
      | O => NoFuel
      | S fuel' =>
          let i := i + 1 in
          j <- ss_inner i lt a first i i ;;
          if negb (Nat.eqb j i) then
            ' (a1, _) <- rotate a j i (i + 1) ;;
            stable_sort_loop fuel' lt a1 first i last
          else stable_sort_loop fuel' lt a first i last
      end
    else Ok a.
  Definition stable_sort lt a first last :=
    stable_sort_loop (last - first) lt a first first last.

  (** upredalgo.h:455-473 [next_permutation]: [while (!comp ( *i, *--j))]. *)
  Fixpoint np_find_j (fuel : nat) (lt : A -> A -> bool) (a : list A) (i j : nat) : outcome nat :=
    match fuel with
    | O => NoFuel
    | S fuel' =>
        x <- rd a i ;;
        match j with
        | O => UB
        | S j' => y <- rd a j' ;; if negb (lt x y) then np_find_j fuel' lt a i j' else Ok j'
        end
    end.
  Fixpoint np_loop (fuel : nat) (lt : A -> A -> bool) (a : list A) (first last i : nat)
    : outcome (list A * bool) :=
    if Nat.eqb i first then
      a1 <- reverse a first last ;; Ok (a1, false)
    else
      match fuel with
      | O => NoFuel
      | S fuel' =>
          let i := i - 1 in
          x <- rd a i ;;
          y <- rd a (i + 1) ;;
          if lt x y then
            j <- np_find_j last lt a i last ;;
            a1 <- iter_swap a i j ;;
            a2 <- reverse a1 (i + 1) last ;;
            Ok (a2, true)
          else np_loop fuel' lt a first last i
      end.
  Definition next_permutation lt a first last : outcome (list A * bool) :=
    if Nat.ltb (last - first) 2 then Ok (a, false)
    else np_loop (last - first) lt a first last (last - 1).

  (** upredalgo.h:479-497 [prev_permutation]; written out separately as in the
      source: [comp(i[1], i[0])] and [while (!comp ( *--j, *i))]. *)
  Fixpoint pp_find_j (fuel : nat) (lt : A -> A -> bool) (a : list A) (i j : nat) : outcome nat :=
    match fuel with
    | O => NoFuel
    | S fuel' =>
        x <- rd a i ;;
        match j with
        | O => UB
        | S j' => y <- rd a j' ;; if negb (lt y x) then pp_find_j fuel' lt a i j' else Ok j'
        end
    end.
  Fixpoint pp_loop (fuel : nat) (lt : A -> A -> bool) (a : list A) (first last i : nat)
    : outcome (list A * bool) :=
    if Nat.eqb i first then
      a1 <- reverse a first last ;; Ok (a1, false)
    else
      match fuel with
      | O => NoFuel
      | S fuel' =>
          let i := i - 1 in
          x <- rd a i ;;
          y <- rd a (i + 1) ;;
          if lt y x then
            j <- pp_find_j last lt a i last ;;
            a1 <- iter_swap a i j ;;
            a2 <- reverse a1 (i + 1) last ;;
            Ok (a2, true)
          else pp_loop fuel' lt a first last i
      end.
  Definition prev_permutation lt a first last : outcome (list A * bool) :=
    if Nat.ltb (last - first) 2 then Ok (a, false)
    else pp_loop (last - first) lt a first last (last - 1).

  (** upredalgo.h:557-569 [stable_partition]; returns the array and the
      returned iterator.  Recursion is on the two halves; [fuel] bounds the
      depth. *)
  Fixpoint stable_partition_f (fuel : nat) (pred : A -> bool) (a : list A) (first last : nat)
    : outcome (list A * nat) :=
    match fuel with
    | O => NoFuel
    | S fuel' =>
        if Nat.eqb first last then Ok (a, first) else
        let m := first + (last - first) / 2 in
        if Nat.eqb first m then
          x <- rd a first ;; Ok (a, if pred x then last else first)
        else
          ' (a1, l) <- stable_partition_f fuel' pred a first m ;;
          ' (a2, r) <- stable_partition_f fuel' pred a1 m last ;;
          ' (a3, _) <- rotate a2 l m r ;;
          Ok (a3, l + (r - m))
    end.
  Definition stable_partition pred a first last :=
    stable_partition_f (last - first + 1) pred a first last.

  (** ualgobase.h:105-111 [copy_backward] within one array; [n] elements. *)
  Fixpoint copy_backward_loop (n : nat) (a : list A) (last result : nat) : outcome (list A) :=
    match n with
    | O => Ok a
    | S n' =>
        match last, result with
        | S l', S r' => x <- rd a l' ;; a1 <- wr a r' x ;; copy_backward_loop n' a1 l' r'
        | _, _ => UB
        end
    end.

  (** upredalgo.h:538-552 [partial_sort_copy]: input list [l], result storage
      [a] with [result_first = rf], [result_last = rl]. *)
  Fixpoint psc_pos (fuel : nat) (lt : A -> A -> bool) (a : list A) (i rend : nat) (x : A)
    : outcome nat :=
    if Nat.eqb i rend then Ok i else
    match fuel with
    | O => NoFuel
    | S fuel' => y <- rd a i ;; if lt y x then psc_pos fuel' lt a (i + 1) rend x else Ok i
    end.
  Fixpoint partial_sort_copy_loop (lt : A -> A -> bool) (l : list A) (a : list A)
           (rf rl rend : nat) : outcome (list A * nat) :=
    match l with
    | [] => Ok (a, rend)
    | x :: t =>
        i <- psc_pos (rend - rf) lt a rf rend x ;;
        if Nat.eqb i rl then partial_sort_copy_loop lt t a rf rl rend
        else
          let rend' := if Nat.ltb rend rl then rend + 1 else rend in
          a1 <- copy_backward_loop (rend' - 1 - i) a (rend' - 1) rend' ;;
          a2 <- wr a1 i x ;;
          partial_sort_copy_loop lt t a2 rf rl rend'
    end.
  Definition partial_sort_copy lt l a rf rl := partial_sort_copy_loop lt l a rf rl rf.

  (** ualgo.h:423-428 [random_shuffle]; [rnd k] is the k-th value returned by
      [rand()]. *)
  Fixpoint random_shuffle_loop (n : nat) (rnd : nat -> nat) (k : nat) (a : list A)
           (first last : nat) : outcome (list A) :=
    match n with
    | O => Ok a
    | S n' => a1 <- iter_swap a first (first + rnd k mod (last - first)) ;;
              random_shuffle_loop n' rnd (S k) a1 (first + 1) last
    end.
  Definition random_shuffle rnd a first last :=
    random_shuffle_loop (last - first) rnd 0 a first last.
End Arr.
