(** * PtrAlgoModel: stable_sort, stable_partition and partial_sort_copy when
    the iterators are pointers.

    Iterators of vectors, strings and arrays are pointers.  For them [rotate]
    is the overload of ualgo.h:218-223 (rotate_fast, StoreModel), and
    [copy_backward] of one and two byte integers is the specialisation of
    ualgobase.h:199-204, 286-299 (copy_backward_fast).  The range lies in a
    block of elements of [es] bytes at address [base]. *)
From Verif Require Import Base UtilModel ByteModel StoreModel ArrayModel.
From Coq Require Import ZArith.
Local Open Scope nat_scope.

Section PtrAlgo.
  Context {A : Type}.
  Variable e : env.
  Variable es base : Z.

  (** ualgo.h:467-474 [stable_sort]. *)
  Fixpoint p_stable_sort_loop (fuel : nat) (lt : A -> A -> bool) (a : list A) (first i last : nat)
    : outcome (list A) :=
    if i + 1 <? last then
      match fuel with
      | O => NoFuel
      | S fuel' =>
          let i := i + 1 in
          j <- ss_inner i lt a first i i ;;
          if negb (j =? i) then
            a1 <- rotate_cells e es base a j i (i + 1) ;;
            p_stable_sort_loop fuel' lt a1 first i last
          else p_stable_sort_loop fuel' lt a first i last
      end
    else Ok a.
  Definition p_stable_sort lt a first last :=
    p_stable_sort_loop (last - first) lt a first first last.

  (** upredalgo.h:557-569 [stable_partition]. *)
  Fixpoint p_stable_partition_f (fuel : nat) (pred : A -> bool) (a : list A) (first last : nat)
    : outcome (list A * nat) :=
    match fuel with
    | O => NoFuel
    | S fuel' =>
        if first =? last then Ok (a, first) else
        let m := first + (last - first) / 2 in
        if first =? m then
          x <- rd a first ;; Ok (a, if pred x then last else first)
        else
          ' (a1, l) <- p_stable_partition_f fuel' pred a first m ;;
          ' (a2, r) <- p_stable_partition_f fuel' pred a1 m last ;;
          a3 <- rotate_cells e es base a2 l m r ;;
          Ok (a3, l + (r - m))
    end.
  Definition p_stable_partition pred a first last :=
    p_stable_partition_f (last - first + 1) pred a first last.

  (** ualgobase.h:199-204 [copy_backward] on elements [first, last) of the
      block, ending at element [result]. *)
  Definition copy_backward_cells (a : list A) (first last result : nat) : outcome (list A) :=
    let at_ i := (base + es * Z.of_nat i)%Z in
    let n := length a in
    m <- copy_backward_fast (frag_mem es base (Z.of_nat n) 0 0) (at_ first) (at_ last) (at_ result) ;;
    gather_from es a m base n.
  (** upredalgo.h:538-552 [partial_sort_copy] into one and two byte integers. *)
  Fixpoint p_partial_sort_copy_loop (lt : A -> A -> bool) (l : list A) (a : list A)
           (rf rl rend : nat) : outcome (list A * nat) :=
    match l with
    | [] => Ok (a, rend)
    | x :: t =>
        i <- psc_pos (rend - rf) lt a rf rend x ;;
        if i =? rl then p_partial_sort_copy_loop lt t a rf rl rend
        else
          let rend' := if rend <? rl then rend + 1 else rend in
          a1 <- copy_backward_cells a i (rend' - 1) rend' ;;
          a2 <- wr a1 i x ;;
          p_partial_sort_copy_loop lt t a2 rf rl rend'
    end.
  Definition p_partial_sort_copy lt l a rf rl := p_partial_sort_copy_loop lt l a rf rl rf.
End PtrAlgo.
