(** * IterModel: the iterator adaptors of uiterator.h.

    The adapted iterators are pointers into an array [a]: the index 0 ..
    [length a].  Pointer arithmetic that leaves this interval is [UB].  The
    [size_t] arguments are numbers below 2^64. *)
From Verif Require Import Base UtilModel StoreModel VectorModel ListModel.
From Coq Require Import ZArith.
Local Open Scope Z_scope.

Section Iter.
  Context {A : Type}.

  (** [p + n] and [*p] for a pointer into [a]. *)
  Definition ptr_add (a : list A) (i n : Z) : outcome Z :=
    if (0 <=? i + n) && (i + n <=? Z.of_nat (length a)) then Ok (i + n) else UB.
  Definition ptr_read (a : list A) (i : Z) : outcome A :=
    if i <? 0 then UB else rd a (Z.to_nat i).
  (** [*p = v]. *)
  Definition ptr_write (a : list A) (i : Z) (v : A) : outcome (list A) :=
    if i <? 0 then UB else wr a (Z.to_nat i) v.

  (** ** reverse_iterator: the state is the wrapped pointer *)
  (** uvector.h:63-66 [rbegin], [rend]. *)
  Definition r_begin (a : list A) : Z := Z.of_nat (length a).
  Definition r_end (a : list A) : Z := 0.
  (** uiterator.h:256, 257 [operator==], [operator<]. *)
  Definition r_eq (i j : Z) : bool := i =? j.
  Definition r_less (i j : Z) : bool := j <? i.
  (** uiterator.h:259 [operator*]. *)
  Definition r_read (a : list A) (i : Z) : outcome A :=
    p <- ptr_add a i (-1) ;; ptr_read a p.
  Definition r_write (a : list A) (i : Z) (v : A) : outcome (list A) :=
    p <- ptr_add a i (-1) ;; ptr_write a p v.
  (** uiterator.h:261-268 [++], [--], [+= n], [-= n], [+ n], [- n]. *)
  Definition r_incr (a : list A) (i : Z) : outcome Z := ptr_add a i (-1).
  Definition r_decr (a : list A) (i : Z) : outcome Z := ptr_add a i 1.
  Definition r_plus (a : list A) (i n : Z) : outcome Z := ptr_add a i (- n).
  Definition r_minus (a : list A) (i n : Z) : outcome Z := ptr_add a i n.
  (** uiterator.h:269 [operator[]]. *)
  Definition r_index (a : list A) (i n : Z) : outcome A := j <- r_plus a i n ;; r_read a j.
  (** uiterator.h:36-37 [distance] on pointers; uiterator.h:270 [operator-]
      of two reverse iterators: [distance (i._i, _i)]. *)
  Definition ptr_distance (p q : Z) : Z := q - p.
  Definition r_diff (i j : Z) : Z := ptr_distance j i.
  (** uiterator.h:36-37 [distance] of two reverse iterators. *)
  Definition r_distance (i j : Z) : Z := r_diff j i.

  (** The loop [for (; first != last; ++first) *result++ = *first;] of
      ualgobase.h:77-83 [copy], uiterator.h:142 [eachfor]; the result is the
      list of what was read. *)
  Fixpoint r_copy (fuel : nat) (a : list A) (first last : Z) : outcome (list A) :=
    if r_eq first last then Ok [] else
    match fuel with
    | O => NoFuel
    | S f =>
        x <- r_read a first ;;
        first <- r_incr a first ;;
        t <- r_copy f a first last ;;
        Ok (x :: t)
    end.

  (** ualgo.h:183-188 [reverse] over reverse iterators. *)
  Fixpoint r_reverse_loop (fuel : nat) (a : list A) (first last : Z) : outcome (list A) :=
    last <- r_decr a last ;;
    if 0 <? r_distance first last then
      match fuel with
      | O => NoFuel
      | S f =>
          x <- r_read a first ;; y <- r_read a last ;;
          a <- r_write a first y ;; a <- r_write a last x ;;
          first <- r_incr a first ;;
          r_reverse_loop f a first last
      end
    else Ok a.
  Definition r_reverse (a : list A) : outcome (list A) :=
    r_reverse_loop (length a) a (r_begin a) (r_end a).

  (** ualgo.h:365-377 [lower_bound] over reverse iterators. *)
  Fixpoint r_lower_bound_loop (fuel : nat) (lt : A -> A -> bool) (a : list A) (first last : Z) (v : A) : outcome Z :=
    if r_eq first last then Ok first else
    match fuel with
    | O => NoFuel
    | S f =>
        mid <- r_plus a first (u64 (r_distance first last) / 2) ;;
        x <- r_read a mid ;;
        if lt x v then
          first <- r_plus a mid 1 ;; r_lower_bound_loop f lt a first last v
        else r_lower_bound_loop f lt a first mid v
    end.
  Definition r_lower_bound (lt : A -> A -> bool) (a : list A) (v : A) : outcome Z :=
    r_lower_bound_loop (length a + 1) lt a (r_begin a) (r_end a) v.

  (** ** move_iterator: the state is the wrapped pointer *)
  (** uiterator.h:302-305: [operator*], [++], [--]. *)
  Definition m_read (a : list A) (i : Z) : outcome A := ptr_read a i.
  Definition m_incr (a : list A) (i : Z) : outcome Z := ptr_add a i 1.
  Definition m_decr (a : list A) (i : Z) : outcome Z := ptr_add a i (-1).
  (** uiterator.h:308, 309 [+= n], [-= n]. *)
  Definition m_plus_assign (a : list A) (i n : Z) : outcome Z := ptr_add a i n.
  Definition m_minus_assign (a : list A) (i n : Z) : outcome Z := ptr_add a i (- n).
  (** uiterator.h:310, 311 [+ n] is [_i - n], [- n] is [_i + n]. *)
  Definition m_plus (a : list A) (i n : Z) : outcome Z := ptr_add a i (- n).
  Definition m_minus (a : list A) (i n : Z) : outcome Z := ptr_add a i n.
  (** uiterator.h:312 [operator[]]. *)
  Definition m_index (a : list A) (i n : Z) : outcome A := j <- m_plus a i n ;; m_read a j.
  (** uiterator.h:313 [operator-]: [distance (_i, i._i)]. *)
  Definition m_diff (i j : Z) : Z := ptr_distance i j.
  (** ualgobase.h:77-83 [copy] from move iterators. *)
  Fixpoint m_copy (fuel : nat) (a : list A) (first last : Z) : outcome (list A) :=
    if first =? last then Ok [] else
    match fuel with
    | O => NoFuel
    | S f =>
        x <- m_read a first ;;
        first <- m_incr a first ;;
        t <- m_copy f a first last ;;
        Ok (x :: t)
    end.
End Iter.

Section Index.
  Context {A : Type}.
  Variable a : list A.           (* the container the results point into *)
  Variable xs : list Z.          (* the indexes *)

  (** ** index_iterate: a base pointer into [a] and a pointer into [xs] *)
  (** uiterator.h:446 [operator*]. *)
  Definition x_read (base i : Z) : outcome Z := o <- ptr_read xs i ;; ptr_add a base o.
  (** uiterator.h:448-449, 452-456 [++], [--], [+ n], [- n], [operator[]]. *)
  Definition x_incr (i : Z) : outcome Z := ptr_add xs i 1.
  Definition x_decr (i : Z) : outcome Z := ptr_add xs i (-1).
  Definition x_plus (i n : Z) : outcome Z := ptr_add xs i n.
  Definition x_minus (i n : Z) : outcome Z := ptr_add xs i (- n).
  Definition x_index (base i n : Z) : outcome Z := j <- x_plus i n ;; x_read base j.
  (** uiterator.h:457 [operator-]: [distance (_i, i._i)]. *)
  Definition x_diff (i j : Z) : Z := ptr_distance i j.
  (** uiterator.h:471-476 [indexv_to_iteratorv] with ualgobase.h:93-99 [copy_n]. *)
  Fixpoint x_copy_n (n : nat) (base i : Z) : outcome (list Z) :=
    match n with
    | O => Ok []
    | S n' =>
        p <- x_read base i ;;
        i <- x_incr i ;;
        t <- x_copy_n n' base i ;;
        Ok (p :: t)
    end.
  Definition indexv_to_iteratorv (base : Z) : outcome (list Z) := x_copy_n (length xs) base 0.
End Index.

Section Insert.
  Context {T : Type}.
  Variable e : env.
  Variable es : Z.
  Local Open Scope nat_scope.

  (** ualgobase.h:77-83 [copy] of the elements [l] into an output iterator,
      for the three insert iterators of a vector or list. *)

  (** uiterator.h:373-378 [back_insert_iterator]: assignment calls push_back,
      [*] and [++] do nothing. *)
  Fixpoint copy_back_inserter (v : vec T) (l : list T) : outcome (vec T) :=
    match l with
    | [] => Ok v
    | x :: t => v <- push_back e es v x ;; copy_back_inserter v t
    end.
  (** uiterator.h:404-409 [front_insert_iterator]. *)
  Fixpoint copy_front_inserter (v : vec T) (l : list T) : outcome (vec T) :=
    match l with
    | [] => Ok v
    | x :: t => v <- l_push_front e es v x ;; copy_front_inserter v t
    end.
  (** uiterator.h:341-346 [insert_iterator]: assignment replaces [_ip] by what
      insert returns (the position of the new element), [++] advances it. *)
  Fixpoint copy_inserter (v : vec T) (ip : nat) (l : list T) : outcome (vec T) :=
    match l with
    | [] => Ok v
    | x :: t => v <- insert1 e es v ip x ;; copy_inserter v (S ip) t
    end.
End Insert.
