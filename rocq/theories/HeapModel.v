(** * HeapModel: uheap.h on an array (see ArrayModel.v for conventions). *)
From Verif Require Import Base ArrayModel.

Section Heap.
  Context {A : Type}.

  (** uheap.h:17-25 [is_heap]; [iChild] is the value before [++iChild]. *)
  Fixpoint is_heap_loop (fuel : nat) (lt : A -> A -> bool) (a : list A) (first iChild last : nat)
    : outcome bool :=
    if Nat.ltb (iChild + 1) last then
      match fuel with
      | O => NoFuel
      | S fuel' =>
          p <- rd a first ;;
          c <- rd a (iChild + 1) ;;
          if lt p c then Ok false
          else if Nat.ltb (iChild + 2) last then
                 c2 <- rd a (iChild + 2) ;;
                 if lt p c2 then Ok false
                 else is_heap_loop fuel' lt a (first + 1) (iChild + 2) last
               else is_heap_loop fuel' lt a (first + 1) (iChild + 2) last
      end
    else Ok true.
  Definition is_heap lt a first last := is_heap_loop (last - first) lt a first first last.

  (** uheap.h:29-44 [trickle_down_heap]: the loop; [v] is the saved root value. *)
  Fixpoint trickle_loop (fuel : nat) (lt : A -> A -> bool) (a : list A) (first iHole heapSize : nat)
           (v : A) : outcome (list A) :=
    let iChild := 2 * iHole + 1 in
    if Nat.ltb iChild heapSize then
      match fuel with
      | O => NoFuel
      | S fuel' =>
          c <- (if Nat.ltb (iChild + 1) heapSize then
                  x <- rd a (first + iChild) ;;
                  y <- rd a (first + (iChild + 1)) ;;
                  Ok (if lt x y then iChild + 1 else iChild)
                else Ok iChild) ;;
          z <- rd a (first + c) ;;
          if lt v z then
            a1 <- wr a (first + iHole) z ;;
            trickle_loop fuel' lt a1 first c heapSize v
          else wr a (first + iHole) v
      end
    else wr a (first + iHole) v.
  Definition trickle_down_heap lt a first iHole heapSize : outcome (list A) :=
    v <- rd a (first + iHole) ;;
    trickle_loop heapSize lt a first iHole heapSize v.

  (** uheap.h:52-60 [make_heap]: the loop [for (i = ...; i >= first; --i)] with
      [k] iterations left, i.e. [i = first + (k - 1)]. *)
  Fixpoint make_heap_loop (k : nat) (lt : A -> A -> bool) (a : list A) (first heapSize : nat)
    : outcome (list A) :=
    match k with
    | O => Ok a
    | S i => a1 <- trickle_down_heap lt a first i heapSize ;;
             make_heap_loop i lt a1 first heapSize
    end.
  Definition make_heap lt a first last : outcome (list A) :=
    if Nat.leb last first then Ok a
    else let heapSize := last - first in
         make_heap_loop ((heapSize - 1) / 2 + 1) lt a first heapSize.

  (** uheap.h:65-80 [push_heap]: [i] is [last - first] in the loop. *)
  Fixpoint push_loop (fuel : nat) (lt : A -> A -> bool) (a : list A) (first i : nat) (v : A)
    : outcome (list A) :=
    if Nat.ltb 0 i then
      match fuel with
      | O => NoFuel
      | S fuel' =>
          let iParent := (i - 1) / 2 in
          p <- rd a (first + iParent) ;;
          if lt v p then wr a (first + i) v
          else a1 <- wr a (first + i) p ;; push_loop fuel' lt a1 first iParent v
      end
    else wr a (first + i) v.
  Definition push_heap lt a first last : outcome (list A) :=
    if Nat.leb last first then Ok a
    else v <- rd a (last - 1) ;; push_loop (last - first) lt a first (last - 1 - first) v.

  (** uheap.h:86-93 [pop_heap]. *)
  Definition pop_heap lt a first last : outcome (list A) :=
    if Nat.leb last (first + 1) then Ok a           (* --last <= first *)
    else a1 <- iter_swap a first (last - 1) ;;
         trickle_down_heap lt a1 first 0 (last - 1 - first).

  (** uheap.h:98-103 [sort_heap]; [k] is [last - first]. *)
  Fixpoint sort_heap_loop (k : nat) lt (a : list A) (first : nat) : outcome (list A) :=
    match k with
    | O => Ok a
    | S k' => a1 <- pop_heap lt a first (first + S k') ;; sort_heap_loop k' lt a1 first
    end.
  Definition sort_heap lt a first last := sort_heap_loop (last - first) lt a first.

  (** uheap.h:127-159 [priority_queue]: the element container [_v]; [less] is
      operator< of the element type, [comp] the stored comparator [_c]. *)
  Definition pq_push (comp : A -> A -> bool) (v : list A) (x : A) : outcome (list A) :=
    push_heap comp (v ++ [x]) 0 (length v + 1).
  (** uheap.h:145 [pop]: [pop_heap (_v.begin(), _v.end())] is the overload with
      [less<value_type>]; then [_v.pop_back()] (UB on an empty container). *)
  Definition pq_pop (less : A -> A -> bool) (v : list A) : outcome (list A) :=
    v1 <- pop_heap less v 0 (length v) ;;
    match v1 with
    | [] => UB
    | _ => Ok (removelast v1)
    end.
  (** uheap.h:143 [top]. *)
  Definition pq_top (v : list A) : outcome A := rd v 0.
  (** uheap.h:139-140 construction from a range. *)
  Definition pq_make (comp : A -> A -> bool) (l : list A) : outcome (list A) :=
    make_heap comp l 0 (length l).
End Heap.

(** A client of [priority_queue]: runs a history of pushes and pops, recording
    [top()] just before every [pop()].  [comp] is the comparator given to the
    queue, [less] is operator< of the element type. *)
From Verif Require Import PqSpec.
Section PqHistory.
  Context {A : Type}.
  Fixpoint pq_run (comp less : A -> A -> bool) (ops : list (pq_op A)) (v : list A)
    : outcome (list A * list A) :=
    match ops with
    | [] => Ok ([], v)
    | PqPush x :: t => v1 <- pq_push comp v x ;; pq_run comp less t v1
    | PqPop :: t =>
        m <- pq_top v ;;
        v1 <- pq_pop less v ;;
        ' (out, v2) <- pq_run comp less t v1 ;;
        Ok (m :: out, v2)
    end.
End PqHistory.
