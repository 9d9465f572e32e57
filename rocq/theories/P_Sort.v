(** * P_Sort: property theorems for heaps, sorting, partitioning, merging,
    rotation and permutations (C15-C20, C22, C23, C25).  The array is
    [pre ++ l ++ post]; [pre] and [post] are arbitrary surrounding memory and
    appear unchanged in every result. *)
From Verif Require Import Base Order RangeSpec RangeModel ArrayModel HeapModel HeapSpec PqSpec
  ArrayProofs SetAlgoProofs SortProofs PermSpec PermProofs PartialSortProofs HeapProofs PqProofs
  ExampleOrders SortFacts.

(** ** C15 *)
Theorem C15_make_heap {A} (lt : A -> A -> bool) (W : StrictWeak lt) pre l post :
  exists r, make_heap lt (pre ++ l ++ post) (length pre) (length pre + length l)
            = Ok (pre ++ r ++ post) /\ Permutation r l /\ Heap lt r.
Proof. exact (make_heap_spec lt W pre l post). Qed.
Print Assumptions C15_make_heap.

Theorem C15_push_heap {A} (lt : A -> A -> bool) (W : StrictWeak lt) pre l x post :
  Heap lt l ->
  exists r, push_heap lt (pre ++ (l ++ [x]) ++ post) (length pre) (length pre + length (l ++ [x]))
            = Ok (pre ++ r ++ post) /\ Permutation r (l ++ [x]) /\ Heap lt r.
Proof. exact (push_heap_spec lt W pre l x post). Qed.
Print Assumptions C15_push_heap.

Theorem C15_pop_heap {A} (lt : A -> A -> bool) (W : StrictWeak lt) pre x t post :
  Heap lt (x :: t) ->
  exists r, pop_heap lt (pre ++ (x :: t) ++ post) (length pre) (length pre + length (x :: t))
            = Ok (pre ++ (r ++ [x]) ++ post) /\
            Permutation r t /\ Heap lt r /\ Largest lt x (x :: t).
Proof. exact (pop_heap_largest lt W pre x t post). Qed.
Print Assumptions C15_pop_heap.

Theorem C15_sort_heap {A} (lt : A -> A -> bool) (W : StrictWeak lt) pre l post :
  Heap lt l ->
  exists r, sort_heap lt (pre ++ l ++ post) (length pre) (length pre + length l)
            = Ok (pre ++ r ++ post) /\ Permutation r l /\ Ascending lt r.
Proof. exact (sort_heap_spec lt W pre l post). Qed.
Print Assumptions C15_sort_heap.

Theorem C15_is_heap {A} (lt : A -> A -> bool) pre l post :
  exists b, is_heap lt (pre ++ l ++ post) (length pre) (length pre + length l) = Ok b /\
            (b = true <-> Heap lt l).
Proof. exact (is_heap_spec lt pre l post). Qed.
Print Assumptions C15_is_heap.

Example C15_example :
  Heap Nat.ltb [9; 4; 7; 1] /\
  make_heap Nat.ltb [0; 1; 4; 7; 9; 0] 1 5 = Ok [0; 9; 4; 7; 1; 0] /\
  push_heap Nat.ltb [9; 4; 7; 1; 8] 0 5 = Ok [9; 8; 7; 1; 4] /\
  pop_heap Nat.ltb [9; 4; 7; 1] 0 4 = Ok [7; 4; 1; 9] /\
  sort_heap Nat.ltb [9; 4; 7; 1] 0 4 = Ok [1; 4; 7; 9].
Proof. split; [exact heap_example|]. repeat split. Qed.

(** ** C16: [init] is the range the queue is built from, [ops] any history that
    never pops an empty queue. *)
Theorem C16_priority_queue {A} (lt : A -> A -> bool) (W : StrictWeak lt) init ops :
  pops_ok (length init) ops ->
  exists v out r, pq_make lt init = Ok v /\ pq_run lt lt ops v = Ok (out, r) /\
    BagRun lt ops init out r /\
    (r <> [] -> exists t, pq_top r = Ok t /\ Largest lt t r).
Proof. exact (pq_history_spec lt W init ops). Qed.
Print Assumptions C16_priority_queue.

Example C16_example :
  pops_ok 1 [PqPush 5; PqPush 3; PqPop; PqPush 4; PqPop] /\
  pq_run Nat.ltb Nat.ltb [PqPush 5; PqPush 3; PqPop; PqPush 4; PqPop] [1] = Ok ([5; 4], [3; 1]).
Proof. split; [exact I|reflexivity]. Qed.

(** ** C17: pop() restores the heap with operator< instead of the queue's
    comparator (uheap.h:145). *)
Theorem C17_priority_queue_comparator_refuted :
  exists (comp : nat -> nat -> bool) ops out r t,
    StrictWeak comp /\ pops_ok 0 ops /\
    pq_run comp Nat.ltb ops [] = Ok (out, r) /\ pq_top r = Ok t /\ ~ Largest comp t r.
Proof. exact pq_comparator_wrong. Qed.
Print Assumptions C17_priority_queue_comparator_refuted.

(** ** C18 *)
Theorem C18_stable_sort {A} (lt : A -> A -> bool) (W : StrictWeak lt) pre l post :
  exists r, stable_sort lt (pre ++ l ++ post) (length pre) (length pre + length l)
            = Ok (pre ++ r ++ post) /\
            Ascending lt r /\ Permutation r l /\
            (forall v, filter (equiv lt v) r = filter (equiv lt v) l).
Proof. exact (stable_sort_spec lt W pre l post). Qed.
Print Assumptions C18_stable_sort.

Theorem C18_partial_sort_copy {A} (lt : A -> A -> bool) (W : StrictWeak lt) l pre gap post :
  exists s gap',
    partial_sort_copy lt l (pre ++ gap ++ post) (length pre) (length pre + length gap)
    = Ok (pre ++ s ++ gap' ++ post, length pre + length s) /\
    length s + length gap' = length gap /\ (exists g, gap = g ++ gap') /\
    length s = Nat.min (length l) (length gap) /\
    Ascending lt s /\
    (exists rest, Permutation (s ++ rest) l /\ forall x y, In x s -> In y rest -> lt y x = false).
Proof. exact (partial_sort_copy_spec lt W l pre gap post). Qed.
Print Assumptions C18_partial_sort_copy.

Example C18_example :
  stable_sort key_lt [(3,0); (1,0); (3,1); (1,1); (2,0)] 0 5
  = Ok [(1,0); (1,1); (2,0); (3,0); (3,1)] /\
  partial_sort_copy Nat.ltb [5; 2; 8; 1; 9] [0; 0; 0] 0 3 = Ok ([1; 2; 5], 3).
Proof. split; reflexivity. Qed.

(** ** C19 *)
Theorem C19_stable_partition {A} (pred : A -> bool) pre l post :
  stable_partition pred (pre ++ l ++ post) (length pre) (length pre + length l)
  = Ok (pre ++ (filter pred l ++ filter (fun x => negb (pred x)) l) ++ post,
        length pre + length (filter pred l)).
Proof. exact (stable_partition_spec pred pre l post). Qed.
Print Assumptions C19_stable_partition.

Example C19_example : stable_partition Nat.even [7; 1; 2; 3; 4; 6; 7] 1 6 = Ok ([7; 2; 4; 6; 1; 3; 7], 4).
Proof. reflexivity. Qed.

(** ** C20 *)
Theorem C20_reverse {A} (pre l post : list A) :
  reverse (pre ++ l ++ post) (length pre) (length pre + length l) = Ok (pre ++ rev l ++ post).
Proof. exact (reverse_spec pre l post). Qed.
Print Assumptions C20_reverse.

Theorem C20_rotate {A} (pre u v post : list A) :
  exists it,
    rotate (pre ++ u ++ v ++ post) (length pre) (length pre + length u)
           (length pre + length u + length v)
    = Ok (pre ++ v ++ u ++ post, it).
Proof. exact (rotate_spec pre u v post). Qed.
Print Assumptions C20_rotate.

Theorem C20_swap_ranges {A} (pre u m v post : list A) :
  length u = length v ->
  swap_ranges (pre ++ u ++ m ++ v ++ post) (length pre) (length pre + length u)
              (length pre + length u + length m)
  = Ok (pre ++ v ++ m ++ u ++ post).
Proof. exact (swap_ranges_spec pre u m v post). Qed.
Print Assumptions C20_swap_ranges.

Theorem C20_random_shuffle {A} (rnd : nat -> nat) (pre l post : list A) :
  exists r, random_shuffle rnd (pre ++ l ++ post) (length pre) (length pre + length l)
            = Ok (pre ++ r ++ post) /\ Permutation r l.
Proof. exact (random_shuffle_spec rnd pre l post). Qed.
Print Assumptions C20_random_shuffle.

Example C20_example :
  reverse [0; 1; 2; 3; 9] 1 4 = Ok [0; 3; 2; 1; 9] /\
  rotate [0; 1; 2; 3; 9] 1 3 4 = Ok ([0; 3; 1; 2; 9], 2).
Proof. split; reflexivity. Qed.

(** ** C22 *)
Theorem C22_merge {A} (lt : A -> A -> bool) (W : StrictWeak lt) l1 l2 :
  exists r, merge lt l1 l2 = Ok r /\ Permutation r (l1 ++ l2) /\
            (Ascending lt l1 -> Ascending lt l2 -> Ascending lt r).
Proof. exact (merge_spec lt W l1 l2). Qed.
Print Assumptions C22_merge.

Theorem C22_inplace_merge {A} (lt : A -> A -> bool) (W : StrictWeak lt) pre l1 l2 post :
  Ascending lt l1 -> Ascending lt l2 ->
  exists r,
    inplace_merge lt (pre ++ l1 ++ l2 ++ post) (length pre) (length pre + length l1)
                  (length pre + length l1 + length l2) = Ok (pre ++ r ++ post) /\
    Permutation r (l1 ++ l2) /\ Ascending lt r.
Proof. exact (inplace_merge_spec lt W pre l1 l2 post). Qed.
Print Assumptions C22_inplace_merge.

Example C22_example :
  Ascending Nat.ltb [1; 4; 6] /\ Ascending Nat.ltb [2; 4; 9] /\
  merge Nat.ltb [1; 4; 6] [2; 4; 9] = Ok [1; 2; 4; 4; 6; 9] /\
  inplace_merge Nat.ltb [1; 4; 6; 2; 4; 9] 0 3 6 = Ok [1; 2; 4; 4; 6; 9].
Proof. split; [asc|]. split; [asc|]. split; reflexivity. Qed.

(** ** C23: on ties merge takes the element of the second range first. *)
Theorem C23_merge_stable_refuted :
  exists l1 l2 r v, Ascending key_lt l1 /\ Ascending key_lt l2 /\
    merge key_lt l1 l2 = Ok r /\
    filter (equiv key_lt v) r <> filter (equiv key_lt v) (l1 ++ l2).
Proof. exact merge_not_stable. Qed.
Print Assumptions C23_merge_stable_refuted.

(** What it does instead: equivalent elements of the second range come first,
    each side keeping its order. *)
Theorem C23_merge_order_partial {A} (lt : A -> A -> bool) (W : StrictWeak lt) l1 l2 r :
  Ascending lt l1 -> Ascending lt l2 -> merge lt l1 l2 = Ok r ->
  forall v, filter (equiv lt v) r = filter (equiv lt v) (l2 ++ l1).
Proof. exact (merge_order lt W l1 l2 r). Qed.
Print Assumptions C23_merge_order_partial.

(** ** C25 *)
Theorem C25_next_permutation {A} (lt : A -> A -> bool) (W : StrictWeak lt) pre l post :
  exists r b, next_permutation lt (pre ++ l ++ post) (length pre) (length pre + length l)
              = Ok (pre ++ r ++ post, b) /\
    Permutation r l /\
    (b = true -> LexLt lt l r /\
       (forall m, Permutation m l -> LexLt lt l m -> ~ LexLt lt m r)) /\
    (b = false -> Ascending lt r /\ forall m, Permutation m l -> ~ LexLt lt l m).
Proof. exact (next_permutation_LexLt lt W pre l post). Qed.
Print Assumptions C25_next_permutation.

Theorem C25_prev_permutation {A} (lt : A -> A -> bool) (W : StrictWeak lt) pre l post :
  exists r b, prev_permutation lt (pre ++ l ++ post) (length pre) (length pre + length l)
              = Ok (pre ++ r ++ post, b) /\
    Permutation r l /\
    (b = true -> LexLt lt r l /\
       (forall m, Permutation m l -> LexLt lt m l -> ~ LexLt lt r m)) /\
    (b = false -> Descending lt r /\ forall m, Permutation m l -> ~ LexLt lt m l).
Proof. exact (prev_permutation_LexLt lt W pre l post). Qed.
Print Assumptions C25_prev_permutation.

Example C25_example :
  next_permutation Nat.ltb [1; 3; 2; 2] 0 4 = Ok ([2; 1; 2; 3], true) /\
  next_permutation Nat.ltb [3; 2; 2] 0 3 = Ok ([2; 2; 3], false) /\
  prev_permutation Nat.ltb [2; 1; 2; 3] 0 4 = Ok ([1; 3; 2; 2], true).
Proof. repeat split. Qed.
