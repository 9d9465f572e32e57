(** * P_Search: property theorems for the searching and comparing algorithms
    (C09, C10, C27, C28, C29 and the counting part of C26).  The array is
    [pre ++ l ++ post]: the range under test is [l], [pre] and [post] are
    arbitrary surrounding memory. *)
From Verif Require Import Base Order RangeSpec RangeModel ArrayModel RangeProofs BoundProofs ExampleOrders SearchFacts.

(** ** C09 *)
Theorem C09_lower_bound {A} (lt : A -> A -> bool) (W : StrictWeak lt) pre l post v :
  Ascending lt l ->
  exists n, lower_bound lt (pre ++ l ++ post) (length pre) (length pre + length l) v
            = Ok (length pre + n) /\
            FirstOrEnd (holds_at (fun x => negb (lt x v)) l) (length l) n.
Proof. exact (lower_bound_spec lt W pre l post v). Qed.
Print Assumptions C09_lower_bound.

Theorem C09_upper_bound {A} (lt : A -> A -> bool) (W : StrictWeak lt) pre l post v :
  Ascending lt l ->
  exists n, upper_bound lt (pre ++ l ++ post) (length pre) (length pre + length l) v
            = Ok (length pre + n) /\
            FirstOrEnd (holds_at (fun x => lt v x) l) (length l) n.
Proof. exact (upper_bound_spec lt W pre l post v). Qed.
Print Assumptions C09_upper_bound.

Theorem C09_equal_range {A} (lt : A -> A -> bool) (W : StrictWeak lt) pre l post v :
  Ascending lt l ->
  exists n m, equal_range lt lt (pre ++ l ++ post) (length pre) (length pre + length l) v
              = Ok (length pre + n, length pre + m) /\
              FirstOrEnd (holds_at (fun x => negb (lt x v)) l) (length l) n /\
              FirstOrEnd (holds_at (fun x => lt v x) l) (length l) m.
Proof. exact (equal_range_spec lt W pre l post v). Qed.
Print Assumptions C09_equal_range.

Theorem C09_binary_search {A} (lt : A -> A -> bool) (W : StrictWeak lt) pre l post v :
  Ascending lt l ->
  exists b, binary_search lt (pre ++ l ++ post) (length pre) (length pre + length l) v = Ok b /\
            (b = true <-> exists x, In x l /\ lt x v = false /\ lt v x = false).
Proof. exact (binary_search_spec lt W pre l post v). Qed.
Print Assumptions C09_binary_search.

Example C09_example :
  StrictWeak Nat.ltb /\ Ascending Nat.ltb [2; 5; 5; 9] /\
  lower_bound Nat.ltb [0; 2; 5; 5; 9; 1] 1 5 5 = Ok 2 /\
  upper_bound Nat.ltb [0; 2; 5; 5; 9; 1] 1 5 5 = Ok 4 /\
  equal_range Nat.ltb Nat.ltb [0; 2; 5; 5; 9; 1] 1 5 5 = Ok (2, 4) /\
  binary_search Nat.ltb [0; 2; 5; 5; 9; 1] 1 5 6 = Ok false.
Proof. split; [exact ltb_weak|]. split; [asc|]. repeat split. Qed.

(** ** C10: the comparator overload tests the wrong direction
    (upredalgo.h:227 negates comp of ( *found, value), which lower_bound has
    already made false): every value not above all elements is "found". *)
Theorem C10_binary_search_comp_refuted :
  exists (comp : nat -> nat -> bool) l v,
    StrictWeak comp /\ Ascending comp l /\
    binary_search_comp comp l 0 (length l) v = Ok true /\
    ~ exists x, In x l /\ comp x v = false /\ comp v x = false.
Proof. exact binary_search_comp_wrong. Qed.
Print Assumptions C10_binary_search_comp_refuted.

(** What the comparator overload does compute. *)
Theorem C10_binary_search_comp_partial {A} (comp : A -> A -> bool) (W : StrictWeak comp) pre l post v :
  Ascending comp l ->
  exists b, binary_search_comp comp (pre ++ l ++ post) (length pre) (length pre + length l) v = Ok b /\
            (b = true <-> exists x, In x l /\ comp x v = false).
Proof. exact (binary_search_comp_actual comp W pre l post v). Qed.
Print Assumptions C10_binary_search_comp_partial.

(** ** C27 *)
Theorem C27_find {A} (eqb : A -> A -> bool) l v :
  FirstOrEnd (holds_at (fun x => eqb x v) l) (length l) (find eqb l v).
Proof. exact (find_first eqb l v). Qed.
Print Assumptions C27_find.

Theorem C27_find_if {A} (p : A -> bool) l :
  FirstOrEnd (holds_at p l) (length l) (find_if p l).
Proof. exact (find_if_first p l). Qed.
Print Assumptions C27_find_if.

Theorem C27_adjacent_find {A} (p : A -> A -> bool) l :
  FirstOrEnd (holds_at2 p l) (length l) (adjacent_find p l).
Proof. exact (adjacent_find_first p l). Qed.
Print Assumptions C27_adjacent_find.

Theorem C27_mismatch {A B} (comp : A -> B -> bool) l1 (l2 : list B) :
  length l1 <= length l2 ->
  exists n, mismatch comp l1 l2 = Ok n /\
    FirstOrEnd (fun i => exists x y, nth_error l1 i = Some x /\ nth_error l2 i = Some y
                                     /\ comp x y = false) (length l1) n.
Proof. exact (mismatch_first comp l1 l2). Qed.
Print Assumptions C27_mismatch.

Theorem C27_equal {A B} (comp : A -> B -> bool) l1 (l2 : list B) :
  length l1 <= length l2 ->
  exists b, equal comp l1 l2 = Ok b /\
    (b = true <-> forall i x y, nth_error l1 i = Some x -> nth_error l2 i = Some y ->
                                comp x y = true).
Proof. exact (equal_iff comp l1 l2). Qed.
Print Assumptions C27_equal.

Theorem C27_search {A B} (comp : A -> B -> bool) pre l post pat :
  exists n, search comp (pre ++ l ++ post) (length pre) (length pre + length l) pat
            = Ok (length pre + n) /\
            FirstOrEnd (occurs_at comp pat l) (length l) n.
Proof. exact (search_spec comp pre l post pat). Qed.
Print Assumptions C27_search.

Theorem C27_search_n {A} (comp : A -> A -> bool) l count v :
  0 < count ->
  FirstOrEnd (fun i => forall k, k < count -> holds_at (fun x => comp x v) l (i + k))
    (length l) (search_n comp l count v).
Proof. exact (search_n_first comp l count v). Qed.
Print Assumptions C27_search_n.

Theorem C27_find_first_of {A B} (comp : A -> B -> bool) l1 (l2 : list B) :
  FirstOrEnd (fun i => exists x y, nth_error l1 i = Some x /\ In y l2 /\ comp x y = true)
    (length l1) (find_first_of comp l1 l2).
Proof. exact (find_first_of_first comp l1 l2). Qed.
Print Assumptions C27_find_first_of.

Theorem C27_count {A} (eqb : A -> A -> bool) l v : count eqb l v = countp (fun x => eqb x v) l.
Proof. exact (count_countp eqb l v). Qed.
Print Assumptions C27_count.

Theorem C27_count_if {A} (p : A -> bool) l : count_if p l = countp p l.
Proof. exact (count_if_countp p l). Qed.
Print Assumptions C27_count_if.

Theorem C27_max_element {A} (lt : A -> A -> bool) l : StrictWeak lt -> l <> [] ->
  exists m mv, max_element lt l = m /\ nth_error l m = Some mv /\
    (forall i x, nth_error l i = Some x -> lt mv x = false) /\
    (forall i x, i < m -> nth_error l i = Some x -> lt x mv = true).
Proof. exact (max_element_spec lt l). Qed.
Print Assumptions C27_max_element.

Theorem C27_min_element {A} (lt : A -> A -> bool) l : StrictWeak lt -> l <> [] ->
  exists m mv, min_element lt l = m /\ nth_error l m = Some mv /\
    (forall i x, nth_error l i = Some x -> lt x mv = false) /\
    (forall i x, i < m -> nth_error l i = Some x -> lt mv x = true).
Proof. exact (min_element_spec lt l). Qed.
Print Assumptions C27_min_element.

Theorem C27_minmax_element {A} (lt : A -> A -> bool) l :
  minmax_element lt l = (min_element lt l, max_element lt l).
Proof. exact (minmax_split lt l). Qed.
Print Assumptions C27_minmax_element.

Example C27_example :
  find Nat.eqb [4; 7; 7] 7 = 1 /\ adjacent_find Nat.eqb [4; 7; 7] = 1 /\
  mismatch Nat.eqb [1; 2; 3] [1; 2; 4; 5] = Ok 2 /\
  search Nat.eqb [9; 1; 2; 1; 3; 9] 1 5 [1; 3] = Ok 3 /\
  search_n Nat.eqb [1; 7; 1; 7; 7] 2 7 = 3 /\ find_first_of Nat.eqb [5; 6; 7] [7; 6] = 1.
Proof. repeat split. Qed.

(** ** C28: the loop stops before the first position, so an occurrence at the
    start of the range is missed. *)
Theorem C28_find_end_refuted :
  exists (l pat : list nat) n,
    find_end Nat.eqb l 0 (length l) pat = Ok n /\
    ~ LastOrEnd (occurs_at Nat.eqb pat l) (length l) n.
Proof. exact find_end_wrong. Qed.
Print Assumptions C28_find_end_refuted.

(** Proved part: it finds the last occurrence that does not start at the
    beginning of the range (missing: an only occurrence at position 0). *)
Theorem C28_find_end_partial {A B} (comp : A -> B -> bool) pre l post pat :
  pat <> [] ->
  exists n, find_end comp (pre ++ l ++ post) (length pre) (length pre + length l) pat
            = Ok (length pre + n) /\
            LastOrEnd (fun i => 0 < i /\ occurs_at comp pat l i) (length l) n.
Proof. exact (find_end_spec comp l post pre pat). Qed.
Print Assumptions C28_find_end_partial.

(** ** C29 (ranges; strings are in P_String.v) *)
Theorem C29_lexicographical_compare {A} (lt : A -> A -> bool) l1 l2 : StrictWeak lt ->
  lexicographical_compare lt l1 l2 = true <-> LexLt lt l1 l2.
Proof. exact (lex_iff lt l1 l2). Qed.
Print Assumptions C29_lexicographical_compare.

Theorem C29_lex_strict_weak {A} (lt : A -> A -> bool) : StrictWeak lt ->
  StrictWeak (lexicographical_compare lt).
Proof. exact (lex_weak lt). Qed.
Print Assumptions C29_lex_strict_weak.

Theorem C29_lex_strict_total {A} (lt : A -> A -> bool) : StrictTotal lt ->
  StrictTotal (lexicographical_compare lt).
Proof. exact (lex_total lt). Qed.
Print Assumptions C29_lex_strict_total.

Theorem C29_is_sorted {A} (lt : A -> A -> bool) l : StrictWeak lt ->
  is_sorted lt l = true <-> Ascending lt l.
Proof. exact (is_sorted_iff lt l). Qed.
Print Assumptions C29_is_sorted.

Example C29_example :
  lexicographical_compare Nat.ltb [1; 2] [1; 2; 0] = true /\
  lexicographical_compare Nat.ltb [1; 3] [1; 2; 0] = false.
Proof. split; reflexivity. Qed.
