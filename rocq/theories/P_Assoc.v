(** * Properties C11-C14: set, multiset, map, multimap. *)
From Verif Require Import Base Order UtilModel StoreModel VectorModel VectorSpec VectorFacts
  AssocModel AssocSpec AssocFacts ExampleOrders.
From Coq Require Import ZArith.
Local Open Scope nat_scope.

(** C11.  Every history of insert, insert of a range, assign, erase, clear,
    find, count, lower_bound and upper_bound on an initially empty set: no
    undefined behaviour, every call returns what the mathematical set
    ([set_spec]) says, and the elements read back are strictly ascending and
    exactly the members.  The order of the elements need only be a strict weak
    one, with == holding between equivalent elements ([EqvOf]); of equivalent
    elements the first inserted is kept.
    Missing: one byte elements (refuted below) and more than 2^31 bytes (C35). *)
Theorem C11_set_partial {T} (e : env) (es : Z) (comp eqb : T -> T -> bool) (ops : list (set_op T)) :
  (2 <= es)%Z -> good_env e -> enough_memory e -> StrictWeak comp -> EqvOf comp eqb ->
  (es * Z.of_nat (total set_inserts ops) <= 2 ^ 31)%Z ->
  exists v l, run_ops (set_step e es comp eqb) vec_nil ops = Ok (v, snd (spec_run (set_spec comp eqb) [] ops)) /\
    contents v = Ok l /\ StrictlyAscending comp l /\ Permutation l (fst (spec_run (set_spec comp eqb) [] ops)).
Proof. exact (set_run_ok e es comp eqb ops). Qed.
Print Assumptions C11_set_partial.

(** set<char>: inserting 1, 3, 4, 2 in this order is undefined behaviour. *)
Theorem C11_set_char_refuted :
  exists ops, run_ops (set_step env0 1 Nat.ltb Nat.eqb) vec_nil ops = UB /\
    (1 * Z.of_nat (total set_inserts ops) <= 2 ^ 31)%Z.
Proof. exact set_char_crash. Qed.
Print Assumptions C11_set_char_refuted.

(** The constructor set (size_type n) makes n equal elements. *)
Theorem C11_sized_constructor_refuted :
  exists v, resize env0 4 0 vec_nil 3 = Ok v /\ contents v = Ok [0; 0; 0] /\
    s_count Nat.ltb v 0 = Ok 3 /\ ~ StrictlyAscending Nat.ltb [0; 0; 0].
Proof. exact set_sized_dup. Qed.
Print Assumptions C11_sized_constructor_refuted.

Example C11_nonvacuous :
  let ops := [SInsertAll [5; 1; 3; 5]; SInsert 4; SErase 1; SFind 3; SCount 9; SInsert 3; SLower 4; SUpper 4] in
  (2 <= 4)%Z /\ good_env env0 /\ enough_memory env0 /\ StrictWeak Nat.ltb /\ EqvOf Nat.ltb Nat.eqb /\
  (4 * Z.of_nat (total set_inserts ops) <= 2 ^ 31)%Z /\
  snd (spec_run (set_spec Nat.ltb Nat.eqb) [] ops) =
    [RNone; RInsert 2 true; RNone; RFind (Some 0); RCount 0; RInsert 0 false; RPos 1; RPos 2].
Proof.
  cbv zeta. split; [easy|]. split; [exact env0_good|]. split; [exact env0_mem|]. split; [exact (total_weak _ ltb_total)|].
  split; [exact (total_eqv _ _ ltb_total eqb_dec)|]. split; [cbn; easy|reflexivity].
Qed.

(** C12.  The same for the multiset against bags; erase returns how many it
    removed; equivalent elements stay in the order of insertion.  Missing: element sizes that are not a multiple of four (refuted
    for erase below) and more than 2^31 bytes. *)
Theorem C12_multiset_partial {T} (e : env) (es : Z) (comp eqb : T -> T -> bool) (ops : list (set_op T)) :
  (0 < es)%Z -> (es mod 4 = 0)%Z -> good_env e -> enough_memory e -> StrictWeak comp -> EqvOf comp eqb ->
  (es * Z.of_nat (total set_inserts ops) <= 2 ^ 31)%Z ->
  exists v l, run_ops (mset_step e es comp eqb) vec_nil ops = Ok (v, snd (spec_run (bag_spec comp eqb) [] ops)) /\
    contents v = Ok l /\ Ascending comp l /\ Permutation l (fst (spec_run (bag_spec comp eqb) [] ops)) /\
    forall k, filter (fun y => eqb y k) l = filter (fun y => eqb y k) (fst (spec_run (bag_spec comp eqb) [] ops)).
Proof. exact (mset_run_ok e es comp eqb ops). Qed.
Print Assumptions C12_multiset_partial.

(** multiset<short> {1,2,2,2,3,4}: erasing 2 tears the elements behind it. *)
Theorem C12_multiset_short_refuted :
  run_ops (mset_step env0 2 Nat.ltb Nat.eqb) vec_nil [SAssign [1;2;2;2;3;4]; SErase 2] = UB.
Proof. exact mset_short_crash. Qed.
Print Assumptions C12_multiset_short_refuted.

Example C12_nonvacuous :
  let ops := [SInsertAll [5; 1; 3; 5]; SInsert 5; SCount 5; SErase 5; SCount 5; SInsert 1] in
  (4 * Z.of_nat (total set_inserts ops) <= 2 ^ 31)%Z /\ (4 mod 4 = 0)%Z /\
  spec_run (bag_spec Nat.ltb Nat.eqb) [] ops =
    ([1; 3; 1], [RNone; RPos 4; RCount 3; RCount 3; RCount 0; RPos 1]).
Proof. cbv zeta. split; [cbn; easy|split; reflexivity]. Qed.

(** C13.  Every history on an initially empty map, with sizeof(pair) at least
    two (it always is): insert, m[k] = x, reading m[k], erase, clear, range
    insert, assign, find, count and the bounds return what a finite map does;
    keys are unique and ascending.  Keys need only be weakly ordered: m[k] = x
    keeps an equivalent key that is there ([stored]).
    More than 2^31 bytes are the subject of C35. *)
Theorem C13_map {K V} (e : env) (es : Z) (comp keqb : K -> K -> bool) (dflt : V) (ops : list (map_op K V)) :
  (2 <= es)%Z -> good_env e -> enough_memory e -> StrictWeak comp -> EqvOf comp keqb ->
  (es * Z.of_nat (total map_inserts ops) <= 2 ^ 31)%Z ->
  exists v l, run_ops (map_step e es comp dflt) vec_nil ops = Ok (v, snd (spec_run (map_spec comp keqb dflt) [] ops)) /\
    contents v = Ok l /\ StrictlyAscending (fun p q => comp (fst p) (fst q)) l /\
    Permutation l (fst (spec_run (map_spec comp keqb dflt) [] ops)).
Proof. exact (map_run_ok e es comp keqb dflt ops). Qed.
Print Assumptions C13_map.

Example C13_nonvacuous :
  let ops := [MSet 3 30; MSet 1 10; MInsert 3 99; MGet 3; MGet 7; MSet 3 31; MFind 3; MErase 1; MFind 1] in
  (8 * Z.of_nat (total map_inserts ops) <= 2 ^ 31)%Z /\
  spec_run (map_spec Nat.ltb Nat.eqb 0) [] ops =
    ([(3, 31); (7, 0)], [MNone; MNone; MInserted 1 false; MVal 30; MVal 0; MNone; MFound (Some 31); MNone; MFound None]).
Proof. cbv zeta. split; [cbn; easy|reflexivity]. Qed.

(** C14.  Every history on an initially empty multimap: the pairs under k are
    those inserted since k was last erased, in insertion order. *)
Theorem C14_multimap_partial {K V} (e : env) (es : Z) (comp keqb : K -> K -> bool) (ops : list (mmap_op K V)) :
  (0 < es)%Z -> (es mod 4 = 0)%Z -> good_env e -> enough_memory e -> StrictWeak comp -> EqvOf comp keqb ->
  (es * Z.of_nat (total mmap_inserts ops) <= 2 ^ 31)%Z ->
  exists v l, run_ops (mmap_step e es comp) vec_nil ops = Ok (v, snd (spec_run (mmap_spec comp keqb) [] ops)) /\
    contents v = Ok l /\ Ascending (fun p q => comp (fst p) (fst q)) l /\
    Permutation l (fst (spec_run (mmap_spec comp keqb) [] ops)) /\
    forall k, filter (fun p => keqb (fst p) k) l = filter (fun p => keqb (fst p) k) (fst (spec_run (mmap_spec comp keqb) [] ops)).
Proof. exact (mmap_run_ok e es comp keqb ops). Qed.
Print Assumptions C14_multimap_partial.

Theorem C14_multimap_short_refuted :
  run_ops (mmap_step env0 2 Nat.ltb) vec_nil [MMAssign [(1,0);(2,1);(2,2);(2,3);(3,4);(4,5)]; MMErase 2] = UB.
Proof. exact mmap_short_crash. Qed.
Print Assumptions C14_multimap_short_refuted.

Example C14_nonvacuous :
  let ops := [MMInsert 3 30; MMInsert 1 10; MMInsert 3 31; MMRange 3; MMCount 3; MMFind 3; MMErase 3; MMRange 3; MMInsert 3 5] in
  (8 * Z.of_nat (total mmap_inserts ops) <= 2 ^ 31)%Z /\
  spec_run (mmap_spec Nat.ltb Nat.eqb) [] ops =
    ([(1, 10); (3, 5)], [MMPos 0; MMPos 0; MMPos 2; MMVals [30; 31]; MMNum 2; MMFound (Some 30); MMNone; MMVals []; MMPos 1]).
Proof. cbv zeta. split; [cbn; easy|reflexivity]. Qed.

(** A history with keys that are equivalent but not equal: the first is kept. *)
Example weak_keys :
  let ops := [MSet (1, 1) 10; MSet (1, 2) 11; MInsert (1, 3) 12; MGet (1, 4)] in
  StrictWeak by_fst /\ EqvOf by_fst same_fst /\ (8 * Z.of_nat (total map_inserts ops) <= 2 ^ 31)%Z /\
  spec_run (map_spec by_fst same_fst 0) [] ops = ([((1, 1), 11)], [MNone; MNone; MInserted 0 false; MVal 11]).
Proof. cbv zeta. split; [exact by_fst_weak|]. split; [exact same_fst_eqv|]. split; [cbn; easy|reflexivity]. Qed.
