(** * P_SetOps: property theorems for the sorted-range set operations (C24) and
    the filtering algorithms (C26). *)
From Verif Require Import Base Order RangeSpec RangeModel ArrayModel RangeProofs ArrayProofs SetAlgoProofs
  ExampleOrders.

(** ** C24 *)
Theorem C24_set_union {A} (lt : A -> A -> bool) (W : StrictWeak lt) l1 l2 :
  Ascending lt l1 -> Ascending lt l2 ->
  exists r, set_union lt l1 l2 = Ok r /\ Ascending lt r /\
            (forall z, In z r -> In z l1 \/ In z l2) /\
            (forall v, mult lt v r = Nat.max (mult lt v l1) (mult lt v l2)).
Proof. exact (set_union_spec lt W l1 l2). Qed.
Print Assumptions C24_set_union.

Theorem C24_set_intersection {A} (lt : A -> A -> bool) (W : StrictWeak lt) l1 l2 :
  Ascending lt l1 -> Ascending lt l2 ->
  exists r, set_intersection lt l1 l2 = Ok r /\ Ascending lt r /\
            (forall z, In z r -> In z l1) /\
            (forall v, mult lt v r = Nat.min (mult lt v l1) (mult lt v l2)).
Proof. exact (set_intersection_spec lt W l1 l2). Qed.
Print Assumptions C24_set_intersection.

Theorem C24_set_difference {A} (lt : A -> A -> bool) (W : StrictWeak lt) l1 l2 :
  Ascending lt l1 -> Ascending lt l2 ->
  exists r, set_difference lt l1 l2 = Ok r /\ Ascending lt r /\
            (forall z, In z r -> In z l1) /\
            (forall v, mult lt v r = mult lt v l1 - mult lt v l2).
Proof. exact (set_difference_spec lt W l1 l2). Qed.
Print Assumptions C24_set_difference.

Theorem C24_set_symmetric_difference {A} (lt : A -> A -> bool) (W : StrictWeak lt) l1 l2 :
  Ascending lt l1 -> Ascending lt l2 ->
  exists r, set_symmetric_difference lt l1 l2 = Ok r /\ Ascending lt r /\
            (forall z, In z r -> In z l1 \/ In z l2) /\
            (forall v, mult lt v r = (mult lt v l1 - mult lt v l2) + (mult lt v l2 - mult lt v l1)).
Proof. exact (set_symdiff_spec lt W l1 l2). Qed.
Print Assumptions C24_set_symmetric_difference.

Theorem C24_includes {A} (lt : A -> A -> bool) (W : StrictWeak lt) l1 l2 :
  Ascending lt l1 -> Ascending lt l2 ->
  includes lt l1 l2 = true <-> (forall v, mult lt v l2 <= mult lt v l1).
Proof. exact (includes_iff lt W l1 l2). Qed.
Print Assumptions C24_includes.

Example C24_example :
  Ascending Nat.ltb [1; 2; 2; 5] /\ Ascending Nat.ltb [2; 3; 5; 5] /\
  set_union Nat.ltb [1; 2; 2; 5] [2; 3; 5; 5] = Ok [1; 2; 2; 3; 5; 5] /\
  set_intersection Nat.ltb [1; 2; 2; 5] [2; 3; 5; 5] = Ok [2; 5] /\
  set_difference Nat.ltb [1; 2; 2; 5] [2; 3; 5; 5] = Ok [1; 2] /\
  set_symmetric_difference Nat.ltb [1; 2; 2; 5] [2; 3; 5; 5] = Ok [1; 2; 3; 5] /\
  includes Nat.ltb [1; 2; 2; 5] [2; 2] = true.
Proof. split; [asc|]. split; [asc|]. repeat split. Qed.

(** ** C26 *)
Theorem C26_remove_if {A} (drop : A -> bool) pre l post :
  exists junk,
    remove_if drop (pre ++ l ++ post) (length pre) (length pre + length l)
    = Ok (pre ++ filter (fun x => negb (drop x)) l ++ junk ++ post,
          length pre + length (filter (fun x => negb (drop x)) l)) /\
    length junk + length (filter (fun x => negb (drop x)) l) = length l.
Proof. exact (remove_if_spec drop pre l post). Qed.
Print Assumptions C26_remove_if.

Theorem C26_remove {A} (eqb : A -> A -> bool) (v : A) pre l post :
  exists junk,
    remove eqb (pre ++ l ++ post) (length pre) (length pre + length l) v
    = Ok (pre ++ filter (fun x => negb (eqb x v)) l ++ junk ++ post,
          length pre + length (filter (fun x => negb (eqb x v)) l)) /\
    length junk + length (filter (fun x => negb (eqb x v)) l) = length l.
Proof. exact (remove_if_spec (fun x => eqb x v) pre l post). Qed.
Print Assumptions C26_remove.

(** [p] must be compatible with itself (any equivalence relation is). *)
Theorem C26_unique {A} (p : A -> A -> bool) pre l post :
  (forall x y z, p y x = true -> p z y = p z x) ->
  exists junk,
    unique p (pre ++ l ++ post) (length pre) (length pre + length l)
    = Ok (pre ++ run_heads p l ++ junk ++ post, length pre + length (run_heads p l)) /\
    length junk + length (run_heads p l) = length l.
Proof. exact (unique_spec p pre l post). Qed.
Print Assumptions C26_unique.

Theorem C26_unique_copy {A} (p : A -> A -> bool) l res :
  (forall x y z, p y x = true -> p z y = p z x) ->
  unique_copy p l res = res ++ run_heads p l.
Proof. exact (unique_copy_heads p l res). Qed.
Print Assumptions C26_unique_copy.

Theorem C26_copy_if {A} (p : A -> bool) l r : copy_if p l r = r ++ filter p l.
Proof. exact (copy_if_filter p l r). Qed.
Print Assumptions C26_copy_if.

Theorem C26_remove_copy_if {A} (p : A -> bool) l r :
  remove_copy_if p l r = r ++ filter (fun x => negb (p x)) l.
Proof. exact (remove_copy_if_filter p l r). Qed.
Print Assumptions C26_remove_copy_if.

Theorem C26_remove_copy {A} (eqb : A -> A -> bool) l v r :
  remove_copy eqb l v r = r ++ filter (fun x => negb (eqb x v)) l.
Proof. exact (remove_copy_filter eqb l v r). Qed.
Print Assumptions C26_remove_copy.

Theorem C26_replace {A} (eqb : A -> A -> bool) l o n :
  replace eqb l o n = map (fun x => if eqb x o then n else x) l.
Proof. exact (replace_map eqb l o n). Qed.
Print Assumptions C26_replace.

Theorem C26_replace_if {A} (p : A -> bool) l n :
  replace_if p l n = map (fun x => if p x then n else x) l.
Proof. exact (replace_if_map p l n). Qed.
Print Assumptions C26_replace_if.

Theorem C26_transform {A B} (op : A -> B) l : transform op l = map op l.
Proof. exact (transform_map op l). Qed.
Print Assumptions C26_transform.

Theorem C26_transform2 {A B C} (op : A -> B -> C) l1 l2 :
  length l1 <= length l2 ->
  transform2 op l1 l2 = Ok (map (fun xy => op (fst xy) (snd xy)) (combine l1 l2)).
Proof. exact (transform2_combine op l1 l2). Qed.
Print Assumptions C26_transform2.

Theorem C26_reverse_copy {A} (l : list A) : reverse_copy l = Ok (rev l).
Proof. exact (reverse_copy_rev l). Qed.
Print Assumptions C26_reverse_copy.

Theorem C26_rotate_copy {A} (l1 l2 r : list A) :
  rotate_copy (l1 ++ l2) (length l1) r = r ++ l2 ++ l1.
Proof. exact (rotate_copy_app l1 l2 r). Qed.
Print Assumptions C26_rotate_copy.

Example C26_example :
  (forall x y z, Nat.eqb y x = true -> Nat.eqb z y = Nat.eqb z x) /\
  remove Nat.eqb [0; 4; 7; 4; 0] 1 4 4 = Ok ([0; 7; 7; 4; 0], 2) /\
  unique Nat.eqb [3; 3; 5; 5; 3; 9] 0 5 = Ok ([3; 5; 3; 5; 3; 9], 3) /\
  run_heads Nat.eqb [3; 3; 5; 5; 3] = [3; 5; 3].
Proof.
  split; [|repeat split]. intros x y z H. apply Nat.eqb_eq in H. now subst.
Qed.
