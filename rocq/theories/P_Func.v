(** * P_Func: function objects, pair ordering and make_pair (C119-C124). *)
From Verif Require Import Base Order RangeSpec RangeModel ArrayModel ArrayProofs SortProofs RangeProofs ExampleOrders FuncModel FuncSpec FuncProofs.
From Coq Require Import ZArith Lia.

(** ** C119 *)
(** Sorting with greater: descending, stable. *)
Theorem C119_sort_greater {A} (lt : A -> A -> bool) (W : StrictWeak lt) pre l post :
  exists r, stable_sort (f_greater lt) (pre ++ l ++ post) (length pre) (length pre + length l) = Ok (pre ++ r ++ post) /\
    Descending lt r /\ Permutation r l /\ (forall v, filter (equiv lt v) r = filter (equiv lt v) l).
Proof.
  destruct (stable_sort_spec (f_greater lt) (greater_weak lt W) pre l post) as (r & E & S & P & F).
  exists r. split; [exact E|]. split; [exact S|]. split; [exact P|]. intros v. specialize (F v).
  assert (Q : forall w, filter (equiv lt v) w = filter (equiv (f_greater lt) v) w).
  { intros w. apply filter_ext. intros x. unfold equiv, f_greater. apply andb_comm. }
  now rewrite !Q.
Qed.
Print Assumptions C119_sort_greater.
(** Sorting objects by a member with mem_var_less: the members are in order
    and objects with equivalent members keep their order. *)
Theorem C119_sort_by_member {A V} (lt : V -> V -> bool) (W : StrictWeak lt) (member : A -> V) pre l post :
  exists r, stable_sort (mem_var_less2 lt member) (pre ++ l ++ post) (length pre) (length pre + length l) = Ok (pre ++ r ++ post) /\
    Ascending lt (map member r) /\ Permutation r l /\
    (forall v, filter (fun x => equiv lt v (member x)) r = filter (fun x => equiv lt v (member x)) l).
Proof. exact (sort_by lt W member pre l post). Qed.
Print Assumptions C119_sort_by_member.
(** Sorting pairs with pair_compare_first: the keys are in order, and pairs with
    equivalent keys keep their order. *)
Theorem C119_sort_pairs {K V} (lt : K -> K -> bool) (W : StrictWeak lt) (pre l post : list (K * V)) :
  exists r, stable_sort (pair_compare_first lt) (pre ++ l ++ post) (length pre) (length pre + length l) = Ok (pre ++ r ++ post) /\
    Ascending lt (map fst r) /\ Permutation r l /\
    (forall k, filter (fun x => equiv lt k (fst x)) r = filter (fun x => equiv lt k (fst x)) l).
Proof. exact (sort_by lt W fst pre l post). Qed.
Print Assumptions C119_sort_pairs.
(** Searching objects by a member: find_if with mem_var_equal_to (&T::m, v) and
    with mem_var_less (&T::m, v) stops at the first object whose member is v,
    or is less than v. *)
Theorem C119_find_by_member {A V} (eq lt : V -> V -> bool) (D : DecEq eq) (member : A -> V) (v : V) (l : list A) :
  FirstOrEnd (fun i => exists x, nth_error l i = Some x /\ member x = v) (length l) (find_if (mem_var_equal_to1 eq member v) l) /\
  FirstOrEnd (fun i => exists x, nth_error l i = Some x /\ lt (member x) v = true) (length l) (find_if (mem_var_less1 lt member v) l) /\
  (forall x y : A, mem_var_equal_to2 eq member x y = true <-> member x = member y).
Proof.
  assert (G : forall (p : A -> bool) (Q : A -> Prop), (forall x, p x = true <-> Q x) ->
    FirstOrEnd (fun i => exists x, nth_error l i = Some x /\ Q x) (length l) (find_if p l)).
  { intros p Q H. induction l as [|a t IH]; [right; split; [reflexivity|intros i Hi; cbn [length] in Hi; lia]|]. cbn [find_if]. destruct (p a) eqn:E; cbn [negb].
    - left. cbn [length]. split; [lia|]. split; [exists a; split; [reflexivity|now apply H]|intros i Hi; lia].
    - assert (N : ~ Q a) by (intros Z; apply H in Z; congruence). destruct IH as [(A1 & A2 & A3)|(A1 & A3)].
      + left. cbn [length]. split; [lia|]. split; [exact A2|]. intros [|i] Hi (x & X & Y); [cbn [nth_error] in X; injection X as <-; contradiction|].
        apply (A3 i ltac:(lia)). now exists x.
      + right. cbn [length]. split; [now rewrite A1|]. intros [|i] Hi (x & X & Y); [cbn [nth_error] in X; injection X as <-; contradiction|].
        apply (A3 i ltac:(lia)). now exists x. }
  split; [apply G; intros x; apply D|]. split; [apply G; intros x; reflexivity|]. intros x y. apply D.
Qed.
Print Assumptions C119_find_by_member.
Example C119_member_example : find_if (mem_var_equal_to1 Nat.eqb fst 3) [(1, 5); (3, 4); (3, 9)] = 1 /\
  find_if (mem_var_less1 Nat.ltb snd 5) [(1, 5); (3, 4); (3, 9)] = 1.
Proof. split; reflexivity. Qed.
(** Sorting pointers with dereference (less): the pointees are in order. *)
Theorem C119_sort_pointers {P T} (lt : T -> T -> bool) (W : StrictWeak lt) (mem : P -> T) pre l post :
  exists r, stable_sort (deref2 mem (f_less lt)) (pre ++ l ++ post) (length pre) (length pre + length l) = Ok (pre ++ r ++ post) /\
    Ascending lt (map mem r) /\ Permutation r l /\
    (forall v, filter (fun p => equiv lt v (mem p)) r = filter (fun p => equiv lt v (mem p)) l).
Proof. exact (sort_by lt W mem pre l post). Qed.
Print Assumptions C119_sort_pointers.
(** compare: three results, of which the sign is the order. *)
Theorem C119_compare {T} (lt : T -> T -> bool) (W : StrictWeak lt) (a b c : T) :
  In (f_compare lt a b) [-1; 0; 1]%Z /\ ((f_compare lt a b < 0)%Z <-> lt a b = true) /\ (f_compare lt a b = 0%Z <-> equiv lt a b = true) /\
  f_compare lt b a = (- f_compare lt a b)%Z /\
  ((f_compare lt a b <= 0)%Z -> (f_compare lt b c <= 0)%Z -> (f_compare lt a c <= 0)%Z).
Proof.
  split; [cbn [In]; destruct (compare_range lt a b) as [-> | [-> | ->]]; auto|].
  split; [exact (compare_lt lt a b)|]. split; [exact (compare_eq lt a b)|].
  split; [exact (compare_neg lt W a b)|exact (compare_le_trans lt W a b c)].
Qed.
Print Assumptions C119_compare.
(** The relational operators and functors made from <: of x < y, x > y and "neither"
    exactly one holds, <= is "not >", >= is "not <", both are total and transitive. *)
Theorem C119_relations {T} (lt : T -> T -> bool) (W : StrictWeak lt) (x y z : T) :
  (op_gt lt x y = lt y x /\ f_greater lt x y = lt y x /\ f_less lt x y = lt x y) /\
  (op_le lt x y = true <-> lt x y = true \/ equiv lt x y = true) /\
  (op_ge lt x y = true <-> op_gt lt x y = true \/ equiv lt x y = true) /\
  (op_le lt x y = true \/ op_le lt y x = true) /\
  (op_le lt x y = true -> op_le lt y z = true -> op_le lt x z = true) /\
  f_less_equal lt x y = op_le lt x y /\ f_greater_equal lt x y = op_ge lt x y.
Proof. exact (relations lt W x y z). Qed.
Print Assumptions C119_relations.

(** The functors and operators made from == decide equality and its contrary. *)
Theorem C119_equality {T} (eq : T -> T -> bool) (D : DecEq eq) (x y : T) (l : list T) :
  (f_equal_to eq x y = true <-> x = y) /\ (f_not_equal_to eq x y = true <-> x <> y) /\ (op_ne eq x y = true <-> x <> y) /\
  (let i := find_if (bind2nd (f_not_equal_to eq) x) l in
   (forall z, In z (firstn i l) -> z = x) /\ (i = length l \/ exists z, nth_error l i = Some z /\ z <> x)).
Proof.
  assert (N : forall a b, negb (eq a b) = true <-> a <> b).
  { intros a b. specialize (D a b). destruct (eq a b); cbn [negb]; split; intros H; try discriminate.
    - exfalso. apply H, D. reflexivity.
    - intros Q. apply D in Q. discriminate.
    - reflexivity. }
  split; [apply D|]. split; [apply N|]. split; [apply N|]. cbv zeta. unfold bind2nd, f_not_equal_to.
  induction l as [|a l IH]; [split; [intros z []|now left]|]. cbn [find_if].
  destruct (negb (eq a x)) eqn:Q.
  - split; [intros z []|]. right. exists a. split; [reflexivity|]. now apply N.
  - assert (a = x) as ->. { apply D. destruct (eq a x); [reflexivity|discriminate Q]. }
    destruct IH as (I1 & I2). split.
    + intros z [<-|H]; [reflexivity|now apply I1].
    + destruct I2 as [E|(z & E & F)]; [left; exact (f_equal S E)|right; exists z; split; [exact E|exact F]].
Qed.
Print Assumptions C119_equality.
Example C119_equality_example : find_if (bind2nd (f_not_equal_to Nat.eqb) 1) [1; 1; 3; 1] = 2 /\ f_equal_to Nat.eqb 3 3 = true /\ op_ne Nat.eqb 3 4 = true.
Proof. repeat split. Qed.

(** ** C120 *)
(** Where == of the first halves holds exactly when neither is less, < of
    pairs is lexicographic, a strict weak ordering, and total if both are. *)
Theorem C120_pair_less {A B} (lta eqa : A -> A -> bool) (ltb : B -> B -> bool) :
  StrictWeak lta -> StrictWeak ltb -> eq_is_equiv lta eqa ->
  StrictWeak (pair_lt lta eqa ltb) /\
  (forall u v, pair_lt lta eqa ltb u v = true <-> Lexicographic lta ltb u v) /\
  (forall u v, equiv (pair_lt lta eqa ltb) u v = true <-> equiv lta (fst u) (fst v) = true /\ equiv ltb (snd u) (snd v) = true).
Proof.
  intros Wa Wb E. split; [exact (pair_weak lta eqa ltb Wa Wb E)|].
  split; [exact (pair_lex lta eqa ltb E)|exact (pair_equiv lta eqa ltb E)].
Qed.
Print Assumptions C120_pair_less.
Theorem C120_pair_total {A B} (lta eqa : A -> A -> bool) (ltb eqb : B -> B -> bool) :
  StrictTotal lta -> DecEq eqa -> StrictTotal ltb -> DecEq eqb ->
  StrictTotal (pair_lt lta eqa ltb) /\ DecEq (pair_eq eqa eqb).
Proof.
  intros Ta Ea Tb Eb. split; [exact (pair_total lta eqa ltb Ta Ea Tb)|].
  intros [a b] [a' b']. unfold pair_eq. cbn [fst snd]. rewrite andb_true_iff. rewrite (Ea a a'), (Eb b b'). split; [intros [-> ->]; reflexivity|].
  intros H. injection H as -> ->. auto.
Qed.
Print Assumptions C120_pair_total.
(** So sorting pairs orders them by the first half, and equal first halves by the second. *)
Theorem C120_sort_pairs {A B} (lta eqa : A -> A -> bool) (ltb : B -> B -> bool) pre l post :
  StrictWeak lta -> StrictWeak ltb -> eq_is_equiv lta eqa ->
  exists r, stable_sort (pair_lt lta eqa ltb) (pre ++ l ++ post) (length pre) (length pre + length l) = Ok (pre ++ r ++ post) /\
    Permutation r l /\ Ascending lta (map fst r) /\
    (forall a, Ascending ltb (map snd (filter (fun p => equiv lta a (fst p)) r))).
Proof. exact (sort_pairs lta eqa ltb pre l post). Qed.
Print Assumptions C120_sort_pairs.
Theorem C120_swap {A B} (u v : A * B) : pair_swap u v = (v, u).
Proof. destruct u, v. reflexivity. Qed.
Print Assumptions C120_swap.

(** ** C121 *)
(** Letters compared without case by < and with case by ==: sorting the pairs
    (a,1) (A,5) (a,0) leaves (a,1) before (a,0). *)
Theorem C121_pair_order_refuted : exists (lta eqa : nat -> nat -> bool) (l : list (nat * nat)),
  StrictWeak lta /\ DecEq eqa /\ ~ StrictWeak (pair_lt lta eqa Nat.ltb) /\
  stable_sort (pair_lt lta eqa Nat.ltb) l 0 (length l) = Ok l /\ ~ Ascending (pair_lt lta eqa Nat.ltb) l.
Proof. exact mixed_order. Qed.
Print Assumptions C121_pair_order_refuted.

(** ** C122 *)
Theorem C122_bound_predicates {A} (lt : A -> A -> bool) (v : A) (l : list A) :
  count_if (bind2nd (f_less lt) v) l = countp (fun x => lt x v) l /\
  count_if (bind1st (f_less lt) v) l = countp (fun x => lt v x) l /\
  count_if (unary_negator (bind2nd (f_less lt) v)) l + count_if (bind2nd (f_less lt) v) l = length l.
Proof. exact (bound_counts lt v l). Qed.
Print Assumptions C122_bound_predicates.
(** find_if with mem_var_equal_to: the first object whose member equals the value. *)
Theorem C122_find_by_member {A V} (eq : V -> V -> bool) (member : A -> V) (v : V) (l : list A) : DecEq eq ->
  let i := find_if (mem_var_equal_to1 eq member v) l in
  (forall x, In x (firstn i l) -> member x <> v) /\ (i = length l \/ exists x, nth_error l i = Some x /\ member x = v).
Proof. exact (find_member eq member v l). Qed.
Print Assumptions C122_find_by_member.
Theorem C122_compose {A B C D} (f : B -> C) (g : A -> B) (k : B -> C -> D) (h : A -> C) (l : list A) :
  transform (compose1 f g) l = map f (map g l) /\
  transform (compose2 k g h) l = map (fun p => k (fst p) (snd p)) (combine (map g l) (map h l)).
Proof. exact (composes f g k h l). Qed.
Print Assumptions C122_compose.

(** ** C123 *)
(** Whatever the two arguments are: the pair has their values, and a pair of
    values made from it keeps them whatever the variables become. *)
Theorem C123_make_pair (m : list Z) (a b : arg) (x y : Z) :
  arg_value m a = Some x -> arg_value m b = Some y ->
  exists p, make_pair m a b = Ok p /\ half_value m (fst p) = Ok x /\ half_value m (snd p) = Ok y /\
  exists q, to_values m p = Ok q /\ forall m', half_value m' (fst q) = Ok x /\ half_value m' (snd q) = Ok y.
Proof.
  intros Ha Hb. destruct (make_pair_values m a b x y Ha Hb) as (p & P & P1 & P2 & P3).
  exists p. split; [exact P|]. split; [exact P1|]. split; [exact P2|]. eexists. split; [exact P3|]. intros m'. now split.
Qed.
Print Assumptions C123_make_pair.

(** ** C124 *)
(** auto p = make_pair (x, b): the first half is the variable x itself. *)
Theorem C124_make_pair_refuted (m : list Z) (i : nat) (b : arg) (v : Z) : i < length m ->
  exists p, make_pair m (Lvalue i) b = Ok p /\
    (exists m', wr m i v = Ok m' /\ half_value m' (fst p) = Ok v) /\
    (exists m' h, set_half m (fst p) v = Ok (m', h) /\ nth_error m' i = Some v).
Proof. exact (aliased m i b v). Qed.
Print Assumptions C124_make_pair_refuted.

(** ** The hypotheses are met *)
Example C119_case : stable_sort (f_greater Nat.ltb) [3; 9; 1; 9; 4] 0 5 = Ok [9; 9; 4; 3; 1] /\
  stable_sort (mem_var_less2 Nat.ltb snd) [(1, 5); (2, 3); (3, 5); (4, 1)] 0 4 = Ok [(4, 1); (2, 3); (1, 5); (3, 5)].
Proof. split; reflexivity. Qed.
Example C120_case : StrictWeak Nat.ltb /\ eq_is_equiv Nat.ltb Nat.eqb /\
  stable_sort (pair_lt Nat.ltb Nat.eqb Nat.ltb) [(2, 1); (1, 9); (2, 0); (1, 3)] 0 4 = Ok [(1, 3); (1, 9); (2, 0); (2, 1)].
Proof.
  split; [exact ltb_weak|]. split; [|reflexivity]. intros x y. rewrite Nat.eqb_eq, !Nat.ltb_ge. lia.
Qed.
Example C122_case : count_if (bind2nd (f_less Nat.ltb) 4) [1; 5; 3; 4] = 2 /\ find_if (mem_var_equal_to1 Nat.eqb snd 5) [(1, 2); (7, 5)] = 1.
Proof. split; reflexivity. Qed.
Example C123_case : arg_value [10; 20]%Z (Lvalue 1) = Some 20%Z /\ arg_value [10; 20]%Z (Rvalue 3) = Some 3%Z /\
  make_pair [10; 20]%Z (Lvalue 1) (Rvalue 3) = Ok (Bound 1, Own 3%Z) /\ to_values [10; 20]%Z (Bound 1, Own 3%Z) = Ok (Own 20%Z, Own 3%Z).
Proof. repeat split. Qed.
