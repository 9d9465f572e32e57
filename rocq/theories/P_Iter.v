(** * P_Iter: property theorems for the iterator adaptors of uiterator.h
    (C82-C84) and for sort (C85, C86). *)
From Verif Require Import Base Order UtilModel StoreModel VectorModel VectorSpec VectorProofs VectorFacts ListModel
  IterModel IterProofs QsortModel QsortSpec QsortProofs.
From Coq Require Import ZArith.
Local Open Scope Z_scope.

(** How far a reverse iterator is from rbegin. *)
Definition rpos {A} (a : list A) (i : Z) : Z := Z.of_nat (length a) - i.
(** It points into the array or to its rend. *)
Definition in_range {A} (a : list A) (k : Z) : Prop := 0 <= k <= Z.of_nat (length a).

(** ** C82: walking *)
Theorem C82_reverse_walk {A} (a : list A) : r_copy (length a) a (r_begin a) (r_end a) = Ok (rev a).
Proof. unfold r_begin, r_end. rewrite r_copy_ok by lia. now rewrite firstn_all. Qed.
Print Assumptions C82_reverse_walk.

(** The reverse iterator at distance k from rbegin reads element k of the
    reversed sequence. *)
Theorem C82_reverse_read {A} (a : list A) i : 0 <= rpos a i < Z.of_nat (length a) ->
  exists x, nth_error (rev a) (Z.to_nat (rpos a i)) = Some x /\ r_read a i = Ok x.
Proof.
  unfold rpos. intros H. rewrite r_read_ok by lia. unfold rd.
  destruct (nth_error (rev a) (Z.to_nat (Z.of_nat (length a) - i))) as [x|] eqn:E; [now exists x|].
  apply nth_error_None in E. rewrite rev_length in E. lia.
Qed.
Print Assumptions C82_reverse_read.

(** Writing through it replaces that element, and no other. *)
Theorem C82_reverse_write {A} (a u w : list A) x v i : rev a = u ++ x :: w -> rpos a i = Z.of_nat (length u) ->
  exists a', r_write a i v = Ok a' /\ rev a' = u ++ v :: w.
Proof.
  intros E H. apply (f_equal (@rev A)) in E. rewrite rev_involutive in E. subst a. unfold rpos in H.
  rewrite rev_app_distr in *. cbn [rev] in *. rewrite <- app_assoc in *. cbn [app] in *.
  rewrite app_length in H. cbn [length] in H. rewrite !rev_length in H.
  exists (rev w ++ v :: rev u). unfold r_write. rewrite ptr_add_ok by (rewrite app_length; cbn [length]; rewrite !rev_length; lia). cbn [bind]. unfold ptr_write.
  replace (i + -1 <? 0) with false by (symmetry; apply Z.ltb_ge; lia).
  split; [apply wr_app'; rewrite rev_length; lia|]. rewrite rev_app_distr. cbn [rev]. rewrite !rev_involutive, <- app_assoc. reflexivity.
Qed.
Print Assumptions C82_reverse_write.

Theorem C82_reverse_move {A} (a : list A) i n : in_range a (rpos a i) -> 0 <= n ->
  (in_range a (rpos a i + n) -> exists j, r_plus a i n = Ok j /\ rpos a j = rpos a i + n) /\
  (in_range a (rpos a i - n) -> exists j, r_minus a i n = Ok j /\ rpos a j = rpos a i - n) /\
  (in_range a (rpos a i + 1) -> r_incr a i = r_plus a i 1) /\
  (in_range a (rpos a i - 1) -> r_decr a i = r_minus a i 1).
Proof.
  unfold rpos, in_range. intros H Hn.
  split; [intros H1; exists (i - n); split; [unfold r_plus; rewrite ptr_add_ok by lia; f_equal; lia|lia]|].
  split; [intros H1; exists (i + n); split; [unfold r_minus; rewrite ptr_add_ok by lia; f_equal; lia|lia]|].
  split; reflexivity.
Qed.
Print Assumptions C82_reverse_move.

Theorem C82_reverse_index {A} (a : list A) n : 0 <= n < Z.of_nat (length a) ->
  exists x, nth_error (rev a) (Z.to_nat n) = Some x /\ r_index a (r_begin a) n = Ok x.
Proof.
  intros H. unfold r_index, r_plus, r_begin. rewrite ptr_add_ok by lia. cbn [bind].
  destruct (C82_reverse_read a (Z.of_nat (length a) + - n)) as (x & E & R); [unfold rpos; lia|].
  exists x. split; [|exact R]. rewrite <- E. f_equal. unfold rpos. lia.
Qed.
Print Assumptions C82_reverse_index.

Theorem C82_reverse_compare {A} (a : list A) i j :
  (r_less i j = true <-> rpos a i < rpos a j) /\ (r_eq i j = true <-> rpos a i = rpos a j).
Proof. unfold r_less, r_eq, rpos. rewrite Z.ltb_lt, Z.eqb_eq. lia. Qed.
Print Assumptions C82_reverse_compare.

(** Copying through move iterators. *)
Theorem C82_move_walk {A} (a : list A) : m_copy (length a) a 0 (Z.of_nat (length a)) = Ok a.
Proof. change 0 with (Z.of_nat 0). rewrite m_copy_ok by lia. reflexivity. Qed.
Print Assumptions C82_move_walk.

Theorem C82_move_step {A} (a : list A) i :
  (in_range a (i + 1) -> m_incr a i = Ok (i + 1)) /\ (in_range a (i - 1) -> m_decr a i = Ok (i - 1)) /\
  (0 <= i < Z.of_nat (length a) -> exists x, nth_error a (Z.to_nat i) = Some x /\ m_read a i = Ok x).
Proof.
  unfold in_range, m_incr, m_decr. split; [|split].
  - intros H. apply ptr_add_ok. lia.
  - intros H. rewrite ptr_add_ok by lia. reflexivity.
  - intros H. unfold m_read, ptr_read. destruct (Z.ltb_spec i 0); [lia|]. unfold rd.
    destruct (nth_error a (Z.to_nat i)) as [x|] eqn:E; [now exists x|]. apply nth_error_None in E. lia.
Qed.
Print Assumptions C82_move_step.

(** A container of indexes becomes the container of the iterators. *)
Theorem C82_index_walk {A} (a : list A) (xs : list Z) base :
  Forall (fun x => in_range a (base + x)) xs ->
  indexv_to_iteratorv a xs base = Ok (map (Z.add base) xs).
Proof.
  intros H. unfold indexv_to_iteratorv. change 0 with (Z.of_nat 0).
  replace (length xs) with (length xs - 0)%nat by lia. rewrite x_copy_n_ok by (try lia; exact H). reflexivity.
Qed.
Print Assumptions C82_index_walk.

Theorem C82_index_read {A} (a : list A) (xs : list Z) base i n x : 0 <= i -> 0 <= n ->
  nth_error xs (Z.to_nat (i + n)) = Some x -> in_range a (base + x) ->
  x_index a xs base i n = Ok (base + x).
Proof.
  intros Hi Hn E H. assert (Z.to_nat (i + n) < length xs)%nat by (apply nth_error_Some; congruence).
  unfold x_index, x_plus. rewrite ptr_add_ok by lia. cbn [bind]. unfold x_read, ptr_read.
  destruct (Z.ltb_spec (i + n) 0); [lia|]. unfold rd at 1. rewrite E. cbn [bind]. now apply ptr_add_ok.
Qed.
Print Assumptions C82_index_read.
(** Moving an index iterator: by n, back by n, and one at a time; n back after n
    on is where it was. *)
Theorem C82_index_move (xs : list Z) i n : 0 <= i <= Z.of_nat (length xs) -> 0 <= n ->
  (i + n <= Z.of_nat (length xs) -> x_plus xs i n = Ok (i + n) /\ x_minus xs (i + n) n = Ok i) /\
  (i + 1 <= Z.of_nat (length xs) -> x_incr xs i = Ok (i + 1) /\ x_decr xs (i + 1) = Ok i) /\
  (i = 0 -> x_decr xs i = UB) /\ (i = Z.of_nat (length xs) -> x_incr xs i = UB).
Proof.
  intros H Hn. unfold x_plus, x_minus, x_incr, x_decr, ptr_add.
  assert (G : forall j, 0 <= j <= Z.of_nat (length xs) -> (0 <=? j) && (j <=? Z.of_nat (length xs)) = true).
  { intros j Hj. apply andb_true_iff. split; apply Z.leb_le; lia. }
  assert (B : forall j, j < 0 \/ Z.of_nat (length xs) < j -> (0 <=? j) && (j <=? Z.of_nat (length xs)) = false).
  { intros j Hj. apply andb_false_iff. destruct Hj; [left|right]; apply Z.leb_gt; lia. }
  split; [intros Hi; split; [rewrite G by lia; reflexivity|rewrite G by lia; f_equal; lia]|].
  split; [intros Hi; split; [rewrite G by lia; reflexivity|rewrite G by lia; f_equal; lia]|].
  split; intros ->; rewrite B by lia; reflexivity.
Qed.
Print Assumptions C82_index_move.

Example C82_write_case : r_write [1; 2; 3] 3 9 = Ok [1; 2; 9] /\ rpos [1; 2; 3] 3 = 0.
Proof. split; reflexivity. Qed.
Example C82_example :
  r_copy 4 [1; 2; 3; 4] (r_begin [1; 2; 3; 4]) (r_end [1; 2; 3; 4]) = Ok [4; 3; 2; 1] /\
  r_index [1; 2; 3; 4] (r_begin [1; 2; 3; 4]) 1 = Ok 3 /\
  in_range [1; 2; 3; 4] (rpos [1; 2; 3; 4] 3) /\
  Forall (fun x => in_range [1; 2; 3; 4] (1 + x)) [2; 0; 3] /\
  indexv_to_iteratorv [1; 2; 3; 4] [2; 0; 3] 1 = Ok [3; 1; 4].
Proof. unfold in_range, rpos. cbn [length]. repeat split; try lia. repeat constructor; lia. Qed.

(** ** C83: differences and offsets *)

(** The difference of two reverse iterators, of two move iterators and of two
    index iterators has the wrong sign. *)
Theorem C83_difference_refuted {A} (a : list A) i j : i <> j ->
  r_diff i j = - (rpos a i - rpos a j) /\ r_diff i j <> rpos a i - rpos a j /\
  m_diff i j = - (i - j) /\ x_diff i j = - (i - j).
Proof. unfold r_diff, m_diff, x_diff, ptr_distance, rpos. lia. Qed.
Print Assumptions C83_difference_refuted.

(** Algorithms that use the distance of their iterators: [reverse] over
    reverse iterators never does anything ... *)
Theorem C83_reverse_refuted {A} (a : list A) : a <> [] -> r_reverse a = Ok a.
Proof. exact (r_reverse_nothing a). Qed.
Print Assumptions C83_reverse_refuted.

(** ... and the binary search computes an address outside memory. *)
Theorem C83_lower_bound_refuted {A} lt (a : list A) v : a <> [] -> Z.of_nat (length a) < 2 ^ 62 ->
  r_lower_bound lt a v = UB.
Proof. exact (r_lower_bound_UB lt a v). Qed.
Print Assumptions C83_lower_bound_refuted.

(** Adding n to a move iterator subtracts it, and conversely, so that
    it + n differs from n times ++it and from it += n. *)
Theorem C83_move_offset_refuted {A} (a : list A) i n : 0 < n -> 0 <= i - n -> i + n <= Z.of_nat (length a) ->
  m_plus_assign a i n = Ok (i + n) /\ m_plus a i n = Ok (i - n) /\ m_minus a i n = Ok (i + n) /\
  m_minus_assign a i n = Ok (i - n) /\ m_index a i n = m_read a (i - n).
Proof.
  intros Hn H1 H2. unfold m_plus_assign, m_minus_assign, m_index, m_plus, m_minus.
  rewrite !ptr_add_ok by lia. cbn [bind]. repeat split.
Qed.
Print Assumptions C83_move_offset_refuted.

(** From the first element of a range, it + n is undefined. *)
Theorem C83_move_begin_refuted {A} (a : list A) n : 0 < n <= Z.of_nat (length a) -> m_plus a 0 n = UB.
Proof. intros H. apply ptr_add_out. lia. Qed.
Print Assumptions C83_move_begin_refuted.

Example C83_example : r_reverse [1; 2; 3] = Ok [1; 2; 3] /\ m_plus [1; 2; 3] 2 1 = Ok 1.
Proof. repeat split. Qed.

(** ** C84: insert iterators, on a vector with any history *)
Theorem C84_back_inserter {T} (e : env) (es : Z) (dflt : T) ops l :
  0 < es -> es mod 4 = 0 -> good_env e -> enough_memory e -> ops_pre es dflt [] ops ->
  es * Z.of_nat (length (seq_run dflt [] ops) + length l) <= 2 ^ 31 ->
  exists v v', vrun e es dflt vec_nil ops = Ok v /\ copy_back_inserter e es v l = Ok v' /\
    contents v' = Ok (seq_run dflt [] ops ++ l).
Proof.
  intros Hes H4 He Hm Hp Hb.
  destruct (vrun_ok e es dflt Hes He Hm ops vec_nil [] (Vinv_nil es) Hp (ops_moves_4 es dflt Hes ops [] H4 Hp)) as (v & E & I).
  destruct (copy_back_inserter_ok e es Hes H4 Hm l v _ I Hb) as (v' & E' & I').
  exists v, v'. split; [exact E|]. split; [exact E'|]. now apply (contents_ok es Hes).
Qed.
Print Assumptions C84_back_inserter.

Theorem C84_front_inserter {T} (e : env) (es : Z) (dflt : T) ops l :
  0 < es -> es mod 4 = 0 -> good_env e -> enough_memory e -> ops_pre es dflt [] ops ->
  es * Z.of_nat (length (seq_run dflt [] ops) + length l) <= 2 ^ 31 ->
  exists v v', vrun e es dflt vec_nil ops = Ok v /\ copy_front_inserter e es v l = Ok v' /\
    contents v' = Ok (rev l ++ seq_run dflt [] ops).
Proof.
  intros Hes H4 He Hm Hp Hb.
  destruct (vrun_ok e es dflt Hes He Hm ops vec_nil [] (Vinv_nil es) Hp (ops_moves_4 es dflt Hes ops [] H4 Hp)) as (v & E & I).
  destruct (copy_front_inserter_ok e es Hes H4 He Hm l v _ I Hb) as (v' & E' & I').
  exists v, v'. split; [exact E|]. split; [exact E'|]. now apply (contents_ok es Hes).
Qed.
Print Assumptions C84_front_inserter.

(** [inserter (v, v.begin() + k)]: the elements go in front of element k, in
    their order. *)
Theorem C84_inserter {T} (e : env) (es : Z) (dflt : T) ops l k :
  0 < es -> es mod 4 = 0 -> good_env e -> enough_memory e -> ops_pre es dflt [] ops ->
  es * Z.of_nat (length (seq_run dflt [] ops) + length l) <= 2 ^ 31 ->
  (k <= length (seq_run dflt [] ops))%nat ->
  exists v v', vrun e es dflt vec_nil ops = Ok v /\ copy_inserter e es v k l = Ok v' /\
    contents v' = Ok (firstn k (seq_run dflt [] ops) ++ l ++ skipn k (seq_run dflt [] ops)).
Proof.
  intros Hes H4 He Hm Hp Hb Hk.
  destruct (vrun_ok e es dflt Hes He Hm ops vec_nil [] (Vinv_nil es) Hp (ops_moves_4 es dflt Hes ops [] H4 Hp)) as (v & E & I).
  remember (seq_run dflt [] ops) as c eqn:Ec. clear Ec.
  rewrite <- (firstn_skipn k c) in I.
  destruct (copy_inserter_ok e es Hes H4 He Hm l v _ _ I) as (v' & E' & I').
  { rewrite firstn_length, skipn_length. replace (Nat.min k (length c) + (length c - k))%nat with (length c) by lia. exact Hb. }
  rewrite firstn_length in E'. replace (Nat.min k (length c)) with k in E' by lia.
  exists v, v'. split; [exact E|]. split; [exact E'|]. now apply (contents_ok es Hes).
Qed.
Print Assumptions C84_inserter.

Example C84_example :
  ops_pre 4 0%nat [] [OpAssign [1; 2; 3]%nat; OpPopBack] /\
  (v <- vrun env0 4 0%nat vec_nil [OpAssign [1; 2; 3]%nat; OpPopBack] ;;
   v <- copy_inserter env0 4 v 1 [7; 8]%nat ;; v <- copy_front_inserter env0 4 v [5; 6]%nat ;;
   v <- copy_back_inserter env0 4 v [9]%nat ;; contents v) = Ok [6; 5; 1; 7; 8; 2; 9]%nat.
Proof. split; [repeat split; try (cbv; discriminate); cbn; lia|vm_compute; reflexivity]. Qed.

(** ** C85: sort *)
Local Open Scope nat_scope.

(** With any qsort that does what ISO C says, and a comparison class whose
    default constructed objects compare by a strict weak ordering. *)
Theorem C85_sort {A S} (app : S -> A -> A -> bool) s qs given pre l post :
  qsort_contract qs -> StrictWeak (app s) ->
  exists r, sort app (Some s) qs (pre ++ l ++ post) (length pre) (length pre + length l) given = Ok (pre ++ r ++ post) /\
    Ascending (app s) r /\ Permutation r l.
Proof. exact (sort_ok app s qs given pre l post). Qed.
Print Assumptions C85_sort.

(** nth_element: everything before the position is not greater, everything
    after it not less. *)
Theorem C85_nth_element {A S} (app : S -> A -> A -> bool) s qs given pre l post n :
  qsort_contract qs -> StrictWeak (app s) -> n < length l ->
  exists l1 x l2, nth_element app (Some s) qs (pre ++ l ++ post) (length pre) (length pre + n) (length pre + length l) given
      = Ok (pre ++ (l1 ++ x :: l2) ++ post) /\
    length l1 = n /\ Permutation (l1 ++ x :: l2) l /\
    (forall y, In y l1 -> app s x y = false) /\ (forall y, In y l2 -> app s y x = false).
Proof.
  intros C W Hn. destruct (sort_ok app s qs given pre l post C W) as (r & E & Q & P).
  pose proof (Permutation_length P) as PL.
  destruct (nth_error r n) as [x|] eqn:Ex; [|apply nth_error_None in Ex; lia].
  apply nth_error_split in Ex as (l1 & l2 & -> & El).
  exists l1, x, l2. split; [exact E|]. split; [exact El|]. split; [exact P|].
  split.
  - intros y Hy. unfold Ascending in Q. clear -Q Hy. induction l1 as [|z t IH]; [destruct Hy|].
    cbn [List.app] in Q. apply StronglySorted_inv in Q as [Q F]. destruct Hy as [->|Hy]; [|now apply IH].
    rewrite Forall_forall in F. apply F. apply in_or_app. right. now left.
  - intros y Hy. unfold Ascending in Q. clear -Q Hy. induction l1 as [|z t IH]; cbn [List.app] in Q;
      apply StronglySorted_inv in Q as [Q F]; [|now apply IH].
    rewrite Forall_forall in F. now apply F.
Qed.
Print Assumptions C85_nth_element.

Example C85_example :
  qsort_contract (@isort nat) /\ StrictWeak Nat.ltb /\
  sort (fun _ : unit => Nat.ltb) (Some tt) isort [9; 3; 1; 2; 0] 1 4 tt = Ok [9; 1; 2; 3; 0].
Proof.
  split; [exact isort_contract|]. split; [|reflexivity].
  split; [intros; apply Nat.ltb_irrefl|]. split.
  - intros x y z. rewrite !Nat.ltb_lt. lia.
  - intros x y z. rewrite !Nat.ltb_ge. lia.
Qed.

(** ** C86: the comparator passed to sort *)

(** A pointer to a function as the comparator: for every range of two or more
    elements the adapter calls through an indeterminate pointer. *)
Theorem C86_function_pointer_refuted {A S} (app : S -> A -> A -> bool) qs given pre l post :
  2 <= length l ->
  sort app None qs (pre ++ l ++ post) (length pre) (length pre + length l) given = UB.
Proof.
  intros H. unfold sort.
  replace (length pre <=? length pre + length l) with true by (symmetry; apply Nat.leb_le; lia).
  replace (length pre + length l <=? length (pre ++ l ++ post)) with true
    by (symmetry; apply Nat.leb_le; rewrite !app_length; lia).
  cbn [andb]. destruct (Nat.ltb_spec (length pre + length l - length pre) 2); [lia|reflexivity].
Qed.
Print Assumptions C86_function_pointer_refuted.

(** A comparator with a state (here: which direction): sort uses the default
    state whatever it is given. *)
Theorem C86_stateful_refuted :
  exists (app : bool -> nat -> nat -> bool) given l, (forall s, StrictWeak (app s)) /\
  forall qs, qsort_contract qs ->
    exists r, sort app (Some false) qs l 0 (length l) given = Ok r /\ ~ Ascending (app given) r.
Proof.
  exists (fun (s : bool) x y => if s then y <? x else x <? y), true, [1; 2]. split.
  - intros s. split; [|split]; destruct s; intros *; rewrite ?Nat.ltb_lt, ?Nat.ltb_ge; lia.
  - intros qs C.
    destruct (sort_ok (fun (s : bool) x y => if s then y <? x else x <? y) false qs true [] [1; 2] []) as (r & E & Q & P).
    { exact C. }
    { split; [|split]; intros *; rewrite ?Nat.ltb_lt, ?Nat.ltb_ge; lia. }
    exists r. cbn [List.app length] in *. rewrite app_nil_r in E. split; [exact E|]. clear E. intros N.
    destruct (Permutation_length_2_inv (Permutation_sym P)) as [->| ->].
    + apply StronglySorted_inv in N as [_ F]. inversion F as [|? ? H _]. discriminate H.
    + apply StronglySorted_inv in Q as [_ F]. inversion F as [|? ? H _]. discriminate H.
Qed.
Print Assumptions C86_stateful_refuted.

(** Equal elements may change their order - also in list::sort, which calls
    this sort: there are conforming qsorts for which they do. *)
Theorem C86_stability_refuted :
  exists (lt : nat * nat -> nat * nat -> bool) (qs : (nat * nat -> nat * nat -> Z) -> list (nat * nat) -> list (nat * nat)) l r v,
    StrictWeak lt /\ qsort_contract qs /\ 
    sort (fun _ : unit => lt) (Some tt) qs l 0 (length l) tt = Ok r /\
    filter (equiv lt v) r <> filter (equiv lt v) l.
Proof.
  exists (fun x y => fst x <? fst y), (fun cmp l => isort cmp (rev l)), [(1, 1); (1, 2)], [(1, 2); (1, 1)], (1, 0).
  split; [|split; [exact isort_rev_contract|split; [reflexivity|discriminate]]].
  split; [|split]; intros *; rewrite ?Nat.ltb_lt, ?Nat.ltb_ge; lia.
Qed.
Print Assumptions C86_stability_refuted.
