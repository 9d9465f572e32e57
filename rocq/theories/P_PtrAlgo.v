(** * P_PtrAlgo: stable_sort, stable_partition and partial_sort_copy on vectors
    and arrays (C87, C88). *)
From Verif Require Import Base Order UtilModel ByteModel StoreModel ArrayModel ArrayProofs SortProofs PermProofs PartialSortProofs
  ExampleOrders VectorFacts PtrAlgoModel PtrAlgoSpec PtrAlgoProofs.
From Coq Require Import ZArith.
Local Open Scope nat_scope.

(** ** C87 *)
(** Elements of two bytes or more. *)
Theorem C87_stable_sort {A} e es base (lt : A -> A -> bool) (W : StrictWeak lt) pre l post :
  (2 <= es)%Z -> block_at e es base (length (pre ++ l ++ post)) ->
  exists r, p_stable_sort e es base lt (pre ++ l ++ post) (length pre) (length pre + length l)
            = Ok (pre ++ r ++ post) /\
            Ascending lt r /\ Permutation r l /\
            (forall v, filter (equiv lt v) r = filter (equiv lt v) l).
Proof.
  intros He B. unfold p_stable_sort.
  rewrite p_stable_sort_loop_same; [exact (stable_sort_spec lt W pre l post)|exact He|lia| |exact B].
  rewrite !app_length. lia.
Qed.
Print Assumptions C87_stable_sort.

(** Elements whose size is a multiple of four. *)
Theorem C87_stable_partition {A} e es base (pred : A -> bool) pre l post :
  (0 < es)%Z -> (es mod 4 = 0)%Z -> block_at e es base (length (pre ++ l ++ post)) ->
  p_stable_partition e es base pred (pre ++ l ++ post) (length pre) (length pre + length l)
  = Ok (pre ++ (filter pred l ++ filter (fun x => negb (pred x)) l) ++ post,
        length pre + length (filter pred l)).
Proof.
  intros He E4 B. unfold p_stable_partition.
  rewrite p_stable_partition_same; [exact (stable_partition_spec pred pre l post)|exact E4|exact He|lia| |exact B].
  rewrite !app_length. lia.
Qed.
Print Assumptions C87_stable_partition.

Example C87_example : block_at env0 2 4096 5 /\ block_at env0 4 4100 6 /\
  p_stable_sort env0 2 4096 key_lt [(3,0); (1,0); (3,1); (1,1); (2,0)] 0 5
  = Ok [(1,0); (1,1); (2,0); (3,0); (3,1)] /\
  p_stable_partition env0 4 4100 Nat.even [1; 4; 3; 2; 6; 5] 0 6 = Ok ([4; 2; 6; 1; 3; 5], 3).
Proof.
  split; [unfold block_at, env0; cbn [stack_at]; lia|]. split; [unfold block_at, env0; cbn [stack_at]; lia|].
  split; lazy; reflexivity.
Qed.

(** ** C88 *)
(** Sorting the four characters a c d b in a block of its own crashes,
    wherever the block is, if a < b < c < d. *)
Theorem C88_stable_sort_char_refuted {A} e base (lt : A -> A -> bool) a b c d :
  StrictWeak lt -> lt a b = true -> lt b c = true -> lt c d = true ->
  (base mod 16 = 0)%Z -> (16 <= base)%Z -> (base + 4 <= stack_at e)%Z -> (stack_at e < 2 ^ 62)%Z ->
  p_stable_sort e 1 base lt [a; c; d; b] 0 4 = UB.
Proof.
  intros W H1 H2 H3 B16 B0 B1 B2.
  assert (Z1 : lt c a = false) by (destruct W as (I & T & _); destruct (lt c a) eqn:E; [|reflexivity];
    rewrite <- (I a); symmetry; eapply T; [exact H1|]; eapply T; [exact H2|exact E]).
  assert (Z2 : lt d c = false) by (destruct W as (I & T & _); destruct (lt d c) eqn:E; [|reflexivity];
    rewrite <- (I c); symmetry; eapply T; [exact H3|exact E]).
  assert (Z3 : lt b d = true) by (destruct W as (_ & T & _); eapply T; eassumption).
  assert (Z4 : lt b a = false) by (destruct W as (I & T & _); destruct (lt b a) eqn:E; [|reflexivity];
    rewrite <- (I a); symmetry; eapply T; [exact H1|exact E]).
  unfold p_stable_sort. cbn [p_stable_sort_loop ss_inner Nat.ltb Nat.leb Nat.add Nat.sub rd nth_error bind].
  rewrite Z1. cbn. rewrite Z2. cbn. rewrite Z3. cbn. rewrite H2. cbn. rewrite Z4. cbn.
  rewrite rotate_bytes_crash; auto.
Qed.
Print Assumptions C88_stable_sort_char_refuted.

(** Two byte elements: partitioning into even and odd numbers crashes. *)
Theorem C88_stable_partition_short_refuted :
  exists l : list nat, block_at env0 2 4096 (length l) /\
    p_stable_partition env0 2 4096 Nat.even l 0 (length l) = UB.
Proof.
  exists [2; 1; 3; 5; 4; 6; 7; 9]. split; [unfold block_at, env0; cbn [stack_at length]; lia|lazy; reflexivity].
Qed.
Print Assumptions C88_stable_partition_short_refuted.

(** partial_sort_copy into one or two byte integers crashes as soon as its
    first two input elements are in order. *)
Theorem C88_partial_sort_copy_refuted {A} es base (lt : A -> A -> bool) x y t a :
  (es = 1 \/ es = 2)%Z -> lt x y = true -> 2 <= length a -> (0 < base)%Z -> (base mod 4 = 0)%Z ->
  p_partial_sort_copy es base lt (x :: y :: t) a 0 (length a) = UB.
Proof. exact (partial_sort_copy_crash es base lt x y t a). Qed.
Print Assumptions C88_partial_sort_copy_refuted.

Example C88_example : p_stable_sort env0 1 4096 Nat.ltb [1; 5; 6; 3] 0 4 = UB /\
  p_partial_sort_copy 1 4096 Nat.ltb [1; 2] [0; 0; 0] 0 3 = UB.
Proof. split; lazy; reflexivity. Qed.
