(** * Properties C69 and C70: tuple, array and packed operations. *)
From Verif Require Import Base Order ExampleOrders TupleModel TupleSpec TupleProofs.
From Coq Require Import ZArith.
Local Open Scope nat_scope.

(** C69.  Construction: with at most N values the first ones are the elements
    and the last one is repeated, whatever the storage held. *)
Theorem C69_tuple_of {T} (N : nat) (a vs : list T) (v : T) :
  length a = N -> length vs + 1 <= N ->
  tuple_of N a (vs ++ [v]) = Ok (vs ++ repeat v (N - length vs)).
Proof.
  intros La L. unfold tuple_of. pose proof (set_values_ok vs v [] a N ltac:(lia) ltac:(cbn; lia)) as E.
  cbn [app length] in E. now rewrite Nat.sub_0_r in E.
Qed.
Print Assumptions C69_tuple_of.

(** Assignment from a list of any length: truncated, or filled up with T(). *)
Theorem C69_tuple_assign {T} (dflt : T) (N : nat) (a il : list T) :
  length a = N ->
  tuple_assign dflt N a il = Ok (firstn N il ++ repeat dflt (N - length il)).
Proof.
  intros La. unfold tuple_assign. set (isz := Nat.min (length il) N).
  pose proof (copy_n_ok isz [] (firstn isz a) (skipn isz a) il 0) as E. cbn [app length Nat.add] in E.
  rewrite firstn_skipn in E. rewrite E by (rewrite ?firstn_length; lia). rewrite bind_Ok.
  unfold slice. rewrite Nat.sub_0_r. cbn [skipn].
  assert (length (firstn isz il) = isz) by (rewrite firstn_length; lia).
  pose proof (fill_from_ok dflt (N - isz) (firstn isz il) (skipn isz a) []) as F.
  rewrite !app_nil_r, H in F. rewrite F by (rewrite skipn_length; lia). f_equal.
  unfold isz. destruct (Nat.le_gt_cases (length il) N).
  - rewrite Nat.min_l, !firstn_all2 by lia. reflexivity.
  - rewrite Nat.min_r by lia. replace (N - length il) with (N - N) by lia. reflexivity.
Qed.
Print Assumptions C69_tuple_assign.

(** Arithmetic with a value, with a tuple, with an initialiser list (tuple). *)
Theorem C69_arithmetic {T} (f : T -> T -> T) (N : nat) (a b il : list T) (v : T) :
  length a = N -> length b = N ->
  op_scalar f N a v = Ok (map (fun x => f x v) a) /\
  op_tuple f N a b = Ok (map2 f a b) /\
  tuple_op_init f N a il = Ok (map2 f a il ++ skipn (length il) a).
Proof.
  intros La Lb. repeat split.
  - unfold op_scalar. pose proof (each_loop_ok (fun x => f x v) a []) as E. cbn [app length] in E. now rewrite La in E.
  - now apply op_tuple_ok.
  - unfold tuple_op_init.
    pose proof (zip_loop_ok f (Nat.min N (length il)) a il [] [] eq_refl ltac:(lia) ltac:(lia)) as E.
    cbn [app length] in E. rewrite E. f_equal. destruct (Nat.le_gt_cases (length il) N).
    + rewrite Nat.min_r by lia. rewrite (firstn_all2 il) by lia. f_equal.
      unfold map2. f_equal. clear -H La. subst N. revert il H.
      induction a as [|x a IH]; intros [|y il] H; cbn in *; try lia; auto. f_equal. apply IH. lia.
    + rewrite Nat.min_l by lia. rewrite firstn_all2, !skipn_all2 by lia. f_equal.
      unfold map2. f_equal. clear -H La. subst N. revert il H.
      induction a as [|x a IH]; intros [|y il] H; cbn in *; try lia; auto. f_equal. apply IH. lia.
Qed.
Print Assumptions C69_arithmetic.

(** == is equality of the elements, < is the lexicographic order. *)
Theorem C69_comparison {T} (eqb lt : T -> T -> bool) (N : nat) (a b : list T) :
  DecEq eqb -> StrictWeak lt -> length a = N -> length b = N ->
  (exists r, tuple_eq eqb N a b = Ok r /\ (r = true <-> a = b)) /\
  (exists r, tuple_less lt N a b = Ok r /\ (r = true <-> lex_before lt a b)).
Proof.
  intros D W La Lb. subst N. split.
  - apply (eq_loop_ok eqb D a b [] []); auto.
  - apply (less_loop_ok lt) with (pre := []) (pre2 := []); auto.
    intros x y H. destruct (lt y x) eqn:E; auto. destruct W as (I & Tr & _).
    pose proof (Tr _ _ _ H E). rewrite I in H0. discriminate.
Qed.
Print Assumptions C69_comparison.

Theorem C69_swap {T} (N : nat) (a b : list T) :
  length a = N -> length b = N -> tuple_swap N a b = Ok (b, a).
Proof. intros La Lb. subst N. apply (swap_loop_ok a b [] []); auto. Qed.
Print Assumptions C69_swap.

(** array += { ... } reads N elements of the list even if it has fewer. *)
Theorem C69_array_init_refuted :
  tuple_op_init Nat.add 3 [1; 2; 3] [10] = Ok [11; 2; 3] /\
  array_op_init Nat.add 3 [1; 2; 3] [10] = UB.
Proof. split; reflexivity. Qed.
Print Assumptions C69_array_init_refuted.

Theorem C69_array_init_partial {T} (f : T -> T -> T) (N : nat) (a il : list T) :
  length a = N -> N <= length il ->
  array_op_init f N a il = Ok (map2 f a (firstn N il)).
Proof.
  intros La L. unfold array_op_init. pose proof (zip_loop_ok f N a il [] [] eq_refl ltac:(lia) ltac:(lia)) as E.
  cbn [app length] in E. rewrite firstn_all2, skipn_all2, app_nil_r in E by lia. exact E.
Qed.
Print Assumptions C69_array_init_partial.

Example C69_nonvacuous :
  tuple_of 4 [9; 9; 9; 9] [1; 2] = Ok [1; 2; 2; 2] /\
  tuple_assign 0 4 [9; 9; 9; 9] [5; 6] = Ok [5; 6; 0; 0] /\
  op_tuple Nat.sub 3 [9; 8; 7] [1; 2; 3] = Ok [8; 6; 4] /\
  tuple_less Nat.ltb 3 [1; 2; 3] [1; 3; 0] = Ok true /\ lex_before Nat.ltb [1; 2; 3] [1; 3; 0] /\
  tuple_less Nat.ltb 3 [1; 4; 3] [1; 3; 5] = Ok false.
Proof.
  repeat split; try reflexivity. exists 1, 2, 3. repeat split. intros [|j] x y Hj; [|lia]. cbn. intros [= <-] [= <-]. reflexivity.
Qed.

Local Open Scope Z_scope.
(** C70.  Addition, subtraction and the bit operations: the MMX variants and the
    generic loop both compute, modulo 2^w, the operation on each pair of
    elements (destination first), for every element width and signedness. *)
Theorem C70_packed_modular (sgn : bool) (w : Z) (N : nat) (oin oout : list Z) :
  1 <= w -> length oin = N -> length oout = N ->
  mmx_pkop2 (i_padd sgn w) N oin oout = Ok (map2 (fun d s => conv sgn w (d + s)) oout oin) /\
  mmx_pkop2 (i_psub sgn w) N oin oout = Ok (map2 (fun d s => conv sgn w (d - s)) oout oin) /\
  mmx_pkop2 (i_pand sgn w) N oin oout = Ok (map2 (fun d s => conv sgn w (Z.land d s)) oout oin) /\
  mmx_pkop2 (i_por sgn w) N oin oout = Ok (map2 (fun d s => conv sgn w (Z.lor d s)) oout oin) /\
  mmx_pkop2 (i_pxor sgn w) N oin oout = Ok (map2 (fun d s => conv sgn w (Z.lxor d s)) oout oin) /\
  packop2 (f_plus sgn w) N oin oout = Ok (map2 (fun d s => conv sgn w (d + s)) oout oin) /\
  packop2 (f_minus sgn w) N oin oout = Ok (map2 (fun d s => conv sgn w (d - s)) oout oin) /\
  packop2 (f_and sgn w) N oin oout = Ok (map2 (fun d s => conv sgn w (Z.land d s)) oout oin) /\
  packop2 (f_or sgn w) N oin oout = Ok (map2 (fun d s => conv sgn w (Z.lor d s)) oout oin) /\
  packop2 (f_xor sgn w) N oin oout = Ok (map2 (fun d s => conv sgn w (Z.lxor d s)) oout oin).
Proof.
  intros Hw Li Lo. rewrite !mmx_pkop2_ok, !packop2_ok by assumption.
  repeat split; apply f_equal; (reflexivity || apply map2_ext with (P := fun _ => True) (Q := fun _ => True);
    [|now apply Forall_forall|now apply Forall_forall]); intros x y _ _.
  - now apply padd_ok.
  - now apply psub_ok.
  - now apply pand_ok.
  - now apply por_ok.
  - now apply pxor_ok.
Qed.
Print Assumptions C70_packed_modular.

(** The same for the four 32 bit elements in two registers. *)
Theorem C70_packed_double (sgn : bool) (f : Z -> Z -> Z) (oin oout : list Z) :
  length oin = 4%nat -> length oout = 4%nat ->
  mmx_dbl_pkop2 (i_padd sgn 32) oin oout = Ok (map2 (fun d s => conv sgn 32 (d + s)) oout oin) /\
  mmx_dbl_pkop2 (i_psub sgn 32) oin oout = Ok (map2 (fun d s => conv sgn 32 (d - s)) oout oin) /\
  mmx_dbl_pkop2 f oin oout = Ok (map2 f oout oin).
Proof.
  intros Li Lo. rewrite !mmx_dbl_pkop2_ok by assumption. repeat split; f_equal;
    (apply map2_ext with (P := fun _ => True) (Q := fun _ => True);
    [|now apply Forall_forall|now apply Forall_forall]); intros x y _ _.
  - apply padd_ok. lia.
  - apply psub_ok. lia.
Qed.
Print Assumptions C70_packed_double.

(** Saturation, average, minimum, maximum of unsigned elements: the MMX lanes
    and the scalar functors agree with the mathematical operation. *)
Theorem C70_packed_unsigned (w : Z) (N : nat) (oin oout : list Z) :
  1 <= w -> length oin = N -> length oout = N ->
  Forall (of_type false w) oin -> Forall (of_type false w) oout ->
  mmx_pkop2 (i_paddus w) N oin oout = Ok (map2 (fun d s => Z.min (2 ^ w - 1) (d + s)) oout oin) /\
  mmx_pkop2 (i_psubus w) N oin oout = Ok (map2 (fun d s => Z.max 0 (d - s)) oout oin) /\
  mmx_pkop2 (i_pavg false w) N oin oout = Ok (map2 (fun d s => (d + s + 1) / 2) oout oin) /\
  mmx_pkop2 (i_pminu w) N oin oout = Ok (map2 Z.min oout oin) /\
  mmx_pkop2 (i_pmaxu w) N oin oout = Ok (map2 Z.max oout oin) /\
  packop2 (fpadds false w) N oin oout = Ok (map2 (fun d s => Z.min (2 ^ w - 1) (d + s)) oout oin) /\
  packop2 (fpsubs false w) N oin oout = Ok (map2 (fun d s => Z.max 0 (d - s)) oout oin) /\
  packop2 (fpavg false w) N oin oout = Ok (map2 (fun d s => (d + s + 1) / 2) oout oin) /\
  packop2 fpmin N oin oout = Ok (map2 Z.min oout oin) /\
  packop2 fpmax N oin oout = Ok (map2 Z.max oout oin).
Proof.
  intros Hw Li Lo Fi Fo. rewrite !mmx_pkop2_ok, !packop2_ok by assumption.
  repeat split; apply f_equal;
    apply map2_ext with (P := of_type false w) (Q := of_type false w); auto; intros x y Hx Hy.
  - now apply paddus_ok.
  - now apply psubus_ok.
  - now apply pavgu_ok.
  - now apply pminmaxu_ok.
  - now apply pminmaxu_ok.
  - now apply paddus_ok.
  - now apply psubus_ok.
  - now apply pavgu_ok.
  - apply (fpmin_ok w); auto.
  - apply (fpmax_ok w); auto.
Qed.
Print Assumptions C70_packed_unsigned.

(** Signed elements: the MMX saturating and min/max variants are right; the
    scalar psubs only where the difference does not exceed the maximum.
    Missing: the overflow upwards, and the signed average (refuted below). *)
Theorem C70_packed_signed_partial (w : Z) (N : nat) (oin oout : list Z) :
  1 <= w -> length oin = N -> length oout = N ->
  Forall (of_type true w) oin -> Forall (of_type true w) oout ->
  let sat x := Z.max (- 2 ^ (w - 1)) (Z.min (2 ^ (w - 1) - 1) x) in
  mmx_pkop2 (i_padds w) N oin oout = Ok (map2 (fun d s => sat (d + s)) oout oin) /\
  mmx_pkop2 (i_psubs w) N oin oout = Ok (map2 (fun d s => sat (d - s)) oout oin) /\
  mmx_pkop2 (i_pmins w) N oin oout = Ok (map2 Z.min oout oin) /\
  mmx_pkop2 (i_pmaxs w) N oin oout = Ok (map2 Z.max oout oin) /\
  (Forall (fun s => 0 <= s) oin -> packop2 (fpsubs true w) N oin oout = Ok (map2 (fun d s => sat (d - s)) oout oin)).
Proof.
  intros Hw Li Lo Fi Fo sat. rewrite !mmx_pkop2_ok, !packop2_ok by assumption.
  split; [|split; [|split; [|split]]]; [apply f_equal..|intros Fp; apply f_equal].
  1-4: apply map2_ext with (P := of_type true w) (Q := of_type true w); auto; intros x y Hx Hy.
  - now apply padds_ok.
  - now apply psubs_ok.
  - now apply pminmaxs_ok.
  - now apply pminmaxs_ok.
  - apply map2_ext with (P := of_type true w) (Q := fun s => of_type true w s /\ 0 <= s); auto.
    + intros x y Hx (Hy & Py). apply fpsubs_s; auto.
    + rewrite Forall_forall in *. intros z Hz. split; auto.
Qed.
Print Assumptions C70_packed_signed_partial.

(** tuple<3,int8_t>: 127 - (-1) "with saturation" is -128. *)
Theorem C70_psubs_refuted : packop2 (fpsubs true 8) 3 [-1; -1; -1] [127; 5; -3] = Ok [-128; 6; -2].
Proof. reflexivity. Qed.
Print Assumptions C70_psubs_refuted.

(** The average of -1 and 1 in a tuple<8,int8_t> (pavgb) is -128, that of -3
    and -3 in a tuple<3,int8_t> is -2. *)
Theorem C70_pavg_refuted :
  mmx_pkop2 (i_pavg true 8) 8 [-1; 0; 0; 0; 0; 0; 0; 0] [1; 0; 0; 0; 0; 0; 0; 0] = Ok [-128; 0; 0; 0; 0; 0; 0; 0] /\
  packop2 (fpavg true 8) 3 [-3; 0; 0] [-3; 0; 0] = Ok [-2; 0; 0].
Proof. split; reflexivity. Qed.
Print Assumptions C70_pavg_refuted.

(** The packed operations of one operand (psqrt, precip, psin, ...) leave every
    container as it was, whatever the operation. *)
Theorem C70_unary_refuted {T} (op : T -> T) (a : list T) :
  packop1 op a (length a) 0 = Ok a.
Proof. apply packop1_ok. cbn. lia. Qed.
Print Assumptions C70_unary_refuted.

Example C70_nonvacuous :
  Forall (of_type false 8) [200; 1] /\ Forall (of_type false 8) [100; 0] /\
  mmx_pkop2 (i_paddus 8) 2 [200; 1] [100; 0] = Ok [255; 1] /\
  mmx_pkop2 (i_psub true 8) 2 [1; 127] [-128; 3] = Ok [127; -124] /\
  packop2 (f_minus true 8) 2 [1; 127] [-128; 3] = Ok [127; -124].
Proof. repeat split; try reflexivity; repeat constructor; cbn; try lia; discriminate. Qed.
