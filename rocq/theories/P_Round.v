(** * P_Round: C216, C217 rounding floating point numbers to integers. *)
From Verif Require Import Base RoundModel RoundSpec RoundProofs.
From Coq Require Import ZArith List Lia.
Import ListNotations.
Local Open Scope Z_scope.

(** ** C216 *)
(** The nearest integer is determined, and every value has one. *)
Theorem C216_nearest (x : fp) : exists n, nearest_even x n /\ forall n', nearest_even x n' -> n' = n.
Proof. exists (rint x). split; [apply rint_ok|]. intros n' H. exact (nearest_unique _ _ _ H (rint_ok x)). Qed.
Print Assumptions C216_nearest.
(** Every float whose nearest integer n fits is rounded to n: to int32_t, to
    any type D by the generic functor, and every double to int32_t. *)
Theorem C216_round (x : fp) (n : Z) (t : ity) : nearest_even x n ->
  (fits i32 n -> fround_f_i32 x = Ok n /\ fround_d_i32 x = Ok n) /\
  (fits t n -> fround_f t x = Ok n).
Proof.
  intros H. pose proof (nearest_unique _ _ _ H (rint_ok x)) as E. split.
  - intros F. split; [unfold fround_f_i32; rewrite (cvt_ok _ _ H F); reflexivity|].
    unfold fround_d_i32. rewrite <- E. apply to_int_ok, F.
  - intros F. unfold fround_f. rewrite <- E. apply to_int_ok, F.
Qed.
Print Assumptions C216_round.
(** pround of a whole container: element by element, the rest of the target is
    kept; the accelerated form for four floats gives the same. *)
Theorem C216_pround {A B} (f : A -> outcome B) (op1 : list A) (op2 ys : list B) :
  (length op1 <= length op2)%nat -> Forall2 (fun x y => f x = Ok y) op1 ys ->
  pconvert f op1 op2 = Ok (ys ++ skipn (length op1) op2).
Proof. exact (pconvert_ok f op1 op2 ys). Qed.
Print Assumptions C216_pround.
Theorem C216_pround4 (op1 : list fp) (op2 ns : list Z) : length op1 = 4%nat -> length op2 = 4%nat ->
  Forall2 (fun x n => nearest_even x n /\ fits i32 n) op1 ns -> pconvert4 op1 op2 = Ok ns.
Proof.
  intros L1 L2 F.
  assert (E : pconvert4 op1 op2 = pconvert fround_f_i32 op1 op2).
  { destruct op1 as [|a [|b [|c [|d [|? ?]]]]]; try discriminate L1.
    destruct op2 as [|w [|x [|y [|z [|? ?]]]]]; try discriminate L2. reflexivity. }
  rewrite E, (C216_pround fround_f_i32 op1 op2 ns).
  - rewrite L1, <- L2, skipn_all, app_nil_r. reflexivity.
  - lia.
  - clear -F. induction F as [|x n l l' [N I] F IH]; constructor; [|exact IH].
    exact (proj1 (proj1 (C216_round x n i32 N) I)).
Qed.
Print Assumptions C216_pround4.
(** 2.5, -3.5, 1e9+0.25 and 7/4 are rounded to 2, -4, 1e9 and 2. *)
Example C216_example : pconvert4 [Fp 5 (-1); Fp (-7) (-1); Fp 4000000001 (-2); Fp 7 (-2)] [0; 0; 0; 0] = Ok [2; -4; 1000000000; 2].
Proof. reflexivity. Qed.
Example C216_example_nearest : nearest_even (Fp 5 (-1)) 2 /\ nearest_even (Fp (-7) (-1)) (-4) /\ ~ nearest_even (Fp 5 (-1)) 3.
Proof.
  unfold nearest_even, scaled, scale. cbn. split; [split; [lia|auto]|]. split; [split; [lia|auto]|].
  intros [_ A]. specialize (A eq_refl). discriminate.
Qed.

(** ** C217 *)
(** 3e9f fits in uint32_t, but is rounded to 2^31. *)
Theorem C217_unsigned_refuted : exists x, is_float x /\ nearest_even x 3000000000 /\ fits u32 3000000000 /\
  fround_f_u32 x = Ok 2147483648.
Proof.
  exists (Fp 11718750 8). split; [vm_compute; reflexivity|]. split; [|split; [vm_compute; split; discriminate|vm_compute; reflexivity]].
  unfold nearest_even, scaled, scale. cbn. split; [lia|discriminate].
Qed.
Print Assumptions C217_unsigned_refuted.
(** The double 16777217 is an integer; rounded to int64_t it becomes 16777216. *)
Theorem C217_double_refuted : exists x, nearest_even x 16777217 /\ scaled x = 16777217 * scale x /\ fits i64 16777217 /\
  fround_d i64 x = Ok 16777216.
Proof.
  exists (Fp 16777217 0). split; [|split; [reflexivity|split; [vm_compute; split; discriminate|vm_compute; reflexivity]]].
  unfold nearest_even, scaled, scale. cbn. split; [lia|discriminate].
Qed.
Print Assumptions C217_double_refuted.
(** The double 32767.4999990... has the nearest integer 32767, a value of
    int16_t; rounding it to int16_t is undefined. *)
Theorem C217_double_overflow_refuted : exists x, nearest_even x 32767 /\ fits i16 32767 /\ fround_d i16 x = UB.
Proof.
  exists (Fp (32767 * 2 ^ 20 + 524287) (-20)). split; [|split; [vm_compute; split; discriminate|vm_compute; reflexivity]].
  unfold nearest_even, scaled, scale. cbn. split; [lia|intros; lia].
Qed.
Print Assumptions C217_double_overflow_refuted.
(** What holds: floats below 2^31 are rounded right to uint32_t, and doubles
    that are values of float to any type. *)
Theorem C217_round_partial (x : fp) (n : Z) (t : ity) : nearest_even x n ->
  (0 <= n < 2 ^ 31 -> fround_f_u32 x = Ok n) /\ (is_float x -> fits t n -> fround_d t x = Ok n).
Proof.
  intros H. split.
  - intros B. unfold fround_f_u32. rewrite (cvt_ok x n H); [rewrite Z.mod_small; [reflexivity|lia]|].
    unfold fits, i32. cbn [tlo thi]. lia.
  - intros F I. unfold fround_d. rewrite (to_float_id x F). rewrite <- (nearest_unique _ _ _ H (rint_ok x)). apply to_int_ok, I.
Qed.
Print Assumptions C217_round_partial.
