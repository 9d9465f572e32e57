(** * P_Num: property theorems for unumeric.h, uutility.h, uratio.h and the
    bit counting of ualgobase.cc (C40-C45). *)
From Verif Require Import Base UtilModel UtilSpec NumericModel UtilProofs NumericProofs NumericFacts.
From Coq Require Import ZArith NArith.
Local Open Scope Z_scope.

(** ** C40 *)
Theorem C40_accumulate {T A} (op : T -> A -> T) (l : list A) (init : T) :
  accumulate op l init = fold_left op l init.
Proof. exact (accumulate_fold op l init). Qed.
Print Assumptions C40_accumulate.

Theorem C40_iota {T} (succ : T -> T) n v :
  length (iota succ n v) = n /\
  forall i, (i < n)%nat -> nth_error (iota succ n v) i = Some (Nat.iter i succ v).
Proof. exact (conj (iota_length succ n v) (iota_nth succ n v)). Qed.
Print Assumptions C40_iota.

Theorem C40_inner_product {T A B P} (sum : T -> P -> T) (prod : A -> B -> P) l1 l2 init :
  (length l1 <= length l2)%nat ->
  inner_product sum prod l1 l2 init =
  Ok (fold_left (fun acc p => sum acc (prod (fst p) (snd p))) (combine l1 l2) init).
Proof. exact (inner_product_ok sum prod l1 l2 init). Qed.
Print Assumptions C40_inner_product.

(** Output position [i] holds the sum of the elements up to the i-th; nothing
    outside the output range changes. *)
Theorem C40_partial_sum {T} (op : T -> T -> T) (x : T) l pre o old post out r :
  length old = length l ->
  partial_sum op (x :: l) (pre ++ o :: old ++ post) (length pre) = Ok (out, r) ->
  exists s, out = pre ++ s ++ post /\ length s = S (length l) /\
  (forall i, (i <= length l)%nat -> nth_error s i = Some (fold_left (fun a y => op y a) (firstn i l) x)).
Proof. exact (partial_sum_value op x l pre o old post out r). Qed.
Print Assumptions C40_partial_sum.

Theorem C40_partial_sum_safe {T} (op : T -> T -> T) (x : T) l pre o old post :
  length old = length l ->
  exists out r, partial_sum op (x :: l) (pre ++ o :: old ++ post) (length pre) = Ok (out, r).
Proof. exact (fun H => ex_intro _ _ (ex_intro _ _ (partial_sum_ok op x l pre o old post H))). Qed.
Print Assumptions C40_partial_sum_safe.

(** power(x,n) for any multiplication that is associative with unit 1. *)
Theorem C40_power {T} (mul : T -> T -> T) (one : T) x n :
  (forall a b c, mul a (mul b c) = mul (mul a b) c) -> (forall y, mul one y = y) -> (0 < n)%N ->
  power_op one mul x n = Ok (iterop mul x (N.to_nat n)).
Proof. exact (fun A I P => power_op_ok mul A one x n (or_intror I) P). Qed.
Print Assumptions C40_power.

Example C40_example :
  accumulate Z.add [1; 2; 3] 10 = 16 /\ iota Z.succ 3 7 = [7; 8; 9] /\
  inner_product Z.add Z.mul [1; 2] [3; 4; 5] 0 = Ok 11 /\
  partial_sum Z.add [1; 2; 3] [9; 0; 0; 0; 8] 1 = Ok ([9; 1; 3; 6; 8], 3%nat) /\
  power_op 1 Z.mul 3 5%N = Ok 243.
Proof. repeat split. Qed.

(** ** C41: the loop never advances, so every output buffer is overrun. *)
Theorem C41_adjacent_difference_refuted {T} (op : T -> T -> T) (x y : T) l out result fuel :
  (length out < fuel)%nat ->
  adjacent_difference fuel op (x :: y :: l) out result = UB.
Proof. exact (adjdiff_UB op x y l out result fuel). Qed.
Print Assumptions C41_adjacent_difference_refuted.

Theorem C41_adjacent_difference_short_partial {T} (op : T -> T -> T) (x : T) pre o post fuel :
  adjacent_difference fuel op [] (pre ++ o :: post) (length pre) = Ok (pre ++ o :: post, length pre) /\
  adjacent_difference (S fuel) op [x] (pre ++ o :: post) (length pre) = Ok (pre ++ x :: post, S (length pre)).
Proof. cbn [adjacent_difference]. rewrite wr_mid by reflexivity. exact (conj eq_refl eq_refl). Qed.
Print Assumptions C41_adjacent_difference_short_partial.

Example C41_example : adjacent_difference 9 Z.sub [1; 4; 9] [0; 0; 0] 0 = UB.
Proof. reflexivity. Qed.

(** ** C42 *)
Theorem C42_power_op_refuted :
  exists (op : Z -> Z -> Z) x n, (forall a b c, op a (op b c) = op (op a b) c) /\ (0 < n)%N /\
    power_op 1 op x n <> Ok (iterop op x (N.to_nat n)).
Proof. exists Z.add, 2, 2%N. split; [exact Z.add_assoc|]. split; [reflexivity|discriminate]. Qed.
Print Assumptions C42_power_op_refuted.

(** Right for odd exponents with any associative operation, and for all
    exponents when the literal 1 is a unit; missing: even exponents otherwise. *)
Theorem C42_power_op_partial {T} (one : T) (op : T -> T -> T) x n :
  (forall a b c, op a (op b c) = op (op a b) c) ->
  (N.odd n = true \/ forall y, op one y = y) -> (0 < n)%N ->
  power_op one op x n = Ok (iterop op x (N.to_nat n)).
Proof. exact (fun A H P => power_op_ok op A one x n H P). Qed.
Print Assumptions C42_power_op_partial.

Example C42_example : power_op 1 Z.add 2 7%N = Ok 14 /\ N.odd 7 = true /\ power_op 1 Z.add 2 2%N = Ok 5.
Proof. repeat split. Qed.

(** ** C43 *)
Theorem C43_align_down n g : 0 <= n -> 0 < g ->
  exists r, align_down n g = Ok r /\ (g | r) /\ r <= n < r + g.
Proof. exact (align_down_ok n g). Qed.
Print Assumptions C43_align_down.

Theorem C43_align n g : 0 <= n -> 0 < g -> n + g - 1 < 2 ^ 64 ->
  exists r, align n g = Ok r /\ (g | r) /\ n <= r < n + g.
Proof. exact (align_ok n g). Qed.
Print Assumptions C43_align.

(** Rounds away from zero: the ceiling quotient for non-negative dividends. *)
Theorem C43_div_ru n1 n2 : 0 < n2 ->
  exists r, div_ru n1 n2 = Ok r /\
    (0 <= n1 -> n2 * (r - 1) < n1 <= n2 * r) /\
    (n1 < 0 -> n2 * r <= n1 < n2 * (r + 1)).
Proof. exact (div_ru_ok n1 n2). Qed.
Print Assumptions C43_div_ru.

Theorem C43_gcd a b : gcd a b = Ok (Z.gcd a b).
Proof. exact (gcd_ok a b). Qed.
Print Assumptions C43_gcd.

Theorem C43_lcm a b : a <> 0 \/ b <> 0 ->
  exists r, lcm a b = Ok r /\ Z.abs r = Z.lcm a b /\ (0 <= a -> 0 <= b -> r = Z.lcm a b).
Proof. exact (lcm_ok a b). Qed.
Print Assumptions C43_lcm.

Theorem C43_first_bit top v nbv : 0 <= v < 2 ^ (Z.of_nat top + 1) ->
  (v = 0 -> first_bit top v nbv = nbv) /\
  (v <> 0 -> 2 ^ first_bit top v nbv <= v < 2 ^ (first_bit top v nbv + 1)).
Proof. exact (first_bit_ok top v nbv). Qed.
Print Assumptions C43_first_bit.

Theorem C43_next_pow2_partial v : 2 <= v <= 2 ^ 31 ->
  exists k, 0 <= k /\ next_pow2 v = 2 ^ k /\ v <= 2 ^ k /\ (forall j, 0 <= j -> v <= 2 ^ j -> k <= j).
Proof. exact (next_pow2_least v). Qed.
Print Assumptions C43_next_pow2_partial.

(** NextPow2(1) is 2, not 1; above 2^31 it is 1. *)
Theorem C43_next_pow2_refuted :
  next_pow2 1 = 2 /\ forall v, 2 ^ 31 < v < 2 ^ 32 -> next_pow2 v = 1.
Proof. exact (conj next_pow2_1 next_pow2_big). Qed.
Print Assumptions C43_next_pow2_refuted.

Theorem C43_bswap n v :
  bytes_le n (bswap n v) = rev (bytes_le n v) /\
  (0 <= v < 256 ^ Z.of_nat n -> bswap n (bswap n v) = v).
Proof. exact (conj (bswap_bytes n v) (bswap_bswap n v)). Qed.
Print Assumptions C43_bswap.

Theorem C43_rol_partial w v n : 0 < n < w -> 0 <= v < 2 ^ w ->
  exists r, rol w v n = Ok r /\ 0 <= r < 2 ^ w /\
    (forall i, 0 <= i < w -> Z.testbit r ((i + n) mod w) = Z.testbit v i) /\
    ror w r n = Ok v.
Proof.
  exact (fun Hn Hv => match rol_ok w v n Hn Hv with
    ex_intro _ r (conj E (conj R B)) => ex_intro _ r (conj E (conj R (conj B (rol_ror w v n r Hn Hv E)))) end).
Qed.
Print Assumptions C43_rol_partial.

(** Rotating by zero shifts by the full word width. *)
Theorem C43_rol_zero_refuted w v : rol w v 0 = UB /\ ror w v 0 = UB.
Proof. unfold rol, ror. rewrite Z.sub_0_r, Z.leb_refl, orb_true_r. exact (conj eq_refl eq_refl). Qed.
Print Assumptions C43_rol_zero_refuted.

Theorem C43_pack_type s : 0 <= s < 256 ->
  pack_type 8 32 s = Ok (of_bytes_le (repeat s 4)) /\ pack_type 8 64 s = Ok (of_bytes_le (repeat s 8)).
Proof. exact (fun H => conj (pack8_32 s H) (pack8_64 s H)). Qed.
Print Assumptions C43_pack_type.
(** Any sizes: bit i of the wide value is bit (i mod h) of the small one. *)
Theorem C43_pack_type_bits (h s : Z) (j : nat) : 0 < h -> 0 <= s < 2 ^ h ->
  exists r, pack_type h (h * 2 ^ Z.of_nat j) s = Ok r /\ 0 <= r < 2 ^ (h * 2 ^ Z.of_nat j) /\
    forall i, 0 <= i < h * 2 ^ Z.of_nat j -> Z.testbit r i = Z.testbit s (i mod h).
Proof. exact (pack_type_bits h s j). Qed.
Print Assumptions C43_pack_type_bits.
(** A negative small value is extended first: packing the char 0xFE gives
    0xFFFFFFFE, not 0xFEFEFEFE. *)
Theorem C43_pack_signed_refuted : pack_type 8 32 (u32 (-2)) = Ok 0xFFFFFFFE /\ of_bytes_le (repeat 0xFE 4) = 0xFEFEFEFE.
Proof. split; reflexivity. Qed.
Print Assumptions C43_pack_signed_refuted.

Theorem C43_min_max_abs_sign a b :
  umin a b = Z.min a b /\ umax a b = Z.max a b /\ absv a = Z.abs a /\ sign a = Z.sgn a.
Proof. exact (conj (umin_spec a b) (conj (umax_spec a b) (conj (absv_abs a) (sign_sgn a)))). Qed.
Print Assumptions C43_min_max_abs_sign.

Example C43_example :
  align 13 8 = Ok 16 /\ align 16 8 = Ok 16 /\ align_down 13 8 = Ok 8 /\ div_ru 7 2 = Ok 4 /\ div_ru (-7) 2 = Ok (-4) /\
  gcd 12 (-18) = Ok 6 /\ lcm 4 6 = Ok 12 /\ first_bit 31 40 0 = 5 /\ next_pow2 33 = 64 /\
  bswap 4 0x12345678 = 0x78563412 /\ rol 32 0x80000001 4 = Ok 0x18 /\ ror 32 0x18 4 = Ok 0x80000001.
Proof. repeat split. Qed.

(** ** C44 *)
Theorem C44_popcount32 v : 0 <= v < 2 ^ 32 -> popcount32 v = ones 32 v.
Proof. exact (popcount32_ok v). Qed.
Print Assumptions C44_popcount32.

Theorem C44_popcount64 v : 0 <= v < 2 ^ 64 -> popcount64 v = ones 64 v.
Proof. exact (popcount64_ok v). Qed.
Print Assumptions C44_popcount64.

Example C44_example : popcount32 0xF00000F1 = 9 /\ popcount64 0xFFFFFFFF00000001 = 33.
Proof. repeat split. Qed.

(** ** C45 *)
Theorem C45_ratio n d : d <> 0 -> exists p, ratio n d = Ok p /\ lowest p /\ same_ratio p (n, d).
Proof. exact (ratio_ok n d). Qed.
Print Assumptions C45_ratio.

Theorem C45_ratio_add r1 r2 : lowest r1 -> lowest r2 ->
  exists p, ratio_add r1 r2 = Ok p /\ lowest p /\
    same_ratio p (fst r1 * snd r2 + fst r2 * snd r1, snd r1 * snd r2).
Proof. exact (ratio_add_ok r1 r2). Qed.
Print Assumptions C45_ratio_add.

Theorem C45_ratio_subtract r1 r2 : lowest r1 -> lowest r2 ->
  exists p, ratio_subtract r1 r2 = Ok p /\ lowest p /\
    same_ratio p (fst r1 * snd r2 - fst r2 * snd r1, snd r1 * snd r2).
Proof. exact (ratio_subtract_ok r1 r2). Qed.
Print Assumptions C45_ratio_subtract.

Theorem C45_ratio_multiply r1 r2 : lowest r1 -> lowest r2 ->
  exists p, ratio_multiply r1 r2 = Ok p /\ lowest p /\ same_ratio p (fst r1 * fst r2, snd r1 * snd r2).
Proof. exact (ratio_multiply_ok r1 r2). Qed.
Print Assumptions C45_ratio_multiply.

Theorem C45_ratio_divide r1 r2 : lowest r1 -> lowest r2 -> fst r2 <> 0 ->
  exists p, ratio_divide r1 r2 = Ok p /\ lowest p /\ same_ratio p (fst r1 * snd r2, snd r1 * fst r2).
Proof. exact (ratio_divide_ok r1 r2). Qed.
Print Assumptions C45_ratio_divide.

Theorem C45_ratio_equal r1 r2 : lowest r1 -> lowest r2 -> (ratio_equal r1 r2 = true <-> same_ratio r1 r2).
Proof. exact (ratio_equal_ok r1 r2). Qed.
Print Assumptions C45_ratio_equal.

Theorem C45_ratio_less r1 r2 : lowest r1 -> lowest r2 ->
  exists b, ratio_less r1 r2 = Ok b /\ (b = true <-> fst r1 * snd r2 < fst r2 * snd r1).
Proof. exact (ratio_less_ok r1 r2). Qed.
Print Assumptions C45_ratio_less.

Theorem C45_ratio_less_equal r1 r2 : lowest r1 -> lowest r2 ->
  exists b, ratio_less_equal r1 r2 = Ok b /\ (b = true <-> fst r1 * snd r2 <= fst r2 * snd r1).
Proof. exact (ratio_less_equal_ok r1 r2). Qed.
Print Assumptions C45_ratio_less_equal.

Example C45_example :
  ratio 6 (-4) = Ok (-3, 2) /\ lowest (-3, 2) /\ lowest (1, 6) /\
  ratio_add (-3, 2) (1, 6) = Ok (-4, 3) /\ ratio_multiply (-3, 2) (1, 6) = Ok (-1, 4) /\
  ratio_divide (-3, 2) (1, 6) = Ok (-9, 1) /\ ratio_less (-3, 2) (1, 6) = Ok true.
Proof. repeat split. Qed.
