(** * Utf8Proofs *)
From Verif Require Import Base UtilModel UtilProofs Utf8Model Utf8Spec.
From Coq Require Import ZArith ZifyBool ZifyNat.
Local Open Scope Z_scope.

(** ** Finite facts about bytes *)
Lemma all_below (n : nat) (P : Z -> bool) : forallb P (map Z.of_nat (seq 0 n)) = true -> forall x, 0 <= x < Z.of_nat n -> P x = true.
Proof.
  intros H x Hx. rewrite forallb_forall in H. apply H. apply in_map_iff. exists (Z.to_nat x). split; [lia|]. apply in_seq. lia.
Qed.
Definition lead (c : Z) : Z :=
  if c <? 192 then 1 else if c <? 224 then 2 else if c <? 240 then 3 else if c <? 248 then 4
  else if c <? 252 then 5 else if c <? 254 then 6 else if c <? 255 then 7 else 8.
Lemma seq_bytes_lead c : 0 <= c < 256 -> seq_bytes c = Ok (lead c).
Proof.
  intros H. pose proof (all_below 256 (fun c => match seq_bytes c with Ok n => n =? lead c | _ => false end) eq_refl c H) as E. cbn beta in E.
  destruct (seq_bytes c); try discriminate. f_equal. lia.
Qed.
Lemma land63 x : Z.land x 63 = x mod 64.
Proof. exact (Z.land_ones x 6 ltac:(lia)). Qed.
Lemma lor128 x : 0 <= x < 64 -> Z.lor x 128 = x + 128.
Proof. intros H. pose proof (all_below 64 (fun x => Z.lor x 128 =? x + 128) eq_refl x H) as E. cbn beta in E. lia. Qed.
Lemma shr_div v s : 0 <= s < 32 -> shr32 v s = Ok (v / 2 ^ s).
Proof. intros H. unfold shr32. replace (s <? 32) with true by lia. now rewrite Z.shiftr_div_pow2 by lia. Qed.
Lemma u32_id x : 0 <= x < 2 ^ 32 -> u32 x = x.
Proof. intros H. unfold u32, two32. apply Z.mod_small. lia. Qed.
Lemma wchar_id x : 0 <= x < 2 ^ 31 -> wchar x = x.
Proof. intros H. unfold wchar. rewrite u32_id by lia. now replace (x <? 2 ^ 31) with true by lia. Qed.

(** ** Length *)
Definition len_of (v : Z) : Z :=
  if v <? 2 ^ 7 then 1 else if v <? 2 ^ 11 then 2 else if v <? 2 ^ 16 then 3
  else if v <? 2 ^ 21 then 4 else if v <? 2 ^ 26 then 5 else if v <? 2 ^ 31 then 6 else 7.
Lemma log2_in v a b : 0 <= a -> 2 ^ a <= v < 2 ^ b -> a <= Z.log2 v < b.
Proof.
  intros Ha H. assert (0 < 2 ^ a) by (apply Z.pow_pos_nonneg; lia).
  split; [apply Z.log2_le_pow2; lia|apply Z.log2_lt_pow2; lia].
Qed.
Lemma utf8_bytes_len v : 0 <= v < 2 ^ 32 -> utf8_bytes v = len_of v.
Proof.
  intros H. unfold utf8_bytes, len_of. rewrite u32_id by lia. change (2 ^ 7) with 128.
  destruct (Z.ltb_spec v 128); [reflexivity|].
  destruct (Z.ltb_spec v (2 ^ 11)).
  { pose proof (log2_in v 7 11 ltac:(lia) ltac:(lia)). symmetry. apply (Z.div_unique _ _ _ (Z.log2 v + 4 - 10)); lia. }
  destruct (Z.ltb_spec v (2 ^ 16)).
  { pose proof (log2_in v 11 16 ltac:(lia) ltac:(lia)). symmetry. apply (Z.div_unique _ _ _ (Z.log2 v + 4 - 15)); lia. }
  destruct (Z.ltb_spec v (2 ^ 21)).
  { pose proof (log2_in v 16 21 ltac:(lia) ltac:(lia)). symmetry. apply (Z.div_unique _ _ _ (Z.log2 v + 4 - 20)); lia. }
  destruct (Z.ltb_spec v (2 ^ 26)).
  { pose proof (log2_in v 21 26 ltac:(lia) ltac:(lia)). symmetry. apply (Z.div_unique _ _ _ (Z.log2 v + 4 - 25)); lia. }
  destruct (Z.ltb_spec v (2 ^ 31)).
  { pose proof (log2_in v 26 31 ltac:(lia) ltac:(lia)). symmetry. apply (Z.div_unique _ _ _ (Z.log2 v + 4 - 30)); lia. }
  pose proof (log2_in v 31 32 ltac:(lia) ltac:(lia)). symmetry. apply (Z.div_unique _ _ _ (Z.log2 v + 4 - 35)); lia.
Qed.
Lemma portable_len v : 0 <= v < 2 ^ 32 -> utf8_bytes_portable v = Ok (len_of v).
Proof.
  intros H. unfold utf8_bytes_portable, len_of. rewrite u32_id by lia. change (2 ^ 7) with 128.
  destruct (Z.ltb_spec v 128); [reflexivity|]. unfold rd, bounds_loop, c_bounds. unfold rd. cbn [nth_error bind].
  replace (127 <? v) with true by lia.
  destruct (Z.ltb_spec v (2 ^ 11)); [replace (2047 <? v) with false by lia; reflexivity|]. replace (2047 <? v) with true by lia.
  destruct (Z.ltb_spec v (2 ^ 16)); [replace (65535 <? v) with false by lia; reflexivity|]. replace (65535 <? v) with true by lia.
  destruct (Z.ltb_spec v (2 ^ 21)); [replace (2097151 <? v) with false by lia; reflexivity|]. replace (2097151 <? v) with true by lia.
  destruct (Z.ltb_spec v (2 ^ 26)); [replace (67108863 <? v) with false by lia; reflexivity|]. replace (67108863 <? v) with true by lia.
  destruct (Z.ltb_spec v (2 ^ 31)); [replace (2147483647 <? v) with false by lia; reflexivity|]. replace (2147483647 <? v) with true by lia.
  replace (4294967295 <? v) with false by lia. reflexivity.
Qed.

Lemma encode_length v : is_char v -> Z.of_nat (length (encode v)) = len_of v.
Proof.
  intros H. unfold is_char in H. unfold encode, len_of.
  repeat match goal with |- context [if ?c then _ else _] => destruct c eqn:?; try reflexivity end. lia.
Qed.

(** ** The encoder *)
Lemma out_tail_step v k f t : 0 <= k < 5 -> out_tail v (6 * k) f = Ok t -> out_tail v (6 * (k + 1)) (S f) = Ok (cont v k :: t).
Proof.
  intros Hk E. cbn [out_tail]. replace (6 * (k + 1) =? 0) with false by lia. replace (6 * (k + 1) - 6) with (6 * k) by lia.
  rewrite shr_div by lia. cbn [bind]. rewrite E. cbn [bind]. rewrite land63.
  assert (0 <= (v / 2 ^ (6 * k)) mod 64 < 64) by (apply Z.mod_pos_bound; lia). rewrite lor128 by lia.
  unfold cont. rewrite (Z.pow_mul_r 2 6 k) by lia. change (2 ^ 6) with 64. do 2 f_equal. lia.
Qed.
Lemma out_tail_0 v f : out_tail v (6 * 0) f = Ok [].
Proof. destruct f; reflexivity. Qed.

Lemma head_byte x n h m : 0 <= x < m -> (n, h, m) = (2, 192, 32) \/ (n, h, m) = (3, 224, 16) \/ (n, h, m) = (4, 240, 8) \/ (n, h, m) = (5, 248, 4) \/ (n, h, m) = (6, 252, 2) ->
  Z.lor (Z.land x 63) (Z.land (Z.shiftl 255 (8 - n)) 255) = h + x.
Proof.
  intros Hx H.
  destruct H as [H|[H|[H|[H|H]]]]; injection H as -> -> ->.
  - pose proof (all_below 32 (fun x => Z.lor (Z.land x 63) (Z.land (Z.shiftl 255 (8 - 2)) 255) =? 192 + x) eq_refl x Hx) as E. cbn beta in E. lia.
  - pose proof (all_below 16 (fun x => Z.lor (Z.land x 63) (Z.land (Z.shiftl 255 (8 - 3)) 255) =? 224 + x) eq_refl x Hx) as E. cbn beta in E. lia.
  - pose proof (all_below 8 (fun x => Z.lor (Z.land x 63) (Z.land (Z.shiftl 255 (8 - 4)) 255) =? 240 + x) eq_refl x Hx) as E. cbn beta in E. lia.
  - pose proof (all_below 4 (fun x => Z.lor (Z.land x 63) (Z.land (Z.shiftl 255 (8 - 5)) 255) =? 248 + x) eq_refl x Hx) as E. cbn beta in E. lia.
  - pose proof (all_below 2 (fun x => Z.lor (Z.land x 63) (Z.land (Z.shiftl 255 (8 - 6)) 255) =? 252 + x) eq_refl x Hx) as E. cbn beta in E. lia.
Qed.
Lemma div_range v a b : 0 < a -> 0 <= v < a * b -> 0 <= v / a < b.
Proof. intros Ha H. split; [apply Z.div_pos; lia|apply Z.div_lt_upper_bound; lia]. Qed.

Lemma tails v : forall f, out_tail v 6 (S f) = Ok [cont v 0] /\ out_tail v 12 (S (S f)) = Ok [cont v 1; cont v 0] /\
  out_tail v 18 (S (S (S f))) = Ok [cont v 2; cont v 1; cont v 0] /\ out_tail v 24 (S (S (S (S f)))) = Ok [cont v 3; cont v 2; cont v 1; cont v 0] /\
  out_tail v 30 (S (S (S (S (S f))))) = Ok [cont v 4; cont v 3; cont v 2; cont v 1; cont v 0].
Proof.
  intros f. pose proof (fun f => out_tail_step v 0 f [] ltac:(lia) (out_tail_0 v f)) as T1.
  pose proof (fun f => out_tail_step v 1 (S f) _ ltac:(lia) (T1 f)) as T2.
  pose proof (fun f => out_tail_step v 2 (S (S f)) _ ltac:(lia) (T2 f)) as T3.
  pose proof (fun f => out_tail_step v 3 (S (S (S f))) _ ltac:(lia) (T3 f)) as T4.
  pose proof (fun f => out_tail_step v 4 (S (S (S (S f)))) _ ltac:(lia) (T4 f)) as T5.
  exact (conj (T1 f) (conj (T2 f) (conj (T3 f) (conj (T4 f) (T5 f))))).
Qed.
Lemma utf8_out_ok v : is_char v -> utf8_out v = Ok (encode v).
Proof.
  unfold is_char. intros H. unfold utf8_out. rewrite utf8_bytes_len by lia. unfold len_of, encode.
  destruct (Z.ltb_spec v (2 ^ 7)).
  { cbn [Z.ltb Z.compare Pos.compare]. change (1 <? 1) with false. cbn iota. change (Z.land v 255) with (Z.land v (Z.ones 8)).
    rewrite Z.land_ones by lia. rewrite Z.mod_small by lia. reflexivity. }
  destruct (Z.ltb_spec v (2 ^ 11)).
  { change (1 <? 2) with true. cbn iota zeta. change (2 * 6 - 6) with 6.
    rewrite shr_div by lia. cbn [bind]. rewrite (proj1 (tails v 7)). cbn [bind].
    change (2 ^ 6) with (64). rewrite (head_byte _ 2 192 32); [reflexivity|apply div_range; lia|auto 6]. }
  destruct (Z.ltb_spec v (2 ^ 16)).
  { change (1 <? 3) with true. cbn iota zeta. change (3 * 6 - 6) with 12.
    rewrite shr_div by lia. cbn [bind]. rewrite (proj1 (proj2 (tails v 6))). cbn [bind].
    change (2 ^ 12) with (64 ^ 2). rewrite (head_byte _ 3 224 16); [reflexivity|apply div_range; lia|auto 6]. }
  destruct (Z.ltb_spec v (2 ^ 21)).
  { change (1 <? 4) with true. cbn iota zeta. change (4 * 6 - 6) with 18.
    rewrite shr_div by lia. cbn [bind]. rewrite (proj1 (proj2 (proj2 (tails v 5)))). cbn [bind].
    change (2 ^ 18) with (64 ^ 3). rewrite (head_byte _ 4 240 8); [reflexivity|apply div_range; lia|auto 6]. }
  destruct (Z.ltb_spec v (2 ^ 26)).
  { change (1 <? 5) with true. cbn iota zeta. change (5 * 6 - 6) with 24.
    rewrite shr_div by lia. cbn [bind]. rewrite (proj1 (proj2 (proj2 (proj2 (tails v 4))))). cbn [bind].
    change (2 ^ 24) with (64 ^ 4). rewrite (head_byte _ 5 248 4); [reflexivity|apply div_range; lia|auto 6]. }
  destruct (Z.ltb_spec v (2 ^ 31)).
  { change (1 <? 6) with true. cbn iota zeta. change (6 * 6 - 6) with 30.
    rewrite shr_div by lia. cbn [bind]. rewrite (proj2 (proj2 (proj2 (proj2 (tails v 3))))). cbn [bind].
    change (2 ^ 30) with (64 ^ 5). rewrite (head_byte _ 6 252 2); [reflexivity|apply div_range; lia|auto 6]. }
  lia.
Qed.
Lemma utf8_out_all_ok l : Forall is_char l -> utf8_out_all l = Ok (encode_all l).
Proof.
  induction l as [|v t IH]; intros H; [reflexivity|]. inversion H; subst. cbn [utf8_out_all]. rewrite utf8_out_ok by assumption. cbn [bind].
  rewrite IH by assumption. reflexivity.
Qed.
Lemma bytes_all_ok l : Forall is_char l -> utf8_bytes_all l = Z.of_nat (length (encode_all l)).
Proof.
  induction l as [|v t IH]; intros H; [reflexivity|]. inversion H; subst. cbn [utf8_bytes_all]. rewrite IH by assumption.
  unfold encode_all. cbn [map concat]. rewrite app_length, Nat2Z.inj_add, encode_length by assumption.
  rewrite utf8_bytes_len by (unfold is_char in *; lia). reflexivity.
Qed.

(** ** The decoder *)
Lemma rd_at {A} (pre : list A) x t : rd (pre ++ x :: t) (length pre) = Ok x.
Proof. unfold rd. rewrite nth_error_app2 by lia. now rewrite Nat.sub_diag. Qed.
Lemma rd_at1 {A} (pre : list A) x y t : rd (pre ++ x :: y :: t) (S (length pre)) = Ok y.
Proof. unfold rd. rewrite nth_error_app2 by lia. now replace (S (length pre) - length pre)%nat with 1%nat by lia. Qed.
Definition push (v b : Z) : Z := v * 64 + (b - 128).
Lemma push_mono cs : Forall (fun b => 128 <= b < 192) cs -> forall v, 0 <= v -> v <= fold_left push cs v.
Proof.
  induction 1 as [|b t Hb H IH]; intros v Hv; cbn [fold_left]; [lia|]. unfold push at 2.
  pose proof (IH (v * 64 + (b - 128)) ltac:(lia)). lia.
Qed.
Lemma shl6_ok v b : 0 <= v -> 128 <= b < 192 -> push v b < 2 ^ 31 -> shl6 v b = Ok (push v b).
Proof.
  unfold push, shl6. intros Hv Hb H. replace ((v <? 0) || (2 ^ 32 <=? v * 64)) with false by lia. f_equal. rewrite land63.
  assert (Eb : b mod 64 = b - 128) by (symmetry; apply (Z.mod_unique _ _ 2); lia). rewrite Eb.
  rewrite Z.shiftl_mul_pow2 by lia. change (2 ^ 6) with 64.
  assert (El : Z.lor (v * 64) (b - 128) = v * 64 + (b - 128)).
  { assert (N : Z.land (v * 64) (b - 128) = 0).
    { change (v * 64) with (v * 2 ^ 6). rewrite <- (Z.shiftl_mul_pow2 v 6) by lia. apply Z.bits_inj'. intros n Hn.
      rewrite Z.land_spec, Z.bits_0. destruct (Z.lt_ge_cases n 6).
      + rewrite Z.shiftl_spec_low by lia. reflexivity.
      + rewrite (Z.bits_above_log2 (b - 128) n); [apply andb_false_r|lia|]. destruct (Z.eq_dec b 128) as [-> |]; [cbn; lia|].
        apply Z.lt_le_trans with 6; [apply Z.log2_lt_pow2; lia|lia]. }
    rewrite <- Z.lxor_lor by exact N. symmetry. now apply Z.add_nocarry_lxor. }
  rewrite El. apply wchar_id. lia.
Qed.
Lemma read_tail_ok cs : Forall (fun b => 128 <= b < 192) cs -> forall pre x post v, 0 <= v -> fold_left push cs v < 2 ^ 31 ->
  read_tail (pre ++ x :: cs ++ post) (length pre) v (length cs) = Ok ((length pre + length cs)%nat, fold_left push cs v).
Proof.
  induction 1 as [|b t Hb H IH]; intros pre x post v Hv Hf.
  - cbn [length read_tail fold_left]. now rewrite Nat.add_0_r.
  - cbn [length read_tail]. cbn [app]. rewrite rd_at1. cbn [bind]. replace (b =? 0) with false by lia.
    cbn [fold_left] in *. assert (0 <= push v b) by (unfold push; lia).
    pose proof (push_mono t H (push v b) ltac:(lia)). rewrite shl6_ok by lia. cbn [bind].
    replace (pre ++ x :: b :: t ++ post) with ((pre ++ [x]) ++ b :: t ++ post) by now rewrite <- app_assoc.
    replace (S (length pre)) with (length (pre ++ [x])) by (rewrite app_length; cbn; lia).
    rewrite IH by lia. f_equal. f_equal. rewrite app_length. cbn [length]. lia.
Qed.

Lemma cont_range v k : 128 <= cont v k < 192.
Proof. unfold cont. pose proof (Z.mod_pos_bound (v / 64 ^ k) 64). lia. Qed.
Lemma push_cont v k : 0 <= k -> push (v / 64 ^ (k + 1)) (cont v k) = v / 64 ^ k.
Proof.
  intros Hk. unfold push, cont. rewrite Z.pow_add_r by lia. change (64 ^ 1) with 64. rewrite <- Z.div_div by lia.
  pose proof (Z.div_mod (v / 64 ^ k) 64). lia.
Qed.
(** First byte, remaining bytes, and the value the first byte carries. *)
Definition parts (v : Z) : Z * list Z * Z :=
  if v <? 2 ^ 7 then (v, [], v)
  else if v <? 2 ^ 11 then (192 + v / 64, [cont v 0], v / 64 ^ 1)
  else if v <? 2 ^ 16 then (224 + v / 64 ^ 2, [cont v 1; cont v 0], v / 64 ^ 2)
  else if v <? 2 ^ 21 then (240 + v / 64 ^ 3, [cont v 2; cont v 1; cont v 0], v / 64 ^ 3)
  else if v <? 2 ^ 26 then (248 + v / 64 ^ 4, [cont v 3; cont v 2; cont v 1; cont v 0], v / 64 ^ 4)
  else (252 + v / 64 ^ 5, [cont v 4; cont v 3; cont v 2; cont v 1; cont v 0], v / 64 ^ 5).
Lemma parts_ok v : is_char v -> let '(c, cs, x) := parts v in
  encode v = c :: cs /\ 0 <= c < 256 /\ lead c = Z.of_nat (S (length cs)) /\ Z.land c (Z.shiftr 255 (lead c)) = x /\ 0 <= x /\
  Forall (fun b => 128 <= b < 192) cs /\ fold_left push cs x = v.
Proof.
  unfold is_char. intros H. unfold parts, encode.
  pose proof (cont_range v 0). pose proof (cont_range v 1). pose proof (cont_range v 2). pose proof (cont_range v 3). pose proof (cont_range v 4).
  assert (F : forall c n, 0 <= n <= 8 -> Z.land c (Z.shiftr 255 n) = c mod 2 ^ (8 - n)).
  { intros c n Hn. change 255 with (Z.ones 8). replace (Z.shiftr (Z.ones 8) n) with (Z.ones (8 - n)); [apply Z.land_ones; lia|].
    rewrite Z.shiftr_div_pow2 by lia. rewrite !Z.ones_equiv. apply (Z.div_unique _ _ _ (2 ^ n - 1)).
    - assert (0 < 2 ^ n) by (apply Z.pow_pos_nonneg; lia). lia.
    - assert (P : 2 ^ 8 = 2 ^ n * 2 ^ (8 - n)) by (rewrite <- Z.pow_add_r by lia; f_equal; lia). lia. }
  assert (P0 : push (v / 64 ^ 1) (cont v 0) = v) by (pose proof (push_cont v 0 ltac:(lia)) as Q; change (0 + 1) with 1 in Q; rewrite Q, Z.pow_0_r, Z.div_1_r; reflexivity).
  pose proof (push_cont v 1 ltac:(lia)) as P1. pose proof (push_cont v 2 ltac:(lia)) as P2.
  pose proof (push_cont v 3 ltac:(lia)) as P3. pose proof (push_cont v 4 ltac:(lia)) as P4.
  change (1 + 1) with 2 in P1. change (2 + 1) with 3 in P2. change (3 + 1) with 4 in P3. change (4 + 1) with 5 in P4.
  destruct (Z.ltb_spec v (2 ^ 7)).
  { split; [reflexivity|]. split; [lia|]. assert (L : lead v = 1) by (unfold lead; replace (v <? 192) with true by lia; reflexivity).
    split; [exact L|]. split; [rewrite L, F by lia; apply Z.mod_small; lia|]. split; [lia|]. split; [constructor|reflexivity]. }
  destruct (Z.ltb_spec v (2 ^ 11)).
  { pose proof (div_range v 64 32 ltac:(lia) ltac:(lia)) as R. change (64 ^ 1) with 64 in *.
    assert (L : lead (192 + v / 64) = 2) by (unfold lead; replace (192 + v / 64 <? 192) with false by lia; now replace (192 + v / 64 <? 224) with true by lia).
    split; [reflexivity|]. split; [lia|]. split; [exact L|]. split; [rewrite L, F by lia; change (2 ^ (8 - 2)) with 64; symmetry; apply (Z.mod_unique _ _ 3); lia|].
    split; [lia|]. split; [repeat constructor; lia|]. cbn [fold_left]. exact P0. }
  destruct (Z.ltb_spec v (2 ^ 16)).
  { pose proof (div_range v (64 ^ 2) 16 ltac:(lia) ltac:(lia)) as R. remember (v / 64 ^ 2) as x eqn:Ex.
    assert (L : lead (224 + x) = 3) by (unfold lead; replace (224 + x <? 192) with false by lia; replace (224 + x <? 224) with false by lia; now replace (224 + x <? 240) with true by lia).
    split; [reflexivity|]. split; [lia|]. split; [exact L|]. split; [rewrite L, F by lia; change (2 ^ (8 - 3)) with 32; symmetry; apply (Z.mod_unique _ _ 7); lia|].
    split; [lia|]. split; [repeat constructor; lia|]. cbn [fold_left]. rewrite P1. exact P0. }
  destruct (Z.ltb_spec v (2 ^ 21)).
  { pose proof (div_range v (64 ^ 3) 8 ltac:(lia) ltac:(lia)) as R. remember (v / 64 ^ 3) as x eqn:Ex.
    assert (L : lead (240 + x) = 4) by (unfold lead; replace (240 + x <? 192) with false by lia; replace (240 + x <? 224) with false by lia; replace (240 + x <? 240) with false by lia; now replace (240 + x <? 248) with true by lia).
    split; [reflexivity|]. split; [lia|]. split; [exact L|]. split; [rewrite L, F by lia; change (2 ^ (8 - 4)) with 16; symmetry; apply (Z.mod_unique _ _ 15); lia|].
    split; [lia|]. split; [repeat constructor; lia|]. cbn [fold_left]. rewrite P2, P1. exact P0. }
  destruct (Z.ltb_spec v (2 ^ 26)).
  { pose proof (div_range v (64 ^ 4) 4 ltac:(lia) ltac:(lia)) as R. remember (v / 64 ^ 4) as x eqn:Ex.
    assert (L : lead (248 + x) = 5) by (unfold lead; replace (248 + x <? 192) with false by lia; replace (248 + x <? 224) with false by lia; replace (248 + x <? 240) with false by lia; replace (248 + x <? 248) with false by lia; now replace (248 + x <? 252) with true by lia).
    split; [reflexivity|]. split; [lia|]. split; [exact L|]. split; [rewrite L, F by lia; change (2 ^ (8 - 5)) with 8; symmetry; apply (Z.mod_unique _ _ 31); lia|].
    split; [lia|]. split; [repeat constructor; lia|]. cbn [fold_left]. rewrite P3, P2, P1. exact P0. }
  pose proof (div_range v (64 ^ 5) 2 ltac:(lia) ltac:(lia)) as R. remember (v / 64 ^ 5) as x eqn:Ex.
  assert (L : lead (252 + x) = 6) by (unfold lead; replace (252 + x <? 192) with false by lia; replace (252 + x <? 224) with false by lia; replace (252 + x <? 240) with false by lia; replace (252 + x <? 248) with false by lia; replace (252 + x <? 252) with false by lia; now replace (252 + x <? 254) with true by lia).
  split; [reflexivity|]. split; [lia|]. split; [exact L|]. split; [rewrite L, F by lia; change (2 ^ (8 - 6)) with 4; symmetry; apply (Z.mod_unique _ _ 63); lia|].
  split; [lia|]. split; [repeat constructor; lia|]. cbn [fold_left]. rewrite P4, P3, P2, P1. exact P0.
Qed.

Lemma utf8_read_ok pre v post : is_char v ->
  utf8_read (pre ++ encode v ++ post) (length pre) = Ok ((length pre + length (encode v) - 1)%nat, v).
Proof.
  intros H. pose proof (parts_ok v H) as P. destruct (parts v) as [[c cs] x]. destruct P as (E & C & L & X & X0 & Fc & Fv).
  rewrite E. unfold utf8_read. cbn [app]. rewrite rd_at. cbn [bind]. rewrite seq_bytes_lead by exact C. cbn [bind].
  rewrite L at 2. replace (Z.to_nat (Z.of_nat (S (length cs)) - 1)) with (length cs) by lia. rewrite X.
  rewrite read_tail_ok; [|exact Fc|exact X0|rewrite Fv; unfold is_char in H; lia]. rewrite Fv. do 2 f_equal. cbn [length]. lia.
Qed.
Lemma utf8_read_end pre : utf8_read (pre ++ [0]) (length pre) = Ok (length pre, 0).
Proof. unfold utf8_read. rewrite rd_at. reflexivity. Qed.
Lemma encode_pos v : is_char v -> (0 < length (encode v))%nat.
Proof. intros H. pose proof (encode_length v H). unfold len_of in *. repeat match goal with H : context [if ?c then _ else _] |- _ => destruct c end; lia. Qed.

Lemma read_first l pre : Forall is_char l -> exists it, utf8_read (pre ++ encode_all l ++ [0]) (length pre) = Ok it /\
  fst it = (length pre + match l with [] => 0 | v :: _ => length (encode v) - 1 end)%nat /\ snd it = match l with [] => 0 | v :: _ => v end.
Proof.
  intros H. destruct H as [|v t Hv H].
  - exists (length pre, 0). split; [apply utf8_read_end|]. cbn. split; [lia|reflexivity].
  - change (encode_all (v :: t)) with (encode v ++ encode_all t). rewrite <- app_assoc. eexists. split; [apply utf8_read_ok; exact Hv|].
    cbn [fst snd]. pose proof (encode_pos v Hv). split; [lia|reflexivity].
Qed.
(** From character [k] of [l] on, in the buffer of all of them. *)
Lemma utf8_copy_ok l : Forall is_char l -> forall pre it f, utf8_read (pre ++ encode_all l ++ [0]) (length pre) = Ok it ->
  (length l < f)%nat -> utf8_copy (pre ++ encode_all l ++ [0]) it (length pre + length (encode_all l)) f = Ok l.
Proof.
  induction 1 as [|v t Hv H IH]; intros pre it f E Hf.
  - unfold encode_all in *. cbn [map concat app length] in *. rewrite utf8_read_end in E. injection E as <-.
    destruct f as [|f]; [lia|]. cbn [utf8_copy fst]. now rewrite Nat.add_0_r, Nat.eqb_refl.
  - assert (X : encode_all (v :: t) = encode v ++ encode_all t) by reflexivity. rewrite X in *. rewrite <- app_assoc in *.
    rewrite utf8_read_ok in E by exact Hv. injection E as <-. destruct f as [|f]; [lia|]. cbn [utf8_copy fst].
    pose proof (encode_pos v Hv) as Lv. rewrite app_length. replace (Nat.eqb _ _) with false by (symmetry; apply Nat.eqb_neq; lia).
    unfold utf8_next. cbn [fst]. replace (S (length pre + length (encode v) - 1)) with (length (pre ++ encode v)) by (rewrite app_length; lia).
    rewrite (app_assoc pre). destruct (read_first t (pre ++ encode v) H) as (it' & E' & _). rewrite E'. cbn [bind].
    replace (length pre + (length (encode v) + length (encode_all t)))%nat with (length (pre ++ encode v) + length (encode_all t))%nat by (rewrite app_length; lia).
    rewrite (IH (pre ++ encode v) it' f E') by (cbn [length] in Hf; lia). reflexivity.
Qed.
Lemma encode_all_length l : Forall is_char l -> (length l <= length (encode_all l))%nat.
Proof.
  induction 1 as [|v t Hv H IH]; [cbn; lia|]. change (encode_all (v :: t)) with (encode v ++ encode_all t). rewrite app_length.
  pose proof (encode_pos v Hv). cbn [length]. lia.
Qed.
Lemma utf8_in_all_ok l : Forall is_char l -> utf8_in_all (encode_all l) = Ok l.
Proof.
  intros H. unfold utf8_in_all. destruct (read_first l [] H) as (it & E & _). cbn [app length] in E. rewrite E. cbn [bind].
  rewrite utf8_read_end. cbn [bind fst]. pose proof (utf8_copy_ok l H [] it (S (length (encode_all l))) E) as C. cbn [app length Nat.add] in C.
  apply C. pose proof (encode_all_length l H). lia.
Qed.

(** ** Counting and positions *)
Lemma dist_ok l : Forall is_char l -> forall pre f, (length l < f)%nat ->
  utf8_dist (pre ++ encode_all l ++ [0]) (length pre) (length pre + length (encode_all l)) f = Ok (Z.of_nat (length l)).
Proof.
  induction 1 as [|v t Hv H IH]; intros pre f Hf; (destruct f as [|f]; [lia|]); cbn [utf8_dist].
  - unfold encode_all. cbn [map concat length]. rewrite Nat.add_0_r, Nat.ltb_irrefl. reflexivity.
  - change (encode_all (v :: t)) with (encode v ++ encode_all t). rewrite <- app_assoc. rewrite app_length.
    pose proof (encode_pos v Hv). replace (Nat.ltb _ _) with true by (symmetry; apply Nat.ltb_lt; lia).
    pose proof (parts_ok v Hv) as P. destruct (parts v) as [[c cs] x]. destruct P as (E & C & L & _). rewrite E at 1. cbn [app].
    rewrite rd_at. cbn [bind]. rewrite seq_bytes_lead by exact C. cbn [bind]. rewrite L, Nat2Z.id.
    replace (length pre + S (length cs))%nat with (length (pre ++ encode v)) by (rewrite app_length, E; cbn [length]; lia).
    replace (length pre + (length (encode v) + length (encode_all t)))%nat with (length (pre ++ encode v) + length (encode_all t))%nat by (rewrite app_length; lia).
    rewrite (app_assoc pre). rewrite IH by (cbn [length] in Hf; lia). cbn [bind length]. f_equal. lia.
Qed.
(** Starting from the last byte of a character, which is how [first] is positioned. *)
Lemma dist_ok_last l : Forall is_char l -> forall pre it f, utf8_read (pre ++ encode_all l ++ [0]) (length pre) = Ok it -> (length l < f)%nat ->
  utf8_dist (pre ++ encode_all l ++ [0]) (fst it) (length pre + length (encode_all l)) f = Ok (Z.of_nat (length l)).
Proof.
  intros H pre it f E Hf. destruct H as [|v t Hv H].
  - unfold encode_all in *. cbn [map concat app length] in *. rewrite utf8_read_end in E. injection E as <-. cbn [fst].
    destruct f as [|f]; [lia|]. cbn [utf8_dist]. now rewrite Nat.add_0_r, Nat.ltb_irrefl.
  - change (encode_all (v :: t)) with (encode v ++ encode_all t) in *. rewrite <- app_assoc in *. rewrite utf8_read_ok in E by exact Hv. injection E as <-. cbn [fst].
    pose proof (encode_pos v Hv) as Lv. destruct f as [|f]; [lia|]. cbn [utf8_dist]. rewrite app_length.
    replace (Nat.ltb _ _) with true by (symmetry; apply Nat.ltb_lt; lia).
    assert (Hc : exists a c, encode v = a ++ [c] /\ 0 <= c < 256 /\ lead c = 1).
    { pose proof (parts_ok v Hv) as P. destruct (parts v) as [[c cs] x]. destruct P as (E & C & L & _ & _ & Fc & _).
      destruct cs as [|y cs]; [exists [], c; cbn [length] in L; auto|].
      destruct (exists_last (l := y :: cs)) as (a & z & Ez); [discriminate|]. rewrite Ez in *. exists (c :: a), z. split; [exact E|].
      apply Forall_app in Fc. destruct Fc as (_ & Fz). inversion Fz; subst. split; [lia|]. unfold lead. replace (z <? 192) with true by lia. reflexivity. }
    destruct Hc as (a & c & Ea & Hc & L). rewrite Ea at 1. rewrite Ea. rewrite !app_length. cbn [length].
    replace (length pre + (length a + 1) - 1)%nat with (length (pre ++ a)) by (rewrite app_length; lia).
    replace (pre ++ (a ++ [c]) ++ encode_all t ++ [0]) with ((pre ++ a) ++ c :: encode_all t ++ [0]) by (rewrite <- !app_assoc; reflexivity).
    rewrite rd_at. cbn [bind]. rewrite seq_bytes_lead by exact Hc. rewrite L. cbn [bind]. change (Z.to_nat 1) with 1%nat.
    replace ((pre ++ a) ++ c :: encode_all t ++ [0]) with ((pre ++ encode v) ++ encode_all t ++ [0]) by (rewrite Ea, <- !app_assoc; reflexivity).
    replace (length (pre ++ a) + 1)%nat with (length (pre ++ encode v)) by (rewrite Ea, !app_length; cbn; lia).
    replace (length pre + (length a + 1 + length (encode_all t)))%nat with (length (pre ++ encode v) + length (encode_all t))%nat by (rewrite Ea, !app_length; cbn [length]; lia).
    rewrite dist_ok by (auto; cbn [length] in Hf; lia). cbn [bind length]. f_equal. lia.
Qed.
Lemma str_length_ok l : Forall is_char l -> str_length (encode_all l) = Ok (Z.of_nat (length l)).
Proof.
  intros H. unfold str_length. destruct (read_first l [] H) as (it & E & _). cbn [app length] in E. rewrite E. cbn [bind].
  rewrite utf8_read_end. cbn [bind fst]. pose proof (dist_ok_last l H [] it (S (length (encode_all l))) E) as C. cbn [app length Nat.add] in C.
  apply C. pose proof (encode_all_length l H). lia.
Qed.
Lemma skip_ok i : forall l pre it, Forall is_char l -> (i <= length l)%nat -> utf8_read (pre ++ encode_all l ++ [0]) (length pre) = Ok it ->
  exists it', utf8_skip (pre ++ encode_all l ++ [0]) it i = Ok it' /\ utf8_base it' = Z.of_nat (length pre + length (encode_all (firstn i l))).
Proof.
  induction i as [|i IH]; intros l pre it H Hi E.
  - cbn [utf8_skip firstn]. exists it. split; [reflexivity|]. destruct (read_first l pre H) as (it2 & E2 & F1 & F2). rewrite E in E2. injection E2 as <-.
    unfold utf8_base. rewrite F1, F2. destruct H as [|v t Hv H]; cbn [length]; [unfold utf8_bytes; cbn; lia|].
    unfold is_char in Hv. rewrite utf8_bytes_len by lia. rewrite <- encode_length by exact Hv. pose proof (encode_pos v Hv). cbn. lia.
  - destruct H as [|v t Hv H]; [cbn in Hi; lia|]. cbn [utf8_skip firstn]. change (encode_all (v :: t)) with (encode v ++ encode_all t) in *.
    change (encode_all (v :: firstn i t)) with (encode v ++ encode_all (firstn i t)).
    rewrite <- app_assoc in *. rewrite utf8_read_ok in E by exact Hv. injection E as <-. unfold utf8_next. cbn [fst]. pose proof (encode_pos v Hv).
    replace (S (length pre + length (encode v) - 1)) with (length (pre ++ encode v)) by (rewrite app_length; lia). rewrite (app_assoc pre).
    destruct (read_first t (pre ++ encode v) H) as (it2 & E2 & _). rewrite E2. cbn [bind].
    destruct (IH t (pre ++ encode v) it2 H ltac:(cbn in Hi; lia) E2) as (it' & E' & B'). exists it'. split; [exact E'|]. rewrite B'. rewrite !app_length. lia.
Qed.
Lemma wiat_ok l i : Forall is_char l -> (i <= length l)%nat -> str_wiat (encode_all l) i = Ok (Z.of_nat (length (encode_all (firstn i l)))).
Proof.
  intros H Hi. unfold str_wiat. destruct (read_first l [] H) as (it & E & _). cbn [app length] in E. rewrite E. cbn [bind].
  destruct (skip_ok i l [] it H Hi E) as (it' & E' & B). cbn [app] in E'. rewrite E'. cbn [bind]. rewrite B. reflexivity.
Qed.

(** ** The whole type *)
Lemma utf8_out_negative v : -(2 ^ 31) <= v < 0 -> utf8_out v = UB.
Proof.
  intros H. unfold utf8_out. assert (E : utf8_bytes v = 7).
  { replace (utf8_bytes v) with (utf8_bytes (v + 2 ^ 32)).
    - rewrite utf8_bytes_len by lia. unfold len_of. repeat (replace (v + 2 ^ 32 <? _) with false by lia). reflexivity.
    - unfold utf8_bytes, u32, two32. replace (v + 2 ^ 32) with (v + 1 * 4294967296) by lia. now rewrite Z.mod_add by lia. }
  rewrite E. reflexivity.
Qed.
