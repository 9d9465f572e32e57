(** * NumericFacts: witnesses for the refuted numeric claims, and small facts. *)
From Verif Require Import Base UtilModel UtilSpec UtilProofs NumericModel NumericProofs.
From Coq Require Import ZArith NArith.
Local Open Scope Z_scope.

Lemma power_plus_wrong : power_op 1 Z.add 2 2 = Ok 5.
Proof. reflexivity. Qed.

Lemma pack8_32 s : 0 <= s < 256 -> pack_type 8 32 s = Ok (of_bytes_le (repeat s 4)).
Proof.
  intros H. pose proof (byte_all (fun s => match pack_type 8 32 s with Ok r => r =? of_bytes_le (repeat s 4) | _ => false end)
    ltac:(vm_compute; reflexivity) s H) as E. cbv beta in E.
  destruct (pack_type 8 32 s); try discriminate. apply Z.eqb_eq in E. now rewrite E.
Qed.
Lemma pack8_64 s : 0 <= s < 256 -> pack_type 8 64 s = Ok (of_bytes_le (repeat s 8)).
Proof.
  intros H. pose proof (byte_all (fun s => match pack_type 8 64 s with Ok r => r =? of_bytes_le (repeat s 8) | _ => false end)
    ltac:(vm_compute; reflexivity) s H) as E. cbv beta in E.
  destruct (pack_type 8 64 s); try discriminate. apply Z.eqb_eq in E. now rewrite E.
Qed.

Lemma adjdiff_UB {T} (op : T -> T -> T) (x y : T) l out result fuel :
  (length out < fuel)%nat ->
  adjacent_difference fuel op (x :: y :: l) out result = UB.
Proof.
  intros H. cbn [adjacent_difference]. unfold wr.
  destruct (upd out result x) as [out'|] eqn:E; [|reflexivity]. cbn [bind].
  assert (length out' = length out) as L.
  { clear - E. revert result out' E. induction out as [|h t1 IH]; intros result out' E; [discriminate|].
    destruct result; cbn in E.
    - injection E as <-. reflexivity.
    - destruct (upd t1 result x) eqn:E'; [|discriminate]. injection E as <-. simpl. f_equal. eauto. }
  apply adjdiff_loop_UB; simpl; lia.
Qed.

Lemma partial_sum_value {T} (op : T -> T -> T) (x : T) l pre o old post out r :
  length old = length l ->
  partial_sum op (x :: l) (pre ++ o :: old ++ post) (length pre) = Ok (out, r) ->
  exists s, out = pre ++ s ++ post /\ length s = S (length l) /\
  (forall i, (i <= length l)%nat -> nth_error s i = Some (fold_left (fun a y => op y a) (firstn i l) x)).
Proof.
  intros H E. rewrite partial_sum_ok in E by auto. injection E as <- _.
  exists (x :: running op x l). split; [reflexivity|].
  assert (forall l acc, length (running op acc l) = length l) as RL.
  { induction l0; intros; simpl; auto. }
  split; [simpl; now rewrite RL|].
  intros [|i] Hi; [reflexivity|]. cbn [nth_error]. apply running_nth. lia.
Qed.

Lemma next_pow2_least v : 2 <= v <= 2 ^ 31 ->
  exists k, 0 <= k /\ next_pow2 v = 2 ^ k /\ v <= 2 ^ k /\ (forall j, 0 <= j -> v <= 2 ^ j -> k <= j).
Proof.
  intros H. destruct (next_pow2_ok v H) as (k & Hk & E & L1 & L2).
  exists k. split; [exact Hk|]. split; [exact E|]. split; [exact L1|].
  intros j Hj Hv. destruct (Z.le_gt_cases k j); [auto|].
  assert (2 ^ j <= 2 ^ (k - 1)) by (apply Z.pow_le_mono_r; lia). lia.
Qed.

(** ** pack_type in general *)
Lemma pack_loop_bits j : forall fuel h b, (j <= fuel)%nat -> 0 < h -> 0 <= b < 2 ^ h ->
  exists r, pack_loop fuel h (h * 2 ^ Z.of_nat j) b = Ok r /\ 0 <= r < 2 ^ (h * 2 ^ Z.of_nat j) /\
    forall i, 0 <= i < h * 2 ^ Z.of_nat j -> Z.testbit r i = Z.testbit b (i mod h).
Proof.
  induction j as [|j IH]; intros fuel h b Hf Hh Hb.
  - change (2 ^ Z.of_nat 0) with 1. rewrite Z.mul_1_r. exists b. split.
    + destruct fuel; cbn [pack_loop]; rewrite Z.ltb_irrefl; reflexivity.
    + split; [exact Hb|]. intros i Hi. now rewrite Z.mod_small by lia.
  - assert (E2 : 2 ^ Z.of_nat (S j) = 2 * 2 ^ Z.of_nat j) by (rewrite Nat2Z.inj_succ, Z.pow_succ_r by lia; reflexivity).
    assert (P : 1 <= 2 ^ Z.of_nat j) by (apply (Z.pow_le_mono_r 2 0); lia).
    rewrite E2. replace (h * (2 * 2 ^ Z.of_nat j)) with (h * 2 * 2 ^ Z.of_nat j) by lia.
    destruct fuel as [|fuel]; [lia|]. cbn [pack_loop].
    destruct (Z.ltb_spec h (h * 2 * 2 ^ Z.of_nat j)); [|nia].
    set (w := h * 2 * 2 ^ Z.of_nat j) in *.
    assert (Hw : 2 * h <= w) by (unfold w; nia).
    set (b' := Z.lor (Z.shiftl b h mod 2 ^ w) b).
    assert (Eb : Z.shiftl b h mod 2 ^ w = Z.shiftl b h).
    { apply Z.mod_small. rewrite Z.shiftl_mul_pow2 by lia. split; [apply Z.mul_nonneg_nonneg; [lia|apply Z.pow_nonneg; lia]|].
      apply Z.lt_le_trans with (2 ^ h * 2 ^ h); [apply Z.mul_lt_mono_pos_r; [apply Z.pow_pos_nonneg; lia|lia]|].
      rewrite <- Z.pow_add_r by lia. apply Z.pow_le_mono_r; lia. }
    assert (Bb : forall i, h <= i -> Z.testbit b i = false).
    { intros i Hi. rewrite <- (Z.mod_small b (2 ^ h)) by lia. apply Z.mod_pow2_bits_high. lia. }
    assert (B' : forall i, 0 <= i -> Z.testbit b' i = (if i <? h then Z.testbit b i else Z.testbit b (i - h))).
    { intros i Hi. unfold b'. rewrite Eb, Z.lor_spec, Z.shiftl_spec by lia. destruct (Z.ltb_spec i h).
      - rewrite (Z.testbit_neg_r b (i - h)) by lia. reflexivity.
      - rewrite (Bb i) by lia. apply orb_false_r. }
    assert (R' : 0 <= b' < 2 ^ (h * 2)).
    { assert (N : 0 <= b') by (unfold b'; apply Z.lor_nonneg; split; [apply Z.mod_pos_bound, Z.pow_pos_nonneg; lia|lia]).
      split; [exact N|].
      assert (E : b' mod 2 ^ (h * 2) = b').
      { apply Z.bits_inj'. intros i Hi. destruct (Z.lt_ge_cases i (h * 2)) as [L|L].
        - rewrite Z.mod_pow2_bits_low by lia. reflexivity.
        - rewrite Z.mod_pow2_bits_high, B' by lia. destruct (Z.ltb_spec i h); [lia|]. rewrite Bb by lia. reflexivity. }
      rewrite <- E. apply Z.mod_pos_bound, Z.pow_pos_nonneg; lia. }
    destruct (IH fuel (h * 2) b' ltac:(lia) ltac:(lia) R') as (r & E & Rr & Br).
    exists r. split; [exact E|]. split; [exact Rr|]. intros i Hi. rewrite Br by exact Hi.
    rewrite B' by (apply Z.mod_pos_bound; lia).
    assert (M : i mod h = (i mod (h * 2)) mod h).
    { rewrite Z.rem_mul_r by lia. rewrite (Z.mul_comm h (_ mod 2)), Z.mod_add, Z.mod_mod by lia. reflexivity. }
    pose proof (Z.mod_pos_bound i (h * 2) ltac:(lia)) as Mb. rewrite M. set (k := i mod (h * 2)) in *. clearbody k.
    destruct (Z.ltb_spec k h); [now rewrite (Z.mod_small k h) by lia|].
    replace k with (k - h + 1 * h) at 2 by lia. rewrite Z.mod_add, Z.mod_small by lia. reflexivity.
Qed.
Lemma pack_type_bits h s j : 0 < h -> 0 <= s < 2 ^ h ->
  exists r, pack_type h (h * 2 ^ Z.of_nat j) s = Ok r /\ 0 <= r < 2 ^ (h * 2 ^ Z.of_nat j) /\
    forall i, 0 <= i < h * 2 ^ Z.of_nat j -> Z.testbit r i = Z.testbit s (i mod h).
Proof.
  intros Hh Hs. unfold pack_type. apply pack_loop_bits; auto.
  assert (P : Z.of_nat j < 2 ^ Z.of_nat j) by (apply Z.pow_gt_lin_r; lia). nia.
Qed.
