(** * PtrAlgoProofs: with the pointer overloads the algorithms compute the same
    as with the generic code, except for small element sizes. *)
From Verif Require Import Base Order UtilModel ByteModel StoreModel StoreProofs ArrayModel ArrayProofs VectorSpec
  PtrAlgoModel PtrAlgoSpec.
From Coq Require Import ZArith ZifyBool ZifyNat.
Local Open Scope nat_scope.

Lemma ss_inner_range {A} (lt : A -> A -> bool) a first i : forall fuel j k,
  first <= j -> ss_inner fuel lt a first i j = Ok k -> first <= k <= j.
Proof.
  induction fuel as [|f IH]; intros j k H E; cbn [ss_inner] in E;
    destruct (Nat.ltb_spec first j); try discriminate; try (injection E as <-; lia).
  destruct (rd a i) as [x| | |]; try discriminate. cbn [bind] in E.
  destruct (rd a (j - 1)) as [y| | |]; try discriminate. cbn [bind] in E.
  destruct (lt x y); [apply IH in E; lia|injection E as <-; lia].
Qed.

Section PtrAlgo.
  Context {A : Type}.
  Variable e : env.
  Variable es base : Z.

  (** Both rotations of [f, m, l) give the same array. *)
  Lemma rotate_same (a : list A) f m l : (0 < es)%Z -> block_at e es base (length a) -> f <= m -> m <= l -> l <= length a ->
    rot_good (es * Z.of_nat f) (es * Z.of_nat m) (es * Z.of_nat l) = true ->
    exists a' it, rotate_cells e es base a f m l = Ok a' /\ rotate a f m l = Ok (a', it) /\ length a' = length a.
  Proof.
    intros He (B0 & B4 & B1 & B2) H1 H2 H3 R.
    assert (X : exists pre u v post, a = pre ++ u ++ v ++ post /\ f = length pre /\ m = length pre + length u /\
                l = length pre + length u + length v).
    { exists (firstn f a), (firstn (m - f) (skipn f a)), (firstn (l - m) (skipn m a)), (skipn l a).
      split; [|rewrite ?firstn_length, ?skipn_length; lia].
      rewrite <- (firstn_skipn f a) at 1. f_equal.
      rewrite <- (firstn_skipn (m - f) (skipn f a)) at 1. f_equal.
      rewrite skipn_skipn. replace (m - f + f) with m by lia.
      rewrite <- (firstn_skipn (l - m) (skipn m a)) at 1. f_equal.
      rewrite skipn_skipn. f_equal. lia. }
    destruct X as (pre & u & v & post & -> & -> & -> & ->).
    destruct (rotate_spec pre u v post) as (it & E).
    exists (pre ++ v ++ u ++ post), it. split; [|split; [exact E|rewrite !app_length; lia]].
    apply rotate_cells_ok4; auto.
  Qed.

  Lemma rot_one_good f m : (2 <= es)%Z -> f < m ->
    rot_good (es * Z.of_nat f) (es * Z.of_nat m) (es * Z.of_nat (m + 1)) = true.
  Proof.
    intros He H. unfold rot_good.
    set (x := Z.of_nat f). set (d := Z.of_nat (m - f)).
    replace (Z.of_nat m) with (x + d)%Z by (unfold x, d; lia). replace (Z.of_nat (m + 1)) with (x + d + 1)%Z by (unfold x, d; lia).
    replace (es * (x + d) - es * x)%Z with (es * d)%Z by ring.
    replace (es * (x + d + 1) - es * (x + d))%Z with es by ring.
    assert (1 <= d)%Z by (unfold d; lia). assert (0 <= x)%Z by (unfold x; lia).
    destruct (Z.leb_spec (es * d) es) as [|K]; [reflexivity|]. cbn [orb].
    assert (D2 : (2 <= d)%Z) by nia.
    destruct (Z.eqb_spec (es mod 4) 0) as [E4|N4].
    - assert (F : forall z, ((es * z) mod 4 = 0)%Z) by (intros z; rewrite Z.mul_mod, E4 by lia; reflexivity).
      rewrite !F. replace (0 <=? es * d)%Z with true by (symmetry; apply Z.leb_le; nia). cbn. rewrite orb_true_r. reflexivity.
    - cbn [negb orb]. rewrite andb_true_r. rewrite (proj2 (Z.leb_le _ _)); [apply orb_true_r|].
      pose proof (Z.mod_pos_bound (es * (x + d)) 4 ltac:(lia)). nia.
  Qed.
  Lemma rot_mod4_good f m l : (es mod 4 = 0)%Z -> (0 < es)%Z -> f <= m -> m <= l ->
    rot_good (es * Z.of_nat f) (es * Z.of_nat m) (es * Z.of_nat l) = true.
  Proof.
    intros E4 He H1 H2. unfold rot_good.
    assert (F : forall z, ((es * z) mod 4 = 0)%Z) by (intros z; rewrite Z.mul_mod, E4 by lia; reflexivity).
    rewrite !F. replace (0 <=? es * Z.of_nat m - es * Z.of_nat f)%Z with true by (symmetry; apply Z.leb_le; nia).
    cbn. rewrite !orb_true_r. reflexivity.
  Qed.

  Lemma p_stable_sort_loop_same (lt : A -> A -> bool) : (2 <= es)%Z -> forall fuel a first i last,
    first <= i -> last <= length a -> block_at e es base (length a) ->
    p_stable_sort_loop e es base fuel lt a first i last = stable_sort_loop fuel lt a first i last.
  Proof.
    intros He. induction fuel as [|k IH]; intros a first i last H1 H2 B; cbn [p_stable_sort_loop stable_sort_loop];
      [reflexivity|].
    destruct (Nat.ltb_spec (i + 1) last) as [L|]; [|reflexivity].
    destruct (ss_inner (i + 1) lt a first (i + 1) (i + 1)) as [j| | |] eqn:E; try reflexivity. cbn [bind].
    apply ss_inner_range in E; [|lia].
    destruct (Nat.eqb_spec j (i + 1)) as [|N]; cbn [negb]; [apply IH; auto; lia|].
    destruct (rotate_same a j (i + 1) (i + 1 + 1)) as (a' & it & E1 & E2 & Lg); [lia|exact B|lia|lia|lia|apply rot_one_good; lia|].
    rewrite E1, E2. cbn [bind]. apply IH; [lia|lia|]. rewrite Lg. exact B.
  Qed.

  Lemma stable_partition_range (pred : A -> bool) : forall fuel a first last a' k, first <= last -> last <= length a ->
    stable_partition_f fuel pred a first last = Ok (a', k) -> length a' = length a /\ first <= k <= last.
  Proof.
    induction fuel as [|f IH]; intros a first last a' k H1 H2 E; cbn [stable_partition_f] in E; [discriminate|].
    destruct (Nat.eqb_spec first last); [injection E as <- <-; lia|].
    set (m := first + (last - first) / 2) in *.
    assert (M : first <= m < last).
    { unfold m. pose proof (Nat.div_lt (last - first) 2 ltac:(lia) ltac:(lia)). lia. }
    destruct (Nat.eqb_spec first m) as [E0|N0].
    - destruct (rd a first) as [x| | |]; try discriminate. cbn [bind] in E. injection E as <- <-. destruct (pred x); lia.
    - destruct (stable_partition_f f pred a first m) as [[a1 l]| | |] eqn:E1; try discriminate. cbn [bind] in E.
      apply IH in E1 as (L1 & R1); [|lia|lia].
      destruct (stable_partition_f f pred a1 m last) as [[a2 r]| | |] eqn:E2; try discriminate. cbn [bind] in E.
      apply IH in E2 as (L2 & R2); [|lia|lia].
      assert (X : exists pre u v post, a2 = pre ++ u ++ v ++ post /\ l = length pre /\ m = length pre + length u /\
                  r = length pre + length u + length v).
      { exists (firstn l a2), (firstn (m - l) (skipn l a2)), (firstn (r - m) (skipn m a2)), (skipn r a2).
        split; [|rewrite ?firstn_length, ?skipn_length; lia].
        rewrite <- (firstn_skipn l a2) at 1. f_equal.
        rewrite <- (firstn_skipn (m - l) (skipn l a2)) at 1. f_equal.
        rewrite skipn_skipn. replace (m - l + l) with m by lia.
        rewrite <- (firstn_skipn (r - m) (skipn m a2)) at 1. f_equal.
        rewrite skipn_skipn. f_equal. lia. }
      destruct X as (pre & u & v & post & Ea & El & Em & Er).
      destruct (rotate_spec pre u v post) as (it & Rt).
      assert (Rt' : rotate a2 l m r = Ok (pre ++ v ++ u ++ post, it)) by (rewrite Ea, El, Em, Er; exact Rt).
      rewrite Rt' in E. cbn [bind] in E. injection E as <- <-.
      split; [|lia]. rewrite <- L1, <- L2, Ea, !app_length. lia.
  Qed.

  Lemma p_stable_partition_same (pred : A -> bool) : (es mod 4 = 0)%Z -> (0 < es)%Z -> forall fuel a first last,
    first <= last -> last <= length a -> block_at e es base (length a) ->
    p_stable_partition_f e es base fuel pred a first last = stable_partition_f fuel pred a first last.
  Proof.
    intros E4 He. induction fuel as [|f IH]; intros a first last H1 H2 B; cbn [p_stable_partition_f stable_partition_f];
      [reflexivity|].
    destruct (Nat.eqb_spec first last); [reflexivity|].
    set (m := first + (last - first) / 2) in *.
    assert (M : first <= m < last).
    { unfold m. pose proof (Nat.div_lt (last - first) 2 ltac:(lia) ltac:(lia)). lia. }
    destruct (Nat.eqb_spec first m) as [E0|N0]; [reflexivity|].
    rewrite IH by (auto; lia).
    destruct (stable_partition_f f pred a first m) as [[a1 l]| | |] eqn:E1; try reflexivity. cbn [bind].
    apply stable_partition_range in E1 as (L1 & R1); [|lia|lia].
    rewrite IH by (rewrite ?L1; auto; lia).
    destruct (stable_partition_f f pred a1 m last) as [[a2 r]| | |] eqn:E2; try reflexivity. cbn [bind].
    apply stable_partition_range in E2 as (L2 & R2); [|lia|lia].
    destruct (rotate_same a2 l m r) as (a' & it & F1 & F2 & Lg); [exact He| |lia|lia|lia|apply rot_mod4_good; auto; lia|].
    { rewrite L2, L1. exact B. }
    rewrite F1, F2. reflexivity.
  Qed.
End PtrAlgo.

(** ** partial_sort_copy into small integers *)
Section Crash.
  Local Open Scope Z_scope.
  Lemma gather_same {A} es base (a : list A) : 0 < es ->
    gather_from es a (frag_mem es base (Z.of_nat (length a)) 0 0) base (length a) = Ok a.
  Proof.
    intros He. apply gather_from_ok. intros i x Hi.
    assert (L : (i < length a)%nat) by (apply nth_error_Some; congruence).
    apply (gather_ok es a _ _ i); [exact He| |exact Hi].
    intros j Hj. rewrite frag_mem_in by lia. now rewrite Nat2Z.id.
  Qed.
  (** Copying nothing up by one element, over a boundary that is not a multiple
      of four. *)
  Lemma copy_backward_wraps es base n : es = 1 \/ es = 2 -> 2 <= n -> 0 < base -> base mod 4 = 0 ->
    copy_backward_fast (frag_mem es base n 0 0) (base + es * 1) (base + es * 1) (base + es * 2) = UB.
  Proof.
    intros He Hn Hb H4. set (m := frag_mem es base n 0 0).
    assert (N : m (base - 1) = None).
    { unfold m, frag_mem. replace (base <=? base - 1) with false by lia. cbn [andb].
      replace (base - 1 <? 0 + 0) with false by lia. rewrite andb_false_r. reflexivity. }
    assert (D : forall x, base <= x < base + es * n -> exists y, m x = Some y).
    { intros x Hx. unfold m, frag_mem. replace ((base <=? x) && (x <? base + es * n)) with true by lia. eauto. }
    unfold copy_backward_fast. rewrite Z.sub_diag.
    assert (E : exists k, Z.to_nat (u64 (0 - (base + es * 1) mod 4)) = S k /\ (base + es * 1) mod 4 = es).
    { assert (M : (base + es * 1) mod 4 = es) by (destruct He as [-> | ->]; Z.div_mod_to_equations; lia).
      rewrite M. destruct (Z.to_nat (u64 (0 - es))) eqn:Q; [|eauto].
      exfalso. destruct He as [-> | ->]; [change (u64 (0 - 1)) with (2 ^ 64 - 1) in Q|change (u64 (0 - 2)) with (2 ^ 64 - 2) in Q]; lia. }
    destruct E as (k & Ek & ->). rewrite Z.mul_1_r in *.
    replace ((base + es) mod 4) with es in Ek by (destruct He as [-> | ->]; Z.div_mod_to_equations; lia).
    destruct He as [-> | ->].
    - change (Z.to_nat 1) with 1%nat. cbn [movsb_down].
      destruct (D (base + 1 - 1)) as (y1 & Y1); [lia|]. destruct (D (base + 1 * 2 - 1)) as (y2 & Y2); [lia|].
      unfold ld at 1. rewrite Y1. cbn [bind]. unfold st at 1. rewrite Y2. cbn [bind].
      replace ((base + 1 * 2 - 1 - 1) mod 4 =? 3) with false by (symmetry; Z.div_mod_to_equations; lia).
      rewrite Ek. cbn [movsb_down]. unfold ld.
      replace (base + 1 - 1 - 1 =? base + 1 * 2 - 1) with false by lia.
      replace (base + 1 - 1 - 1) with (base - 1) by lia. rewrite N. reflexivity.
    - change (Z.to_nat 2) with 2%nat. cbn [movsb_down].
      destruct (D (base + 2 - 1)) as (y1 & Y1); [lia|]. destruct (D (base + 2 * 2 - 1)) as (y2 & Y2); [lia|].
      unfold ld at 1. rewrite Y1. cbn [bind]. unfold st at 1. rewrite Y2. cbn [bind].
      destruct (D (base + 2 - 1 - 1)) as (y3 & Y3); [lia|]. destruct (D (base + 2 * 2 - 1 - 1)) as (y4 & Y4); [lia|].
      unfold ld at 1. replace (base + 2 - 1 - 1 =? base + 2 * 2 - 1) with false by lia. rewrite Y3. cbn [bind].
      unfold st at 1. replace (base + 2 * 2 - 1 - 1 =? base + 2 * 2 - 1) with false by lia. rewrite Y4. cbn [bind].
      replace ((base + 2 * 2 - 1 - 1 - 1) mod 4 =? 3) with false by (symmetry; Z.div_mod_to_equations; lia).
      rewrite Ek. cbn [movsb_down]. unfold ld.
      replace (base + 2 - 1 - 1 - 1 =? base + 2 * 2 - 1 - 1) with false by lia.
      replace (base + 2 - 1 - 1 - 1 =? base + 2 * 2 - 1) with false by lia.
      replace (base + 2 - 1 - 1 - 1) with (base - 1) by lia. rewrite N. reflexivity.
  Qed.
  Lemma partial_sort_copy_crash {A} es base (lt : A -> A -> bool) x y t a :
    es = 1 \/ es = 2 -> lt x y = true -> (2 <= length a)%nat -> 0 < base -> base mod 4 = 0 ->
    p_partial_sort_copy es base lt (x :: y :: t) a 0 (length a) = UB.
  Proof.
    intros He Hl Ha Hb H4. unfold p_partial_sort_copy. cbn [p_partial_sort_copy_loop psc_pos Nat.eqb Nat.sub bind].
    destruct a as [|a0 [|a1 a]]; cbn [length] in Ha; try lia.
    cbn [length Nat.eqb Nat.ltb Nat.leb Nat.add Nat.sub].
    assert (C0 : copy_backward_cells es base (a0 :: a1 :: a) 0 0 1 = Ok (a0 :: a1 :: a)).
    { unfold copy_backward_cells, copy_backward_fast. change (Z.of_nat 0) with 0. rewrite Z.mul_0_r, Z.add_0_r, Z.sub_diag, H4.
      change (Z.to_nat 0) with 0%nat. cbn [movsb_down bind]. change (u64 (0 - 0)) with 0.
      replace ((base + es * Z.of_nat 1 - 1) mod 4 =? 3) with false
        by (symmetry; destruct He as [-> | ->]; Z.div_mod_to_equations; lia).
      change (Z.to_nat 0) with 0%nat. cbn [movsb_down bind]. apply gather_same. lia. }
    rewrite C0. cbn [bind wr upd psc_pos Nat.eqb Nat.sub Nat.add rd nth_error]. rewrite Hl. cbn [psc_pos Nat.eqb bind].
    unfold copy_backward_cells at 1.
    change (Z.of_nat 1) with 1. change (Z.of_nat 2) with 2.
    rewrite copy_backward_wraps by (auto; cbn [length]; lia). reflexivity.
  Qed.
End Crash.
