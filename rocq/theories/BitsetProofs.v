(** * BitsetProofs *)
From Verif Require Import Base UtilModel UtilSpec UtilProofs BitsetModel BitsetSpec.
From Coq Require Import ZArith ZifyBool ZifyNat.
Local Open Scope nat_scope.

Definition w32 (w : Z) : Prop := (0 <= w < 2 ^ 32)%Z.
Definition word_bits (w : Z) : list bool := map (fun k => Z.testbit w (Z.of_nat k)) (seq 0 32).
Fixpoint bits (ws : list Z) : list bool := match ws with [] => [] | w :: t => word_bits w ++ bits t end.

Lemma word_bits_length w : length (word_bits w) = 32.
Proof. unfold word_bits. now rewrite map_length, seq_length. Qed.
Lemma bits_length ws : length (bits ws) = 32 * length ws.
Proof. induction ws as [|w t IH]; cbn [bits length]; [lia|]. rewrite app_length, word_bits_length, IH. lia. Qed.
Lemma bits_app a b : bits (a ++ b) = bits a ++ bits b.
Proof. induction a as [|w t IH]; cbn [bits app]; [reflexivity|]. now rewrite IH, app_assoc. Qed.
Lemma nwords_div n : n / 32 * 32 + n mod 32 = n.
Proof. pose proof (Nat.div_mod n 32). lia. Qed.
Lemma nwords_cover sz : sz <= 32 * nwords sz < sz + 32.
Proof.
  unfold nwords. pose proof (nwords_div sz) as D. pose proof (Nat.mod_upper_bound sz 32 ltac:(lia)).
  destruct (Nat.eqb_spec (sz mod 32) 0); lia.
Qed.
Lemma nwords_in sz n : n < sz -> n / 32 < nwords sz.
Proof. intros H. pose proof (nwords_cover sz). pose proof (nwords_div n). lia. Qed.

Lemma nth_map_seq {A} (f : nat -> A) s n k d : k < n -> nth k (map f (seq s n)) d = f (s + k).
Proof. intros H. rewrite (nth_indep _ d (f 0)) by now rewrite map_length, seq_length. rewrite map_nth, seq_nth by exact H. reflexivity. Qed.
Lemma list_eq {A} (a b : list A) d : length a = length b -> (forall k, k < length a -> nth k a d = nth k b d) -> a = b.
Proof. intros L H. apply (nth_ext a b d d L H). Qed.
Lemma nth_firstn' {A} (l : list A) s k d : k < s -> nth k (firstn s l) d = nth k l d.
Proof. revert s k. induction l as [|x t IH]; intros [|s] [|k] H; cbn [firstn nth]; try lia; auto. apply IH. lia. Qed.
Lemma set_bit_length l n v : n < length l -> length (set_bit l n v) = length l.
Proof. intros H. unfold set_bit. rewrite app_length. cbn [length]. rewrite firstn_length, skipn_length. lia. Qed.
Lemma set_bit_nth l n v k : n < length l -> nth k (set_bit l n v) false = if k =? n then v else nth k l false.
Proof.
  intros H. unfold set_bit. assert (Lf : length (firstn n l) = n) by (rewrite firstn_length; lia).
  destruct (Nat.eqb_spec k n) as [-> | N].
  - rewrite app_nth2 by lia. now rewrite Lf, Nat.sub_diag.
  - rewrite <- (firstn_skipn n l) at 3. destruct (Nat.lt_ge_cases k n).
    + rewrite !app_nth1 by lia. reflexivity.
    + rewrite !app_nth2 by lia. rewrite Lf. destruct (k - n) as [|j] eqn:E; [lia|].
      destruct (skipn n l) as [|x t] eqn:Es.
      * apply (f_equal (@length bool)) in Es. rewrite skipn_length in Es. cbn [length] in Es. lia.
      * cbn [nth]. f_equal. change (S n) with (1 + n). rewrite <- skipn_skipn, Es. reflexivity.
Qed.
Lemma set_bit_mid a b c n v : n < length b -> a ++ set_bit b n v ++ c = set_bit (a ++ b ++ c) (length a + n) v.
Proof.
  intros H. unfold set_bit. rewrite firstn_app, (firstn_all2 a) by lia. replace (length a + n - length a) with n by lia.
  rewrite firstn_app. replace (n - length b) with 0 by lia. rewrite firstn_O, app_nil_r.
  rewrite skipn_app, (skipn_all2 a) by lia. replace (S (length a + n) - length a) with (S n) by lia.
  rewrite skipn_app. replace (S n - length b) with 0 by lia. cbn [skipn app]. rewrite <- !app_assoc. reflexivity.
Qed.
Lemma firstn_set_bit l n v s : n < s -> s <= length l -> firstn s (set_bit l n v) = set_bit (firstn s l) n v.
Proof.
  intros H Hs. apply (list_eq _ _ false).
  - rewrite firstn_length, set_bit_length, set_bit_length; rewrite ?firstn_length; lia.
  - intros k Hk. rewrite firstn_length, set_bit_length in Hk by lia.
    rewrite set_bit_nth by (rewrite firstn_length; lia).
    rewrite !nth_firstn' by lia. now rewrite set_bit_nth by lia.
Qed.

(** ** Words *)
Lemma mask_bit n k : k < 32 -> Z.testbit (mask n) (Z.of_nat k) = (k =? n mod 32).
Proof.
  intros H. unfold mask. rewrite Z.shiftl_1_l. rewrite Z.pow2_bits_eqb by lia. lia.
Qed.
Lemma mask_w32 n : w32 (mask n).
Proof.
  unfold mask, w32. rewrite Z.shiftl_1_l. pose proof (Nat.mod_upper_bound n 32 ltac:(lia)).
  split; [apply Z.pow_nonneg; lia|]. apply Z.pow_lt_mono_r; lia.
Qed.
Lemma not32_bit v k : k < 32 -> Z.testbit (not32 v) (Z.of_nat k) = negb (Z.testbit v (Z.of_nat k)).
Proof.
  intros H. rewrite <- Z.lnot_spec by lia. unfold not32.
  replace (2 ^ 32 - 1 - v)%Z with (Z.lnot v + 1 * 2 ^ 32)%Z by (unfold Z.lnot; lia).
  rewrite <- (Z.mod_pow2_bits_low _ 32) by lia. rewrite Z.mod_add by lia. apply Z.mod_pow2_bits_low. lia.
Qed.
Lemma not32_w32 v : w32 v -> w32 (not32 v).
Proof. unfold w32, not32. lia. Qed.
Lemma w32_bits w : w32 w <-> (0 <= w)%Z /\ forall k, (32 <= k)%Z -> Z.testbit w k = false.
Proof.
  unfold w32. split.
  - intros (H1 & H2). split; [exact H1|]. intros k Hk. destruct (Z.eq_dec w 0) as [-> | N]; [apply Z.bits_0|].
    apply Z.bits_above_log2; [lia|]. apply Z.log2_lt_pow2; [lia|]. apply (Z.lt_le_trans _ (2 ^ 32)); [exact H2|]. apply Z.pow_le_mono_r; lia.
  - intros (H1 & H2). split; [exact H1|]. destruct (Z.lt_ge_cases w (2 ^ 32)) as [|G]; [assumption|exfalso].
    assert (P : (0 < w)%Z) by lia. pose proof (Z.log2_le_pow2 w 32 P) as (L & _). specialize (L G).
    pose proof (Z.bit_log2 w P) as B. rewrite (H2 _ L) in B. discriminate.
Qed.
Lemma w32_op (f : Z -> Z -> Z) (g : bool -> bool -> bool) a b : (forall n, Z.testbit (f a b) n = g (Z.testbit a n) (Z.testbit b n)) -> g false false = false ->
  (0 <= f a b)%Z -> w32 a -> w32 b -> w32 (f a b).
Proof. intros Hf Hg H0 Ha Hb. apply w32_bits in Ha, Hb. apply w32_bits. split; [exact H0|]. intros k Hk. rewrite Hf, (proj2 Ha), (proj2 Hb) by exact Hk. exact Hg. Qed.
Lemma w32_and a b : w32 a -> w32 b -> w32 (Z.land a b).
Proof. intros Ha Hb. apply (w32_op Z.land andb); auto. apply Z.land_spec. apply Z.land_nonneg. left. unfold w32 in *. lia. Qed.
Lemma w32_or a b : w32 a -> w32 b -> w32 (Z.lor a b).
Proof. intros Ha Hb. apply (w32_op Z.lor orb); auto. apply Z.lor_spec. apply Z.lor_nonneg. unfold w32 in *. lia. Qed.
Lemma w32_xor a b : w32 a -> w32 b -> w32 (Z.lxor a b).
Proof. intros Ha Hb. apply (w32_op Z.lxor xorb); auto. apply Z.lxor_spec. apply Z.lxor_nonneg. unfold w32 in *. lia. Qed.
Lemma word_eq (f : nat -> bool) w : (forall k, k < 32 -> Z.testbit w (Z.of_nat k) = f k) -> word_bits w = map f (seq 0 32).
Proof. intros H. unfold word_bits. apply map_ext_in. intros k Hk. apply in_seq in Hk. apply H. lia. Qed.
Lemma word_nth w k : k < 32 -> nth k (word_bits w) false = Z.testbit w (Z.of_nat k).
Proof. intros H. unfold word_bits. now rewrite nth_map_seq. Qed.
Lemma word_set w w' k v : k < 32 -> (forall j, j < 32 -> Z.testbit w' (Z.of_nat j) = if j =? k then v else Z.testbit w (Z.of_nat j)) ->
  word_bits w' = set_bit (word_bits w) k v.
Proof.
  intros Hk H. apply (list_eq _ _ false).
  - rewrite set_bit_length; rewrite !word_bits_length; lia.
  - intros j Hj. rewrite word_bits_length in Hj. rewrite set_bit_nth by (rewrite word_bits_length; lia). rewrite !word_nth by lia. now apply H.
Qed.

(** ** One bit *)
Section Size.
  Variable sz : nat.
  Notation Nw := (nwords sz).
  (** [ws] holds the bits [l], and, when [c], nothing else. *)
  Definition Binv (c : bool) (ws : list Z) (l : list bool) : Prop :=
    length ws = Nw /\ Forall w32 ws /\ firstn sz (bits ws) = l /\ (c = true -> skipn sz (bits ws) = repeat false (32 * Nw - sz)).
  Lemma Binv_length c ws l : Binv c ws l -> length l = sz.
  Proof. intros (L & _ & <- & _). rewrite firstn_length, bits_length, L. pose proof (nwords_cover sz). lia. Qed.
  Lemma word_at c ws l n : Binv c ws l -> n < sz -> exists pre w post, ws = pre ++ w :: post /\ length pre = n / 32 /\ w32 w /\ Forall w32 pre /\ Forall w32 post /\
    bits ws = bits pre ++ word_bits w ++ bits post /\ n = length (bits pre) + n mod 32 /\ nth n l false = Z.testbit w (Z.of_nat (n mod 32)).
  Proof.
    intros (L & F & E & _) Hn. pose proof (nwords_in sz n Hn) as Hw. rewrite <- L in Hw.
    destruct (nth_error ws (n / 32)) as [w|] eqn:En; [|apply nth_error_None in En; lia].
    apply nth_error_split in En. destruct En as (pre & post & -> & Lp). exists pre, w, post.
    apply Forall_app in F. destruct F as [F1 F2]. inversion F2 as [|w' t' F3 F4]; subst w' t'.
    assert (Eb : bits (pre ++ w :: post) = bits pre ++ word_bits w ++ bits post) by (rewrite bits_app; reflexivity).
    assert (En : n = length (bits pre) + n mod 32) by (rewrite bits_length, Lp; pose proof (nwords_div n); lia).
    repeat (split; [assumption || reflexivity|]). rewrite <- E. rewrite nth_firstn' by exact Hn. rewrite Eb.
    pose proof (Nat.mod_upper_bound n 32 ltac:(lia)) as M.
    rewrite app_nth2 by lia. replace (n - length (bits pre)) with (n mod 32) by lia.
    rewrite app_nth1 by (rewrite word_bits_length; exact M). now apply word_nth.
  Qed.
  Lemma bit_ref_ok ws pre w post n : n < sz -> ws = pre ++ w :: post -> length pre = n / 32 -> bit_ref sz ws n = Ok w.
  Proof. intros Hn -> L. unfold bit_ref. replace (n <? sz) with true by lia. rewrite <- L. apply rd_app. Qed.
  Lemma put_bit c ws l n v pre w w' post : Binv c ws l -> n < sz -> ws = pre ++ w :: post -> length pre = n / 32 -> w32 w' ->
    (forall j, j < 32 -> Z.testbit w' (Z.of_nat j) = if j =? n mod 32 then v else Z.testbit w (Z.of_nat j)) ->
    wr ws (n / 32) w' = Ok (pre ++ w' :: post) /\ Binv c (pre ++ w' :: post) (set_bit l n v).
  Proof.
    intros I Hn E Lp Hw' Hb. rewrite E, <- Lp, wr_app. split; [reflexivity|].
    destruct I as (L & F & El & C). subst ws. rewrite app_length in L. cbn [length] in L.
    apply Forall_app in F. destruct F as [F1 F2]. inversion F2; subst.
    pose proof (Nat.mod_upper_bound n 32 ltac:(lia)) as M. pose proof (nwords_cover sz) as Nc.
    assert (Eb : bits (pre ++ w' :: post) = set_bit (bits (pre ++ w :: post)) n v).
    { rewrite !bits_app. cbn [bits]. rewrite (word_set w w' (n mod 32) v M Hb). rewrite set_bit_mid by (rewrite word_bits_length; exact M).
      f_equal. rewrite bits_length. pose proof (nwords_div n). lia. }
    assert (Lb : length (bits (pre ++ w :: post)) = 32 * Nw) by (rewrite bits_length, app_length; cbn [length]; lia).
    split; [rewrite app_length; cbn [length]; lia|]. split; [apply Forall_app; split; auto|].
    rewrite Eb. split; [apply firstn_set_bit; lia|].
    intros Hc. rewrite <- (C Hc). unfold set_bit. rewrite skipn_app. rewrite firstn_length.
    rewrite skipn_all2 by (rewrite firstn_length; lia). cbn [app].
    destruct (sz - Nat.min n (length (bits (pre ++ w :: post)))) as [|j] eqn:Ej; [lia|]. rewrite skipn_cons.
    rewrite skipn_skipn. f_equal. lia.
  Qed.
  Lemma bs_test_ok c ws l n : Binv c ws l -> n < sz -> bs_test sz ws n = Ok (nth n l false).
  Proof.
    intros I Hn. destruct (word_at c ws l n I Hn) as (pre & w & post & E & Lp & Hw & _ & _ & _ & _ & El).
    unfold bs_test. rewrite (bit_ref_ok ws pre w post n Hn E Lp). cbn [bind]. rewrite El. f_equal.
    set (k := Z.of_nat (n mod 32)). assert (Kb : forall j, Z.testbit (Z.land w (mask n)) j = Z.testbit w j && (j =? k)%Z).
    { intros j. rewrite Z.land_spec. unfold mask. rewrite Z.shiftl_1_l. fold k. destruct (Z.lt_ge_cases j 0); [rewrite !Z.testbit_neg_r by lia; reflexivity|].
      rewrite Z.pow2_bits_eqb by lia. f_equal. lia. }
    destruct (Z.eqb_spec (Z.land w (mask n)) 0) as [Z0 | N0].
    - specialize (Kb k). rewrite Z0, Z.bits_0, Z.eqb_refl, andb_true_r in Kb. cbn [negb]. exact Kb.
    - destruct (Z.testbit w k) eqn:T; [reflexivity|]. exfalso. apply N0. apply Z.bits_inj_0. intros j. rewrite Kb.
      destruct (Z.eqb_spec j k) as [-> | ]; [now rewrite T|apply andb_false_r].
  Qed.
  Lemma bs_set_ok c ws l n v : Binv c ws l -> n < sz -> exists ws', bs_set sz ws n v = Ok ws' /\ Binv c ws' (set_bit l n v).
  Proof.
    intros I Hn. destruct (word_at c ws l n I Hn) as (pre & w & post & E & Lp & Hw & _).
    unfold bs_set. rewrite (bit_ref_ok ws pre w post n Hn E Lp). cbn [bind]. cbv zeta.
    destruct (put_bit c ws l n v pre w (if v then Z.lor w (mask n) else Z.land w (not32 (mask n))) post I Hn E Lp) as [Ew I'].
    - destruct v; [apply w32_or|apply w32_and]; auto using mask_w32, not32_w32.
    - intros j Hj. destruct v; [rewrite Z.lor_spec, mask_bit by exact Hj; destruct (j =? n mod 32); rewrite ?orb_true_r, ?orb_false_r; reflexivity|].
      rewrite Z.land_spec, not32_bit, mask_bit by exact Hj. destruct (j =? n mod 32); cbn [negb]; rewrite ?andb_true_r, ?andb_false_r; reflexivity.
    - eauto.
  Qed.
  Lemma bs_flip_ok c ws l n : Binv c ws l -> n < sz -> exists ws', bs_flip sz ws n = Ok ws' /\ Binv c ws' (set_bit l n (negb (nth n l false))).
  Proof.
    intros I Hn. destruct (word_at c ws l n I Hn) as (pre & w & post & E & Lp & Hw & _ & _ & _ & _ & El).
    unfold bs_flip. rewrite (bit_ref_ok ws pre w post n Hn E Lp). cbn [bind].
    destruct (put_bit c ws l n (negb (nth n l false)) pre w (Z.lxor w (mask n)) post I Hn E Lp) as [Ew I'].
    - apply w32_xor; auto using mask_w32.
    - intros j Hj. rewrite Z.lxor_spec, mask_bit by exact Hj. rewrite El. destruct (Nat.eqb_spec j (n mod 32)) as [-> | ]; [apply xorb_true_r|apply xorb_false_r].
    - eauto.
  Qed.

  (** ** All bits *)
  Lemma bits_repeat w n b : (forall k, k < 32 -> Z.testbit w (Z.of_nat k) = b) -> bits (repeat w n) = repeat b (32 * n).
  Proof.
    intros H. induction n as [|n IH]; cbn [repeat bits]; [reflexivity|]. rewrite IH. rewrite (word_eq (fun _ => b) w H).
    replace (32 * S n) with (32 + 32 * n) by lia. rewrite repeat_app. reflexivity.
  Qed.
  Lemma repeat_part {A} (x : A) n s : s <= n -> firstn s (repeat x n) = repeat x s /\ skipn s (repeat x n) = repeat x (n - s).
  Proof.
    intros H. replace n with (s + (n - s)) at 1 2 by lia. rewrite repeat_app. split.
    - rewrite firstn_app, repeat_length, Nat.sub_diag, firstn_O, app_nil_r. apply firstn_all2. rewrite repeat_length. lia.
    - rewrite skipn_app, repeat_length, Nat.sub_diag. rewrite skipn_all2 by (rewrite repeat_length; lia). reflexivity.
  Qed.
  Lemma Binv_repeat c w b : w32 w -> (forall k, k < 32 -> Z.testbit w (Z.of_nat k) = b) -> (c = true -> b = true -> sz mod 32 = 0) ->
    Binv c (repeat w Nw) (repeat b sz).
  Proof.
    intros Hw H Hc. pose proof (nwords_cover sz). destruct (repeat_part b (32 * Nw) sz ltac:(lia)) as [R1 R2].
    split; [apply repeat_length|]. split; [apply Forall_forall; intros x Hx; apply repeat_spec in Hx; now subst|].
    rewrite (bits_repeat w Nw b H). split; [exact R1|]. intros C. rewrite R2. destruct b; [|reflexivity].
    specialize (Hc C eq_refl). unfold nwords. rewrite Hc. cbn [Nat.eqb]. pose proof (nwords_div sz).
    replace (32 * (sz / 32 + 0) - sz) with 0 by lia. reflexivity.
  Qed.
  Lemma bs_reset_ok c ws l : Binv c ws l -> Binv c (bs_reset_all ws) (repeat false sz).
  Proof.
    intros (L & _). unfold bs_reset_all. rewrite L. apply Binv_repeat; [unfold w32; lia| |discriminate]. intros k _. apply Z.bits_0.
  Qed.
  Lemma minus1_bit k : k < 32 -> Z.testbit (u32 (-1)) (Z.of_nat k) = true.
  Proof. intros H. change (u32 (-1)) with (Z.ones 32). apply Z.ones_spec_low. lia. Qed.
  Lemma bs_set_all_ok c ws l : Binv c ws l -> (c = true -> sz mod 32 = 0) -> Binv c (bs_set_all ws) (repeat true sz).
  Proof.
    intros (L & _) Hc. unfold bs_set_all. rewrite L. apply Binv_repeat; [vm_compute; split; [discriminate|reflexivity]|exact minus1_bit|auto].
  Qed.
  Lemma bits_not ws : bits (map not32 ws) = map negb (bits ws).
  Proof.
    induction ws as [|w t IH]; cbn [map bits]; [reflexivity|]. rewrite IH, map_app. f_equal.
    unfold word_bits. rewrite map_map. apply map_ext_in. intros k Hk. apply in_seq in Hk. apply not32_bit. lia.
  Qed.
  Lemma bs_flip_all_ok c ws l : Binv c ws l -> (c = true -> sz mod 32 = 0) -> Binv c (bs_flip_all ws) (map negb l).
  Proof.
    intros (L & F & E & C) Hc. unfold bs_flip_all. split; [now rewrite map_length|].
    split; [apply Forall_forall; intros x Hx; apply in_map_iff in Hx; destruct Hx as (y & <- & Hy); rewrite Forall_forall in F; auto using not32_w32|].
    rewrite bits_not. split; [rewrite firstn_map; congruence|]. intros C1. specialize (Hc C1). rewrite skipn_map, (C C1).
    unfold nwords. rewrite Hc. cbn [Nat.eqb]. pose proof (nwords_div sz). replace (32 * (sz / 32 + 0) - sz) with 0 by lia. reflexivity.
  Qed.
  Lemma zip_ok f g a : (forall x y n, Z.testbit (f x y) n = g (Z.testbit x n) (Z.testbit y n)) -> (forall x y, w32 x -> w32 y -> w32 (f x y)) ->
    forall b, length a = length b -> Forall w32 a -> Forall w32 b ->
    exists r, zip f a b = Ok r /\ length r = length a /\ Forall w32 r /\ bits r = map2 g (bits a) (bits b).
  Proof.
    intros Hf Hw. induction a as [|x s IH]; intros [|y t] L Fa Fb; cbn [length] in L; try discriminate.
    - exists []. cbn [zip bits]. repeat split; constructor.
    - inversion Fa; inversion Fb; subst. destruct (IH t) as (r & E & Lr & Fr & Br); auto. exists (f x y :: r). cbn [zip]. rewrite E. cbn [bind].
      split; [reflexivity|]. split; [cbn [length]; lia|]. split; [constructor; auto|]. cbn [bits]. rewrite Br. unfold map2.
      assert (Eq : forall (u1 u2 v1 v2 : list bool), length u1 = length v1 -> combine (u1 ++ u2) (v1 ++ v2) = combine u1 v1 ++ combine u2 v2).
      { induction u1 as [|a1 u1 IHu]; intros u2 [|b1 v1] v2 H; cbn [length] in H; try discriminate; [reflexivity|]. cbn [app combine]. f_equal. apply IHu. lia. }
      rewrite Eq by now rewrite !word_bits_length. rewrite map_app. f_equal. apply (list_eq _ _ false).
      + rewrite map_length, combine_length, !word_bits_length. reflexivity.
      + intros k Hk. rewrite word_bits_length in Hk. rewrite word_nth by exact Hk. rewrite Hf.
        rewrite (nth_indep _ false (g false false)) by (rewrite map_length, combine_length, !word_bits_length; exact Hk).
        change (g false false) with ((fun p : bool * bool => g (fst p) (snd p)) (false, false)). rewrite map_nth, combine_nth by now rewrite !word_bits_length.
        cbn [fst snd]. now rewrite !word_nth.
  Qed.
  Lemma map2_part g a b s : length a = length b -> firstn s (map2 g a b) = map2 g (firstn s a) (firstn s b) /\ skipn s (map2 g a b) = map2 g (skipn s a) (skipn s b).
  Proof.
    revert b s. induction a as [|x a IH]; intros [|y b] [|s] L; cbn [length] in L; try discriminate; cbn; auto.
    unfold map2 in *. destruct (IH b s) as [I1 I2]; [lia|]. split; [now rewrite <- I1|exact I2].
  Qed.
  Lemma map2_repeat g x y n : map2 g (repeat x n) (repeat y n) = repeat (g x y) n.
  Proof. unfold map2. induction n as [|n IH]; cbn [repeat combine map fst snd]; [reflexivity|]. now rewrite IH. Qed.
  Lemma bs_zip_ok f g c a b la lb : (forall x y n, Z.testbit (f x y) n = g (Z.testbit x n) (Z.testbit y n)) -> g false false = false ->
    (forall x y, w32 x -> w32 y -> w32 (f x y)) -> Binv c a la -> Binv c b lb ->
    exists r, zip f a b = Ok r /\ Binv c r (map2 g la lb).
  Proof.
    intros Hf Hg Hw (La & Fa & Ea & Ca) (Lb & Fb & Eb & Cb). destruct (zip_ok f g a Hf Hw b) as (r & E & Lr & Fr & Br); auto; [congruence|].
    exists r. split; [exact E|]. assert (L2 : length (bits a) = length (bits b)) by (rewrite !bits_length; lia).
    split; [congruence|]. split; [exact Fr|]. rewrite Br. destruct (map2_part g (bits a) (bits b) sz L2) as [P1 P2].
    split; [rewrite P1; congruence|]. intros C. now rewrite P2, (Ca C), (Cb C), map2_repeat, Hg.
  Qed.
  (** ** From a number *)
  Lemma bs_value_ok c v : 0 < sz -> w32 v -> (c = true -> sz < 32 -> (v < 2 ^ Z.of_nat sz)%Z) -> Binv c (bs_of_value sz v) (bits_of_value sz v).
  Proof.
    intros Hz Hv Hc. unfold bs_of_value. assert (Ev : u32 v = v) by (unfold u32, two32, w32 in *; apply Z.mod_small; lia). rewrite Ev.
    pose proof (nwords_cover sz) as Nc. assert (N1 : 1 <= Nw) by lia.
    assert (Eb : bits (v :: repeat 0%Z (Nw - 1)) = map (fun k => (k <? 32) && Z.testbit v (Z.of_nat k)) (seq 0 (32 * Nw))).
    { cbn [bits]. rewrite (bits_repeat 0%Z (Nw - 1) false) by (intros; apply Z.bits_0). replace (32 * Nw) with (32 + 32 * (Nw - 1)) by lia.
      rewrite seq_app, map_app. apply f_equal2.
      - apply word_eq. intros k Hk. replace (k <? 32) with true by lia. reflexivity.
      - apply (list_eq _ _ false); [rewrite repeat_length, map_length, seq_length; reflexivity|]. intros k Hk. rewrite repeat_length in Hk.
        rewrite nth_map_seq by exact Hk. replace (0 + 32 + k <? 32) with false by lia. cbn [andb].
        destruct (nth_in_or_default k (repeat false (32 * (Nw - 1))) false) as [H | H]; [apply repeat_spec in H; exact H|exact H]. }
    split; [cbn [length]; rewrite repeat_length; lia|].
    split; [constructor; [exact Hv|apply Forall_forall; intros x Hx; apply repeat_spec in Hx; subst; unfold w32; lia]|].
    rewrite Eb. unfold bits_of_value. replace (32 * Nw) with (sz + (32 * Nw - sz)) at 1 2 by lia. rewrite seq_app, map_app. split.
    - rewrite firstn_app, map_length, seq_length, Nat.sub_diag, firstn_O, app_nil_r. apply firstn_all2. rewrite map_length, seq_length. lia.
    - intros C. specialize (Hc C). rewrite skipn_app, map_length, seq_length, Nat.sub_diag. rewrite skipn_all2 by (rewrite map_length, seq_length; lia). cbn [app skipn].
      apply (list_eq _ _ false); [now rewrite repeat_length, map_length, seq_length|]. intros k Hk. rewrite map_length, seq_length in Hk.
      rewrite nth_map_seq by exact Hk. replace (nth k (repeat false (32 * Nw - sz)) false) with false.
      + destruct (Nat.ltb_spec (0 + sz + k) 32) as [Hl | Hl]; [|reflexivity]. cbn [andb]. destruct (Z.eq_dec v 0) as [-> | Nv]; [apply Z.bits_0|].
        unfold w32 in Hv. apply Z.bits_above_log2; [lia|]. apply Z.log2_lt_pow2; [lia|]. apply (Z.lt_le_trans _ (2 ^ Z.of_nat sz)); [apply Hc; lia|].
        apply Z.pow_le_mono_r; lia.
      + symmetry. destruct (nth_in_or_default k (repeat false (32 * Nw - sz)) false) as [H | H]; [apply repeat_spec in H; exact H|exact H].
  Qed.

  (** ** Text *)
  Definition tb (buf : list Z) (pos k : nat) : bool := (k <? pos) && negb (nth (pos - 1 - k) buf 48 =? 48)%Z.
  Lemma pow2_w32 s : s < 32 -> w32 (Z.shiftl 1 (Z.of_nat s)).
  Proof. intros H. pose proof (mask_w32 s) as M. unfold mask in M. now rewrite Nat.mod_small in M. Qed.
  Lemma pow2_bit s j : Z.testbit (Z.shiftl 1 (Z.of_nat s)) (Z.of_nat j) = (j =? s).
  Proof. rewrite Z.shiftl_1_l, Z.pow2_bits_eqb by lia. lia. Qed.
  Lemma of_text_word_ok buf n : forall s w pos, w32 w -> s + n <= 32 -> pos <= length buf ->
    exists w', of_text_word w (map (fun k => Z.shiftl 1 (Z.of_nat k)) (seq s n)) buf pos = Ok (w', pos - n) /\ w32 w' /\
      forall j, j < 32 -> Z.testbit w' (Z.of_nat j) = if (s <=? j) && (j <? s + n) then tb buf pos (j - s) else Z.testbit w (Z.of_nat j).
  Proof.
    induction n as [|n IH]; intros s w pos Hw Hs Hp; cbn [seq map of_text_word].
    - exists w. rewrite Nat.sub_0_r. split; [reflexivity|]. split; [exact Hw|]. intros j Hj. replace ((s <=? j) && (j <? s + 0)) with false by lia. reflexivity.
    - set (b := Z.shiftl 1 (Z.of_nat s)). assert (Hb : w32 b) by (apply pow2_w32; lia).
      assert (W0 : w32 (Z.land w (not32 b))) by (apply w32_and; auto using not32_w32).
      assert (B0 : forall j, j < 32 -> Z.testbit (Z.land w (not32 b)) (Z.of_nat j) = if j =? s then false else Z.testbit w (Z.of_nat j)).
      { intros j Hj. rewrite Z.land_spec, not32_bit by exact Hj. unfold b. rewrite pow2_bit. destruct (j =? s); cbn [negb]; rewrite ?andb_false_r, ?andb_true_r; reflexivity. }
      assert (B1 : forall j, j < 32 -> Z.testbit (Z.lor w b) (Z.of_nat j) = if j =? s then true else Z.testbit w (Z.of_nat j)).
      { intros j Hj. rewrite Z.lor_spec. unfold b. rewrite pow2_bit. destruct (j =? s); rewrite ?orb_true_r, ?orb_false_r; reflexivity. }
      destruct pos as [|p].
      + destruct (IH (S s) _ 0 W0 ltac:(lia) ltac:(lia)) as (w' & E & Hw' & Hj). exists w'. split; [exact E|]. split; [exact Hw'|].
        intros j Hj'. rewrite Hj, B0 by exact Hj'. destruct (Nat.eqb_spec j s) as [-> | N].
        * replace (S s <=? s) with false by lia. cbn [andb]. replace ((s <=? s) && (s <? s + S n)) with true by lia. reflexivity.
        * replace ((S s <=? j) && (j <? S s + n)) with ((s <=? j) && (j <? s + S n)) by lia. reflexivity.
      + destruct (rd_lt buf p Hp) as (c & Ec & En). rewrite Ec. cbn [bind].
        assert (W1 : w32 (if (c =? 48)%Z then Z.land w (not32 b) else Z.lor w b)) by (destruct (c =? 48)%Z; auto using w32_or).
        destruct (IH (S s) _ p W1 ltac:(lia) ltac:(lia)) as (w' & E & Hw' & Hj). exists w'. split; [exact E|]. split; [exact Hw'|].
        intros j Hj'. rewrite Hj by exact Hj'. destruct (Nat.eqb_spec j s) as [-> | N].
        * replace (S s <=? s) with false by lia. cbn [andb]. replace ((s <=? s) && (s <? s + S n)) with true by lia. rewrite Nat.sub_diag.
          unfold tb. cbn [Nat.ltb Nat.leb andb]. replace (S p - 1 - 0) with p by lia. rewrite (nth_error_nth _ _ _ En).
          destruct (c =? 48)%Z; [rewrite B0|rewrite B1]; rewrite ?Nat.eqb_refl; auto.
        * replace ((S s <=? j) && (j <? S s + n)) with ((s <=? j) && (j <? s + S n)) by lia.
          destruct ((s <=? j) && (j <? s + S n)) eqn:R.
          -- unfold tb. replace (S p - 1 - (j - s)) with (p - 1 - (j - S s)) by lia. replace (j - s <? S p) with (j - S s <? p) by lia. reflexivity.
          -- destruct (c =? 48)%Z; [rewrite B0|rewrite B1]; auto; replace (j =? s) with false by lia; reflexivity.
  Qed.
  Lemma of_text_ok buf ws : forall pos, Forall w32 ws -> pos <= length buf ->
    exists r, of_text ws buf pos = Ok (r, pos - 32 * length ws) /\ length r = length ws /\ Forall w32 r /\ bits r = map (tb buf pos) (seq 0 (32 * length ws)).
  Proof.
    induction ws as [|w t IH]; intros pos F Hp; cbn [of_text].
    - exists []. cbn [length bits]. rewrite Nat.mul_0_r, Nat.sub_0_r. repeat split. constructor.
    - inversion F; subst. destruct (of_text_word_ok buf 32 0 w pos) as (w' & E & Hw' & Hj); auto.
      unfold bit_values. rewrite E. cbn [bind]. destruct (IH (pos - 32)) as (r & Er & Lr & Fr & Br); [assumption|lia|]. rewrite Er. cbn [bind].
      exists (w' :: r). cbn [length]. split; [f_equal; f_equal; lia|]. split; [lia|]. split; [constructor; auto|]. cbn [bits]. rewrite Br.
      replace (32 * S (length t)) with (32 + 32 * length t) by lia. rewrite seq_app, map_app. apply f_equal2.
      + apply word_eq. intros k Hk. rewrite Hj by exact Hk. replace ((0 <=? k) && (k <? 0 + 32)) with true by lia. now rewrite Nat.sub_0_r.
      + apply (list_eq _ _ false); [now rewrite !map_length, !seq_length|]. intros k Hk. rewrite map_length, seq_length in Hk.
        rewrite !nth_map_seq by exact Hk. unfold tb. replace (pos - 1 - (0 + 32 + k)) with (pos - 32 - 1 - (0 + k)) by lia.
        replace (0 + 32 + k <? pos) with (0 + k <? pos - 32) by lia. reflexivity.
  Qed.
  Lemma bs_of_string_ok c old buf : length old = Nw -> Forall w32 old -> (c = true -> length buf <= sz \/ sz mod 32 = 0) ->
    exists r, bs_of_string old buf = Ok r /\ Binv c r (bits_of_text sz buf).
  Proof.
    intros L F Hc. unfold bs_of_string. destruct (of_text_ok buf old (length buf) F (Nat.le_refl _)) as (r & E & Lr & Fr & Br).
    rewrite E. cbn [bind]. exists r. split; [reflexivity|]. rewrite L in *. pose proof (nwords_cover sz).
    assert (T : forall k, tb buf (length buf) k = (k <? length buf) && negb (nth k (rev buf) 48 =? 48)%Z).
    { intros k. unfold tb. destruct (Nat.ltb_spec k (length buf)) as [Hk | Hk]; [|reflexivity]. cbn [andb]. rewrite rev_nth by exact Hk.
      replace (length buf - S k) with (length buf - 1 - k) by lia. reflexivity. }
    split; [exact Lr|]. split; [exact Fr|]. rewrite Br. unfold bits_of_text. rewrite <- (map_ext _ _ T).
    replace (32 * Nw) with (sz + (32 * Nw - sz)) at 1 2 by lia. rewrite seq_app, map_app. split.
    - rewrite firstn_app, map_length, seq_length, Nat.sub_diag, firstn_O, app_nil_r. apply firstn_all2. rewrite map_length, seq_length. lia.
    - intros C. rewrite skipn_app, map_length, seq_length, Nat.sub_diag. rewrite skipn_all2 by (rewrite map_length, seq_length; lia). cbn [app skipn].
      destruct (Hc C) as [Hb | Hb].
      + apply (list_eq _ _ false); [now rewrite repeat_length, map_length, seq_length|]. intros k Hk. rewrite map_length, seq_length in Hk.
        rewrite nth_map_seq by exact Hk. unfold tb. replace (0 + sz + k <? length buf) with false by lia. cbn [andb].
        symmetry. destruct (nth_in_or_default k (repeat false (32 * Nw - sz)) false) as [H' | H']; [apply repeat_spec in H'; exact H'|exact H'].
      + replace (32 * Nw - sz) with 0; [reflexivity|]. unfold nwords. rewrite Hb. cbn [Nat.eqb]. pose proof (nwords_div sz). lia.
  Qed.
  Definition ch (b : bool) : Z := if b then 49%Z else 48%Z.
  Lemma to_text_word_ok w n : forall s pre post,  
    to_text_word w (map (fun k => Z.shiftl 1 (Z.of_nat k)) (seq s n)) (pre ++ post) (length pre) =
    Ok (firstn (length pre - n) pre ++ rev (map ch (firstn (length pre) (map (fun k => Z.testbit w (Z.of_nat k)) (seq s n)))) ++ post, length pre - n).
  Proof.
    induction n as [|n IH]; intros s pre post; cbn [seq map to_text_word].
    - rewrite firstn_nil, Nat.sub_0_r, firstn_all. reflexivity.
    - destruct pre as [|x pre' _] using rev_ind; [reflexivity|]. rewrite app_length. cbn [length]. rewrite Nat.add_1_r.
      rewrite <- app_assoc. cbn [app]. rewrite wr_app. cbn [bind]. rewrite IH. cbn [firstn map rev]. rewrite <- !app_assoc. cbn [app].
      replace (S (length pre') - S n) with (length pre' - n) by lia.
      rewrite (firstn_app (length pre' - n) pre' [x]). replace (length pre' - n - length pre') with 0 by lia. rewrite firstn_O, app_nil_r.
      do 5 f_equal. unfold ch.
      set (k := Z.of_nat s). assert (Kb : forall j, Z.testbit (Z.land w (Z.shiftl 1 k)) j = Z.testbit w j && (j =? k)%Z).
      { intros j. rewrite Z.land_spec, Z.shiftl_1_l. destruct (Z.lt_ge_cases j 0); [rewrite !Z.testbit_neg_r by lia; reflexivity|].
        rewrite Z.pow2_bits_eqb by lia. f_equal. lia. }
      destruct (Z.eqb_spec (Z.land w (Z.shiftl 1 k)) 0) as [Z0 | N0].
      + specialize (Kb k). rewrite Z0, Z.bits_0, Z.eqb_refl, andb_true_r in Kb. now rewrite <- Kb.
      + destruct (Z.testbit w k) eqn:T; [reflexivity|]. exfalso. apply N0. apply Z.bits_inj_0. intros j. rewrite Kb.
        destruct (Z.eqb_spec j k) as [-> | ]; [now rewrite T|apply andb_false_r].
  Qed.
  Lemma to_text_ok ws : forall pre post, to_text ws (pre ++ post) (length pre) =
    Ok (firstn (length pre - 32 * length ws) pre ++ rev (map ch (firstn (length pre) (bits ws))) ++ post, length pre - 32 * length ws).
  Proof.
    induction ws as [|w t IH]; intros pre post; cbn [to_text bits length].
    - rewrite firstn_nil, Nat.mul_0_r, Nat.sub_0_r, firstn_all. reflexivity.
    - destruct (length pre) as [|p] eqn:Lp; [destruct pre; [|discriminate]; reflexivity|]. rewrite <- Lp. unfold bit_values. rewrite to_text_word_ok. cbn [bind].
      fold (word_bits w).
      assert (Lf : length (firstn (length pre - 32) pre) = length pre - 32) by (rewrite firstn_length; lia).
      rewrite <- Lf at 2. rewrite IH, Lf. rewrite firstn_firstn. replace (Nat.min (length pre - 32 - 32 * length t) (length pre - 32)) with (length pre - 32 * S (length t)) by lia.
      rewrite (firstn_app _ (word_bits w)), word_bits_length, map_app, rev_app_distr, <- !app_assoc.
      do 2 f_equal. lia.
  Qed.
  Lemma bs_to_string_ok c ws l : Binv c ws l -> bs_to_string sz ws = Ok (text_of_bits l).
  Proof.
    intros (L & F & E & _). unfold bs_to_string, text_of_bits. pose proof (to_text_ok ws (repeat 48%Z sz) []) as T. rewrite app_nil_r, repeat_length in T.
    rewrite T. cbn [bind]. rewrite app_nil_r, E. pose proof (nwords_cover sz). replace (sz - 32 * length ws) with 0 by lia. reflexivity.
  Qed.
  Lemma text_bits l : length l = sz -> bits_of_text sz (text_of_bits l) = l.
  Proof.
    intros L. unfold bits_of_text, text_of_bits. rewrite rev_involutive, rev_length, map_length. apply (list_eq _ _ false); [rewrite map_length, seq_length; lia|].
    intros k Hk. rewrite map_length, seq_length in Hk. rewrite nth_map_seq by exact Hk. cbn [Nat.add]. replace (k <? length l) with true by lia. cbn [andb].
    change 48%Z with ((fun b : bool => if b then 49%Z else 48%Z) false) at 2. rewrite map_nth. now destruct (nth k l false).
  Qed.

  (** ** Counting and comparing *)
  Lemma ones_in_app a b : ones_in (a ++ b) = (ones_in a + ones_in b)%Z.
  Proof. unfold ones_in. rewrite filter_app, app_length. lia. Qed.
  Lemma ones_in_bound l : (0 <= ones_in l <= Z.of_nat (length l))%Z.
  Proof. unfold ones_in. induction l as [|[] t IH]; cbn [filter length]; lia. Qed.
  Lemma ones_word w : ones 32 w = ones_in (word_bits w).
  Proof.
    unfold ones, ones_in, word_bits. f_equal. induction (seq 0 32) as [|k t IH]; cbn [filter map]; [reflexivity|].
    destruct (Z.testbit w (Z.of_nat k)); cbn [length]; now rewrite IH.
  Qed.
  Lemma pop_all_ok ws : forall s, (0 <= s)%Z -> (s + 32 * Z.of_nat (length ws) < 2 ^ 64)%Z -> Forall w32 ws -> pop_all s ws = (s + ones_in (bits ws))%Z.
  Proof.
    induction ws as [|w t IH]; intros s H0 H F; cbn [pop_all bits]; [unfold ones_in; cbn; lia|]. inversion F; subst. cbn [length] in H.
    rewrite popcount32_ok by assumption. rewrite ones_word. pose proof (ones_in_bound (word_bits w)) as B. rewrite word_bits_length in B.
    rewrite ones_in_app. unfold u64, two64. rewrite Z.mod_small by lia. rewrite IH; auto; lia.
  Qed.
  Lemma ones_in_false n : ones_in (repeat false n) = 0%Z.
  Proof. induction n as [|n IH]; [reflexivity|]. exact IH. Qed.
  Lemma bs_count_ok c ws l : (Z.of_nat sz < 2 ^ 63)%Z -> Binv c ws l -> (ones_in l <= bs_count ws)%Z /\ (c = true -> bs_count ws = ones_in l).
  Proof.
    intros Hz (L & F & E & C). unfold bs_count. pose proof (nwords_cover sz). rewrite pop_all_ok by (auto; lia).
    rewrite <- (firstn_skipn sz (bits ws)), ones_in_app, E. pose proof (ones_in_bound (skipn sz (bits ws))). split; [lia|].
    intros Hc. rewrite (C Hc), ones_in_false. lia.
  Qed.
  Lemma or_all_ok ws : forall s, (or_all s ws =? 0)%Z = (s =? 0)%Z && forallb (fun w => w =? 0)%Z ws.
  Proof.
    induction ws as [|w t IH]; intros s; cbn [or_all forallb]; [now rewrite andb_true_r|]. rewrite IH, andb_assoc. f_equal.
    destruct (Z.eqb_spec (Z.lor s w) 0) as [E | E]; [apply Z.lor_eq_0_iff in E; destruct E as [-> ->]; reflexivity|].
    destruct (Z.eqb_spec s 0) as [-> |]; [|reflexivity]. rewrite Z.lor_0_l in E. lia.
  Qed.
  Lemma ones_in_0 l k : ones_in l = 0%Z -> nth k l false = false.
  Proof.
    revert k. induction l as [|b t IH]; intros [|k] H; cbn [nth]; auto.
    - destruct b; [|reflexivity]. unfold ones_in in H. cbn [filter length] in H. lia.
    - apply IH. destruct b; [|exact H]. unfold ones_in in H. cbn [filter length] in H. lia.
  Qed.
  Lemma word_zero w : w32 w -> (w = 0%Z <-> ones_in (word_bits w) = 0%Z).
  Proof.
    intros Hw. split; [intros ->; reflexivity|]. intros H. apply Z.bits_inj_0. intros j.
    destruct (Z.lt_ge_cases j 0); [now apply Z.testbit_neg_r|]. destruct (Z.lt_ge_cases j 32); [|now apply (proj2 (proj1 (w32_bits w) Hw))].
    replace j with (Z.of_nat (Z.to_nat j)) by lia. rewrite <- word_nth by lia. now apply ones_in_0.
  Qed.
  Lemma bs_any_ok c ws l : Binv c ws l -> (0 < ones_in l -> bs_any ws = true)%Z /\ (c = true -> (bs_any ws = true <-> 0 < ones_in l)%Z).
  Proof.
    intros (L & F & E & C).
    assert (A : bs_any ws = true <-> (0 < ones_in (bits ws))%Z).
    { unfold bs_any. rewrite or_all_ok. cbn [Z.eqb andb]. clear L E C. induction F as [|w t Hw Ht IH]; [cbn; split; [discriminate|unfold ones_in; cbn; lia]|].
      cbn [forallb bits]. rewrite ones_in_app. pose proof (word_zero w Hw) as W. pose proof (ones_in_bound (word_bits w)). pose proof (ones_in_bound (bits t)).
      destruct (Z.eqb_spec w 0) as [E0 | E0]; cbn [andb negb].
      - rewrite IH. apply W in E0. lia.
      - split; [|reflexivity]. intros _. assert (ones_in (word_bits w) <> 0)%Z by tauto. lia. }
    rewrite A. rewrite <- (firstn_skipn sz (bits ws)), ones_in_app, E. pose proof (ones_in_bound (skipn sz (bits ws))). split; [lia|].
    intros Hc. rewrite (C Hc), ones_in_false. now rewrite Z.add_0_r.
  Qed.
  Lemma word_bits_inj a b : w32 a -> w32 b -> word_bits a = word_bits b -> a = b.
  Proof.
    intros Ha Hb E. apply Z.bits_inj. intros j. destruct (Z.lt_ge_cases j 0); [now rewrite !Z.testbit_neg_r|].
    destruct (Z.lt_ge_cases j 32); [|now rewrite (proj2 (proj1 (w32_bits a) Ha)), (proj2 (proj1 (w32_bits b) Hb))].
    replace j with (Z.of_nat (Z.to_nat j)) by lia. rewrite <- !word_nth by lia. now rewrite E.
  Qed.
  Lemma bits_inj a : forall b, Forall w32 a -> Forall w32 b -> length a = length b -> bits a = bits b -> a = b.
  Proof.
    induction a as [|x s IH]; intros [|y t] Fa Fb L E; cbn [length] in L; try discriminate; [reflexivity|]. inversion Fa; inversion Fb; subst.
    cbn [bits] in E. assert (E1 : word_bits x = word_bits y) by (apply (f_equal (firstn 32)) in E; rewrite !firstn_app, !word_bits_length, Nat.sub_diag, !firstn_O, !app_nil_r, !firstn_all2 in E by (rewrite word_bits_length; lia); exact E).
    rewrite E1 in E. apply app_inv_head in E. f_equal; [now apply word_bits_inj|]. apply IH; auto.
  Qed.
  Lemma equal_words_ok a : forall b, length a = length b -> exists r, equal_words a b = Ok r /\ (r = true <-> a = b).
  Proof.
    induction a as [|x s IH]; intros [|y t] L; cbn [length] in L; try discriminate; cbn [equal_words]; [exists true; split; tauto|].
    destruct (Z.eqb_spec x y) as [-> | N].
    - destruct (IH t ltac:(lia)) as (r & E & R). exists r. split; [exact E|]. rewrite R. split; [intros ->; reflexivity|]. intros H. now inversion H.
    - exists false. split; [reflexivity|]. split; [discriminate|]. intros H. inversion H. contradiction.
  Qed.
  Lemma bs_eq_ok c a b la lb : 0 < sz -> Binv c a la -> Binv c b lb ->
    exists r, bs_eq sz a b = Ok r /\ (r = true -> la = lb) /\ (c = true -> la = lb -> r = true).
  Proof.
    intros Hz (La & Fa & Ea & Ca) (Lb & Fb & Eb & Cb).
    assert (R : exists r, bs_eq sz a b = Ok r /\ (r = true <-> a = b)).
    { unfold bs_eq. destruct (Nat.eqb_spec Nw 1) as [N | N]; [|apply equal_words_ok; lia]. rewrite N in La, Lb.
      destruct a as [|x [|x' a]]; try discriminate. destruct b as [|y [|y' b]]; try discriminate. cbn [rd nth_error bind].
      exists (x =? y)%Z. split; [reflexivity|]. rewrite Z.eqb_eq. split; [congruence|]. intros H. now inversion H. }
    destruct R as (r & E & R). exists r. split; [exact E|]. split.
    - intros H. apply R in H. now rewrite <- Ea, <- Eb, H.
    - intros Hc H. apply R. apply bits_inj; auto; [lia|].
      rewrite <- (firstn_skipn sz (bits a)), <- (firstn_skipn sz (bits b)), Ea, Eb, (Ca Hc), (Cb Hc), H. reflexivity.
  Qed.

  (** ** Histories *)
  Lemma rd_nth {A} (s : list A) i d : i < length s -> rd s i = Ok (nth i s d).
  Proof. intros H. destruct (rd_lt s i H) as (x & E & En). rewrite E. now rewrite (nth_error_nth _ _ _ En). Qed.
  Definition Sinv (c : bool) (s : bstate) (t : list (list bool)) : Prop := Forall2 (Binv c) s t.
  Lemma Sinv_get c s t i : Sinv c s t -> i < length s -> exists b, rd s i = Ok b /\ Binv c b (bget t i).
  Proof.
    intros H. revert i. induction H as [|b l s t Hb Hs IH]; intros [|i] Hi; cbn [length] in Hi; try lia.
    - exists b. split; [reflexivity|exact Hb].
    - apply IH. lia.
  Qed.
  Lemma Sinv_put c s t i b l : Sinv c s t -> i < length s -> Binv c b l -> exists s', wr s i b = Ok s' /\ Sinv c s' (bput t i l) /\ length s' = length s.
  Proof.
    intros H. revert i. induction H as [|b0 l0 s t Hb Hs IH]; intros [|i] Hi I; cbn [length] in Hi; try lia.
    - exists (b :: s). split; [reflexivity|]. split; [constructor; auto|reflexivity].
    - destruct (IH i ltac:(lia) I) as (s' & E & S' & L). unfold wr in *. cbn [upd]. destruct (upd s i b) as [u|]; [|discriminate]. injection E as ->.
      exists (b0 :: s'). split; [reflexivity|]. split; [constructor; auto|cbn [length]; lia].
  Qed.
  Lemma bs_upd_ok c s t i m l : Sinv c s t -> i < length s -> (forall b, Binv c b (bget t i) -> exists b', m b = Ok b' /\ Binv c b' l) ->
    exists s', bs_upd s i m = Ok s' /\ Sinv c s' (bput t i l) /\ length s' = length s.
  Proof.
    intros H Hi Hm. unfold bs_upd. destruct (Sinv_get c s t i H Hi) as (b & E & I). rewrite E. cbn [bind].
    destruct (Hm b I) as (b' & E' & I'). rewrite E'. cbn [bind]. now apply Sinv_put.
  Qed.
  Lemma bstep_ok c s t o : 0 < sz -> Sinv c s t -> bop_pre sz (length s) o -> (c = true -> tidy sz o) ->
    exists s', bstep sz s o = Ok s' /\ Sinv c s' (bstep_spec sz t o) /\ length s' = length s.
  Proof.
    intros Hz H P T. destruct o; cbn [bop_pre tidy bstep bstep_spec] in *.
    - destruct P. apply bs_upd_ok; auto. intros b _. eexists. split; [reflexivity|]. now apply bs_value_ok.
    - destruct P. apply bs_upd_ok; auto. intros b I. now apply bs_set_ok.
    - destruct P. apply bs_upd_ok; auto. intros b I. now apply bs_flip_ok.
    - apply bs_upd_ok; auto. intros b I. eexists. split; [reflexivity|]. eapply bs_reset_ok; eauto.
    - apply bs_upd_ok; auto. intros b I. eexists. split; [reflexivity|]. eapply bs_set_all_ok; eauto.
    - apply bs_upd_ok; auto. intros b I. eexists. split; [reflexivity|]. eapply bs_flip_all_ok; eauto.
    - destruct P as [P1 P2]. destruct (Sinv_get c s t j H P2) as (x & E & I). rewrite E. cbn [bind].
      apply bs_upd_ok; auto. intros b _. eexists. split; [reflexivity|]. eapply bs_flip_all_ok; eauto.
    - destruct P as (P1 & P2 & P3). destruct (Sinv_get c s t j H P2) as (x & E & I). rewrite E. cbn [bind].
      destruct (Sinv_get c s t k H P3) as (y & E' & I'). rewrite E'. cbn [bind].
      apply bs_upd_ok; auto. intros b _. apply bs_zip_ok; auto using w32_and. apply Z.land_spec.
    - destruct P as (P1 & P2 & P3). destruct (Sinv_get c s t j H P2) as (x & E & I). rewrite E. cbn [bind].
      destruct (Sinv_get c s t k H P3) as (y & E' & I'). rewrite E'. cbn [bind].
      apply bs_upd_ok; auto. intros b _. apply bs_zip_ok; auto using w32_or. apply Z.lor_spec.
    - destruct P as (P1 & P2 & P3). destruct (Sinv_get c s t j H P2) as (x & E & I). rewrite E. cbn [bind].
      destruct (Sinv_get c s t k H P3) as (y & E' & I'). rewrite E'. cbn [bind].
      apply bs_upd_ok; auto. intros b _. apply bs_zip_ok; auto using w32_xor. apply Z.lxor_spec.
    - apply bs_upd_ok; auto. intros b (L & F & _). now apply bs_of_string_ok.
  Qed.
  Lemma brun_ok c ops : forall s t, 0 < sz -> Sinv c s t -> Forall (bop_pre sz (length s)) ops -> (c = true -> Forall (tidy sz) ops) ->
    exists s', brun sz s ops = Ok s' /\ Sinv c s' (bspec_run sz t ops) /\ length s' = length s.
  Proof.
    induction ops as [|o r IH]; intros s t Hz H P T; [exists s; split; [reflexivity|]; split; auto|].
    inversion P; subst. destruct (bstep_ok c s t o Hz H) as (s1 & E1 & S1 & L1); [assumption|intros Hc; specialize (T Hc); now inversion T|].
    cbn [brun]. rewrite E1. cbn [bind]. destruct (IH s1 (bstep_spec sz t o) Hz S1) as (s2 & E2 & S2 & L2).
    - now rewrite L1.
    - intros Hc. specialize (T Hc). now inversion T.
    - exists s2. split; [exact E2|]. split; [exact S2|congruence].
  Qed.
  (** [k] bitsets made by the default constructor. *)
  Lemma Sinv_init c k : 0 < sz -> Sinv c (repeat (bs_of_value sz 0) k) (repeat (repeat false sz) k).
  Proof.
    intros Hz. assert (E : bits_of_value sz 0 = repeat false sz).
    { apply (list_eq _ _ false); [unfold bits_of_value; now rewrite map_length, seq_length, repeat_length|]. unfold bits_of_value. intros j Hj.
      rewrite map_length, seq_length in Hj. rewrite nth_map_seq, Z.bits_0, andb_false_r by exact Hj.
      symmetry. destruct (nth_in_or_default j (repeat false sz) false) as [H | H]; [apply repeat_spec in H; exact H|exact H]. }
    induction k as [|k IH]; cbn [repeat]; constructor; auto. rewrite <- E. apply bs_value_ok; [exact Hz|unfold w32; lia|]. intros _ _. apply Z.pow_pos_nonneg; lia.
  Qed.

  (** ** Ranges *)
  Lemma bit_mask_ones n : 1 <= n <= 32 -> bit_mask n = Z.ones (Z.of_nat n).
  Proof.
    intros H. unfold bit_mask. rewrite Z.shiftr_div_pow2 by lia. rewrite Z.ones_equiv.
    replace 32%Z with (Z.of_nat n + (32 - Z.of_nat n))%Z at 1 by lia. rewrite Z.pow_add_r by lia.
    set (q := (2 ^ (32 - Z.of_nat n))%Z). assert (0 < q)%Z by (apply Z.pow_pos_nonneg; lia).
    symmetry. apply (Z.div_unique_pos _ _ _ (q - 1)); unfold Z.pred; nia.
  Qed.
  Lemma range_bounds first last : range_ok first last = true -> first < last /\ last - first <= 32 /\ first mod 32 + (last - first) <= 31.
  Proof.
    unfold range_ok. intros H. apply andb_prop in H. destruct H as [H H3]. apply andb_prop in H. destruct H as [H1 H2].
    pose proof (nwords_div first). pose proof (nwords_div last). pose proof (Nat.mod_upper_bound last 32 ltac:(lia)). lia.
  Qed.
  Lemma bs_at_range_ok c ws l first last : Binv c ws l -> first < last -> last <= sz -> range_ok first last = true ->
    exists v, bs_at_range sz ws first last = Ok v /\ (0 <= v < 2 ^ Z.of_nat (last - first))%Z /\
      forall k, k < last - first -> Z.testbit v (Z.of_nat k) = nth (first + k) l false.
  Proof.
    intros I H1 H2 R. destruct (range_bounds _ _ R) as (_ & B1 & B2).
    destruct (word_at c ws l first I ltac:(lia)) as (pre & w & post & E & Lp & Hw & _ & _ & Eb & En & _).
    unfold bs_at_range. rewrite R. cbn [negb]. rewrite (bit_ref_ok ws pre w post first ltac:(lia) E Lp). cbn [bind].
    rewrite bit_mask_ones by lia. eexists. split; [reflexivity|]. rewrite Z.land_ones by lia. split; [apply Z.mod_pos_bound, Z.pow_pos_nonneg; lia|].
    intros k Hk. rewrite Z.mod_pow2_bits_low by lia. rewrite Z.shiftr_spec by lia. destruct I as (_ & _ & El & _). rewrite <- El, nth_firstn' by lia. rewrite Eb.
    rewrite app_nth2 by lia. replace (first + k - length (bits pre)) with (first mod 32 + k) by lia.
    rewrite app_nth1 by (rewrite word_bits_length; lia). rewrite word_nth by lia. f_equal. lia.
  Qed.
  Lemma bs_set_range_ok c ws l first last v : Binv c ws l -> first < last -> last <= sz -> range_ok first last = true ->
    (0 <= v < 2 ^ Z.of_nat (last - first))%Z -> exists ws' l', bs_set_range sz ws first last v = Ok ws' /\ Binv false ws' l' /\
      forall k, k < sz -> nth k l' false = nth k l false || ((first <=? k) && (k <? last) && Z.testbit v (Z.of_nat (k - first))).
  Proof.
    intros I H1 H2 R Hv. destruct (range_bounds _ _ R) as (_ & B1 & B2).
    destruct (word_at c ws l first I ltac:(lia)) as (pre & w & post & E & Lp & Hw & Fpre & Fpost & Eb & En & _).
    unfold bs_set_range. rewrite R. cbn [negb orb]. rewrite bit_mask_ones by lia. rewrite Z.land_ones, Z.mod_small, Z.eqb_refl by lia. cbn [negb].
    rewrite (bit_ref_ok ws pre w post first ltac:(lia) E Lp). cbn [bind].
    set (m := Z.of_nat (first mod 32)). assert (Hs : w32 (Z.shiftl v m)).
    { unfold w32. rewrite Z.shiftl_mul_pow2 by lia. split; [apply Z.mul_nonneg_nonneg; [lia|apply Z.pow_nonneg; lia]|].
      apply (Z.lt_le_trans _ (2 ^ Z.of_nat (last - first) * 2 ^ m)%Z); [apply Z.mul_lt_mono_pos_r; [apply Z.pow_pos_nonneg; lia|lia]|].
      rewrite <- Z.pow_add_r by lia. apply Z.pow_le_mono_r; lia. }
    assert (Es : u32 (Z.shiftl v m) = Z.shiftl v m) by (unfold u32, two32, w32 in *; apply Z.mod_small; lia). rewrite Es.
    set (w' := Z.lor w (Z.shiftl v m)). assert (Hw' : w32 w') by (apply w32_or; auto).
    rewrite E, <- Lp, wr_app. exists (pre ++ w' :: post), (firstn sz (bits (pre ++ w' :: post))). split; [reflexivity|].
    destruct I as (L & F & El & _). subst ws. rewrite app_length in L. cbn [length] in L.
    split; [split; [rewrite app_length; cbn [length]; lia|]; split; [apply Forall_app; auto|]; split; [reflexivity|discriminate]|].
    intros k Hk. rewrite <- El, !nth_firstn' by exact Hk. rewrite !bits_app. cbn [bits].
    destruct (Nat.lt_ge_cases k (length (bits pre))) as [K1 | K1].
    { rewrite !app_nth1 by exact K1. replace (first <=? k) with false by lia. cbn [andb]. now rewrite orb_false_r. }
    rewrite !(app_nth2 (bits pre)) by exact K1. set (j := k - length (bits pre)).
    destruct (Nat.lt_ge_cases j 32) as [K2 | K2].
    - rewrite !app_nth1 by (rewrite word_bits_length; exact K2). rewrite !word_nth by exact K2. unfold w'. rewrite Z.lor_spec. f_equal.
      rewrite Z.shiftl_spec by lia. destruct (Nat.leb_spec first k) as [K3 | K3]; cbn [andb].
      + destruct (Nat.ltb_spec k last) as [K4 | K4]; cbn [andb]; [f_equal; lia|].
        destruct (Z.eq_dec v 0) as [-> | Nv]; [apply Z.bits_0|]. apply Z.bits_above_log2; [lia|]. apply Z.log2_lt_pow2; [lia|].
        apply (Z.lt_le_trans _ (2 ^ Z.of_nat (last - first))); [lia|]. apply Z.pow_le_mono_r; lia.
      + apply Z.testbit_neg_r. lia.
    - rewrite !app_nth2 by (rewrite word_bits_length; exact K2). rewrite !word_bits_length. replace (k <? last) with false by lia.
      rewrite andb_false_r. cbn [andb]. now rewrite orb_false_r.
  Qed.
End Size.
