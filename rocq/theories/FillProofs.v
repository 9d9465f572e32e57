(** * FillProofs *)
From Verif Require Import Base UtilModel UtilProofs ByteModel ByteSpec ByteProofs FillModel FillSpec.
From Coq Require Import ZArith ZifyBool ZifyNat.
Local Open Scope Z_scope.

Section Fill.
  Context {A : Type}.
  Variable v : list A.
  Notation es := (Z.of_nat (length v)).
  Hypothesis Hes : 0 < es.
  Implicit Types m : mem A.

  Lemma filled_with_0 m d : filled_with m d 0 v m.
  Proof. intros x. replace (d + es * 0) with d by lia. destruct ((d <=? x) && (x <? d)) eqn:E; [lia|reflexivity]. Qed.
  Lemma filled_with_comp m d a b m1 m2 : 0 <= a -> 0 <= b ->
    filled_with m d a v m1 -> filled_with m1 (d + es * a) b v m2 -> filled_with m d (a + b) v m2.
  Proof.
    intros Ha Hb H1 H2 x. rewrite H2, H1. rewrite Z.mul_add_distr_l.
    assert (0 <= es * a /\ 0 <= es * b) by nia.
    destruct ((d + es * a <=? x) && (x <? d + es * a + es * b)) eqn:E2.
    - replace ((d <=? x) && (x <? d + (es * a + es * b))) with true by lia. f_equal. f_equal.
      replace (x - (d + es * a)) with (x - d + (- a) * es) by lia. now rewrite Z_mod_plus_full.
    - destruct ((d <=? x) && (x <? d + es * a)) eqn:E1.
      + replace ((d <=? x) && (x <? d + (es * a + es * b))) with true by lia. reflexivity.
      + replace ((d <=? x) && (x <? d + (es * a + es * b))) with false by lia. reflexivity.
  Qed.
  Lemma nth_repeat k : forall i, (i < k * length v)%nat -> nth_error (concat (repeat v k)) i = nth_error v (i mod length v)%nat.
  Proof.
    induction k as [|k IH]; intros i H; [lia|]. cbn [repeat concat].
    destruct (Nat.lt_ge_cases i (length v)) as [L|L].
    - rewrite nth_error_app1 by exact L. now rewrite Nat.mod_small.
    - rewrite nth_error_app2 by exact L. rewrite IH by lia. f_equal.
      replace i with (i - length v + 1 * length v)%nat at 2 by lia. rewrite Nat.mod_add by lia. reflexivity.
  Qed.
  Lemma concat_repeat_length k : length (concat (repeat v k)) = (k * length v)%nat.
  Proof. induction k as [|k IH]; [reflexivity|]. cbn [repeat concat]. rewrite app_length, IH. lia. Qed.
  (** Storing k copies at once. *)
  Lemma st_copies k m a : mapped m a (es * Z.of_nat k) ->
    exists m', st_block (concat (repeat v k)) m a = Ok m' /\ same_dom m m' /\ filled_with m a (Z.of_nat k) v m'.
  Proof.
    intros H. destruct (st_block_ok (concat (repeat v k)) m a) as (m' & E & D & N).
    { rewrite concat_repeat_length. replace (Z.of_nat (k * length v)) with (es * Z.of_nat k) by lia. exact H. }
    exists m'. split; [exact E|]. split; [exact D|]. intros x. rewrite N, concat_repeat_length.
    replace (Z.of_nat (k * length v)) with (es * Z.of_nat k) by lia.
    destruct ((a <=? x) && (x <? a + es * Z.of_nat k)) eqn:B; [|reflexivity].
    rewrite nth_repeat by nia. f_equal. rewrite Z2Nat.inj_mod by lia. rewrite Nat2Z.id. reflexivity.
  Qed.
  Lemma st_one m a : mapped m a es ->
    exists m', st_block v m a = Ok m' /\ same_dom m m' /\ filled_with m a 1 v m'.
  Proof.
    intros H. destruct (st_copies 1 m a) as (m' & E & R); [now rewrite Z.mul_1_r|].
    cbn [repeat concat] in E. rewrite app_nil_r in E. eauto.
  Qed.
  Lemma stosv_ok n : forall m p, mapped m p (es * Z.of_nat n) ->
    exists m', stosv n m p v = Ok (m', p + es * Z.of_nat n) /\ same_dom m m' /\ filled_with m p (Z.of_nat n) v m'.
  Proof.
    induction n as [|n IH]; intros m p H; cbn [stosv].
    - exists m. split; [f_equal; f_equal; lia|]. split; [apply same_dom_refl|apply filled_with_0].
    - destruct (st_one m p) as (m1 & E1 & D1 & F1); [eapply mapped_sub; [exact H|lia|lia]|].
      rewrite E1. cbn [bind]. destruct (IH m1 (p + es)) as (m2 & E2 & D2 & F2).
      { eapply dom_mapped; [exact D1|]. eapply mapped_sub; [exact H|lia|lia]. }
      exists m2. rewrite E2. split; [f_equal; f_equal; lia|]. split; [eapply same_dom_trans; eauto|].
      replace (Z.of_nat (S n)) with (1 + Z.of_nat n) by lia. eapply filled_with_comp; [lia|lia|exact F1|].
      rewrite Z.mul_1_r. exact F2.
  Qed.

  Hypothesis H8 : (8 / length v * length v = 8)%nat.
  Let k8 := (8 / length v)%nat.
  Lemma k8_es : es * Z.of_nat k8 = 8. Proof. unfold k8. nia. Qed.
  Lemma st_mm0 m a : mapped m a 8 ->
    exists m', st_block (build_block v) m a = Ok m' /\ same_dom m m' /\ filled_with m a (Z.of_nat k8) v m'.
  Proof. intros H. apply st_copies. fold k8. rewrite k8_es. exact H. Qed.
  Lemma block_fill_loop_ok n : forall m p, mapped m p (32 * Z.of_nat n) ->
    exists m', block_fill_loop n m p (build_block v) = Ok (m', p + 32 * Z.of_nat n) /\ same_dom m m' /\
      filled_with m p (4 * Z.of_nat k8 * Z.of_nat n) v m'.
  Proof.
    pose proof k8_es as K.
    induction n as [|n IH]; intros m p H; cbn [block_fill_loop].
    - exists m. split; [f_equal; f_equal; lia|]. split; [apply same_dom_refl|]. rewrite Z.mul_0_r. apply filled_with_0.
    - destruct (st_mm0 m p) as (m1 & E1 & D1 & F1); [eapply mapped_sub; [exact H|lia|lia]|]. rewrite E1. cbn [bind].
      destruct (st_mm0 m1 (p + 8)) as (m2 & E2 & D2 & F2).
      { eapply dom_mapped; [exact D1|]. eapply mapped_sub; [exact H|lia|lia]. }
      rewrite E2. cbn [bind]. pose proof (same_dom_trans _ _ _ D1 D2) as D12.
      destruct (st_mm0 m2 (p + 16)) as (m3 & E3 & D3 & F3).
      { eapply dom_mapped; [exact D12|]. eapply mapped_sub; [exact H|lia|lia]. }
      rewrite E3. cbn [bind]. pose proof (same_dom_trans _ _ _ D12 D3) as D13.
      destruct (st_mm0 m3 (p + 24)) as (m4 & E4 & D4 & F4).
      { eapply dom_mapped; [exact D13|]. eapply mapped_sub; [exact H|lia|lia]. }
      rewrite E4. cbn [bind]. pose proof (same_dom_trans _ _ _ D13 D4) as D14.
      destruct (IH m4 (p + 32)) as (m5 & E5 & D5 & F5).
      { eapply dom_mapped; [exact D14|]. eapply mapped_sub; [exact H|lia|lia]. }
      rewrite E5. exists m5. split; [f_equal; f_equal; lia|]. split; [eapply same_dom_trans; eauto|].
      set (k := Z.of_nat k8) in *. assert (0 <= k) by (unfold k; lia).
      replace (4 * k * Z.of_nat (S n)) with (k + (k + (k + (k + 4 * k * Z.of_nat n)))) by lia.
      eapply filled_with_comp; [lia|nia|exact F1|]. rewrite K.
      eapply filled_with_comp; [lia|nia|exact F2|]. rewrite K. replace (p + 8 + 8) with (p + 16) by lia.
      eapply filled_with_comp; [lia|nia|exact F3|]. rewrite K. replace (p + 16 + 8) with (p + 24) by lia.
      eapply filled_with_comp; [lia|nia|exact F4|]. rewrite K. replace (p + 24 + 8) with (p + 32) by lia. exact F5.
  Qed.

  (** The number of elements fill_n_fast takes for the unaligned head. *)
  Definition head (dest : Z) : Z := (dest + 15) / 16 * 16 - dest / es.
  (** How many elements it writes. *)
  Definition written (dest n : Z) : Z :=
    if n <=? head dest then n else
    head dest + 4 * Z.of_nat k8 * ((n - head dest) * es / 32) + (n - head dest) mod 32.

  Lemma fill_n_fast_ok m dest n : 0 <= dest < two64 - 15 -> 0 <= n -> es * n < two64 ->
    mapped m dest (es * written dest n) ->
    exists m', fill_n_fast m dest n v = Ok m' /\ filled_with m dest (written dest n) v m'.
  Proof.
    intros Hd Hn Hb Hm. unfold fill_n_fast.
    assert (Ea : align dest 16 = Ok ((dest + 15) / 16 * 16)).
    { unfold align, align_down, u64. replace (dest + 16 - 1) with (dest + 15) by lia. rewrite Z.mod_small by (unfold two64 in *; lia).
      change (16 =? 0) with false. cbn iota. f_equal. pose proof (Z.div_mod (dest + 15) 16). lia. }
    rewrite Ea. cbn [bind]. fold (head dest).
    assert (Hh : 0 <= head dest < two64).
    { unfold head. assert (dest / es <= dest) by (apply Z.div_le_upper_bound; nia). assert (0 <= dest / es) by (apply Z.div_pos; lia).
      pose proof (Z.div_mod (dest + 15) 16 ltac:(lia)). pose proof (Z.mod_pos_bound (dest + 15) 16 ltac:(lia)). unfold two64 in *. lia. }
    assert (Eu : umin (u64 (head dest)) n = Z.min (head dest) n) by (unfold u64; rewrite Z.mod_small by exact Hh; apply umin_spec).
    cbv zeta. rewrite Eu. clear Eu.
    pose proof k8_es as K.
    unfold written in *. destruct (Z.leb_spec n (head dest)) as [L|L].
    - rewrite Z.min_r by lia. destruct (stosv_ok (Z.to_nat n) m dest) as (m1 & E1 & D1 & F1); rewrite ?Z2Nat.id in * by lia; [exact Hm|].
      rewrite E1. cbn [bind]. rewrite Z.sub_diag. change (0 * es) with 0. change (u64 0 / 32) with 0. change (0 mod 32) with 0.
      change (Z.to_nat 0) with O. cbn [block_fill_loop stosv bind]. eauto.
    - rewrite Z.min_l by lia. set (h := head dest) in *. set (c := n - h) in *.
      unfold u64. rewrite (Z.mod_small (c * es)) by (unfold c; nia).
      set (q := c * es / 32) in *. set (r := c mod 32) in *.
      assert (0 <= q) by (apply Z.div_pos; unfold c; nia). assert (0 <= r < 32) by (apply Z.mod_pos_bound; lia).
      set (k := Z.of_nat k8) in *. assert (0 <= k) by (unfold k; lia).
      replace (es * (h + 4 * k * q + r)) with (es * h + 32 * q + es * r) in Hm by nia.
      assert (0 <= es * h /\ 0 <= es * r) by nia.
      destruct (stosv_ok (Z.to_nat h) m dest) as (m1 & E1 & D1 & F1); rewrite ?Z2Nat.id in * by lia.
      { eapply mapped_sub; [exact Hm|lia|lia]. }
      rewrite E1. cbn [bind].
      destruct (block_fill_loop_ok (Z.to_nat q) m1 (dest + es * h)) as (m2 & E2 & D2 & F2); rewrite ?Z2Nat.id in * by lia.
      { eapply dom_mapped; [exact D1|]. eapply mapped_sub; [exact Hm|lia|lia]. }
      rewrite E2. cbn [bind].
      destruct (stosv_ok (Z.to_nat r) m2 (dest + es * h + 32 * q)) as (m3 & E3 & D3 & F3); rewrite ?Z2Nat.id in * by lia.
      { eapply dom_mapped; [exact (same_dom_trans _ _ _ D1 D2)|]. eapply mapped_sub; [exact Hm|lia|lia]. }
      rewrite E3. cbn [bind]. exists m3. split; [reflexivity|]. fold k in F2.
      replace (h + 4 * k * q + r) with (h + (4 * k * q + r)) by lia.
      eapply filled_with_comp; [lia|nia|exact F1|]. eapply filled_with_comp; [nia|lia|exact F2|].
      replace (es * (4 * k * q)) with (32 * q) by nia. exact F3.
  Qed.
  Lemma written_small dest n : 0 <= dest -> es * n <= (es - 1) * dest -> written dest n = n.
  Proof.
    intros Hd H. unfold written. replace (n <=? head dest) with true; [reflexivity|]. symmetry. apply Z.leb_le. unfold head.
    pose proof (Z.mul_div_le dest es Hes). pose proof (Z.div_mod (dest + 15) 16 ltac:(lia)). pose proof (Z.mod_pos_bound (dest + 15) 16 ltac:(lia)). nia.
  Qed.
  Lemma written_more dest n : head dest < n -> 32 <= es * ((n - head dest) mod 32) -> n < written dest n.
  Proof.
    intros H1 H2. unfold written. replace (n <=? head dest) with false by lia. set (h := head dest) in *.
    pose proof k8_es as K. set (k := Z.of_nat k8) in *.
    set (c := n - h) in *. assert (0 < c) by (unfold c; lia). replace n with (h + c) by (unfold c; lia). clearbody c h.
    set (r := c mod 32) in *. set (q := c * es / 32).
    pose proof (Z.div_mod (c * es) 32 ltac:(lia)) as D. pose proof (Z.mod_pos_bound (c * es) 32 ltac:(lia)). fold q in D.
    assert (4 * k * es = 32) by lia. nia.
  Qed.
End Fill.
