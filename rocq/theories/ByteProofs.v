(** * ByteProofs: the byte-block primitives. *)
From Verif Require Import Base UtilModel UtilProofs ByteModel ByteSpec.
From Coq Require Import ZArith.
Local Open Scope Z_scope.

Ltac bcase :=
  repeat match goal with
  | |- context [?a <=? ?b] => destruct (Z.leb_spec a b)
  | |- context [?a <? ?b] => destruct (Z.ltb_spec a b)
  | |- context [?a =? ?b] => destruct (Z.eqb_spec a b)
  end; cbn [andb orb]; try lia; try reflexivity.

Section Bytes.
  Context {A : Type}.
  Implicit Types m : mem A.

  Definition same_dom m m' : Prop := forall x, m' x = None <-> m x = None.

  Lemma copied_dom m src n dest m' : copied m src n dest m' -> mapped m src n -> mapped m dest n ->
    same_dom m m'.
  Proof.
    intros C Hs Hd x. rewrite C. destruct (Z.leb_spec dest x), (Z.ltb_spec x (dest + n)); cbn [andb]; try tauto.
    split; intros H'.
    - exfalso. apply (Hs (x - dest + src)); [lia|auto].
    - exfalso. apply (Hd x); [lia|auto].
  Qed.

  Lemma dom_mapped m m' a n : same_dom m m' -> mapped m a n -> mapped m' a n.
  Proof. intros D H x Hx E. apply (H x Hx). now apply D. Qed.
  Lemma dom_mapped_back m m' a n : same_dom m m' -> mapped m' a n -> mapped m a n.
  Proof. intros D H x Hx E. apply (H x Hx). now apply D. Qed.
  Lemma same_dom_trans m1 m2 m3 : same_dom m1 m2 -> same_dom m2 m3 -> same_dom m1 m3.
  Proof. intros H1 H2 x. rewrite (H2 x). apply H1. Qed.
  Lemma same_dom_refl m : same_dom m m.
  Proof. intros x. tauto. Qed.
  Lemma mapped_sub m a n b k : mapped m a n -> a <= b -> b + k <= a + n -> mapped m b k.
  Proof. intros H H1 H2 x Hx. apply H. lia. Qed.

  Lemma copied_0 m src dest n : n <= 0 -> copied m src n dest m.
  Proof. intros H x. bcase. Qed.

  (** upward composition *)
  Lemma copied_up m src n k dest m1 m2 : 0 <= n -> 0 <= k ->
    dest <= src \/ disjoint src (n + k) dest (n + k) ->
    copied m src n dest m1 -> copied m1 (src + n) k (dest + n) m2 ->
    copied m src (n + k) dest m2.
  Proof.
    intros Hn Hk Ho C1 C2 x. rewrite C2. unfold disjoint in Ho.
    bcase; rewrite C1; bcase; f_equal; lia.
  Qed.
  (** downward composition *)
  Lemma copied_down m src n k dest m1 m2 : 0 <= n -> 0 <= k ->
    src <= dest \/ disjoint (src - k) (n + k) (dest - k) (n + k) ->
    copied m src n dest m1 -> copied m1 (src - k) k (dest - k) m2 ->
    copied m (src - k) (n + k) (dest - k) m2.
  Proof.
    intros Hn Hk Ho C1 C2 x. rewrite C2. unfold disjoint in Ho.
    bcase; rewrite C1; bcase; f_equal; lia.
  Qed.

  Lemma ld_mapped m a : m a <> None -> exists x, ld m a = Ok x /\ m a = Some x.
  Proof. unfold ld. destruct (m a) eqn:E; [eauto|congruence]. Qed.
  Lemma st_mapped m a v : m a <> None ->
    st m a v = Ok (fun b => if b =? a then Some v else m b).
  Proof. unfold st. destruct (m a); congruence. Qed.

  Lemma one_copied m s d x : m s = Some x ->
    copied m s 1 d (fun b => if b =? d then Some x else m b).
  Proof. intros E y. bcase. replace (y - d + s) with s by lia. auto. Qed.

  Lemma movsb_up_ok n : forall m src dest,
    mapped m src (Z.of_nat n) -> mapped m dest (Z.of_nat n) ->
    dest <= src \/ disjoint src (Z.of_nat n) dest (Z.of_nat n) ->
    exists m', movsb_up n m src dest = Ok (m', src + Z.of_nat n, dest + Z.of_nat n) /\
      copied m src (Z.of_nat n) dest m' /\ same_dom m m'.
  Proof.
    induction n as [|n IH]; intros m src dest Hs Hd Ho.
    - exists m. cbn [movsb_up]. rewrite !Z.add_0_r. split; [reflexivity|]. split; [now apply copied_0|apply same_dom_refl].
    - cbn [movsb_up]. destruct (ld_mapped m src) as (x & E & Ex); [apply Hs; lia|].
      rewrite E. cbn [bind]. rewrite st_mapped by (apply Hd; lia). cbn [bind].
      set (m1 := fun b => if b =? dest then Some x else m b).
      pose proof (one_copied m src dest x Ex) as C1. fold m1 in C1.
      assert (same_dom m m1) as D1.
      { eapply copied_dom; [exact C1| |]; intros y Hy; [apply Hs|apply Hd]; lia. }
      destruct (IH m1 (src + 1) (dest + 1)) as (m' & E' & C' & D').
      + eapply dom_mapped; [exact D1|]. eapply mapped_sub; [exact Hs|lia|lia].
      + eapply dom_mapped; [exact D1|]. eapply mapped_sub; [exact Hd|lia|lia].
      + unfold disjoint in *. lia.
      + exists m'. rewrite E'. split; [f_equal; f_equal; [f_equal|]; lia|]. split.
        * replace (Z.of_nat (S n)) with (1 + Z.of_nat n) in * by lia.
          eapply copied_up; [lia|lia| |exact C1|exact C']. exact Ho.
        * eapply same_dom_trans; eauto.
  Qed.

  Lemma movsb_down_ok n : forall m s d,
    mapped m (s + 1 - Z.of_nat n) (Z.of_nat n) -> mapped m (d + 1 - Z.of_nat n) (Z.of_nat n) ->
    s <= d \/ disjoint (s + 1 - Z.of_nat n) (Z.of_nat n) (d + 1 - Z.of_nat n) (Z.of_nat n) ->
    exists m', movsb_down n m s d = Ok (m', s - Z.of_nat n, d - Z.of_nat n) /\
      copied m (s + 1 - Z.of_nat n) (Z.of_nat n) (d + 1 - Z.of_nat n) m' /\ same_dom m m'.
  Proof.
    induction n as [|n IH]; intros m s d Hs Hd Ho.
    - exists m. cbn [movsb_down]. rewrite !Z.sub_0_r. split; [reflexivity|]. split; [now apply copied_0|apply same_dom_refl].
    - cbn [movsb_down]. destruct (ld_mapped m s) as (x & E & Ex); [apply Hs; lia|].
      rewrite E. cbn [bind]. rewrite st_mapped by (apply Hd; lia). cbn [bind].
      set (m1 := fun b => if b =? d then Some x else m b).
      pose proof (one_copied m s d x Ex) as C1. fold m1 in C1.
      assert (same_dom m m1) as D1.
      { eapply copied_dom; [exact C1| |]; intros y Hy; [apply Hs|apply Hd]; lia. }
      destruct (IH m1 (s - 1) (d - 1)) as (m' & E' & C' & D').
      + eapply dom_mapped; [exact D1|]. eapply mapped_sub; [exact Hs|lia|lia].
      + eapply dom_mapped; [exact D1|]. eapply mapped_sub; [exact Hd|lia|lia].
      + unfold disjoint in *. lia.
      + exists m'. rewrite E'. split; [f_equal; f_equal; [f_equal|]; lia|]. split.
        * replace (Z.of_nat (S n)) with (1 + Z.of_nat n) in * by lia.
          replace (s + 1 - (1 + Z.of_nat n)) with (s - Z.of_nat n) in * by lia.
          replace (d + 1 - (1 + Z.of_nat n)) with (d - Z.of_nat n) in * by lia.
          replace (s - 1 + 1 - Z.of_nat n) with (s - Z.of_nat n) in C' by lia.
          replace (d - 1 + 1 - Z.of_nat n) with (d - Z.of_nat n) in C' by lia.
          eapply copied_down; [lia|lia| |exact C1|exact C']. exact Ho.
        * eapply same_dom_trans; eauto.
  Qed.

  Lemma ld_block_ok k : forall m a, mapped m a (Z.of_nat k) ->
    exists l, ld_block k m a = Ok l /\ length l = k /\
      forall i, (i < k)%nat -> m (a + Z.of_nat i) = nth_error l i.
  Proof.
    induction k as [|k IH]; intros m a H.
    - exists []. split; [reflexivity|]. split; [reflexivity|]. intros; lia.
    - cbn [ld_block]. destruct (ld_mapped m a) as (x & E & Ex); [apply H; lia|].
      rewrite E. cbn [bind]. destruct (IH m (a + 1)) as (l & El & Ll & Nl).
      { eapply mapped_sub; [exact H|lia|lia]. }
      rewrite El. cbn [bind]. exists (x :: l). split; [reflexivity|]. split; [simpl; lia|].
      intros [|i] Hi; cbn [nth_error].
      + now rewrite Z.add_0_r.
      + rewrite <- Nl by lia. f_equal. lia.
  Qed.

  Lemma st_block_ok l : forall m a, mapped m a (Z.of_nat (length l)) ->
    exists m', st_block l m a = Ok m' /\ same_dom m m' /\
      forall x, m' x = if (a <=? x) && (x <? a + Z.of_nat (length l))
                       then nth_error l (Z.to_nat (x - a)) else m x.
  Proof.
    induction l as [|v l IH]; intros m a H.
    - exists m. split; [reflexivity|]. split; [apply same_dom_refl|]. intros x. cbn [length]. bcase.
    - cbn [st_block]. rewrite st_mapped by (apply H; cbn [length]; lia). cbn [bind].
      set (m1 := fun b => if b =? a then Some v else m b).
      assert (same_dom m m1) as D1.
      { intros x. unfold m1. destruct (Z.eqb_spec x a) as [->|]; [|tauto].
        split; [discriminate|]. intros E. exfalso. apply (H a); [cbn [length]; lia|auto]. }
      destruct (IH m1 (a + 1)) as (m' & E' & D' & N').
      { eapply dom_mapped; [exact D1|]. eapply mapped_sub; [exact H|lia|cbn [length]; lia]. }
      exists m'. split; [exact E'|]. split; [eapply same_dom_trans; eauto|].
      intros x. rewrite N'. cbn [length]. unfold m1.
      destruct (Z.eqb_spec x a) as [->|NE].
      + replace (Z.to_nat (a - a)) with 0%nat by lia. cbn [nth_error]. bcase.
      + assert (x > a -> Z.to_nat (x - a) = S (Z.to_nat (x - (a + 1)))) as Q by lia.
        bcase. rewrite Q by lia. reflexivity.
  Qed.

  Lemma block_move_ok k m src dest :
    mapped m src (Z.of_nat k) -> mapped m dest (Z.of_nat k) ->
    exists m', block_move k m src dest = Ok m' /\ copied m src (Z.of_nat k) dest m' /\ same_dom m m'.
  Proof.
    intros Hs Hd. unfold block_move. destruct (ld_block_ok k m src Hs) as (l & El & Ll & Nl).
    rewrite El. cbn [bind]. destruct (st_block_ok l m dest) as (m' & E & D & N).
    { now rewrite Ll. }
    exists m'. split; [exact E|]. split; [|exact D].
    intros x. rewrite N, Ll. bcase. rewrite <- Nl by lia. f_equal. lia.
  Qed.

  Lemma simd_loop_ok n : forall m src dest,
    src mod 16 = 0 -> dest mod 16 = 0 ->
    mapped m src (32 * Z.of_nat n) -> mapped m dest (32 * Z.of_nat n) ->
    dest <= src \/ disjoint src (32 * Z.of_nat n) dest (32 * Z.of_nat n) ->
    exists m', simd_loop n m src dest = Ok (m', src + 32 * Z.of_nat n, dest + 32 * Z.of_nat n) /\
      copied m src (32 * Z.of_nat n) dest m' /\ same_dom m m'.
  Proof.
    induction n as [|n IH]; intros m src dest As Ad Hs Hd Ho.
    - exists m. cbn [simd_loop]. rewrite !Z.add_0_r. split; [reflexivity|]. split; [now apply copied_0|apply same_dom_refl].
    - cbn [simd_loop]. unfold simd_block_copy. rewrite As, Ad. cbn [Z.eqb andb].
      destruct (block_move_ok 32 m src dest) as (m1 & E1 & C1 & D1).
      + eapply mapped_sub; [exact Hs|lia|lia].
      + eapply mapped_sub; [exact Hd|lia|lia].
      + rewrite E1. cbn [bind]. change (Z.of_nat 32) with 32 in C1.
        destruct (IH m1 (src + 32) (dest + 32)) as (m' & E' & C' & D').
        * rewrite <- As. symmetry. replace (src + 32) with (src + 2 * 16) by lia. now rewrite Z.mod_add.
        * rewrite <- Ad. symmetry. replace (dest + 32) with (dest + 2 * 16) by lia. now rewrite Z.mod_add.
        * eapply dom_mapped; [exact D1|]. eapply mapped_sub; [exact Hs|lia|lia].
        * eapply dom_mapped; [exact D1|]. eapply mapped_sub; [exact Hd|lia|lia].
        * unfold disjoint in *. lia.
        * exists m'. rewrite E'. split; [f_equal; f_equal; [f_equal|]; lia|]. split.
          -- replace (32 * Z.of_nat (S n)) with (32 + 32 * Z.of_nat n) in * by lia.
             eapply copied_up; [lia|lia| |exact C1|exact C']. exact Ho.
          -- eapply same_dom_trans; eauto.
  Qed.

  (** ** copy_n_fast *)
  Lemma copy_n_fast_ok m src n dest :
    0 <= src < two64 - 15 -> 0 <= n -> mapped m src n -> mapped m dest n ->
    dest <= src \/ disjoint src n dest n ->
    exists m', copy_n_fast m src n dest = Ok m' /\ copied m src n dest m' /\ same_dom m m'.
  Proof.
    intros Ha Hn Hs Hd Ho. unfold copy_n_fast.
    destruct (align_ok src 16) as (al & Ea & Da & Ba); [lia|lia|lia|].
    rewrite Ea. cbn [bind]. rewrite umin_spec.
    set (h := Z.min (al - src) n). assert (0 <= h <= n) by lia.
    destruct (movsb_up_ok (Z.to_nat h) m src dest) as (m1 & E1 & C1 & D1);
      rewrite ?Z2Nat.id in * by lia.
    { eapply mapped_sub; [exact Hs|lia|lia]. }
    { eapply mapped_sub; [exact Hd|lia|lia]. }
    { unfold disjoint in *. lia. }
    rewrite E1. cbn [bind].
    destruct (Z.eqb_spec ((dest + h) mod 16) 0) as [Al|Al].
    - set (q := (n - h) / 32). set (r := (n - h) mod 32).
      assert (n - h = 32 * q + r /\ 0 <= r < 32 /\ 0 <= q) as (Hq & Hr & Hq0).
      { subst q r. pose proof (Z.div_mod (n - h) 32). pose proof (Z.mod_pos_bound (n - h) 32).
        pose proof (Z.div_pos (n - h) 32). lia. }
      assert (exists m2, simd_loop (Z.to_nat q) m1 (src + h) (dest + h)
          = Ok (m2, src + h + 32 * q, dest + h + 32 * q) /\
          copied m1 (src + h) (32 * q) (dest + h) m2 /\ same_dom m1 m2) as (m2 & E2 & C2 & D2).
      { destruct (Z.eq_dec q 0) as [Eq0|Nq].
        - rewrite Eq0. exists m1. cbn [Z.to_nat simd_loop]. rewrite !Z.mul_0_r, !Z.add_0_r.
          split; [reflexivity|]. split; [apply copied_0; lia|apply same_dom_refl].
        - destruct (simd_loop_ok (Z.to_nat q) m1 (src + h) (dest + h)) as (m2 & E2 & C2 & D2);
            rewrite ?Z2Nat.id in * by lia.
          + replace (src + h) with al by lia. destruct Da as [z ->]. apply Z.mod_mul. lia.
          + exact Al.
          + eapply dom_mapped; [exact D1|]. eapply mapped_sub; [exact Hs|lia|lia].
          + eapply dom_mapped; [exact D1|]. eapply mapped_sub; [exact Hd|lia|lia].
          + unfold disjoint in *. lia.
          + eauto. }
      rewrite E2. cbn [bind].
      destruct (movsb_up_ok (Z.to_nat r) m2 (src + h + 32 * q) (dest + h + 32 * q)) as (m3 & E3 & C3 & D3);
        rewrite ?Z2Nat.id in * by lia.
      { eapply dom_mapped; [exact (same_dom_trans _ _ _ D1 D2)|]. eapply mapped_sub; [exact Hs|lia|lia]. }
      { eapply dom_mapped; [exact (same_dom_trans _ _ _ D1 D2)|]. eapply mapped_sub; [exact Hd|lia|lia]. }
      { unfold disjoint in *. lia. }
      rewrite E3. cbn [bind]. exists m3. split; [reflexivity|].
      split; [|eapply same_dom_trans; [eapply same_dom_trans|]; eauto].
      replace n with (h + (32 * q + r)) by lia.
      eapply copied_up; [lia|lia| |exact C1|].
      { replace (h + (32 * q + r)) with n by lia. exact Ho. }
      eapply copied_up; [lia|lia| |exact C2|exact C3].
      unfold disjoint in *. lia.
    - destruct (movsb_up_ok (Z.to_nat (n - h)) m1 (src + h) (dest + h)) as (m3 & E3 & C3 & D3);
        rewrite ?Z2Nat.id in * by lia.
      { eapply dom_mapped; [exact D1|]. eapply mapped_sub; [exact Hs|lia|lia]. }
      { eapply dom_mapped; [exact D1|]. eapply mapped_sub; [exact Hd|lia|lia]. }
      { unfold disjoint in *. lia. }
      rewrite E3. cbn [bind]. exists m3. split; [reflexivity|]. split; [|eapply same_dom_trans; eauto].
      replace n with (h + (n - h)) by lia.
      eapply copied_up; [lia|lia| |exact C1|exact C3].
      replace (h + (n - h)) with n by lia. exact Ho.
  Qed.

  Lemma movsd_down_ok n : forall m s d,
    mapped m (s + 4 - 4 * Z.of_nat n) (4 * Z.of_nat n) -> mapped m (d + 4 - 4 * Z.of_nat n) (4 * Z.of_nat n) ->
    s <= d \/ disjoint (s + 4 - 4 * Z.of_nat n) (4 * Z.of_nat n) (d + 4 - 4 * Z.of_nat n) (4 * Z.of_nat n) ->
    exists m', movsd_down n m s d = Ok (m', s - 4 * Z.of_nat n, d - 4 * Z.of_nat n) /\
      copied m (s + 4 - 4 * Z.of_nat n) (4 * Z.of_nat n) (d + 4 - 4 * Z.of_nat n) m' /\ same_dom m m'.
  Proof.
    induction n as [|n IH]; intros m s d Hs Hd Ho.
    - exists m. cbn [movsd_down]. rewrite !Z.mul_0_r, !Z.sub_0_r. split; [reflexivity|]. split; [now apply copied_0|apply same_dom_refl].
    - cbn [movsd_down].
      destruct (block_move_ok 4 m s d) as (m1 & E1 & C1 & D1).
      + eapply mapped_sub; [exact Hs|lia|lia].
      + eapply mapped_sub; [exact Hd|lia|lia].
      + rewrite E1. cbn [bind]. change (Z.of_nat 4) with 4 in C1.
        destruct (IH m1 (s - 4) (d - 4)) as (m' & E' & C' & D').
        * eapply dom_mapped; [exact D1|]. eapply mapped_sub; [exact Hs|lia|lia].
        * eapply dom_mapped; [exact D1|]. eapply mapped_sub; [exact Hd|lia|lia].
        * unfold disjoint in *. lia.
        * exists m'. rewrite E'. split; [f_equal; f_equal; [f_equal|]; lia|]. split.
          -- replace (4 * Z.of_nat (S n)) with (4 + 4 * Z.of_nat n) in * by lia.
             replace (s + 4 - (4 + 4 * Z.of_nat n)) with (s - 4 * Z.of_nat n) in * by lia.
             replace (d + 4 - (4 + 4 * Z.of_nat n)) with (d - 4 * Z.of_nat n) in * by lia.
             replace (s - 4 + 4 - 4 * Z.of_nat n) with (s - 4 * Z.of_nat n) in C' by lia.
             replace (d - 4 + 4 - 4 * Z.of_nat n) with (d - 4 * Z.of_nat n) in C' by lia.
             eapply copied_down; [lia|lia| |exact C1|exact C']. exact Ho.
          -- eapply same_dom_trans; eauto.
  Qed.

  (** ** copy_backward_fast, where it works. *)
  Lemma copy_backward_fast_ok m first last result :
    0 <= first <= last -> last < two64 -> last mod 4 <= last - first ->
    (result - last) mod 4 <> 0 \/ first mod 4 = 0 ->
    mapped m first (last - first) -> mapped m (result - (last - first)) (last - first) ->
    last <= result \/ disjoint first (last - first) (result - (last - first)) (last - first) ->
    exists m', copy_backward_fast m first last result = Ok m' /\
      copied m first (last - first) (result - (last - first)) m' /\ same_dom m m'.
  Proof.
    intros Hf Hl Hh Hal Hs Hd Ho. unfold copy_backward_fast.
    set (h := last mod 4) in *. assert (0 <= h < 4) by (apply Z.mod_pos_bound; lia).
    destruct (movsb_down_ok (Z.to_nat h) m (last - 1) (result - 1)) as (m1 & E1 & C1 & D1);
      rewrite ?Z2Nat.id in * by lia.
    { eapply mapped_sub; [exact Hs|lia|lia]. }
    { eapply mapped_sub; [exact Hd|lia|lia]. }
    { unfold disjoint in *. lia. }
    rewrite E1. cbn [bind].
    replace (u64 (last - first - h)) with (last - first - h)
      by (unfold u64; symmetry; apply Z.mod_small; lia).
    replace (last - 1 + 1 - h) with (last - h) in C1 by lia.
    replace (result - 1 + 1 - h) with (result - h) in C1 by lia.
    destruct (Z.eqb_spec ((result - 1 - h) mod 4) 3) as [E3|E3].
    - (* word path: first is aligned *)
      assert (first mod 4 = 0) as Fa.
      { destruct Hal as [N|]; [|auto]. exfalso. apply N. subst h. 
        Z.div_mod_to_equations. lia. }
      assert ((last - first - h) mod 4 = 0) as R0 by (subst h; Z.div_mod_to_equations; lia).
      rewrite R0. cbn [Z.to_nat movsb_down].
      set (q := (last - first - h) / 4).
      assert (last - first - h = 4 * q) as Hq by (subst q; pose proof (Z.div_mod (last - first - h) 4); lia).
      destruct (movsd_down_ok (Z.to_nat q) m1 (last - 1 - h - 3) (result - 1 - h - 3)) as (m2 & E2 & C2 & D2);
        rewrite ?Z2Nat.id in * by lia.
      { eapply dom_mapped; [exact D1|]. eapply mapped_sub; [exact Hs|lia|lia]. }
      { eapply dom_mapped; [exact D1|]. eapply mapped_sub; [exact Hd|lia|lia]. }
      { unfold disjoint in *. lia. }
      rewrite E2. cbn [bind]. exists m2. split; [reflexivity|]. split; [|eapply same_dom_trans; eauto].
      replace (last - 1 - h - 3 + 4 - 4 * q) with (last - h - 4 * q) in C2 by lia.
      replace (result - 1 - h - 3 + 4 - 4 * q) with (result - h - 4 * q) in C2 by lia.
      replace first with (last - h - 4 * q) at 1 by lia.
      replace (last - first) with (h + 4 * q) by lia.
      replace (result - (h + 4 * q)) with (result - h - 4 * q) by lia.
      eapply copied_down; [lia|lia| |exact C1|exact C2].
      unfold disjoint in *. lia.
    - destruct (movsb_down_ok (Z.to_nat (last - first - h)) m1 (last - 1 - h) (result - 1 - h)) as (m2 & E2 & C2 & D2);
        rewrite ?Z2Nat.id in * by lia.
      { eapply dom_mapped; [exact D1|]. eapply mapped_sub; [exact Hs|lia|lia]. }
      { eapply dom_mapped; [exact D1|]. eapply mapped_sub; [exact Hd|lia|lia]. }
      { unfold disjoint in *. lia. }
      rewrite E2. cbn [bind]. exists m2. split; [reflexivity|]. split; [|eapply same_dom_trans; eauto].
      set (q := last - first - h) in *.
      replace (last - 1 - h + 1 - q) with (last - h - q) in C2 by lia.
      replace (result - 1 - h + 1 - q) with (result - h - q) in C2 by lia.
      replace first with (last - h - q) at 1 by lia.
      replace (last - first) with (h + q) by lia.
      replace (result - (h + q)) with (result - h - q) by lia.
      eapply copied_down; [lia|lia| |exact C1|exact C2].
      unfold disjoint in *. lia.
  Qed.

  Lemma copy_backward_memmove_ok m first last result :
    first <= last ->
    mapped m first (last - first) -> mapped m (result - (last - first)) (last - first) ->
    exists m', copy_backward_memmove m first last result = Ok m' /\
      copied m first (last - first) (result - (last - first)) m' /\ same_dom m m'.
  Proof.
    intros Hf Hs Hd. unfold copy_backward_memmove.
    destruct (block_move_ok (Z.to_nat (last - first)) m first (result - (last - first))) as (m' & E & C & D);
      rewrite ?Z2Nat.id in * by lia; eauto.
  Qed.

  (** ** rotate_fast *)
  Definition backward_ok (cb : mem A -> Z -> Z -> Z -> outcome (mem A)) first middle last : Prop :=
    forall m, mapped m first (middle - first) -> mapped m (last - (middle - first)) (middle - first) ->
    exists m', cb m first middle last = Ok m' /\
      copied m first (middle - first) (last - (middle - first)) m' /\ same_dom m m'.

  Lemma rotate_fast_with_ok cb buf m first middle last :
    0 <= first <= middle -> middle <= last -> last < two64 - 15 -> 0 <= buf < two64 - 15 ->
    mapped m first (last - first) -> mapped m buf (Z.min (middle - first) (last - middle)) ->
    disjoint first (last - first) buf (Z.min (middle - first) (last - middle)) ->
    (last - middle < middle - first -> 0 < last - middle -> backward_ok cb first middle last) ->
    exists m', rotate_fast_with cb buf m first middle last = Ok m' /\
      rotated m first middle last m' /\
      same_outside m first (last - first) buf (Z.min (middle - first) (last - middle)) m' /\ same_dom m m'.
  Proof.
    intros H1 H2 H3 Hb Hm Hbm Ho Hcb. unfold rotate_fast_with. rewrite umin_spec.
    set (h1 := middle - first) in *. set (h2 := last - middle) in *.
    destruct (Z.eqb_spec (Z.min h1 h2) 0) as [E0|N0].
    - exists m. split; [reflexivity|]. unfold rotated, same_outside, h1, h2 in *.
      split; [|split; [auto|apply same_dom_refl]].
      split; intros x Hx; f_equal; lia.
    - destruct (Z.ltb_spec h2 h1) as [L|L].
      + rewrite Z.min_r in * by lia.
        destruct (copy_n_fast_ok m middle h2 buf) as (m1 & E1 & C1 & D1); [lia|lia| | | |].
        { eapply mapped_sub; [exact Hm|lia|lia]. }
        { exact Hbm. }
        { unfold disjoint in *. lia. }
        rewrite E1. cbn [bind].
        destruct (Hcb ltac:(lia) ltac:(lia) m1) as (m2 & E2 & C2 & D2).
        { eapply dom_mapped; [exact D1|]. eapply mapped_sub; [exact Hm|lia|lia]. }
        { eapply dom_mapped; [exact D1|]. eapply mapped_sub; [exact Hm|lia|lia]. }
        rewrite E2. cbn [bind].
        destruct (copy_n_fast_ok m2 buf h2 first) as (m3 & E3 & C3 & D3); [lia|lia| | | |].
        { eapply dom_mapped; [exact (same_dom_trans _ _ _ D1 D2)|]. exact Hbm. }
        { eapply dom_mapped; [exact (same_dom_trans _ _ _ D1 D2)|]. eapply mapped_sub; [exact Hm|lia|lia]. }
        { unfold disjoint in *. lia. }
        exists m3. split; [exact E3|]. fold h1 in C2.
        assert (forall x, m3 x = if (first <=? x) && (x <? first + h2) then m (x - first + middle)
                 else if (first + h2 <=? x) && (x <? last) then m (x - h2)
                 else if (buf <=? x) && (x <? buf + h2) then m (x - buf + middle) else m x) as F.
        { intros x. rewrite C3. unfold disjoint in Ho.
          destruct (Z.leb_spec first x), (Z.ltb_spec x (first + h2)); cbn [andb].
          - rewrite C2. bcase; rewrite C1; bcase; f_equal; lia.
          - rewrite C2. bcase; rewrite C1; bcase; f_equal; lia.
          - rewrite C2. bcase; rewrite C1; bcase; f_equal; lia.
          - lia. }
        split; [|split].
        * split; intros x Hx; rewrite F; bcase.
        * intros x Hx1 Hx2. rewrite F. bcase.
        * eapply same_dom_trans; [eapply same_dom_trans|]; eauto.
      + rewrite Z.min_l in * by lia.
        destruct (copy_n_fast_ok m first h1 buf) as (m1 & E1 & C1 & D1); [lia|lia| | | |].
        { eapply mapped_sub; [exact Hm|lia|lia]. }
        { exact Hbm. }
        { unfold disjoint in *. lia. }
        rewrite E1. cbn [bind].
        destruct (copy_n_fast_ok m1 middle h2 first) as (m2 & E2 & C2 & D2); [lia|lia| | | |].
        { eapply dom_mapped; [exact D1|]. eapply mapped_sub; [exact Hm|lia|lia]. }
        { eapply dom_mapped; [exact D1|]. eapply mapped_sub; [exact Hm|lia|lia]. }
        { left. lia. }
        rewrite E2. cbn [bind].
        destruct (copy_n_fast_ok m2 buf h1 (first + h2)) as (m3 & E3 & C3 & D3); [lia|lia| | | |].
        { eapply dom_mapped; [exact (same_dom_trans _ _ _ D1 D2)|]. exact Hbm. }
        { eapply dom_mapped; [exact (same_dom_trans _ _ _ D1 D2)|]. eapply mapped_sub; [exact Hm|lia|lia]. }
        { unfold disjoint in *. lia. }
        exists m3. split; [exact E3|].
        assert (forall x, m3 x = if (first <=? x) && (x <? first + h2) then m (x - first + middle)
                 else if (first + h2 <=? x) && (x <? last) then m (x - h2)
                 else if (buf <=? x) && (x <? buf + h1) then m (x - buf + first) else m x) as F.
        { intros x. rewrite C3. unfold disjoint in Ho.
          destruct (Z.leb_spec (first + h2) x), (Z.ltb_spec x (first + h2 + h1)); cbn [andb].
          - rewrite C2. bcase; rewrite C1; bcase; f_equal; lia.
          - rewrite C2. bcase; rewrite C1; bcase; f_equal; lia.
          - rewrite C2. bcase; rewrite C1; bcase; f_equal; lia.
          - lia. }
        split; [|split].
        * split; intros x Hx; rewrite F; bcase.
        * intros x Hx1 Hx2. rewrite F. bcase.
        * eapply same_dom_trans; [eapply same_dom_trans|]; eauto.
  Qed.

  (** ** fill_n8_fast *)
  Lemma stosb_ok n : forall m p v, mapped m p (Z.of_nat n) ->
    exists m', stosb n m p v = Ok (m', p + Z.of_nat n) /\ filled m p (Z.of_nat n) v m' /\ same_dom m m'.
  Proof.
    induction n as [|n IH]; intros m p v H.
    - exists m. cbn [stosb]. rewrite Z.add_0_r. split; [reflexivity|]. split; [intros x; bcase|apply same_dom_refl].
    - cbn [stosb]. rewrite st_mapped by (apply H; lia). cbn [bind].
      set (m1 := fun b => if b =? p then Some v else m b).
      assert (same_dom m m1) as D1.
      { intros x. unfold m1. destruct (Z.eqb_spec x p) as [->|]; [|tauto].
        split; [discriminate|]. intros E. exfalso. apply (H p); [lia|auto]. }
      destruct (IH m1 (p + 1) v) as (m' & E & F & D).
      { eapply dom_mapped; [exact D1|]. eapply mapped_sub; [exact H|lia|lia]. }
      exists m'. rewrite E. split; [f_equal; f_equal; lia|]. split; [|eapply same_dom_trans; eauto].
      intros x. rewrite F. unfold m1. bcase.
  Qed.

  Lemma filled_comp m p n k v m1 m2 : 0 <= n -> 0 <= k ->
    filled m p n v m1 -> filled m1 (p + n) k v m2 -> filled m p (n + k) v m2.
  Proof. intros Hn Hk F1 F2 x. rewrite F2, F1. bcase. Qed.

  Lemma nth_error_repeat_Some (v : A) n i : (i < n)%nat -> nth_error (repeat v n) i = Some v.
  Proof. revert i. induction n; intros i H; [lia|]. destruct i; [reflexivity|]. cbn. apply IHn. lia. Qed.

  Lemma simd_fill_loop_ok n : forall m p v, mapped m p (32 * Z.of_nat n) ->
    exists m', simd_fill_loop n m p v = Ok (m', p + 32 * Z.of_nat n) /\ filled m p (32 * Z.of_nat n) v m' /\ same_dom m m'.
  Proof.
    induction n as [|n IH]; intros m p v H.
    - exists m. cbn [simd_fill_loop]. rewrite Z.mul_0_r, Z.add_0_r. split; [reflexivity|]. split; [intros x; bcase|apply same_dom_refl].
    - cbn [simd_fill_loop].
      destruct (st_block_ok (repeat v 32) m p) as (m1 & E1 & D1 & N1).
      { rewrite repeat_length. eapply mapped_sub; [exact H|lia|lia]. }
      rewrite E1. cbn [bind]. rewrite repeat_length in N1. change (Z.of_nat 32) with 32 in N1.
      assert (filled m p 32 v m1) as F1.
      { intros x. rewrite N1. bcase. apply nth_error_repeat_Some. lia. }
      destruct (IH m1 (p + 32) v) as (m' & E & F & D).
      { eapply dom_mapped; [exact D1|]. eapply mapped_sub; [exact H|lia|lia]. }
      exists m'. rewrite E. split; [f_equal; f_equal; lia|]. split; [|eapply same_dom_trans; eauto].
      replace (32 * Z.of_nat (S n)) with (32 + 32 * Z.of_nat n) by lia.
      eapply filled_comp; [lia|lia|exact F1|exact F].
  Qed.

  Lemma fill_n8_fast_ok m dest n v : 0 <= dest < two64 - 15 -> 0 <= n -> mapped m dest n ->
    exists m', fill_n8_fast m dest n v = Ok m' /\ filled m dest n v m'.
  Proof.
    intros Ha Hn Hd. unfold fill_n8_fast.
    destruct (align_ok dest 16) as (al & Ea & Da & Ba); [lia|lia|lia|].
    rewrite Ea. cbn [bind]. rewrite umin_spec, Z.div_1_r.
    set (h := Z.min (al - dest) n). assert (0 <= h <= n) by lia.
    destruct (stosb_ok (Z.to_nat h) m dest v) as (m1 & E1 & F1 & D1);
      rewrite ?Z2Nat.id in * by lia.
    { eapply mapped_sub; [exact Hd|lia|lia]. }
    rewrite E1. cbn [bind]. rewrite Z.mul_1_r.
    set (q := (n - h) / 32). set (r := (n - h) mod 32).
    assert (n - h = 32 * q + r /\ 0 <= r < 32 /\ 0 <= q) as (Hq & Hr & Hq0).
    { subst q r. pose proof (Z.div_mod (n - h) 32). pose proof (Z.mod_pos_bound (n - h) 32).
      pose proof (Z.div_pos (n - h) 32). lia. }
    destruct (simd_fill_loop_ok (Z.to_nat q) m1 (dest + h) v) as (m2 & E2 & F2 & D2);
      rewrite ?Z2Nat.id in * by lia.
    { eapply dom_mapped; [exact D1|]. eapply mapped_sub; [exact Hd|lia|lia]. }
    rewrite E2. cbn [bind].
    destruct (stosb_ok (Z.to_nat r) m2 (dest + h + 32 * q) v) as (m3 & E3 & F3 & D3);
      rewrite ?Z2Nat.id in * by lia.
    { eapply dom_mapped; [exact (same_dom_trans _ _ _ D1 D2)|]. eapply mapped_sub; [exact Hd|lia|lia]. }
    rewrite E3. cbn [bind]. exists m3. split; [reflexivity|].
    replace n with (h + (32 * q + r)) by lia.
    eapply filled_comp; [lia|lia|exact F1|]. eapply filled_comp; [lia|lia|exact F2|exact F3].
  Qed.
End Bytes.
