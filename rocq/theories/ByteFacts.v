(** * ByteFacts: witnesses for the byte-block moves. *)
From Verif Require Import Base UtilModel UtilProofs ByteModel ByteSpec ByteProofs.
From Coq Require Import ZArith.
Local Open Scope Z_scope.

Section F.
  Context {A : Type}.
  Implicit Types m : mem A.

  Lemma st_dom m a v m' : st m a v = Ok m' -> same_dom m m'.
  Proof.
    unfold st. destruct (m a) eqn:E; [|discriminate]. intros H. injection H as <-.
    intros x. destruct (Z.eqb_spec x a) as [->|]; [|tauto]. rewrite E. split; discriminate.
  Qed.

  Lemma movsb_down_UB n : forall m s d a, m a = None -> a <= s < a + Z.of_nat n ->
    movsb_down n m s d = UB.
  Proof.
    induction n as [|n IH]; intros m s d a Ha H; [lia|]. cbn [movsb_down].
    unfold ld. destruct (m s) as [x|] eqn:E; [|reflexivity]. cbn [bind].
    destruct (st m d x) as [m'| | |] eqn:E'; try (unfold st in E'; destruct (m d); discriminate); [|reflexivity].
    cbn [bind]. apply (IH m' (s - 1) (d - 1) a).
    - apply (st_dom _ _ _ _ E'). exact Ha.
    - assert (s <> a) by congruence. lia.
  Qed.

  (** A two byte block whose end address is 3 modulo 4, moved up by one: the
      head loop copies three bytes and the remaining count wraps to 2^64-1. *)
  Lemma backward_wraps m (first : Z) :
    4 <= first < 2 ^ 63 -> first mod 4 = 1 ->
    (exists a, a < first /\ 0 <= a /\ m a = None) ->
    copy_backward_fast m first (first + 2) (first + 3) = UB.
  Proof.
    intros Hr Hf (a & Ha1 & Ha0 & Ha2). unfold copy_backward_fast.
    assert ((first + 2) mod 4 = 3) as -> by (Z.div_mod_to_equations; lia).
    change (Z.to_nat 3) with 3%nat.
    replace (first + 2 - first - 3) with (-1) by lia.
    change (u64 (-1)) with 18446744073709551615.
    destruct (movsb_down 3 m (first + 2 - 1) (first + 3 - 1)) as [[[m1 l1] r1]| | |] eqn:E;
      [| reflexivity | |].
    - cbn [bind].
      assert (l1 = first - 2 /\ r1 = first - 1 /\ same_dom m m1) as (-> & -> & D).
      { cbn [movsb_down] in E.
        destruct (ld m (first + 2 - 1)) as [x1| | |]; try discriminate; cbn [bind] in E.
        destruct (st m (first + 3 - 1) x1) as [k1| | |] eqn:S1; try discriminate; cbn [bind] in E.
        destruct (ld k1 (first + 2 - 1 - 1)) as [x2| | |]; try discriminate; cbn [bind] in E.
        destruct (st k1 (first + 3 - 1 - 1) x2) as [k2| | |] eqn:S2; try discriminate; cbn [bind] in E.
        destruct (ld k2 (first + 2 - 1 - 1 - 1)) as [x3| | |]; try discriminate; cbn [bind] in E.
        destruct (st k2 (first + 3 - 1 - 1 - 1) x3) as [k3| | |] eqn:S3; try discriminate; cbn [bind] in E.
        injection E as <- <- <-. split; [lia|]. split; [lia|].
        apply st_dom in S1, S2, S3. intros x. rewrite (S3 x), (S2 x). apply S1. }
      assert ((first - 1) mod 4 = 0) as -> by (Z.div_mod_to_equations; lia).
      cbn [Z.eqb].
      destruct (Z.le_gt_cases a (first - 2)) as [L|L].
      + rewrite (movsb_down_UB _ m1 (first - 2) (first - 1) a); [reflexivity|apply D; exact Ha2|].
        rewrite Z2Nat.id by lia. lia.
      + (* the unmapped byte is just below the block: the head loop has read it already *)
        exfalso. assert (a = first - 1) as -> by lia.
        cbn [movsb_down] in E. revert E. 
        unfold ld at 1. destruct (m (first + 2 - 1)) as [x1|]; cbn [bind]; [|discriminate].
        destruct (st m (first + 3 - 1) x1) as [k1| | |] eqn:S1; cbn [bind]; try discriminate.
        unfold ld at 1. destruct (k1 (first + 2 - 1 - 1)) as [x2|]; cbn [bind]; [|discriminate].
        destruct (st k1 (first + 3 - 1 - 1) x2) as [k2| | |] eqn:S2; cbn [bind]; try discriminate.
        unfold ld at 1. replace (first + 2 - 1 - 1 - 1) with (first - 1) by lia.
        apply st_dom in S1, S2. rewrite (proj2 (S2 (first - 1))) by (apply S1; exact Ha2).
        discriminate.
    - exfalso. cbn [movsb_down] in E. revert E. unfold ld, st.
      repeat (match goal with |- context [match ?x with Some _ => _ | None => _ end] => destruct x end; cbn [bind]; try discriminate).
    - exfalso. cbn [movsb_down] in E. revert E. unfold ld, st.
      repeat (match goal with |- context [match ?x with Some _ => _ | None => _ end] => destruct x end; cbn [bind]; try discriminate).
  Qed.
End F.

(** 256 mapped bytes at address 1000, each holding its own address. *)
Definition mem0 : mem Z := fun a => if (1000 <=? a) && (a <? 1256) then Some a else None.

Definition at_ (o : outcome (mem Z)) (a : Z) : option Z := match o with Ok m => m a | _ => None end.

(** A block at the 16-aligned address 1008, 14 bytes; the hole of four bytes
    is rotated to offset 1 (what inserting four bytes at offset 1 of a ten
    byte block does): bytes 5..7 keep their old values. *)
Lemma rotate_stale :
  exists m', rotate_fast 1100 mem0 1009 1018 1022 = Ok m' /\
    m' 1013 = Some 1013 /\ mem0 (1013 - 4) = Some 1009.
Proof.
  destruct (rotate_fast 1100 mem0 1009 1018 1022) as [m'| | |] eqn:E.
  - exists m'. split; [reflexivity|]. split; [|reflexivity].
    change (m' 1013) with (at_ (Ok m') 1013). rewrite <- E. vm_compute. reflexivity.
  - exfalso. assert (at_ UB 1013 = at_ (rotate_fast 1100 mem0 1009 1018 1022) 1013) as H by now rewrite E.
    vm_compute in H. discriminate.
  - exfalso. assert (at_ (Exn e) 1013 = at_ (rotate_fast 1100 mem0 1009 1018 1022) 1013) as H by now rewrite E.
    vm_compute in H. discriminate.
  - exfalso. assert (at_ NoFuel 1013 = at_ (rotate_fast 1100 mem0 1009 1018 1022) 1013) as H by now rewrite E.
    vm_compute in H. discriminate.
Qed.

Lemma backward_stale :
  exists m', copy_backward_fast mem0 1009 1018 1022 = Ok m' /\
    m' 1013 = Some 1013 /\ mem0 (1013 - 4) = Some 1009.
Proof.
  destruct (copy_backward_fast mem0 1009 1018 1022) as [m'| | |] eqn:E.
  - exists m'. split; [reflexivity|]. split; [|reflexivity].
    change (m' 1013) with (at_ (Ok m') 1013). rewrite <- E. vm_compute. reflexivity.
  - exfalso. assert (at_ UB 1013 = at_ (copy_backward_fast mem0 1009 1018 1022) 1013) as H by now rewrite E.
    vm_compute in H. discriminate.
  - exfalso. assert (at_ (Exn e) 1013 = at_ (copy_backward_fast mem0 1009 1018 1022) 1013) as H by now rewrite E.
    vm_compute in H. discriminate.
  - exfalso. assert (at_ NoFuel 1013 = at_ (copy_backward_fast mem0 1009 1018 1022) 1013) as H by now rewrite E.
    vm_compute in H. discriminate.
Qed.

Lemma mem0_mapped a n : 1000 <= a -> a + n <= 1256 -> mapped mem0 a n.
Proof.
  intros H1 H2 x Hx. unfold mem0. destruct (Z.leb_spec 1000 x), (Z.ltb_spec x 1256); try lia. discriminate.
Qed.

Lemma backward_wrong :
  exists (m m' : mem Z) first last result, first <= last <= result /\
    mapped m (first - 8) (result - first + 16) /\
    copy_backward_fast m first last result = Ok m' /\
    ~ copied m first (last - first) (result - (last - first)) m'.
Proof.
  destruct backward_stale as (m' & E & H1 & H2).
  exists mem0, m', 1009, 1018, 1022. split; [lia|]. split; [apply mem0_mapped; lia|]. split; [exact E|].
  intros C. specialize (C 1013). rewrite H1 in C. vm_compute in C. discriminate.
Qed.

Lemma rotate_wrong :
  exists (m m' : mem Z) buf first middle last, first <= middle <= last /\
    first = 1 + 16 * 63 /\
    mapped m (first - 8) (last - first + 16) /\ mapped m buf (last - first) /\
    disjoint (first - 8) (last - first + 16) buf (last - first) /\
    rotate_fast buf m first middle last = Ok m' /\ ~ rotated m first middle last m'.
Proof.
  destruct rotate_stale as (m' & E & H1 & H2).
  exists mem0, m', 1100, 1009, 1018, 1022. split; [lia|]. split; [reflexivity|].
  split; [apply mem0_mapped; lia|]. split; [apply mem0_mapped; lia|]. split; [left; lia|]. split; [exact E|].
  intros [_ R]. specialize (R 1013 ltac:(lia)). rewrite H1 in R. vm_compute in R. discriminate.
Qed.

Lemma rotate_crash :
  exists (m : mem Z) buf first middle last, first <= middle <= last /\
    mapped m (first - 8) (last - first + 16) /\ mapped m buf (last - first) /\
    disjoint (first - 8) (last - first + 16) buf (last - first) /\
    rotate_fast buf m first middle last = UB.
Proof.
  exists mem0, 1100, 1009, 1011, 1012. split; [lia|].
  split; [apply mem0_mapped; lia|]. split; [apply mem0_mapped; lia|]. split; [left; lia|].
  unfold rotate_fast, rotate_fast_with. change (umin (1011 - 1009) (1012 - 1011)) with 1.
  change (1 =? 0) with false. cbn iota. change (1012 - 1011 <? 1011 - 1009) with true. cbn iota.
  destruct (copy_n_fast_ok mem0 1011 1 1100) as (m1 & E1 & C1 & D1);
    [unfold two64; lia|lia|apply mem0_mapped; lia|apply mem0_mapped; lia|right; left; lia|].
  change (1012 - 1011) with 1. rewrite E1. cbn [bind].
  change 1011 with (1009 + 2). change 1012 with (1009 + 3). rewrite (backward_wraps m1 1009); [reflexivity|lia|reflexivity|].
  exists 999. split; [lia|]. split; [lia|]. apply D1. reflexivity.
Qed.
