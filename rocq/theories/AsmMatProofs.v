From Coq Require Import ZArith List Lia Bool.
From Verif Require Import AsmModel AsmSpec AsmProofs AsmMatModel AsmMatSpec.
Import ListNotations.
Local Open Scope Z_scope.

Section P.
  Context {E : Type}.
  Variable zero : E.
  Variables add mul : E -> E -> E.
  Definition holds (s : mach E) (m : nat -> nat -> E) : Prop :=
    forall i j, (i < 4)%nat -> (j < 4)%nat -> regs s (X (4 + i)) j = m i j.

  Lemma load_vector_ok t (s : mach E) : let s' := exec zero (load_vector t) s in
    memo s' = memo s /\ (forall r, r <> X 0 -> regs s' r = regs s r) /\ forall l, (l < 4)%nat -> regs s' (X 0) l = vec_at (memo s) t l.
  Proof.
    cbv zeta. unfold load_vector, exec. cbn [code fold_left exec1 set_reg regs memo mmx]. split; [reflexivity|]. split.
    - intros r H. destruct (reg_eqb r (X 0)) eqn:Q; [apply reg_eqb_eq in Q; contradiction|reflexivity].
    - intros l H. cbn [reg_eqb Nat.eqb]. apply Nat.ltb_lt in H. rewrite H. reflexivity.
  Qed.
  Lemma load_matrix_ok a (s : mach E) : let s' := exec zero (load_matrix a) s in
    memo s' = memo s /\ holds s' (mat_at (memo s) a).
  Proof.
    cbv zeta. unfold load_matrix, exec. cbn [code fold_left exec1 set_reg regs memo mmx]. split; [reflexivity|].
    intros i j Hi Hj. apply Nat.ltb_lt in Hj. unfold mat_at.
    destruct i as [|[|[|[|i]]]]; [| | | |lia]; cbn [set_reg memo regs Nat.add reg_eqb Nat.eqb]; rewrite Hj; f_equal; lia.
  Qed.
  Lemma transform_ok m t result (s : mach E) : holds s m -> (forall l, (l < 4)%nat -> regs s (X 0) l = t l) ->
    let s' := exec zero (transform add mul result) s in
    holds s' m /\ cells (memo s') result 4 = map (component_computed add mul t m) [0; 1; 2; 3]%nat /\
    only [(result, 4%nat)] (memo s) (memo s').
  Proof.
    intros H Ht. cbv zeta. unfold transform, exec.
    cbn [code fold_left exec1 set_reg set_mem regs memo mmx reg_eqb Nat.eqb].
    split; [|split].
    - intros i j Hi Hj. specialize (H i j Hi Hj). destruct i as [|[|[|[|i]]]]; [| | | |lia]; exact H.
    - unfold cells. cbn [seq map].
      assert (Q : forall k, (k < 4)%nat -> ((result <=? result + Z.of_nat k) && (result + Z.of_nat k <? result + Z.of_nat 4) = true) /\ Z.to_nat (result + Z.of_nat k - result) = k).
      { intros k Hk. split; [apply andb_true_iff; rewrite Z.leb_le, Z.ltb_lt; lia|lia]. }
      destruct (Q 0%nat ltac:(lia)) as (A0 & B0). destruct (Q 1%nat ltac:(lia)) as (A1 & B1).
      destruct (Q 2%nat ltac:(lia)) as (A2 & B2). destruct (Q 3%nat ltac:(lia)) as (A3 & B3).
      rewrite A0, A1, A2, A3, B0, B1, B2, B3.
      change (lane 0 0) with 0%nat; change (lane 0 1) with 0%nat; change (lane 0 2) with 0%nat; change (lane 0 3) with 0%nat.
      assert (L : lane 102 0 = 2%nat /\ lane 102 1 = 1%nat /\ lane 102 2 = 2%nat /\ lane 102 3 = 1%nat /\
                  lane 170 0 = 2%nat /\ lane 170 1 = 2%nat /\ lane 170 2 = 2%nat /\ lane 170 3 = 2%nat /\
                  lane 255 0 = 3%nat /\ lane 255 1 = 3%nat /\ lane 255 2 = 3%nat /\ lane 255 3 = 3%nat) by (vm_compute; tauto).
      destruct L as (-> & -> & -> & -> & -> & -> & -> & -> & -> & -> & -> & ->).
      rewrite !Ht by lia.
      assert (H4 : forall j, (j < 4)%nat -> regs s (X 4) j = m 0%nat j) by (intros j Hj; apply (H 0%nat j); lia).
      assert (H5 : forall j, (j < 4)%nat -> regs s (X 5) j = m 1%nat j) by (intros j Hj; apply (H 1%nat j); lia).
      assert (H6 : forall j, (j < 4)%nat -> regs s (X 6) j = m 2%nat j) by (intros j Hj; apply (H 2%nat j); lia).
      assert (H7 : forall j, (j < 4)%nat -> regs s (X 7) j = m 3%nat j) by (intros j Hj; apply (H 3%nat j); lia).
      rewrite !H4, !H5, !H6, !H7 by lia.
      reflexivity.
    - intros x Hx. specialize (Hx result 4%nat (or_introl eq_refl)).
      replace ((result <=? x) && (x <? result + Z.of_nat 4)) with false; [reflexivity|].
      symmetry. apply andb_false_iff. rewrite Z.leb_gt, Z.ltb_ge. lia.
  Qed.

  Lemma through_holds g k m (s : mach E) : leaves handed_over g -> holds s m -> holds (through (g k) s) m.
  Proof.
    intros Hg H i j Hi Hj. cbn [through regs]. rewrite Hg; [auto|].
    destruct i as [|[|[|[|i]]]]; [| | | |lia]; cbn; auto 8.
  Qed.
  Lemma leaves_S (g : nat -> gap E) : leaves handed_over g -> leaves handed_over (fun k => g (S k)).
  Proof. intros H k r l old. apply H. Qed.
  Lemma row_ok m g a result (s : mach E) : leaves handed_over g -> holds s m ->
    let s' := exec zero (transform add mul result) (through (g 1%nat) (exec zero (load_vector a) (through (g 0%nat) s))) in
    holds s' m /\ cells (memo s') result 4 = map (component_computed add mul (vec_at (memo s) a) m) [0; 1; 2; 3]%nat /\
    only [(result, 4%nat)] (memo s) (memo s').
  Proof.
    intros Hg H. set (s0 := through (g 0%nat) s). destruct (load_vector_ok a s0) as (A & B & C).
    set (s1 := exec zero (load_vector a) s0) in *. cbv zeta.
    assert (H1 : holds s1 m).
    { intros i j Hi Hj. rewrite B; [exact (through_holds g 0 m s Hg H i j Hi Hj)|destruct i; discriminate]. }
    destruct (transform_ok m (vec_at (memo s) a) result (through (g 1%nat) s1)) as (D & F & G).
    - exact (through_holds g 1 m s1 Hg H1).
    - intros l Hl. cbn [through regs]. rewrite Hg by (cbn; auto). apply C, Hl.
    - split; [exact D|]. split; [exact F|]. intros x Hx. rewrite (G x Hx). cbn [through memo]. rewrite A. reflexivity.
  Qed.
  Lemma rows_ok m n : forall g a result (s : mach E), leaves handed_over g -> holds s m -> apart a (4 * n) result (4 * n) ->
    let s' := body zero g (rows add mul n a result) s in
    (forall i, (i < n)%nat -> cells (memo s') (result + 4 * Z.of_nat i) 4 =
       map (component_computed add mul (vec_at (memo s) (a + 4 * Z.of_nat i)) m) [0; 1; 2; 3]%nat) /\
    only [(result, (4 * n)%nat)] (memo s) (memo s').
  Proof.
    induction n as [|n IH]; intros g a result s Hg H Ap; cbv zeta.
    - split; [intros i Hi; lia|]. intros x Hx. reflexivity.
    - cbn [rows body]. destruct (row_ok m g a result s Hg H) as (A & B & C). cbv zeta in *.
      set (s1 := exec zero (transform add mul result) _) in *.
      unfold apart in Ap.
      destruct (IH (fun k => g (S (S k))) (a + 4) (result + 4) s1) as (D & F); [apply (leaves_S (fun k => g (S k))), leaves_S, Hg|exact A|unfold apart; lia|].
      cbv zeta in *. set (s2 := body zero (fun k => g (S (S k))) (rows add mul n (a + 4) (result + 4)) s1) in *.
      change (body zero (fun k => g (S (S k))) (rows add mul n (a + 4) (result + 4)) s1) with s2.
      split.
      + intros [|i] Hi.
        * rewrite Z.mul_0_r, !Z.add_0_r, <- B. unfold cells. apply map_ext_in. intros k Hk. apply in_seq in Hk.
          apply F. intros ? ? [Q|[]]. injection Q as <- <-. lia.
        * replace (result + 4 * Z.of_nat (S i)) with (result + 4 + 4 * Z.of_nat i) by lia. rewrite (D i ltac:(lia)).
          replace (a + 4 + 4 * Z.of_nat i) with (a + 4 * Z.of_nat (S i)) by lia.
          assert (V : forall k, (k < 4)%nat -> vec_at (memo s1) (a + 4 * Z.of_nat (S i)) k = vec_at (memo s) (a + 4 * Z.of_nat (S i)) k).
          { intros k Hk. unfold vec_at. apply C. intros ? ? [Q|[]]. injection Q as <- <-. lia. }
          unfold component_computed, component. cbn [map Nat.eqb Nat.even andb]. rewrite !V by lia. reflexivity.
      + intros x Hx. specialize (Hx result (4 * S n)%nat (or_introl eq_refl)).
        rewrite F by (intros ? ? [Q|[]]; injection Q as <- <-; lia).
        apply C. intros ? ? [Q|[]]. injection Q as <- <-. lia.
  Qed.
  Lemma vector_matrix_ok t m r g (s : mach E) : leaves handed_over g ->
    let s' := body zero g (vector_matrix add mul t m r) s in
    cells (memo s') r 4 = map (component_computed add mul (vec_at (memo s) t) (mat_at (memo s) m)) [0; 1; 2; 3]%nat /\
    only [(r, 4%nat)] (memo s) (memo s').
  Proof.
    intros Hg. cbv zeta. unfold vector_matrix. cbn [body].
    destruct (load_matrix_ok m (through (g 0%nat) s)) as (A & B).
    set (s1 := exec zero (load_matrix m) (through (g 0%nat) s)) in *.
    destruct (row_ok (mat_at (memo s) m) (fun k => g (S k)) t r s1 (leaves_S g Hg) B) as (_ & C & D). cbv zeta in *.
    rewrite A in C, D. split; [exact C|exact D].
  Qed.
  Lemma matrix_matrix_ok m1 m2 r g (s : mach E) : leaves handed_over g -> apart m1 16 r 16 ->
    let s' := body zero g (matrix_matrix add mul m1 m2 r) s in
    (forall i, (i < 4)%nat -> cells (memo s') (r + 4 * Z.of_nat i) 4 =
       map (component_computed add mul (vec_at (memo s) (m1 + 4 * Z.of_nat i)) (mat_at (memo s) m2)) [0; 1; 2; 3]%nat) /\
    only [(r, 16%nat)] (memo s) (memo s').
  Proof.
    intros Hg Ap. cbv zeta. unfold matrix_matrix. cbn [body].
    destruct (load_matrix_ok m2 (through (g 0%nat) s)) as (A & B).
    set (s1 := exec zero (load_matrix m2) (through (g 0%nat) s)) in *.
    destruct (rows_ok (mat_at (memo s) m2) 4 (fun k => g (S k)) m1 r s1 (leaves_S g Hg) B Ap) as (C & D). cbv zeta in *.
    rewrite A in C, D. split; [exact C|exact D].
  Qed.
End P.
