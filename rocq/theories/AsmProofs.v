(** * Proofs about the SIMD statements *)

From Verif Require Import AsmModel AsmSpec.
From Coq Require Import ZArith List Lia Bool.
Import ListNotations.
Local Open Scope Z_scope.

Section P.
  Context {E : Type}.
  Variable zero : E.
  Notation exec := (exec zero).
  Notation body := (body zero).

  Lemma reg_eqb_eq a b : reg_eqb a b = true <-> a = b.
  Proof.
    destruct a, b; cbn [reg_eqb]; try (split; discriminate);
      rewrite Nat.eqb_eq; split; [intros ->; reflexivity | intros H; injection H; auto | intros ->; reflexivity | intros H; injection H; auto].
  Qed.

  (** The register an instruction writes, if any. *)
  Definition written (i : instr E) : option reg :=
    match i with
    | Ld _ _ r | Mv _ r | Op _ _ r | OpM _ _ _ r | Zr r | Sh _ _ r | Cv _ _ _ r | Imm _ r | Dup r => Some r
    | _ => None
    end.

  Lemma exec1_other i r (s : mach E) : written i <> Some r -> regs (exec1 zero i s) r = regs s r.
  Proof.
    intros H. destruct i; cbn [exec1 set_reg set_mem regs written] in *; try reflexivity;
      destruct (reg_eqb r _) eqn:Q; try reflexivity; apply reg_eqb_eq in Q; subst; exfalso; apply H; reflexivity.
  Qed.

  Lemma writes_only (c : list (instr E)) clob :
    Forall (fun i => match written i with Some r => In r clob | None => True end) c ->
    forall s, keeps clob s (fold_left (fun s i => exec1 zero i s) c s).
  Proof.
    induction 1 as [|i c Hi Hc IH]; intros s r Hr l; [reflexivity|].
    cbn [fold_left]. rewrite IH by exact Hr. rewrite exec1_other; [reflexivity|].
    intros Q. rewrite Q in Hi. contradiction.
  Qed.

  Lemma honest_if (b : asm E) :
    Forall (fun i => match written i with Some r => In r (clobbers b) | None => True end) (code b) -> honest zero b.
  Proof. intros H s. apply writes_only, H. Qed.

  Ltac honest_tac := apply honest_if; lazy [code clobbers reset_mmx all_mm tuple4_new tuple4_swap passign4 float4 tuple16_new block_copy]; repeat (apply Forall_cons || apply Forall_nil); cbn [written In]; auto 12.

  Lemma honest_reset : honest zero reset_mmx. Proof. honest_tac. Qed.
  Lemma honest_tuple4_new v : honest zero (tuple4_new v). Proof. honest_tac. Qed.
  Lemma honest_tuple4_swap a b : honest zero (tuple4_swap a b). Proof. honest_tac. Qed.
  Lemma honest_passign4 a b : honest zero (passign4 a b). Proof. honest_tac. Qed.
  Lemma honest_float4 f a b : honest zero (float4 f a b). Proof. honest_tac. Qed.
  Lemma honest_tuple16_new v : honest zero (tuple16_new v). Proof. honest_tac. Qed.
  Lemma honest_block_copy a b : honest zero (block_copy a b). Proof. honest_tac. Qed.
  Lemma honest_list l : Forall (honest zero) l -> forall b, In b l -> honest zero b.
  Proof. intros H b Hb. rewrite Forall_forall in H. auto. Qed.

  Ltac hl := repeat (apply Forall_cons || apply Forall_nil); first [apply honest_reset | honest_tac].
  Lemma honest_mmx_packop f a b : Forall (honest zero) (mmx_packop f a b). Proof. hl. Qed.
  Lemma honest_mmx_dbl_packop f a b : Forall (honest zero) (mmx_dbl_packop f a b). Proof. hl. Qed.
  Lemma honest_mmx_passign a b : Forall (honest zero) (mmx_passign a b). Proof. hl. Qed.
  Lemma honest_mmx_dbl_passign a b : Forall (honest zero) (mmx_dbl_passign a b). Proof. hl. Qed.
  Lemma honest_round4 f a b : Forall (honest zero) (round4 f a b). Proof. hl. Qed.
  Lemma honest_passign16 a b : Forall (honest zero) (passign16 a b). Proof. hl. Qed.

  Lemma in_true a x b : a <= x < b -> (a <=? x) && (x <? b) = true.
  Proof. intros H. apply andb_true_iff. rewrite Z.leb_le, Z.ltb_lt. lia. Qed.
  Lemma in_false a x b : ~ (a <= x < b) -> (a <=? x) && (x <? b) = false.
  Proof. intros H. apply andb_false_iff. rewrite Z.leb_gt, Z.ltb_ge. lia. Qed.

  Ltac open_exec :=
    cbn [AsmModel.body]; unfold AsmModel.exec, through; cbn [AsmModel.body code fold_left exec1 set_reg set_mem regs memo mmx reg_eqb Nat.eqb clobbers through].
  Ltac decide_ranges :=
    repeat match goal with
           | |- context [(?a <=? ?x) && (?x <? ?b)] =>
               first [ rewrite (in_true a x b) by lia | rewrite (in_false a x b) by lia ]
           end.
  Ltac lanes :=
    repeat match goal with
           | |- context [Z.to_nat ?e] =>
               let e' := eval cbn in e in
               first [ replace e with 0 by lia | replace e with 1 by lia | replace e with 2 by lia | replace e with 3 by lia ];
               cbn [Z.to_nat Pos.to_nat Pos.iter_op Nat.add]
           end;
    cbn [Nat.ltb Nat.leb Z.of_nat Pos.of_succ_nat Pos.succ].

  Ltac cell_tac := f_equal; try lia.

  Lemma e_tuple4_new v s : 
    cells (memo (exec (tuple4_new v) s)) v 4 = repeat zero 4 /\ only [(v, 4%nat)] (memo s) (memo (exec (tuple4_new v) s)).
  Proof.
    split.
    - unfold tuple4_new, cells. cbn [seq map repeat]. open_exec. decide_ranges. reflexivity.
    - intros x Hx. specialize (Hx v 4%nat (or_introl eq_refl)). unfold tuple4_new. open_exec. decide_ranges. reflexivity.
  Qed.

  Lemma e_tuple4_swap a b s : a = b \/ apart a 4 b 4 ->
    let s' := exec (tuple4_swap a b) s in
    cells (memo s') a 4 = cells (memo s) b 4 /\ cells (memo s') b 4 = cells (memo s) a 4 /\
    only [(a, 4%nat); (b, 4%nat)] (memo s) (memo s').
  Proof.
    intros H s'. unfold s', tuple4_swap, apart in *. split; [|split].
    - unfold cells. cbn [seq map]. open_exec. decide_ranges. lanes. reflexivity.
    - destruct H as [->|H]; unfold cells; cbn [seq map]; open_exec; decide_ranges; lanes; reflexivity.
    - intros x Hx. pose proof (Hx a 4%nat (or_introl eq_refl)). pose proof (Hx b 4%nat (or_intror (or_introl eq_refl))).
      open_exec. decide_ranges. reflexivity.
  Qed.

  Ltac frame a n x Hx :=
    pose proof (Hx a n ltac:(cbn [In]; auto)).

  Lemma e_passign4 a b s : a = b \/ apart a 4 b 4 ->
    let s' := exec (passign4 a b) s in
    cells (memo s') b 4 = cells (memo s) a 4 /\ only [(b, 4%nat)] (memo s) (memo s').
  Proof.
    intros H s'. unfold s', passign4, apart in *. split.
    - unfold cells; cbn [seq map]; open_exec; decide_ranges; lanes; reflexivity.
    - intros x Hx. pose proof (Hx b 4%nat (or_introl eq_refl)). open_exec. decide_ranges. reflexivity.
  Qed.

  Lemma e_packop4 f a b s :
    let s' := exec (packop4 f a b) s in
    cells (memo s') b 4 = map2 f (cells (memo s) b 4) (cells (memo s) a 4) /\ only [(b, 4%nat)] (memo s) (memo s').
  Proof.
    intros s'. unfold s', packop4 in *. split.
    - unfold cells; cbn [seq map map2]; open_exec; decide_ranges; lanes; reflexivity.
    - intros x Hx. pose proof (Hx b 4%nat (or_introl eq_refl)). open_exec. decide_ranges. reflexivity.
  Qed.

  Lemma e_mmx_packop g f a b s :
    let s' := body g (mmx_packop f a b) s in
    cells (memo s') b 2 = map2 f (cells (memo s) b 2) (cells (memo s) a 2) /\ only [(b, 2%nat)] (memo s) (memo s') /\ mmx s' = false.
  Proof.
    intros s'. unfold s', mmx_packop, reset_mmx in *. split; [|split].
    - unfold cells; cbn [seq map map2]; open_exec; decide_ranges; lanes; reflexivity.
    - intros x Hx. pose proof (Hx b 2%nat (or_introl eq_refl)). open_exec. decide_ranges. reflexivity.
    - open_exec. reflexivity.
  Qed.

  Lemma e_mmx_dbl_packop g f a b s :
    let s' := body g (mmx_dbl_packop f a b) s in
    cells (memo s') b 4 = map2 f (cells (memo s) b 4) (cells (memo s) a 4) /\ only [(b, 4%nat)] (memo s) (memo s') /\ mmx s' = false.
  Proof.
    intros s'. unfold s', mmx_dbl_packop, reset_mmx in *. split; [|split].
    - unfold cells; cbn [seq map map2]; open_exec; decide_ranges; lanes.
      rewrite <- !Z.add_assoc. cbn [Z.add Pos.add Pos.succ]. reflexivity.
    - intros x Hx. pose proof (Hx b 4%nat (or_introl eq_refl)). open_exec. decide_ranges. reflexivity.
    - open_exec. reflexivity.
  Qed.

  Lemma e_mmx_passign g a b s : 
    let s' := body g (mmx_passign a b) s in
    cells (memo s') b 2 = cells (memo s) a 2 /\ only [(b, 2%nat)] (memo s) (memo s') /\ mmx s' = false.
  Proof.
    intros s'. unfold s', mmx_passign, reset_mmx in *. split; [|split].
    - unfold cells; cbn [seq map map2]; open_exec; decide_ranges; lanes; reflexivity.
    - intros x Hx. pose proof (Hx b 2%nat (or_introl eq_refl)). open_exec. decide_ranges. reflexivity.
    - open_exec. reflexivity.
  Qed.

  Lemma e_mmx_dbl_passign g a b s :
    let s' := body g (mmx_dbl_passign a b) s in
    cells (memo s') b 4 = cells (memo s) a 4 /\ only [(b, 4%nat)] (memo s) (memo s') /\ mmx s' = false.
  Proof.
    intros s'. unfold s', mmx_dbl_passign, reset_mmx in *. split; [|split].
    - unfold cells; cbn [seq map map2]; open_exec; decide_ranges; lanes.
      rewrite <- !Z.add_assoc. cbn [Z.add Pos.add Pos.succ]. reflexivity.
    - intros x Hx. pose proof (Hx b 4%nat (or_introl eq_refl)). open_exec. decide_ranges. reflexivity.
    - open_exec. reflexivity.
  Qed.

  Lemma e_round4 g f a b s :
    let s' := body g (round4 f a b) s in
    cells (memo s') b 4 = map f (cells (memo s) a 4) /\ only [(b, 4%nat)] (memo s) (memo s') /\ mmx s' = false.
  Proof.
    intros s'. unfold s', round4, reset_mmx in *. split; [|split].
    - unfold cells; cbn [seq map map2]; open_exec; decide_ranges; lanes.
      rewrite <- !Z.add_assoc. cbn [Z.add Pos.add Pos.succ]. reflexivity.
    - intros x Hx. pose proof (Hx b 4%nat (or_introl eq_refl)). open_exec. decide_ranges. reflexivity.
    - open_exec. reflexivity.
  Qed.

  Lemma e_float4 f a b s :
    let s' := exec (float4 f a b) s in
    cells (memo s') b 4 = map f (cells (memo s) a 4) /\ only [(b, 4%nat)] (memo s) (memo s').
  Proof.
    intros s'. unfold s', float4 in *.
    assert (L : lane 78 0 = 2%nat /\ lane 78 1 = 3%nat /\ lane 78 2 = 0%nat /\ lane 78 3 = 1%nat) by (vm_compute; auto).
    destruct L as (L0 & L1 & L2 & L3). split.
    - unfold cells; cbn [seq map map2]; open_exec; rewrite ?L0, ?L1, ?L2, ?L3; decide_ranges; lanes.
      rewrite <- !Z.add_assoc. cbn [Z.add Pos.add Pos.succ]. reflexivity.
    - intros x Hx. pose proof (Hx b 4%nat (or_introl eq_refl)). open_exec. decide_ranges. reflexivity.
  Qed.

  Lemma e_tuple16_new v s :
    cells (memo (exec (tuple16_new v) s)) v 16 = repeat zero 16 /\ only [(v, 16%nat)] (memo s) (memo (exec (tuple16_new v) s)).
  Proof.
    split.
    - unfold tuple16_new, cells. cbn [seq map repeat]. open_exec. decide_ranges. reflexivity.
    - intros x Hx. specialize (Hx v 16%nat (or_introl eq_refl)). unfold tuple16_new. open_exec. decide_ranges. reflexivity.
  Qed.

  Lemma e_passign16 g a b s : a = b \/ apart a 16 b 16 ->
    let s' := body g (passign16 a b) s in
    cells (memo s') b 16 = cells (memo s) a 16 /\ only [(b, 16%nat)] (memo s) (memo s').
  Proof.
    intros H s'. unfold s', passign16, apart in *. split.
    - destruct H as [->|H]; unfold cells; cbn [seq map]; open_exec; decide_ranges; lanes;
      rewrite <- ?Z.add_assoc; cbn [Z.add Pos.add Pos.succ]; decide_ranges; lanes; rewrite <- ?Z.add_assoc; cbn [Z.add Pos.add Pos.succ]; reflexivity.
    - intros x Hx. pose proof (Hx b 16%nat (or_introl eq_refl)). open_exec. decide_ranges. reflexivity.
  Qed.

  Lemma e_block_copy a b s :
    let s' := exec (block_copy a b) s in
    cells (memo s') b 8 = cells (memo s) a 8 /\ only [(b, 8%nat)] (memo s) (memo s').
  Proof.
    intros s'. unfold s', block_copy in *. split.
    - unfold cells; cbn [seq map]; open_exec; decide_ranges; lanes.
      rewrite <- !Z.add_assoc. cbn [Z.add Pos.add Pos.succ]. reflexivity.
    - intros x Hx. pose proof (Hx b 8%nat (or_introl eq_refl)). open_exec. decide_ranges. reflexivity.
  Qed.

  (** The code between the statements leaves register r alone. *)
  Definition quiet (r : reg) (g : nat -> gap E) : Prop := forall k rs l, g k rs r l = rs r l.

  Lemma quiet_S r g : quiet r g -> quiet r (fun k => g (S k)).
  Proof. intros H k rs l. apply H. Qed.

  Lemma e_store d s :
    let s' := exec (block_store d) s in
    (forall x, d <= x < d + 8 -> exists l, (l < 2)%nat /\ memo s' x = regs s (M 0) l) /\
    only [(d, 8%nat)] (memo s) (memo s') /\ (forall l, regs s' (M 0) l = regs s (M 0) l).
  Proof.
    intros s'. unfold s', block_store. split; [|split].
    - intros x Hx. open_exec.
      assert (C : x = d \/ x = d+1 \/ x = d+2 \/ x = d+3 \/ x = d+4 \/ x = d+5 \/ x = d+6 \/ x = d+7) by lia.
      destruct C as [->|[->|[->|[->|[->|[->|[->| ->]]]]]]]; decide_ranges; eexists; (split; [|reflexivity]); lia.
    - intros x Hx. pose proof (Hx d 8%nat (or_introl eq_refl)). open_exec. decide_ranges. reflexivity.
    - intros l. open_exec. reflexivity.
  Qed.

  Lemma e_fill_loop v n : forall d g s, quiet (M 0) g -> (forall l, (l < 2)%nat -> regs s (M 0) l = v) ->
    let s' := body g (fill_loop n d) s in
    (forall x, d <= x < d + 8 * Z.of_nat n -> memo s' x = v) /\
    only [(d, (8 * n)%nat)] (memo s) (memo s') /\ mmx s' = false.
  Proof.
    induction n as [|n IH]; intros d g s Hg Hv s'.
    - unfold s'. cbn [fill_loop AsmModel.body]. unfold reset_mmx. split; [|split].
      + intros x Hx. lia.
      + intros x Hx. open_exec. reflexivity.
      + open_exec. reflexivity.
    - unfold s'. cbn [fill_loop AsmModel.body].
      set (s1 := through (g 0%nat) s).
      destruct (e_store d s1) as (S1 & S2 & S3).
      assert (V1 : forall l, (l < 2)%nat -> regs s1 (M 0) l = v).
      { intros l Hl. unfold s1, through. cbn [regs]. rewrite Hg. auto. }
      destruct (IH (d + 8) (fun k => g (S k)) (exec (block_store d) s1) (quiet_S _ _ Hg)) as (I1 & I2 & I3).
      { intros l Hl. rewrite S3. auto. }
      split; [|split].
      + intros x Hx. destruct (Z.lt_ge_cases x (d + 8)) as [C|C].
        * rewrite I2.
          -- destruct (S1 x ltac:(lia)) as (l & Hl & El). rewrite El. auto.
          -- intros a k [Q|[]]. injection Q as <- <-. lia.
        * apply I1. lia.
      + intros x Hx. pose proof (Hx d (8 * S n)%nat (or_introl eq_refl)) as Hx'.
        rewrite I2.
        * rewrite S2; [reflexivity|]. intros a k [Q|[]]. injection Q as <- <-. lia.
        * intros a k [Q|[]]. injection Q as <- <-. lia.
      + exact I3.
  Qed.

  Lemma cells_const m a n (v : E) : (forall x, a <= x < a + Z.of_nat n -> m x = v) -> cells m a n = repeat v n.
  Proof.
    intros H. unfold cells. assert (G : forall k j, (j + k <= n)%nat -> map (fun i => m (a + Z.of_nat i)) (seq j k) = repeat v k).
    { induction k as [|k IH]; intros j Hj; [reflexivity|]. cbn [seq map repeat]. rewrite H by lia. rewrite IH by lia. reflexivity. }
    apply G. lia.
  Qed.

  Lemma e_fill v d n g s : quiet (M 0) g ->
    let s' := body g (fill_blocks v d n) s in
    cells (memo s') d (8 * n) = repeat v (8 * n) /\ only [(d, (8 * n)%nat)] (memo s) (memo s') /\ mmx s' = false.
  Proof.
    intros Hg s'. unfold s', fill_blocks. cbn [AsmModel.body].
    destruct (e_fill_loop v n d (fun k => g (S k)) (exec (build_block v) (through (g 0%nat) s)) (quiet_S _ _ Hg)) as (I1 & I2 & I3).
    { intros l Hl. unfold build_block. open_exec. destruct l as [|[|l]]; [reflexivity|reflexivity|lia]. }
    split; [|split].
    - apply cells_const. intros x Hx. apply I1. lia.
    - intros x Hx. rewrite I2 by exact Hx. unfold build_block. open_exec. reflexivity.
    - exact I3.
  Qed.

  Lemma e_identity4 one c m s : c <> X 1 ->
    regs s c 0%nat = one -> regs s c 1%nat = zero -> regs s c 2%nat = zero -> regs s c 3%nat = zero ->
    let s' := exec (identity4 c m) s in
    cells (memo s') m 16 = [one; zero; zero; zero;  zero; one; zero; zero;  zero; zero; one; zero;  zero; zero; zero; one] /\
    only [(m, 16%nat)] (memo s) (memo s').
  Proof.
    intros Hc H0 H1 H2 H3 s'. unfold s', identity4.
    assert (C1 : reg_eqb c (X 1) = false) by (destruct (reg_eqb c (X 1)) eqn:Q; [apply reg_eqb_eq in Q; contradiction|reflexivity]).
    assert (C2 : reg_eqb (X 1) c = false) by (destruct (reg_eqb (X 1) c) eqn:Q; [apply reg_eqb_eq in Q; congruence|reflexivity]).
    assert (C3 : reg_eqb c c = true) by (apply reg_eqb_eq; reflexivity).
    split.
    - unfold cells. cbn [seq map].
      assert (La : lane 177 0 = 1%nat /\ lane 177 1 = 0%nat /\ lane 177 2 = 3%nat /\ lane 177 3 = 2%nat) by (vm_compute; auto).
      assert (Lb : lane 79 0 = 3%nat /\ lane 79 1 = 3%nat /\ lane 79 2 = 0%nat /\ lane 79 3 = 1%nat) by (vm_compute; auto).
      assert (Lc : lane 27 0 = 3%nat /\ lane 27 1 = 2%nat /\ lane 27 2 = 1%nat /\ lane 27 3 = 0%nat) by (vm_compute; auto).
      destruct La as (a0 & a1 & a2 & a3). destruct Lb as (b0 & b1 & b2 & b3). destruct Lc as (c0 & c1 & c2 & c3).
      assert (C4 : reg_eqb (X 1) (X 1) = true) by reflexivity.
      unfold AsmModel.exec. cbn [code fold_left exec1 set_reg set_mem regs memo mmx].
      rewrite ?C1, ?C2, ?C3, ?C4. decide_ranges. lanes.
      change (Pos.to_nat 1) with 1%nat. change (Pos.to_nat 2) with 2%nat. change (Pos.to_nat 3) with 3%nat. cbv beta iota.
      rewrite ?a0, ?a1, ?a2, ?a3, ?b0, ?b1, ?b2, ?b3, ?c0, ?c1, ?c2, ?c3, ?H0, ?H1, ?H2, ?H3. reflexivity.
    - intros x Hx. pose proof (Hx m 16%nat (or_introl eq_refl)). open_exec. decide_ranges. reflexivity.
  Qed.
End P.
