(** * Property C230: the 3DNow! product of a vector and a 4x4 matrix. *)
From Coq Require Import ZArith List Lia Bool.
From Verif Require Import AsmModel AsmSpec AsmProofs AsmMatSpec AsmDnowModel.
Import ListNotations.
Local Open Scope Z_scope.

Lemma in_two a x : ((a <=? x) && (x <? a + Z.of_nat 2)) = true <-> a <= x < a + 2.
Proof. rewrite andb_true_iff, Z.leb_le, Z.ltb_lt. lia. Qed.
Lemma out_two a x : ~ (a <= x < a + 2) -> ((a <=? x) && (x <? a + Z.of_nat 2)) = false.
Proof. intros H. apply not_true_is_false. rewrite in_two. exact H. Qed.
Lemma cell_in a x e : e = a + 2 -> a <= x < a + 2 -> ((a <=? x) && (x <? e)) = true.
Proof. intros -> H. apply andb_true_iff. rewrite Z.leb_le, Z.ltb_lt. exact H. Qed.
Lemma cell_out a x e : e = a + 2 -> ~ (a <= x < a + 2) -> ((a <=? x) && (x <? e)) = false.
Proof. intros -> H. apply not_true_is_false. rewrite andb_true_iff, Z.leb_le, Z.ltb_lt. lia. Qed.
Ltac where_stored :=
  repeat match goal with |- context [(?a <=? ?x) && (?x <? ?e)] =>
    first [rewrite (cell_in a x e) by lia | rewrite (cell_out a x e) by lia] end.
Ltac which_lane :=
  repeat match goal with |- context [Z.to_nat ?e] =>
    first [replace (Z.to_nat e) with 0%nat by lia | replace (Z.to_nat e) with 1%nat by lia] end.

(** Whatever the rounding of + and *, if x*y and y*x are the same: the four
    numbers of the portable code, nothing else in memory changed, and the x87
    unit usable again. *)
Theorem C230_product {E} (zero : E) (add mul : E -> E -> E) (g : nat -> gap E) (t m r : Z) (s : mach E) :
  (forall x y, mul x y = mul y x) ->
  let s' := body zero g (dnow_product add mul t m r) s in
  cells (memo s') r 4 = map (portable_component add mul (vec_at (memo s) t) (mat_at (memo s) m)) [0; 1; 2; 3]%nat /\
  only [(r, 4%nat)] (memo s) (memo s') /\ mmx s' = false.
Proof.
  intros C s'. unfold s', dnow_product. cbn [body].
  split; [|split].
  - transitivity (cells (memo (exec zero (nth 0 (dnow_product add mul t m r) (mkasm [] [])) (through (g 0%nat) s))) r 4); [reflexivity|].
    unfold dnow_product, exec, dup_high. cbn [nth code fold_left]. cbn [exec1 set_reg set_mem regs memo mmx through reg_eqb Nat.eqb].
    unfold cells, portable_component, vec_at, mat_at. cbn [map seq].
    change (lane 5 0) with 1%nat. change (lane 5 1) with 1%nat.
    f_equal; [|f_equal; [|f_equal; [|f_equal]]];
      where_stored; which_lane; cbn [Nat.ltb Nat.leb];
      (f_equal; [f_equal; [f_equal|]|]); rewrite C; (f_equal; f_equal; lia).
  - intros x H. change (memo (exec zero (nth 0 (dnow_product add mul t m r) (mkasm [] [])) (through (g 0%nat) s)) x = memo s x).
    specialize (H r 4%nat (or_introl eq_refl)).
    unfold dnow_product, exec, dup_high. cbn [nth code fold_left]. cbn [exec1 set_reg set_mem regs memo mmx through reg_eqb Nat.eqb].
    where_stored. reflexivity.
  - reflexivity.
Qed.
Print Assumptions C230_product.
(** No statement changes a register that it does not name. *)
Theorem C230_clobbers {E} (zero : E) (add mul : E -> E -> E) (t m r : Z) (b : asm E) :
  In b (dnow_product add mul t m r) -> honest zero b.
Proof.
  intros H. apply honest_if. unfold dnow_product in H. cbn [In] in H.
  repeat (destruct H as [<- | H]); try contradiction;
    lazy [code clobbers reset_mmx all_mm dup_high]; repeat (apply Forall_cons || apply Forall_nil); cbn [written In]; auto 12.
Qed.
Print Assumptions C230_clobbers.
Example C230_example :
  let s := mkm (fun _ _ => 9) (fun x => x) true in
  cells (memo (body 0 (fun _ rs => rs) (dnow_product Z.add Z.mul 0 4 20) s)) 20 4 = [80; 86; 92; 98].
Proof. reflexivity. Qed.
