(** * Property C205, the products of 4x4 matrices *)
From Coq Require Import ZArith List Lia.
From Verif Require Import AsmModel AsmSpec AsmMatModel AsmMatSpec AsmMatProofs.
Import ListNotations.
Local Open Scope Z_scope.

(** If the code between the statements leaves xmm0 and xmm4..7 alone, the vector
    product and the matrix product store exactly this, whatever the arithmetic;
    nothing else in memory changes. *)
Theorem C205_product_partial {E} (zero : E) (add mul : E -> E -> E) (g : nat -> gap E) (t m r : Z) (s : mach E) :
  leaves handed_over g ->
  let s' := body zero g (vector_matrix add mul t m r) s in
  cells (memo s') r 4 = map (component_computed add mul (vec_at (memo s) t) (mat_at (memo s) m)) [0; 1; 2; 3]%nat /\
  only [(r, 4%nat)] (memo s) (memo s').
Proof. apply vector_matrix_ok. Qed.
Print Assumptions C205_product_partial.
Theorem C205_matrix_partial {E} (zero : E) (add mul : E -> E -> E) (g : nat -> gap E) (m1 m2 r : Z) (s : mach E) :
  leaves handed_over g -> apart m1 16 r 16 ->
  let s' := body zero g (matrix_matrix add mul m1 m2 r) s in
  (forall i, (i < 4)%nat -> cells (memo s') (r + 4 * Z.of_nat i) 4 =
     map (component_computed add mul (vec_at (memo s) (m1 + 4 * Z.of_nat i)) (mat_at (memo s) m2)) [0; 1; 2; 3]%nat) /\
  only [(r, 16%nat)] (memo s) (memo s').
Proof. apply matrix_matrix_ok. Qed.
Print Assumptions C205_matrix_partial.

(** Which is the product of the vector and the matrix only for odd columns, or
    when the second and the third component of the vector are the same. *)
Theorem C205_columns_partial {E} (add mul : E -> E -> E) (t : nat -> E) (m : nat -> nat -> E) (j : nat) :
  Nat.odd j = true \/ t 1%nat = t 2%nat -> component_computed add mul t m j = component add mul t m j.
Proof.
  unfold component_computed, component. cbn [Nat.eqb andb]. rewrite <- Nat.negb_even.
  destruct (Nat.even j); cbn [negb]; intros [Q|Q]; try discriminate Q; try reflexivity; now rewrite Q.
Qed.
Print Assumptions C205_columns_partial.
Theorem C205_values_refuted :
  ~ (forall (g : nat -> gap Z) (t m r : Z) (s : mach Z), leaves handed_over g ->
       cells (memo (body 0 g (vector_matrix Z.add Z.mul t m r) s)) r 4 =
       map (component Z.add Z.mul (vec_at (memo s) t) (mat_at (memo s) m)) [0; 1; 2; 3]%nat).
Proof.
  intros H. specialize (H (fun _ rs => rs) 0 4 20 (mkm (fun _ _ => 7) (fun x => x) false)).
  assert (Q : leaves handed_over (fun _ rs => rs : reg -> nat -> Z)) by (intros k r l old _; reflexivity).
  specialize (H Q). vm_compute in H. discriminate H.
Qed.
Print Assumptions C205_values_refuted.

(** The hypotheses can be met: m1 at 0 holds 0..15, m2 at 16 holds 16..31. *)
Example C205_matrix_case :
  leaves handed_over (fun k rs q => match q with X 1 => fun _ => Z.of_nat k | _ => rs q end) /\ apart 0 16 32 16 /\
  cells (memo (body 0 (fun k rs q => match q with X 1 => fun _ => Z.of_nat k | _ => rs q end)
    (matrix_matrix Z.add Z.mul 0 16 32) (mkm (fun _ _ => 7) (fun x => x) false))) 32 4 = [172; 158; 186; 170].
Proof.
  split; [|split; [left; cbn; lia|vm_compute; reflexivity]].
  intros k r l old H. cbn in H. destruct H as [<-|[<-|[<-|[<-|[<-|[]]]]]]; reflexivity.
Qed.
