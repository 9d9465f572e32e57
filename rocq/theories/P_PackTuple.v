(** * Property C233: tuples handled as one integer. *)
From Coq Require Import List ZArith Lia Bool.
From Verif Require Import MinMaxModel PackTupleModel PackTupleSpec PackTupleProofs.
Import ListNotations.
Local Open Scope Z_scope.

(** Default construction: all elements zero, nothing else changed. *)
Theorem C233_new (s : bool) (w n : nat) (m : bytemem) (a : Z) : (0 < w)%nat ->
  elements s w n (packed_new (w * n) m a) a = repeat 0 n /\
  (forall x, outside a (w * n) x -> packed_new (w * n) m a x = m x).
Proof. intros Hw. split; [apply new_elements, Hw|]. intros x Hx. apply store_out, Hx. Qed.
Print Assumptions C233_new.
(** Copying and assignment, from a tuple whose elements have the signedness
    [s'] to one with signedness [s]: each element converted. *)
Theorem C233_assign (s s' : bool) (w n : nat) (m : bytemem) (dst src : Z) : (0 < w)%nat -> bytes_ok m ->
  elements s w n (packed_assign (w * n) m dst src) dst =
    map (conv (Ity (8 * Z.of_nat w) s)) (elements s' w n m src) /\
  (forall x, outside dst (w * n) x -> packed_assign (w * n) m dst src x = m x).
Proof.
  intros Hw Hm. split; [|intros x Hx; apply store_out, Hx].
  rewrite elements_conv by exact Hw. apply assign_elements, Hm.
Qed.
Print Assumptions C233_assign.
(** swap exchanges the elements, also of a tuple with itself. *)
Theorem C233_swap (s : bool) (w n : nat) (m : bytemem) (a b : Z) : bytes_ok m -> separate a b (w * n) ->
  let m' := packed_swap (w * n) m a b in
  elements s w n m' a = elements s w n m b /\ elements s w n m' b = elements s w n m a /\
  (forall x, outside a (w * n) x -> outside b (w * n) x -> m' x = m x).
Proof.
  intros Hm S m'. destruct (swap_elements s w n m a b Hm S) as (A & B). split; [exact A|]. split; [exact B|].
  intros x Ha Hb. unfold m', packed_swap. cbv zeta. rewrite store_out by exact Hb. apply store_out, Ha.
Qed.
Print Assumptions C233_swap.
(** += and -= on the tuples of two 16-bit elements, also t += t: the sums of
    the elements, wrapped. *)
Theorem C233_op (f : Z -> Z -> Z) (s : bool) (m : bytemem) (a b : Z) : bytes_ok m -> separate a b 4 ->
  elements s 2 2 (packed_op f m s a b) a =
    map (fun p => conv (Ity 16 s) (f (fst p) (snd p))) (combine (elements s 2 2 m a) (elements s 2 2 m b)) /\
  (forall x, outside a 4 x -> packed_op f m s a b x = m x).
Proof.
  intros Hm S. split.
  - assert (L : forall m x v, load 2 (store 2 m x v) x = v mod 65536).
    { intros m0 x v. unfold load, bytes_of. cbn [seq map le]. rewrite !store_in by lia.
      replace (x + Z.of_nat 0 - x) with 0 by lia. replace (x + Z.of_nat 1 - x) with 1 by lia.
      change (256 ^ 0) with 1. change (256 ^ 1) with 256. rewrite Z.div_1_r.
      change 65536 with (256 * 256). rewrite (Z.rem_mul_r v 256 256) by lia. lia. }
    assert (N : forall m x y v, (x + 2 <= y \/ y + 2 <= x) -> load 2 (store 2 m x v) y = load 2 m y).
    { intros m0 x y v H. apply load_ext. intros k Hk. apply store_out. unfold outside. lia. }
    assert (Cm : forall v, conv (Ity 16 s) (v mod 65536) = conv (Ity 16 s) v).
    { intros v. unfold conv. cbn [bits sgn]. change (2 ^ 16) with 65536. rewrite Z.mod_mod by lia. reflexivity. }
    unfold elements, packed_op. cbv zeta. cbn [seq map combine fst snd]. change (8 * Z.of_nat 2) with 16.
    change (Z.of_nat (2 * 0)) with 0. change (Z.of_nat (2 * 1)) with 2. rewrite !Z.add_0_r.
    f_equal; [|f_equal].
    + rewrite N by lia. rewrite L. apply Cm.
    + rewrite L, Cm. f_equal. rewrite (N m a (a + 2)) by lia. rewrite (N m a (b + 2)); [reflexivity|]. destruct S; lia.
  - intros x Hx. unfold packed_op. cbv zeta. rewrite !store_out; [reflexivity|unfold outside in *; lia|unfold outside in *; lia].
Qed.
Print Assumptions C233_op.
(** Not vacuous: (-2, 3) in memory as int16_t, taken as uint16_t. *)
Definition mem233 : bytemem := fun x => nth (Z.to_nat x) [254; 255; 3; 0; 1; 0; 255; 255] 7.
Example C233_example :
  elements true 2 2 mem233 0 = [-2; 3] /\
  elements false 2 2 (packed_assign 4 mem233 100 0) 100 = [65534; 3] /\
  elements true 2 2 (packed_swap 4 mem233 0 4) 0 = [1; -1] /\
  elements true 2 2 (packed_op Z.add mem233 true 0 4) 0 = [-1; 2] /\
  elements true 2 4 (packed_new 8 mem233 0) 0 = [0; 0; 0; 0].
Proof. repeat split; reflexivity. Qed.
