(** * Property C68: equality of vectors. *)
From Verif Require Import Base Order VecEqModel.
From Coq Require Import ZArith.
Local Open Scope Z_scope.

Lemma memcmp0_ok a : forall b, length a = length b -> exists r, memcmp0 a b (length a) = Ok r /\ (r = true <-> a = b).
Proof.
  induction a as [|x a IH]; intros [|y b] L; cbn in L; try lia; cbn [memcmp0 length].
  - exists true. tauto.
  - destruct (Z.eqb_spec x y) as [->|N].
    + destruct (IH b ltac:(lia)) as (r & E & H). exists r. split; [assumption|]. rewrite H. split; [now intros ->|congruence].
    + exists false. split; [reflexivity|]. split; [discriminate|congruence].
Qed.

Lemma flat_map_inj {T} (repr : T -> list Z) (es : nat) (a : list T) : forall b,
  (0 < es)%nat -> (forall x, length (repr x) = es) -> (forall x y, repr x = repr y -> x = y) ->
  flat_map repr a = flat_map repr b -> a = b.
Proof.
  induction a as [|x a IH]; intros [|y b] He Hl Hi H; cbn in H; auto.
  - exfalso. apply (f_equal (@length Z)) in H. rewrite app_length, Hl in H. cbn in H. lia.
  - exfalso. apply (f_equal (@length Z)) in H. rewrite app_length, Hl in H. cbn in H. lia.
  - assert (repr x = repr y) as E.
    { apply (f_equal (firstn es)) in H. rewrite !firstn_app, !Hl, Nat.sub_diag in H. cbn in H. rewrite !app_nil_r in H.
      rewrite !firstn_all2 in H by (rewrite Hl; lia). assumption. }
    f_equal; [auto|]. apply IH; auto. rewrite E in H. now apply app_inv_head in H.
Qed.

(** C68, for element types whose values have exactly one object representation
    (the integers, pointers, and structures of them without padding): two
    vectors are equal exactly if their elements are.  Missing: the types for
    which this does not hold, refuted below. *)
Theorem C68_vector_equality_partial {T} (repr : T -> list Z) (es : nat) (same : bool) (a b : list T) :
  (0 < es)%nat -> (forall x, length (repr x) = es) -> (forall x y, repr x = repr y -> x = y) ->
  (same = true -> a = b) ->
  exists r, vec_eq repr same a b = Ok r /\ (r = true <-> a = b).
Proof.
  intros He Hl Hi Hs. unfold vec_eq. destruct (Nat.eqb_spec (length (flat_map repr b)) (length (flat_map repr a))) as [E|E].
  - destruct same.
    + exists true. split; [reflexivity|]. intuition.
    + rewrite <- E. destruct (memcmp0_ok (flat_map repr b) (flat_map repr a) E) as (r & Er & H).
      exists r. split; [assumption|]. rewrite H. split; [|now intros ->].
      intros F. symmetry. eapply flat_map_inj; eauto.
  - exists false. split; [reflexivity|]. split; [discriminate|]. intros ->. congruence.
Qed.
Print Assumptions C68_vector_equality_partial.

Example C68_nonvacuous :
  (forall x, length ((fun n : bool => if n then [1; 0] else [0; 0]) x) = 2%nat) /\
  vec_eq (fun n : bool => if n then [1; 0] else [0; 0]) false [true; false] [true; false] = Ok true /\
  vec_eq (fun n : bool => if n then [1; 0] else [0; 0]) false [true; false] [true; true] = Ok false.
Proof. split; [intros []; reflexivity|]. split; reflexivity. Qed.

(** vector<string>: two vectors of one string each, both holding "ab", the text
    of the one at address 0x1000, of the other at 0x2000, are not equal. *)
Theorem C68_vector_equality_refuted :
  let x := {| s_vptr := 7000; s_addr := 4096; s_cap := 3; s_text := [97; 98] |} in
  let y := {| s_vptr := 7000; s_addr := 8192; s_cap := 3; s_text := [97; 98] |} in
  map s_text [x] = map s_text [y] /\ vec_eq str_repr false [x] [y] = Ok false.
Proof. split; reflexivity. Qed.
Print Assumptions C68_vector_equality_refuted.
