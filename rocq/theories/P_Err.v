(** * Properties C212-C213: error codes and conditions. *)
From Verif Require Import Base ErrModel ErrSpec.
From Coq Require Import ZArith List Bool Lia.
Import ListNotations.
Local Open Scope Z_scope.

(** ** C212 *)
(** Codes and conditions compare equal exactly when their numbers are the same, whichever is on the left; so equality is
    an equivalence across both. *)
Theorem C212_equality x y j k : (ec_eq x y = true <-> ec_value x = ec_value y) /\ (cond_eq j k = true <-> cond_value j = cond_value k) /\
  (ec_cond_eq x k = true <-> ec_value x = cond_value k) /\ (cond_ec_eq k x = true <-> ec_value x = cond_value k) /\
  (ec_eq x y = true -> ec_cond_eq x k = ec_cond_eq y k) /\ (cond_eq j k = true -> ec_cond_eq x j = ec_cond_eq x k).
Proof.
  unfold ec_eq, cond_eq, ec_cond_eq, cond_ec_eq, cat_eq. cbn [andb]. rewrite !Z.eqb_eq.
  split; [easy|]. split; [easy|]. split; [easy|]. split; [split; congruence|]. split; congruence.
Qed.
Print Assumptions C212_equality.
(** A code holds the number it was given - through make_error_code, default_error_condition, equivalent and an exception -
    and is true exactly if that is not 0. *)
Theorem C212_value v c d e : ec_value (ec_new v c) = v /\ cond_value (cond_new v c) = v /\
  ec_value (make_error_code e) = enumber (errc_name e) /\ ec_cond_eq (make_error_code e) (make_error_condition e) = true /\
  cond_value (ec_default_condition (ec_new v c)) = v /\ cond_value (cat_default_condition d v) = v /\
  sys_code (sys_errno (ec_new v c)) = ec_new v c /\
  (ec_bool (ec_new v c) = true <-> v <> 0) /\ (cond_bool (cond_new v c) = true <-> v <> 0) /\
  ec_bool (ec_clear (ec_new v c)) = false /\ cond_bool (cond_clear (cond_new v c)) = false /\ ec_bool ec_default = false /\ cond_bool cond_default = false.
Proof.
  repeat match goal with |- _ /\ _ => split end; try reflexivity.
  - unfold ec_cond_eq, make_error_code, make_error_condition. cbn [ec_value cond_value ec_new cond_new cat_eq]. unfold cat_eq. cbn [andb]. apply Z.eqb_refl.
  - unfold ec_bool. cbn [ec_value ec_new]. now rewrite negb_true_iff, Z.eqb_neq.
  - unfold cond_bool. cbn [cond_value cond_new]. now rewrite negb_true_iff, Z.eqb_neq.
Qed.
Print Assumptions C212_value.
Theorem C212_equivalent d x k v : (cat_equivalent_code d v k = true <-> v = cond_value k) /\ (cat_equivalent_cond d x v = true <-> v = ec_value x) /\
  ec_cond_eq x (ec_default_condition x) = true.
Proof.
  unfold cat_equivalent_code, cat_equivalent_cond, ec_cond_eq, cat_eq. cbn [andb ec_default_condition cond_new cond_value].
  rewrite !Z.eqb_eq. easy.
Qed.
Print Assumptions C212_equivalent.
(** The named errors are the standard's, other than not_supported. *)
Theorem C212_standard e : e <> not_supported -> errc_value e = std_number e /\ errc_value e <> 0.
Proof. destruct e; intros H; try (split; [reflexivity|discriminate]). now exfalso. Qed.
Print Assumptions C212_standard.
(** Two names stand for the same error only if they are the same, or would_block and try_again, or not_supported and invalid_argument. *)
Theorem C212_distinct e f : errc_value e = errc_value f -> e = f \/
  (In e [operation_would_block; resource_unavailable_try_again] /\ In f [operation_would_block; resource_unavailable_try_again]) \/
  (In e [not_supported; invalid_argument] /\ In f [not_supported; invalid_argument]).
Proof.
  destruct e, f; intros H; try (left; reflexivity); try (vm_compute in H; discriminate H);
    right; ((left; cbn; now auto) || (right; cbn; now auto)).
Qed.
Print Assumptions C212_distinct.
Example C212_example : ec_cond_eq (ec_new 2 system_category) (make_error_condition no_such_file_or_directory) = true /\
  ec_cond_eq (ec_new 2 system_category) (make_error_condition file_exists) = false /\ errc_value file_exists = 17.
Proof. split; [|split]; reflexivity. Qed.

(** ** C213 *)
(** not_supported is the number of invalid_argument: an operation that failed with ENOTSUP (95) is not "not supported", one that
    failed with EINVAL is. *)
Theorem C213_not_supported_refuted : std_number not_supported = 95 /\ errc_value not_supported = errc_value invalid_argument /\
  ec_cond_eq (ec_new (std_number not_supported) system_category) (make_error_condition not_supported) = false /\
  ec_cond_eq (ec_new (std_number invalid_argument) system_category) (make_error_condition not_supported) = true.
Proof. split; [|split; [|split]]; reflexivity. Qed.
Print Assumptions C213_not_supported_refuted.
(** Errors of different categories with the same number are equal. *)
Theorem C213_category_refuted v c d : ec_eq (ec_new v c) (ec_new v d) = true /\ ec_cond_eq (ec_new v c) (cond_new v d) = true.
Proof. unfold ec_eq, ec_cond_eq, cat_eq. cbn [andb ec_new cond_new ec_value cond_value]. rewrite Z.eqb_refl. easy. Qed.
Print Assumptions C213_category_refuted.
