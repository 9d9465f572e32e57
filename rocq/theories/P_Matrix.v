(** * Property C46: matrices. *)
From Verif Require Import Base MatrixModel MatrixSpec MatrixProofs.
From Coq Require Import ZArith Ring_theory.

(** C46.  transpose swaps the indices, for every dimension and element type. *)
Theorem C46_transpose {T} (N : nat) (m : list T) (f : nat -> nat -> T) :
  is_matrix N N m f ->
  exists m', transpose N m = Ok m' /\ is_matrix N N m' (fun r c => f c r).
Proof. apply transpose_ok. Qed.
Print Assumptions C46_transpose.

(** Twice is the identity. *)
Theorem C46_transpose_twice {T} (N : nat) (m : list T) (f : nat -> nat -> T) :
  is_matrix N N m f -> bind (transpose N m) (transpose N) = Ok m.
Proof.
  intros M. destruct (transpose_ok N m f M) as (m1 & -> & M1). rewrite bind_Ok.
  destruct (transpose_ok N m1 _ M1) as (m2 & -> & M2). f_equal.
  eapply is_matrix_eq; [|exact M2|exact M]. reflexivity.
Qed.
Print Assumptions C46_transpose_twice.

(** load_identity puts ones exactly on the diagonal of a square matrix,
    whatever the matrix held before. *)
Theorem C46_identity {T} (zero one : T) (N : nat) (m : list T) :
  length m = N * N ->
  exists m', load_identity zero one N N m = Ok m' /\ is_matrix N N m' (fun r c => if Nat.eqb r c then one else zero).
Proof. intros L. exact (load_identity_ok zero one N m L). Qed.
Print Assumptions C46_identity.

(** Outside the property's square dimensions it does not: in a matrix<1,3>
    (1 column, 3 rows) the element [2][0] also becomes 1. *)
Theorem C46_identity_rectangle_refuted :
  exists m', load_identity 0 1 1 3 [7; 7; 7] = Ok m' /\ ~ is_matrix 1 3 m' (fun r c => if Nat.eqb r c then 1 else 0).
Proof.
  exists [1; 0; 1]. split; [reflexivity|]. intros (_ & H). specialize (H 2 0 ltac:(lia) ltac:(lia)). discriminate H.
Qed.
Print Assumptions C46_identity_rectangle_refuted.

(** row and column deliver the entries. *)
Theorem C46_row_column {T} (NX NY : nat) (m : list T) (f : nat -> nat -> T) :
  is_matrix NX NY m f ->
  (forall r, r < NY -> exists t, row NX m r = Ok t /\ is_tuple NX t (fun c => f r c)) /\
  (forall c, c < NX -> exists t, column NX NY m c = Ok t /\ is_tuple NY t (fun r => f r c)).
Proof. intros M. split; intros; [now apply (row_ok NX NY)|now apply column_ok]. Qed.
Print Assumptions C46_row_column.

(** The product is the sum of products, for any element type (the sum is taken
    from the left, starting at zero). *)
Theorem C46_product {T} (zero : T) (add mul : T -> T -> T) (NX NY : nat) (m1 m2 : list T) f g :
  is_matrix NX NY m1 f -> is_matrix NY NX m2 g ->
  exists mr, mat_mul zero add mul NX NY m1 m2 = Ok mr /\
    is_matrix NY NY mr (fun r c => sum_to zero add NX (fun x => mul (f r x) (g x c))).
Proof. apply mat_mul_ok. Qed.
Print Assumptions C46_product.

Theorem C46_vector_product {T} (zero : T) (add mul : T -> T -> T) (NX NY : nat) (t m : list T) v f :
  is_tuple NY t v -> is_matrix NX NY m f ->
  exists tr, transform zero add mul NX NY t m = Ok tr /\
    is_tuple NX tr (fun x => sum_to zero add NY (fun y => mul (v y) (f y x))).
Proof. apply transform_ok. Qed.
Print Assumptions C46_vector_product.

(** Multiplying by the identity on either side gives the matrix, and the
    product is associative, for elements of any commutative ring (the integers;
    the machine integers with wrap around). *)
Theorem C46_identity_product {T} (zero one : T) add mul sub opp (N : nat) (m : list T) f :
  ring_theory zero one add mul sub opp eq -> is_matrix N N m f ->
  exists i, load_identity zero one N N m = Ok i /\
    mat_mul zero add mul N N m i = Ok m /\ mat_mul zero add mul N N i m = Ok m.
Proof.
  intros R M. destruct (load_identity_ok zero one N m (proj1 M)) as (i & E & I).
  exists i. split; [assumption|].
  destruct (mat_mul_ok zero add mul N N m i _ _ M I) as (a & -> & A).
  destruct (mat_mul_ok zero add mul N N i m _ _ I M) as (b & -> & B).
  split; f_equal.
  - eapply is_matrix_eq; [|exact A|exact M]. intros. eapply prod_id_r; eauto.
  - eapply is_matrix_eq; [|exact B|exact M]. intros. eapply prod_id_l; eauto.
Qed.
Print Assumptions C46_identity_product.

Theorem C46_product_assoc {T} (zero one : T) add mul sub opp (N : nat) (a b c : list T) f g h :
  ring_theory zero one add mul sub opp eq ->
  is_matrix N N a f -> is_matrix N N b g -> is_matrix N N c h ->
  exists r, bind (mat_mul zero add mul N N a b) (fun ab => mat_mul zero add mul N N ab c) = Ok r /\
            bind (mat_mul zero add mul N N b c) (fun bc => mat_mul zero add mul N N a bc) = Ok r.
Proof.
  intros R A B C.
  destruct (mat_mul_ok zero add mul N N a b _ _ A B) as (ab & -> & AB). rewrite bind_Ok.
  destruct (mat_mul_ok zero add mul N N b c _ _ B C) as (bc & -> & BC). rewrite bind_Ok.
  destruct (mat_mul_ok zero add mul N N ab c _ _ AB C) as (r1 & -> & R1).
  destruct (mat_mul_ok zero add mul N N a bc _ _ A BC) as (r2 & -> & R2).
  exists r1. split; [reflexivity|]. f_equal.
  symmetry. eapply is_matrix_eq; [|exact R1|exact R2]. intros. eapply prod_assoc. exact R.
Qed.
Print Assumptions C46_product_assoc.

(** Transposing a product. *)
Theorem C46_transpose_product {T} (zero one : T) add mul sub opp (N : nat) (a b : list T) f g :
  ring_theory zero one add mul sub opp eq ->
  is_matrix N N a f -> is_matrix N N b g ->
  exists at' bt r, transpose N a = Ok at' /\ transpose N b = Ok bt /\
    bind (mat_mul zero add mul N N a b) (transpose N) = Ok r /\ mat_mul zero add mul N N bt at' = Ok r.
Proof.
  intros R A B.
  destruct (transpose_ok N a f A) as (at' & Ea & At). destruct (transpose_ok N b g B) as (bt & Eb & Bt).
  destruct (mat_mul_ok zero add mul N N a b _ _ A B) as (ab & -> & AB). rewrite bind_Ok.
  destruct (transpose_ok N ab _ AB) as (r & Er & Ar).
  destruct (mat_mul_ok zero add mul N N bt at' _ _ Bt At) as (r' & Er' & Ar').
  exists at', bt, r. repeat split; auto. rewrite Er'. f_equal.
  symmetry. eapply is_matrix_eq; [|exact Ar|exact Ar']. intros. cbn beta. eapply prod_tr. exact R.
Qed.
Print Assumptions C46_transpose_product.

Example C46_nonvacuous :
  is_matrix 2 3 [1; 2; 3; 4; 5; 6] (fun r c => 2 * r + c + 1) /\
  is_matrix 3 2 [1; 0; 2; 0; 1; 1] (fun r c => match r, c with 0, 0 => 1 | 0, 2 => 2 | 1, 1 => 1 | 1, 2 => 1 | _, _ => 0 end) /\
  mat_mul 0 Nat.add Nat.mul 2 3 [1; 2; 3; 4; 5; 6] [1; 0; 2; 0; 1; 1] = Ok [1; 2; 4; 3; 4; 10; 5; 6; 16] /\
  transpose 3 [1; 2; 3; 4; 5; 6; 7; 8; 9] = Ok [1; 4; 7; 2; 5; 8; 3; 6; 9] /\
  transform 0 Nat.add Nat.mul 4 4 [1; 2; 3; 4] [2; 0; 0; 0; 0; 2; 0; 0; 0; 0; 2; 0; 1; 1; 1; 2] = Ok [6; 8; 10; 8].
Proof.
  repeat split; intros [|[|[|r]]] [|[|[|c]]] Hr Hc; try lia; reflexivity.
Qed.
Example C46_ring : ring_theory 0%Z 1%Z Z.add Z.mul Z.sub Z.opp eq.
Proof. exact InitialRing.Zth. Qed.

(** ** matrix<4,4,float> on x86-64 (SSE): the vector transform and the product
    are right where the elements 1 and 2 of the tuple (of each row of the left
    matrix) are equal, and always in the columns 1 and 3.  Missing: the other
    cases, refuted below; float rounding. *)
Theorem C46_float_transform_partial {T} (zero one : T) add mul sub opp (t m : list T) v f :
  ring_theory zero one add mul sub opp eq -> is_tuple 4 t v -> is_matrix 4 4 m f ->
  exists tr, sse_vec_mul zero add mul t m = Ok tr /\ length tr = 4 /\
    forall x, x < 4 -> v 1 = v 2 \/ Nat.odd x = true ->
      nth_error tr x = Some (sum_to zero add 4 (fun y => mul (v y) (f y x))).
Proof.
  intros R Mt Mm. destruct (sse_vec_mul_eq zero one add mul sub opp R t m v f Mt Mm) as (tr & E & L & H).
  exists tr. repeat split; auto. intros x Hx C. rewrite H by assumption. f_equal. apply sum_ext.
  intros y Hy. destruct (Nat.eqb_spec y 1) as [->|]; cbn [andb]; [|reflexivity].
  destruct C as [C|C]; [destruct (Nat.even x); congruence|].
  unfold Nat.odd in C. apply negb_true_iff in C. now rewrite C.
Qed.
Print Assumptions C46_float_transform_partial.

Theorem C46_float_product_partial {T} (zero one : T) add mul sub opp (m1 m2 : list T) f g :
  ring_theory zero one add mul sub opp eq -> is_matrix 4 4 m1 f -> is_matrix 4 4 m2 g ->
  exists mr, sse_mat_mul zero add mul m1 m2 = Ok mr /\ length mr = 16 /\
    forall r c, r < 4 -> c < 4 -> f r 1 = f r 2 \/ Nat.odd c = true ->
      nth_error mr (4 * r + c) = Some (sum_to zero add 4 (fun x => mul (f r x) (g x c))).
Proof.
  intros R M1 M2. destruct (sse_mat_mul_eq zero one add mul sub opp R m1 m2 f g M1 M2) as (mr & E & L & H).
  exists mr. repeat split; auto. intros r c Hr Hc C. rewrite (Nat.mul_comm 4 r), H by assumption. f_equal. apply sum_ext.
  intros y Hy. destruct (Nat.eqb_spec y 1) as [->|]; cbn [andb]; [|reflexivity].
  destruct C as [C|C]; [destruct (Nat.even c); congruence|].
  unfold Nat.odd in C. apply negb_true_iff in C. now rewrite C.
Qed.
Print Assumptions C46_float_product_partial.

(** (0 1 0 0) times a matrix should be its row 1, (5 6 7 8); the code gives
    (0 6 0 8).  The integers stand for the floats that represent them exactly. *)
Theorem C46_float_refuted :
  let m := [1; 2; 3; 4; 5; 6; 7; 8; 9; 10; 11; 12; 13; 14; 15; 16]%Z in
  transform 0%Z Z.add Z.mul 4 4 [0; 1; 0; 0]%Z m = Ok [5; 6; 7; 8]%Z /\
  sse_vec_mul 0%Z Z.add Z.mul [0; 1; 0; 0]%Z m = Ok [0; 6; 0; 8]%Z.
Proof. split; reflexivity. Qed.
Print Assumptions C46_float_refuted.

(** The square of the matrix that exchanges the axes 0 and 1 should be the
    identity; computed with floats, the element [0][0] is 0. *)
Theorem C46_float_product_refuted :
  let m := [0; 1; 0; 0;  1; 0; 0; 0;  0; 0; 1; 0;  0; 0; 0; 1]%Z in
  exists r, sse_mat_mul 0%Z Z.add Z.mul m m = Ok r /\ nth_error r 0 = Some 0%Z /\
    mat_mul 0%Z Z.add Z.mul 4 4 m m = Ok [1; 0; 0; 0;  0; 1; 0; 0;  0; 0; 1; 0;  0; 0; 0; 1]%Z.
Proof. eexists. repeat split. Qed.
Print Assumptions C46_float_product_refuted.

(** load_identity (matrix<4,4,float>&) is right if the upper lanes of the
    register holding the constant are zero; C++ promises nothing about them. *)
Theorem C46_float_identity_partial {T} (zero one : T) (m : list T) :
  length m = 16 ->
  exists m', sse_load_identity (X one zero zero zero) m = Ok m' /\
    is_matrix 4 4 m' (fun r c => if Nat.eqb r c then one else zero).
Proof. intros L. exact (sse_load_identity_ok zero one m L). Qed.
Print Assumptions C46_float_identity_partial.
