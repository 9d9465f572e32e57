(** * MatrixModel: umatrix.h and ulaalgo.h.

    A matrix<NX,NY,T> is a tuple of NX*NY elements, stored by rows: the list
    of its elements.  [NX] is the number of columns, [NY] the number of rows.
    [0], [1], [+=] and [*] of the element type are parameters (the float
    specialisations are also stated over them: rounding is not modelled). *)
From Verif Require Import Base.

Section Matrix.
  Context {T : Type} (zero one : T) (add mul : T -> T -> T).

  (** umatrix.h:41-45 [at], [operator[]]: row [r] starts at begin() + r * NX;
      [m[r][c]] is the element [c] places further. *)
  Definition ix (NX r c : nat) : nat := r * NX + c.

  (** umatrix.h:45 [row] with utuple.h:111-113 (ipassign: simd.h:69-74),
      copies NX elements from [at (r)]. *)
  Fixpoint copy_from (m : list T) (i n : nat) : outcome (list T) :=
    match n with
    | O => Ok []
    | S n' => x <- rd m i ;; t <- copy_from m (i + 1) n' ;; Ok (x :: t)
    end.
  Definition row (NX : nat) (m : list T) (r : nat) : outcome (list T) := copy_from m (ix NX r 0) NX.

  (** umatrix.h:66-75 [column]. *)
  Fixpoint column_loop (NX : nat) (m : list T) (src n : nat) : outcome (list T) :=
    match n with
    | O => Ok []
    | S n' => x <- rd m src ;; t <- column_loop NX m (src + NX) n' ;; Ok (x :: t)
    end.
  Definition column (NX NY : nat) (m : list T) (c : nat) : outcome (list T) := column_loop NX m c NY.

  (** ulaalgo.h:14-20 [load_identity]: fill_n with zeros, then a one at every
      (NX + 1)-th element.  (That the pointer may be stepped past end() is not
      modelled.) *)
  Fixpoint ones_loop (fuel NX : nat) (m : list T) (i : nat) : outcome (list T) :=
    if Nat.ltb i (length m) then
      match fuel with
      | O => NoFuel
      | S fuel' => m' <- wr m i one ;; ones_loop fuel' NX m' (i + (NX + 1))
      end
    else Ok m.
  Definition load_identity (NX NY : nat) (m : list T) : outcome (list T) :=
    ones_loop (length m) NX (repeat zero (NX * NY)) 0.

  (** ulaalgo.h:24-37 [operator*] of two matrices: the inner loop. *)
  Fixpoint mm_dot (NX NY : nat) (m1 m2 : list T) (ry rx n x : nat) (dpv : T) : outcome T :=
    match n with
    | O => Ok dpv
    | S n' =>
        a <- rd m1 (ix NX ry x) ;;
        b <- rd m2 (ix NY x rx) ;;
        mm_dot NX NY m1 m2 ry rx n' (x + 1) (add dpv (mul a b))
    end.
  (** ulaalgo.h:29-34: the loop over [rx]. *)
  Fixpoint mm_cols (NX NY : nat) (m1 m2 : list T) (ry n rx : nat) (mr : list T) : outcome (list T) :=
    match n with
    | O => Ok mr
    | S n' =>
        dpv <- mm_dot NX NY m1 m2 ry rx NX 0 zero ;;
        mr' <- wr mr (ix NY ry rx) dpv ;;
        mm_cols NX NY m1 m2 ry n' (rx + 1) mr'
    end.
  (** ulaalgo.h:28-35: the loop over [ry]. *)
  Fixpoint mm_rows (NX NY : nat) (m1 m2 : list T) (n ry : nat) (mr : list T) : outcome (list T) :=
    match n with
    | O => Ok mr
    | S n' =>
        mr' <- mm_cols NX NY m1 m2 ry NY 0 mr ;;
        mm_rows NX NY m1 m2 n' (ry + 1) mr'
    end.
  (** ulaalgo.h:24-37 [operator*]; the result starts as T() everywhere. *)
  Definition mat_mul (NX NY : nat) (m1 m2 : list T) : outcome (list T) :=
    mm_rows NX NY m1 m2 NY 0 (repeat zero (NY * NY)).

  (** ulaalgo.h:41-52 [operator*] of a tuple and a matrix. *)
  Fixpoint tm_dot (NX : nat) (t m : list T) (x n y : nat) (dpv : T) : outcome T :=
    match n with
    | O => Ok dpv
    | S n' =>
        a <- rd t y ;;
        b <- rd m (ix NX y x) ;;
        tm_dot NX t m x n' (y + 1) (add dpv (mul a b))
    end.
  Fixpoint tm_loop (NX NY : nat) (t m : list T) (n x : nat) (tr : list T) : outcome (list T) :=
    match n with
    | O => Ok tr
    | S n' =>
        dpv <- tm_dot NX t m x NY 0 zero ;;
        tr' <- wr tr x dpv ;;
        tm_loop NX NY t m n' (x + 1) tr'
    end.
  Definition transform (NX NY : nat) (t m : list T) : outcome (list T) :=
    tm_loop NX NY t m NX 0 (repeat zero NX).

  (** ulaalgo.h:57-62 [transpose], with utypes [swap (m[x][y], m[y][x])]. *)
  Definition mswap (m : list T) (i j : nat) : outcome (list T) :=
    a <- rd m i ;; b <- rd m j ;; m1 <- wr m i b ;; wr m1 j a.
  Fixpoint tr_inner (N : nat) (m : list T) (x n y : nat) : outcome (list T) :=
    match n with
    | O => Ok m
    | S n' => m' <- mswap m (ix N x y) (ix N y x) ;; tr_inner N m' x n' (y + 1)
    end.
  Fixpoint tr_outer (N : nat) (m : list T) (n x : nat) : outcome (list T) :=
    match n with
    | O => Ok m
    | S n' => m' <- tr_inner N m x (N - x) x ;; tr_outer N m' n' (x + 1)
    end.
  Definition transpose (N : nat) (m : list T) : outcome (list T) := tr_outer N m N 0.

  (** ** The SSE specialisations for 4x4 float (the x86-64 default:
      WANT_UNROLLED_COPY is set and __SSE__ defined).  A register is four lanes. *)
  Record xmm := X { l0 : T; l1 : T; l2 : T; l3 : T }.
  Definition lane (r : xmm) (i : nat) : T :=
    match i with 0 => l0 r | 1 => l1 r | 2 => l2 r | _ => l3 r end.
  (** shufps $imm, src, dst: two lanes picked from dst, two from src; the four
      two-bit fields of the immediate from the low end. *)
  Definition shufps (i0 i1 i2 i3 : nat) (src dst : xmm) : xmm :=
    X (lane dst i0) (lane dst i1) (lane src i2) (lane src i3).
  Definition mulps (src dst : xmm) : xmm :=
    X (mul (l0 dst) (l0 src)) (mul (l1 dst) (l1 src)) (mul (l2 dst) (l2 src)) (mul (l3 dst) (l3 src)).
  Definition addps (src dst : xmm) : xmm :=
    X (add (l0 dst) (l0 src)) (add (l1 dst) (l1 src)) (add (l2 dst) (l2 src)) (add (l3 dst) (l3 src)).
  (** movups from and to memory. *)
  Definition movups (m : list T) (i : nat) : outcome xmm :=
    a <- rd m i ;; b <- rd m (i + 1) ;; c <- rd m (i + 2) ;; d <- rd m (i + 3) ;; Ok (X a b c d).
  Definition lanes (r : xmm) : list T := [l0 r; l1 r; l2 r; l3 r].
  Definition storeups (m : list T) (i : nat) (r : xmm) : outcome (list T) :=
    m <- wr m i (l0 r) ;; m <- wr m (i + 1) (l1 r) ;; m <- wr m (i + 2) (l2 r) ;; wr m (i + 3) (l3 r).

  (** ulaalgo.h:69-85 [load_identity (matrix<4,4,float>&)]: [c] is the register
      gcc puts the constant 1.0f in; only its lowest lane is specified.
      $0xB1 = 2 3 0 1, $0x4F = 1 0 3 3, $0x1B = 0 1 2 3 (from the high end). *)
  Definition sse_load_identity (c : xmm) (m : list T) : outcome (list T) :=
    let xmm1 := c in
    m <- storeups m (ix 4 0 0) c ;;
    let xmm1 := shufps 1 0 3 2 xmm1 xmm1 in
    m <- storeups m (ix 4 1 0) xmm1 ;;
    let xmm1 := shufps 3 3 0 1 c xmm1 in
    let c := shufps 3 2 1 0 c c in
    m <- storeups m (ix 4 2 0) xmm1 ;;
    storeups m (ix 4 3 0) c.

  (** ulaalgo.h:100-121 [_sse_transform_to_vector]: $0x66 = 1 2 1 2 (from the
      high end), where the comment wants t[1 1 1 1]. *)
  Definition sse_transform (xmm0 xmm4 xmm5 xmm6 xmm7 : xmm) : xmm :=
    let xmm1 := xmm0 in
    let xmm2 := xmm0 in
    let xmm3 := xmm0 in
    let xmm0 := shufps 0 0 0 0 xmm0 xmm0 in
    let xmm1 := shufps 2 1 2 1 xmm1 xmm1 in
    let xmm2 := shufps 2 2 2 2 xmm2 xmm2 in
    let xmm3 := shufps 3 3 3 3 xmm3 xmm3 in
    let xmm0 := mulps xmm4 xmm0 in
    let xmm1 := mulps xmm5 xmm1 in
    let xmm0 := addps xmm1 xmm0 in
    let xmm2 := mulps xmm6 xmm2 in
    let xmm3 := mulps xmm7 xmm3 in
    let xmm2 := addps xmm3 xmm2 in
    addps xmm2 xmm0.

  (** ulaalgo.h:124-131 [operator* (tuple<4,float>, matrix<4,4,float>)] with
      88-98 [_sse_load_matrix]. *)
  Definition sse_vec_mul (t m : list T) : outcome (list T) :=
    xmm4 <- movups m 0 ;; xmm5 <- movups m 4 ;; xmm6 <- movups m 8 ;; xmm7 <- movups m 12 ;;
    xmm0 <- movups t 0 ;;
    storeups (repeat zero 4) 0 (sse_transform xmm0 xmm4 xmm5 xmm6 xmm7).

  (** ulaalgo.h:134-143 [operator* (matrix<4,4,float>, matrix<4,4,float>)]. *)
  Fixpoint sse_rows (m1 : list T) (xmm4 xmm5 xmm6 xmm7 : xmm) (n r : nat) (result : list T) : outcome (list T) :=
    match n with
    | O => Ok result
    | S n' =>
        xmm0 <- movups m1 (ix 4 r 0) ;;
        result <- storeups result (ix 4 r 0) (sse_transform xmm0 xmm4 xmm5 xmm6 xmm7) ;;
        sse_rows m1 xmm4 xmm5 xmm6 xmm7 n' (r + 1) result
    end.
  Definition sse_mat_mul (m1 m2 : list T) : outcome (list T) :=
    xmm4 <- movups m2 0 ;; xmm5 <- movups m2 4 ;; xmm6 <- movups m2 8 ;; xmm7 <- movups m2 12 ;;
    sse_rows m1 xmm4 xmm5 xmm6 xmm7 4 0 (repeat zero 16).
End Matrix.
Arguments X {T}.
