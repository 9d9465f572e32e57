(** * TupleModel: utuple.h, uarray.h and the integer part of simd.h.

    A tuple<N,T> or array<T,N> is the list of its N elements. *)
From Verif Require Import Base.
From Coq Require Import ZArith.

Section Tuple.
  Context {T : Type} (dflt : T).

  (** fill_n (_v + i, n, v) inside an object of the given elements
      (element by element; the unrolled variants are in ByteModel.v). *)
  Fixpoint fill_from (a : list T) (i n : nat) (v : T) : outcome (list T) :=
    match n with
    | O => Ok a
    | S n' => a <- wr a i v ;; fill_from a (i + 1) n' v
    end.
  (** utuple.h:119-145 the constructors from one to four values, on storage
      [a] of N elements: the last value is repeated.  [N - k] is computed on
      size_t: for N < k it is a huge number, the writes leave the object. *)
  Fixpoint set_values (a : list T) (i : nat) (vs : list T) (N : nat) : outcome (list T) :=
    match vs with
    | [] => Ok a
    | [v] => if Nat.ltb N i then UB else fill_from a i (N - i) v
    | v :: t => a <- wr a i v ;; set_values a (i + 1) t N
    end.
  Definition tuple_of (N : nat) (a : list T) (vs : list T) : outcome (list T) := set_values a 0 vs N.

  (** utuple.h:148-155 [assign (initlist_t)]. *)
  Fixpoint copy_n (a : list T) (i n : nat) (src : list T) (j : nat) : outcome (list T) :=
    match n with
    | O => Ok a
    | S n' => x <- rd src j ;; a <- wr a i x ;; copy_n a (i + 1) n' src (j + 1)
    end.
  Definition tuple_assign (N : nat) (a il : list T) : outcome (list T) :=
    let isz := Nat.min (length il) N in
    a <- copy_n a 0 isz il 0 ;; fill_from a isz (N - isz) dflt.

  (** utuple.h:56-71 and uarray.h:70-77: [+= v] and the like; [f] is the
      operation on the element with the conversion to T. *)
  Fixpoint each_loop (f : T -> T) (a : list T) (n i : nat) : outcome (list T) :=
    match n with
    | O => Ok a
    | S n' => x <- rd a i ;; a <- wr a i (f x) ;; each_loop f a n' (i + 1)
    end.
  Definition op_scalar (f : T -> T -> T) (N : nat) (a : list T) (v : T) : outcome (list T) :=
    each_loop (fun x => f x v) a N 0.

  (** utuple.h:185-232, uarray.h:104-150: [t1[i] = T1 (t1[i] op t2[i])]. *)
  Fixpoint zip_loop {T2} (f : T -> T2 -> T) (a : list T) (b : list T2) (n i : nat) : outcome (list T) :=
    match n with
    | O => Ok a
    | S n' => x <- rd a i ;; y <- rd b i ;; a <- wr a i (f x y) ;; zip_loop f a b n' (i + 1)
    end.
  Definition op_tuple {T2} (f : T -> T2 -> T) (N : nat) (a : list T) (b : list T2) : outcome (list T) :=
    zip_loop f a b N 0.
  (** utuple.h:83-90 [operator+= (initlist_t)] and the like: min (N, v.size()) elements. *)
  Definition tuple_op_init (f : T -> T -> T) (N : nat) (a il : list T) : outcome (list T) :=
    zip_loop f a il (Nat.min N (length il)) 0.
  (** uarray.h:33-40 the same of array: N elements of the list, however long it is. *)
  Definition array_op_init (f : T -> T -> T) (N : nat) (a il : list T) : outcome (list T) :=
    zip_loop f a il N 0.

  (** utuple.h:167-174, uarray.h:86-93 [operator==]. *)
  Fixpoint eq_loop (eqb : T -> T -> bool) (a b : list T) (n i : nat) : outcome bool :=
    match n with
    | O => Ok true
    | S n' => x <- rd a i ;; y <- rd b i ;; if negb (eqb x y) then Ok false else eq_loop eqb a b n' (i + 1)
    end.
  Definition tuple_eq (eqb : T -> T -> bool) (N : nat) (a b : list T) : outcome bool := eq_loop eqb a b N 0.
  (** utuple.h:176-183, uarray.h:95-102 [operator<]; x <= y is !(y < x)
      (uutility.h:200-202, and so for the built-in integers). *)
  Fixpoint less_loop (lt : T -> T -> bool) (a b : list T) (n i : nat) : outcome bool :=
    match n with
    | O => Ok false
    | S n' =>
        x <- rd a i ;; y <- rd b i ;;
        if negb (lt y x) then
          if lt x y then Ok true else less_loop lt a b n' (i + 1)
        else Ok false
    end.
  Definition tuple_less (lt : T -> T -> bool) (N : nat) (a b : list T) : outcome bool := less_loop lt a b N 0.

  (** utuple.h:72-73 [swap]; uarray.h:79 by swap_ranges does the same. *)
  Fixpoint swap_loop (a b : list T) (n i : nat) : outcome (list T * list T) :=
    match n with
    | O => Ok (a, b)
    | S n' => x <- rd a i ;; y <- rd b i ;; a <- wr a i y ;; b <- wr b i x ;; swap_loop a b n' (i + 1)
    end.
  Definition tuple_swap (N : nat) (a b : list T) : outcome (list T * list T) := swap_loop a b N 0.

  (** simd.h:31-36 [packop] of one operand: [op (star i)], the result of which
      is not stored. *)
  Fixpoint packop1 (op : T -> T) (a : list T) (n i : nat) : outcome (list T) :=
    match n with
    | O => Ok a
    | S n' => x <- rd a i ;; let _ := op x in packop1 op a n' (i + 1)
    end.
  (** simd.h:39-47 [packop] of two: [op2[i] = op (op2[i], op1[i])]. *)
  Definition packop2 (op : T -> T -> T) (N : nat) (op1 op2 : list T) : outcome (list T) := zip_loop op op2 op1 N 0.

  (** simd.h:250-252 [MMX_PKOP2_SPEC]: the register holds the N elements (64
      bits) of oout, the instruction combines it with oin lane by lane, and it
      is stored to oout. *)
  Fixpoint movq (m : list T) (i n : nat) : outcome (list T) :=
    match n with
    | O => Ok []
    | S n' => x <- rd m i ;; t <- movq m (i + 1) n' ;; Ok (x :: t)
    end.
  Fixpoint lanes2 (f : T -> T -> T) (d s : list T) : list T :=
    match d, s with
    | x :: d', y :: s' => f x y :: lanes2 f d' s'
    | _, _ => []
    end.
  Fixpoint storeq (m : list T) (i : nat) (r : list T) : outcome (list T) :=
    match r with
    | [] => Ok m
    | x :: t => m <- wr m i x ;; storeq m (i + 1) t
    end.
  Definition mmx_pkop2 (lanef : T -> T -> T) (N : nat) (oin oout : list T) : outcome (list T) :=
    mm0 <- movq oout 0 N ;; s <- movq oin 0 N ;; storeq oout 0 (lanes2 lanef mm0 s).
  (** simd.h:253-255 [MMX_DBL_PKOP2_SPEC] for four 32 bit elements in two registers. *)
  Definition mmx_dbl_pkop2 (lanef : T -> T -> T) (oin oout : list T) : outcome (list T) :=
    mm0 <- movq oout 0 2 ;; mm1 <- movq oout 2 2 ;;
    s0 <- movq oin 0 2 ;; s1 <- movq oin 2 2 ;;
    oout <- storeq oout 0 (lanes2 lanef mm0 s0) ;; storeq oout 2 (lanes2 lanef mm1 s1).
End Tuple.

(** ** Element operations on integers of [w] bits. *)
Local Open Scope Z_scope.
(** Conversion to an unsigned/signed type of [w] bits (modulo 2^w). *)
Definition uconv (w x : Z) : Z := x mod 2 ^ w.
Definition sconv (w x : Z) : Z := (x + 2 ^ (w - 1)) mod 2 ^ w - 2 ^ (w - 1).
Definition conv (sgn : bool) (w x : Z) : Z := if sgn then sconv w x else uconv w x.
Definition tmin (sgn : bool) (w : Z) : Z := if sgn then - 2 ^ (w - 1) else 0.
Definition tmax (sgn : bool) (w : Z) : Z := if sgn then 2 ^ (w - 1) - 1 else 2 ^ w - 1.

(** ufunction.h:50-60 and simd.h:87-93, for types narrower than int (the
    arguments are promoted, the result converted back).  The division of pavg
    truncates. *)
Definition f_plus sgn w a b := conv sgn w (a + b).
Definition f_minus sgn w a b := conv sgn w (a - b).
Definition f_and sgn w a b := conv sgn w (Z.land a b).
Definition f_or sgn w a b := conv sgn w (Z.lor a b).
Definition f_xor sgn w a b := conv sgn w (Z.lxor a b).
Definition fpadds sgn w a b := conv sgn w (if tmax sgn w - a <? b then tmax sgn w else a + b).
Definition fpsubs sgn w a b := conv sgn w (if a <? tmin sgn w + b then tmin sgn w else a - b).
Definition fpmin (a b : Z) := if a <? b then a else b.
Definition fpmax (a b : Z) := if b <? a then a else b.
Definition fpavg sgn w a b := conv sgn w (Z.quot (a + b + 1) 2).

(** The lanes of the MMX/SSE instructions (Intel SDM): the lane is a pattern of
    [w] bits, given and returned here as the value of the element type. *)
Definition bits (w x : Z) : Z := x mod 2 ^ w.
Definition unbits (sgn : bool) (w p : Z) : Z := if sgn then (if p <? 2 ^ (w - 1) then p else p - 2 ^ w) else p.
Definition clamp lo hi x := if x <? lo then lo else if hi <? x then hi else x.
(** paddb, paddw, paddd; psubb, psubw, psubd. *)
Definition i_padd sgn w d s := unbits sgn w ((bits w d + bits w s) mod 2 ^ w).
Definition i_psub sgn w d s := unbits sgn w ((bits w d - bits w s) mod 2 ^ w).
(** pand, por, pxor (the lanes of the 64 bit operation). *)
Definition i_pand sgn w d s := unbits sgn w (Z.land (bits w d) (bits w s)).
Definition i_por sgn w d s := unbits sgn w (Z.lor (bits w d) (bits w s)).
Definition i_pxor sgn w d s := unbits sgn w (Z.lxor (bits w d) (bits w s)).
(** paddusb, paddusw, psubusb, psubusw: unsigned saturation. *)
Definition i_paddus w d s := clamp 0 (2 ^ w - 1) (bits w d + bits w s).
Definition i_psubus w d s := clamp 0 (2 ^ w - 1) (bits w d - bits w s).
(** paddsb, paddsw, psubsb, psubsw: signed saturation. *)
Definition i_padds w d s := clamp (- 2 ^ (w - 1)) (2 ^ (w - 1) - 1) (unbits true w (bits w d) + unbits true w (bits w s)).
Definition i_psubs w d s := clamp (- 2 ^ (w - 1)) (2 ^ (w - 1) - 1) (unbits true w (bits w d) - unbits true w (bits w s)).
(** pavgb, pavgw: unsigned average, rounded up; the specialisations use them
    for the signed types too (simd.h:346, 348). *)
Definition i_pavg sgn w d s := unbits sgn w ((bits w d + bits w s + 1) / 2).
(** pminub, pmaxub, pminsw, pmaxsw. *)
Definition i_pminu w d s := Z.min (bits w d) (bits w s).
Definition i_pmaxu w d s := Z.max (bits w d) (bits w s).
Definition i_pmins w d s := Z.min (unbits true w (bits w d)) (unbits true w (bits w s)).
Definition i_pmaxs w d s := Z.max (unbits true w (bits w d)) (unbits true w (bits w s)).
