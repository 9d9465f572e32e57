(** * RoundModel: rounding floating point numbers to integers (simd.h fround, pround).

    A finite float or double is m * 2^e.  Infinities and NaN are left out; the
    exponent is not bounded (only the magnitude of the integer result is
    checked), the rounding mode is the default (to nearest, ties to even), and
    HAVE_RINTF and __SSE__ are defined (x86-64, Linux). *)
From Verif Require Import Base.
From Coq Require Import ZArith List.
Import ListNotations.
Local Open Scope Z_scope.

Record fp := Fp { mant : Z; expo : Z }.

(** The integer nearest to n / 2^k, of two the even one: the rounding of the
    hardware (rint, cvtss2si, conversions). *)
Definition rne_shift (n k : Z) : Z :=
  let q := Z.shiftr n k in
  let r := n - q * 2 ^ k in                (* 0 <= r < 2^k *)
  if 2 * r <? 2 ^ k then q
  else if 2 ^ k <? 2 * r then q + 1
  else if Z.even q then q else q + 1.
(** rint, rintf (3): an integer of the same type. *)
Definition rint (x : fp) : Z := if 0 <=? expo x then mant x * 2 ^ expo x else rne_shift (mant x) (- expo x).
(** Conversion of a double to float: 24 bits are kept. *)
Definition to_float (x : fp) : fp :=
  let b := Z.log2 (Z.abs (mant x)) + 1 in
  if b <=? 24 then x else Fp (rne_shift (mant x) (b - 24)) (expo x + (b - 24)).

(** An integer type D: its least and greatest value.  Conversion of a float out
    of the range of D is undefined (C++ [conv.fpint]). *)
Record ity := Ity { tlo : Z; thi : Z }.
Definition to_int (t : ity) (v : Z) : outcome Z := if (tlo t <=? v) && (v <=? thi t) then Ok v else UB.
Definition i32 : ity := Ity (- 2 ^ 31) (2 ^ 31 - 1).
Definition u32 : ity := Ity 0 (2 ^ 32 - 1).
Definition i64 : ity := Ity (- 2 ^ 63) (2 ^ 63 - 1).
Definition i16 : ity := Ity (- 2 ^ 15) (2 ^ 15 - 1).

(** cvtss2si with a 32-bit destination; cvtps2pi does the same in each lane. *)
Definition cvt_si32 (x : fp) : Z := let v := rint x in if (- 2 ^ 31 <=? v) && (v <=? 2 ^ 31 - 1) then v else - 2 ^ 31.
(** simd.h:430-437 [fround<float,int32_t>]. *)
Definition fround_f_i32 (x : fp) : outcome Z := Ok (cvt_si32 x).
(** simd.h:438-445 [fround<float,uint32_t>]: the same instruction. *)
Definition fround_f_u32 (x : fp) : outcome Z := Ok (cvt_si32 x mod 2 ^ 32).
(** simd.h:107 [fround<double,int32_t>]. *)
Definition fround_d_i32 (x : fp) : outcome Z := to_int i32 (rint x).
(** simd.h:102-103 [fround<S,D>]: D (rintf (a)), whatever S is; a double
    argument is converted to float by the call. *)
Definition fround_f (t : ity) (x : fp) : outcome Z := to_int t (rint x).
Definition fround_d (t : ity) (x : fp) : outcome Z := to_int t (rint (to_float x)).

(** simd.h:76-84 [pconvert] by way of [pround] (142-147, 193): the assertion,
    then one element after the other. *)
Fixpoint pconvert_loop {A B} (f : A -> outcome B) (op1 : list A) (op2 : list B) (n i : nat) : outcome (list B) :=
  match n with
  | O => Ok op2
  | S n' => x <- rd op1 i ;; y <- f x ;; op2 <- wr op2 i y ;; pconvert_loop f op1 op2 n' (i + 1)
  end.
Definition pconvert {A B} (f : A -> outcome B) (op1 : list A) (op2 : list B) : outcome (list B) :=
  if (List.length op2 <? List.length op1)%nat then UB else pconvert_loop f op1 op2 (List.length op1) 0.
(** simd.h:415-422 [pconvert] of tuple<4,float> to tuple<4,int32_t>: two lanes
    at a time into mm0 and mm1, then two stores (C203 has the registers). *)
Definition pconvert4 (op1 : list fp) (op2 : list Z) : outcome (list Z) :=
  x0 <- rd op1 0 ;; x1 <- rd op1 1 ;; x2 <- rd op1 2 ;; x3 <- rd op1 3 ;;
  op2 <- wr op2 0 (cvt_si32 x0) ;; op2 <- wr op2 1 (cvt_si32 x1) ;;
  op2 <- wr op2 2 (cvt_si32 x2) ;; wr op2 3 (cvt_si32 x3).
