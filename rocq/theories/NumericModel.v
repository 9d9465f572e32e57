(** * NumericModel: unumeric.h and uratio.h. *)
From Verif Require Import Base UtilModel.
From Coq Require Import ZArith NArith.

Section Num.
  Context {T : Type}.

  (** unumeric.h:13-30 [accumulate] (operator+= or a binary operation);
      the range is the list of values the iterator yields. *)
  Fixpoint accumulate {A} (op : T -> A -> T) (l : list A) (init : T) : T :=
    match l with
    | [] => init
    | x :: t => accumulate op t (op init x)
    end.

  (** unumeric.h:35-40 [iota]: writes [value++] over [n] positions. *)
  Fixpoint iota (succ : T -> T) (n : nat) (value : T) : list T :=
    match n with
    | O => []
    | S n' => value :: iota succ n' (succ value)
    end.

  (** unumeric.h:45-65 [inner_product]; reading past the second range is UB. *)
  Fixpoint inner_product {A B P} (sum : T -> P -> T) (prod : A -> B -> P)
           (l1 : list A) (l2 : list B) (init : T) : outcome T :=
    match l1 with
    | [] => Ok init
    | x :: t1 =>
        match l2 with
        | [] => UB
        | y :: t2 => inner_product sum prod t1 t2 (sum init (prod x y))
        end
    end.

  (** unumeric.h:70-91 [partial_sum] writing to the array [out] at [result];
      line 76/89 evaluate the right side first, as C++17 prescribes.  Returns
      the array and the returned iterator. *)
  Fixpoint partial_sum_loop (op : T -> T -> T) (l : list T) (out : list T) (result : nat)
    : outcome (list T * nat) :=
    match l with
    | [] => Ok (out, result)
    | x :: t =>
        r <- rd out result ;;
        out' <- wr out (S result) (op x r) ;;
        partial_sum_loop op t out' (S result)
    end.
  Definition partial_sum (op : T -> T -> T) (l : list T) (out : list T) (result : nat)
    : outcome (list T * nat) :=
    match l with
    | [] => Ok (out, result)
    | x :: t => out' <- wr out result x ;; partial_sum_loop op t out' result
    end.

  (** unumeric.h:96-117 [adjacent_difference].  [l] is the array [first] points
      into, [first] an index; the loop never advances it (lines 101-102). *)
  Fixpoint adjacent_difference_loop (fuel : nat) (op : T -> T -> T) (l : list T)
           (first : nat) (out : list T) (result : nat) : outcome (list T * nat) :=
    if Nat.ltb first (length l) then
      match fuel with
      | O => NoFuel
      | S f =>
          x <- rd l first ;;
          y <- rd l (first - 1) ;;
          out' <- wr out result (op x y) ;;
          adjacent_difference_loop f op l first out' (S result)
      end
    else Ok (out, result).
  Definition adjacent_difference (fuel : nat) (op : T -> T -> T) (l : list T)
             (out : list T) (result : nat) : outcome (list T * nat) :=
    match l with
    | [] => Ok (out, result)
    | x :: _ =>
        out' <- wr out result x ;;
        adjacent_difference_loop fuel op l 1 out' (S result)
    end.

  (** unumeric.h:123-149 [power]: lines 126 / 142 start from [x] or the
      literal 1 ([one]); the loop halves [n].  [N.div2 n] is [n /= 2]. *)
  Fixpoint power_loop (fuel : nat) (op : T -> T -> T) (x : T) (n : N) (result : T) : outcome T :=
    let n' := N.div2 n in
    if N.eqb n' 0 then Ok result else
    match fuel with
    | O => NoFuel
    | S f =>
        let x' := op x x in
        power_loop f op x' n' (if N.odd n' then op result x' else result)
    end.
  Definition power_op (one : T) (op : T -> T -> T) (x : T) (n : N) : outcome T :=
    power_loop (N.size_nat n) op x n (if N.odd n then x else one).
End Num.

Local Open Scope Z_scope.
(** uratio.h:12-18 [ratio<N,D>]: the normalised numerator and denominator
    (intmax_t overflow is a compile error and not modelled). *)
Definition ratio (n d : Z) : outcome (Z * Z) :=
  if d =? 0 then UB else
  g <- gcd n d ;;
  Ok (Z.quot (n * sign d) g, Z.quot (absv d) g).
(** uratio.h:27-36, 50-53 [ratio_add]. *)
Definition ratio_add (r1 r2 : Z * Z) : outcome (Z * Z) :=
  let '(n1, d1) := r1 in let '(n2, d2) := r2 in
  g <- gcd d1 d2 ;;
  let a := Z.quot d2 g * n1 in
  let b := Z.quot d1 g * n2 in
  ratio (a + b) (Z.quot d1 g * d2).
(** uratio.h:38-46, 55-58 [ratio_multiply]. *)
Definition ratio_multiply (r1 r2 : Z * Z) : outcome (Z * Z) :=
  let '(n1, d1) := r1 in let '(n2, d2) := r2 in
  g1 <- gcd n1 d2 ;;
  g2 <- gcd n2 d1 ;;
  ratio (Z.quot n1 g1 * Z.quot n2 g2) (Z.quot d1 g2 * Z.quot d2 g1).
(** uratio.h:60-61 [ratio_subtract]: adds [ratio<-R2::num,R2::den>]. *)
Definition ratio_subtract (r1 r2 : Z * Z) : outcome (Z * Z) :=
  r <- ratio (- fst r2) (snd r2) ;; ratio_add r1 r.
(** uratio.h:62-63 [ratio_divide]: multiplies by [ratio<R2::den,R2::num>]. *)
Definition ratio_divide (r1 r2 : Z * Z) : outcome (Z * Z) :=
  r <- ratio (snd r2) (fst r2) ;; ratio_multiply r1 r.
(** uratio.h:68-90 the comparators. *)
Definition ratio_equal (r1 r2 : Z * Z) : bool :=
  (fst r1 =? fst r2) && (snd r1 =? snd r2).
Definition ratio_less (r1 r2 : Z * Z) : outcome bool :=
  r <- ratio_subtract r1 r2 ;; Ok (fst r <? 0).
Definition ratio_less_equal (r1 r2 : Z * Z) : outcome bool :=
  r <- ratio_subtract r1 r2 ;; Ok (fst r <=? 0).
