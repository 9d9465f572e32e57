(** * ChronoModel: uchrono.h.

    [intmax_t], [time_t] and [long] are 64 bits wide (x86-64); a signed
    operation whose result does not fit is [UB].  Periods are the pairs
    (num, den) that [ratio] computes (NumericModel). *)
From Verif Require Import Base UtilModel NumericModel.
From Coq Require Import ZArith.
Local Open Scope Z_scope.

(** The result of a signed 64-bit operation. *)
Definition s64 (x : Z) : outcome Z :=
  if (- 9223372036854775808 <=? x) && (x <=? 9223372036854775807) then Ok x else UB.
(** Signed 64-bit division and remainder (truncating). *)
Definition quot64 (x y : Z) : outcome Z := if y =? 0 then UB else s64 (Z.quot x y).
Definition rem64 (x y : Z) : outcome Z :=
  if y =? 0 then UB else _ <- s64 (Z.quot x y) ;; Ok (Z.rem x y).

(** uratio.h:107 [nano::den]. *)
Definition nano_den : Z := 1000000000.
Definition nano : Z * Z := (1, nano_den).

(** ** Durations with an integer representation *)

(** uchrono.h:19-24, 28-29 [duration_cast] from [duration<intmax_t, p>] to
    [duration<intmax_t, q>]: the count of the result. *)
Definition duration_cast (p q : Z * Z) (c : Z) : outcome Z :=
  conv <- ratio_divide p q ;;
  x <- s64 (c * fst conv) ;;
  quot64 x (snd conv).
(** uchrono.h:60-65: the converting constructor; it takes part in overload
    resolution only when the conversion ratio is a whole number ([None] is a
    compile error). *)
Definition duration_convert (p q : Z * Z) (c : Z) : option (outcome Z) :=
  match ratio_divide p q with
  | Ok (_, d) => if d =? 1 then Some (duration_cast p q c) else None
  | _ => None
  end.
(** uchrono.h:73, 78-83, 86-89: [operator- (void)], [operator+], [operator-],
    [operator*=], [operator/=], [operator%=] on the counts. *)
Definition duration_neg (a : Z) : outcome Z := s64 (- a).
Definition duration_add (a b : Z) : outcome Z := s64 (a + b).
Definition duration_sub (a b : Z) : outcome Z := s64 (a - b).
Definition duration_mul (a v : Z) : outcome Z := s64 (a * v).
Definition duration_div (a v : Z) : outcome Z := quot64 a v.
Definition duration_mod (a v : Z) : outcome Z := rem64 a v.

(** uchrono.h:143-154: the periods of the named durations. *)
Definition microsecond : Z * Z := (1, 1000000).
Definition millisecond : Z * Z := (1, 1000).
Definition second : Z * Z := (1, 1).
Definition minute : Z * Z := (60, 1).
Definition hour : Z * Z := (60 * 60, 1).
Definition day : Z * Z := (60 * 60 * 24, 1).
Definition week : Z * Z := (60 * 60 * 24 * 7, 1).
Definition year : Z * Z := (365 * 86400 + 86400 / 4, 1).
Definition month : Z * Z := (31557600 / 12, 1).
Definition century : Z * Z := (31557600 * 100, 1).
Definition millenium : Z * Z := (31557600 * 1000, 1).

(** ** hrtime_t *)

(** uchrono.h:177: [timespec]. *)
Record hrtime := Hr { tv_sec : Z; tv_nsec : Z }.

(** uchrono.h:183 [hrtime_t (intmax_t)]. *)
Definition hr_of_int (v : Z) : outcome hrtime :=
  s <- quot64 v nano_den ;;
  n <- rem64 v nano_den ;;
  Ok (Hr s n).
(** uchrono.h:186 [operator intmax_t]. *)
Definition hr_to_int (t : hrtime) : outcome Z :=
  x <- s64 (tv_sec t * nano_den) ;; s64 (x + tv_nsec t).
(** uchrono.h:190 [operator- (void)]. *)
Definition hr_neg (t : hrtime) : outcome hrtime :=
  s <- s64 (- tv_sec t) ;; n <- s64 (- tv_nsec t) ;; Ok (Hr s n).
(** uchrono.h:191-197 [operator++]. *)
Definition hr_incr (t : hrtime) : outcome hrtime :=
  n <- s64 (tv_nsec t + 1) ;;
  if nano_den <? n then
    n' <- s64 (n - nano_den) ;;
    s <- s64 (tv_sec t + 1) ;;
    Ok (Hr s n')
  else Ok (Hr (tv_sec t) n).
(** uchrono.h:198-205 [operator--]. *)
Definition hr_decr (t : hrtime) : outcome hrtime :=
  if tv_nsec t =? 0 then
    s <- s64 (tv_sec t - 1) ;;
    n <- s64 (nano_den - 1) ;;
    Ok (Hr s n)
  else
    n <- s64 (tv_nsec t - 1) ;;
    Ok (Hr (tv_sec t) n).
(** uchrono.h:208-215 [operator+=]. *)
Definition hr_add (t v : hrtime) : outcome hrtime :=
  n <- s64 (tv_nsec t + tv_nsec v) ;;
  '(s1, n1) <- (if nano_den <=? n then
           n' <- s64 (n - nano_den) ;;
           s <- s64 (tv_sec t + 1) ;;
           Ok (s, n')
         else Ok (tv_sec t, n)) ;;
  s <- s64 (s1 + tv_sec v) ;;
  Ok (Hr s n1).
(** uchrono.h:216-223 [operator-=]. *)
Definition hr_sub (t v : hrtime) : outcome hrtime :=
  n <- s64 (tv_nsec t - tv_nsec v) ;;
  '(s1, n1) <- (if n <? 0 then
           n' <- s64 (n + nano_den) ;;
           s <- s64 (tv_sec t - 1) ;;
           Ok (s, n')
         else Ok (tv_sec t, n)) ;;
  s <- s64 (s1 - tv_sec v) ;;
  Ok (Hr s n1).
(** uchrono.h:224-231 [operator*=]. *)
Definition hr_mul (t : hrtime) (v : Z) : outcome hrtime :=
  s <- s64 (tv_sec t * v) ;;
  n <- s64 (tv_nsec t * v) ;;
  if nano_den <=? n then
    q <- quot64 n nano_den ;;
    s' <- s64 (s + q) ;;
    n' <- rem64 n nano_den ;;
    Ok (Hr s' n')
  else Ok (Hr s n).
(** uchrono.h:232-237 [operator/=]. *)
Definition hr_div (t : hrtime) (v : Z) : outcome hrtime :=
  n <- quot64 (tv_nsec t) v ;;
  r <- rem64 (tv_sec t) v ;;
  m <- s64 (r * nano_den) ;;
  n' <- s64 (n + m) ;;
  s <- quot64 (tv_sec t) v ;;
  Ok (Hr s n').
(** uchrono.h:242-243 [operator==] and [operator<]. *)
Definition hr_eq (a b : hrtime) : bool :=
  (tv_sec a =? tv_sec b) && (tv_nsec a =? tv_nsec b).
Definition hr_less (a b : hrtime) : bool :=
  (tv_sec a <? tv_sec b) || ((tv_sec a =? tv_sec b) && (tv_nsec a <? tv_nsec b)).

(** ** Casts between hrtime_t and integer durations *)

(** uchrono.h:264-275: [duration_cast] of [duration<hrtime_t, nano>] to
    [duration<intmax_t, q>], as used by [steady_clock::now] (uchrono.h:386-391),
    [system_clock_hr::now] and [time_point_cast]. *)
Definition cast_from_hr (q : Z * Z) (t : hrtime) : outcome Z :=
  ns_conv <- ratio_divide nano q ;;
  s_conv <- ratio_divide ns_conv nano ;;
  x <- s64 (tv_sec t * fst s_conv) ;;
  a <- quot64 x (snd s_conv) ;;
  y <- s64 (tv_nsec t * fst ns_conv) ;;
  b <- quot64 y (snd ns_conv) ;;
  s64 (a + b).
(** uchrono.h:19-24 at [ToDuration] = [duration<hrtime_t, nano>]: the count is
    converted to [hrtime_t] first, the multiplication and the division are
    those of [hrtime_t]. *)
Definition cast_to_hr (p : Z * Z) (c : Z) : outcome hrtime :=
  conv <- ratio_divide p nano ;;
  t <- hr_of_int c ;;
  m <- hr_mul t (fst conv) ;;
  hr_div m (snd conv).
