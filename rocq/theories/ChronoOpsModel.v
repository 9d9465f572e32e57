(** * ChronoOpsModel: durations and time points in different units, and their texts (uchrono.h). *)
From Verif Require Import Base UtilModel NumericModel ChronoModel StrOpsModel.
From Coq Require Import ZArith List.
Import ListNotations.
Local Open Scope Z_scope.

(** ** Operators between durations of different units *)
(** The comparison templates of uchrono.h:95-118 have a parameter [Rep2] that no
    argument determines, so they never take part; what is left is the operator
    for one unit with the implicit conversion (60-65) of the right operand.
    [None]: does not compile. *)
Definition same_unit (p q : Z * Z) : bool := (fst p =? fst q) && (snd p =? snd q).
Definition to_left (p q : Z * Z) (d : Z) : option (outcome Z) :=
  if same_unit p q then Some (Ok d) else duration_convert q p d.
Definition mixed {A} (p q : Z * Z) (d : Z) (f : Z -> outcome A) : option (outcome A) :=
  match to_left p q d with
  | Some m => Some (d' <- m ;; f d')
  | None => None
  end.
(** uchrono.h:91, 92 [operator==], [operator<]; 82, 83 [operator+], [operator-]. *)
Definition d_eq (p q : Z * Z) (c d : Z) : option (outcome bool) := mixed p q d (fun d => Ok (c =? d)).
Definition d_less (p q : Z * Z) (c d : Z) : option (outcome bool) := mixed p q d (fun d => Ok (c <? d)).
Definition d_add (p q : Z * Z) (c d : Z) : option (outcome Z) := mixed p q d (duration_add c).
Definition d_sub (p q : Z * Z) (c d : Z) : option (outcome Z) := mixed p q d (duration_sub c).

(** ** Time points: the count of the duration since the epoch *)
(** uchrono.h:299-302 [operator+=], [operator-=], [operator-], [operator+]. *)
Definition tp_add (p q : Z * Z) (t d : Z) : option (outcome Z) := d_add p q t d.
Definition tp_sub (p q : Z * Z) (t d : Z) : option (outcome Z) := d_sub p q t d.
(** uchrono.h:303-311: difference, [operator==], [operator<] of two time points. *)
Definition tp_diff (p q : Z * Z) (t u : Z) : option (outcome Z) := d_sub p q t u.
Definition tp_eq (p q : Z * Z) (t u : Z) : option (outcome bool) := d_eq p q t u.
Definition tp_less (p q : Z * Z) (t u : Z) : option (outcome bool) := d_less p q t u.
(** uchrono.h:283-284 [time_point_cast], from unit [p] to unit [q]. *)
Definition tp_cast (p q : Z * Z) (t : Z) : outcome Z := duration_cast p q t.

(** ** Ends of the ranges *)
(** uchrono.h:36-38, 126-128 [zero], [min], [max] of an [intmax_t] duration. *)
Definition d_zero : Z := 0.
Definition d_min : Z := - 9223372036854775808.
Definition d_max : Z := 9223372036854775807.
(** uchrono.h:252-257 [zero], [min], [max] of [hrtime_t]. *)
Definition hr_zero : hrtime := Hr 0 0.
Definition hr_min : hrtime := Hr (- 9223372036854775808) (nano_den - 1).
Definition hr_max : hrtime := Hr 9223372036854775807 (nano_den - 1).

(** ** Texts *)
(** printf (3) %09ld: at least nine characters, filled with zeros after the sign. *)
Definition pad (w : nat) (ds : list Z) : list Z := repeat 48 (w - length ds) ++ ds.
Definition dec_text_0 (w : nat) (v : Z) : list Z :=
  if v <? 0 then 45 :: pad (w - 1) (dec_digits 20 (- v) []) else pad w (dec_digits 20 v []).
(** uchrono.h:246 [hrtime_t::text_write]: format "%ld.%09ld". *)
Definition hr_text (t : hrtime) : list Z := dec_text (tv_sec t) ++ [46] ++ dec_text_0 9 (tv_nsec t).
(** uchrono.h:160-171: the suffix of each named unit. *)
Inductive unit_name := Nanoseconds | Microseconds | Milliseconds | Seconds | Minutes | Hours | Days | Weeks | Years | Months | Centuries | Millenia.
Definition suffix (u : unit_name) : list Z :=
  match u with
  | Nanoseconds => [95; 110; 115]
  | Microseconds => [95; 117; 115]
  | Milliseconds => [95; 109; 115]
  | Seconds => [95; 115]
  | Minutes => [95; 109; 105; 110]
  | Hours => [95; 104; 111; 117; 114; 115]
  | Days => [95; 100; 97; 121; 115]
  | Weeks => [95; 119; 101; 101; 107; 115]
  | Years => [95; 121; 101; 97; 114; 115]
  | Months => [95; 109; 111; 110; 116; 104; 115]
  | Centuries => [95; 99; 101; 110; 116; 117; 114; 105; 101; 115]
  | Millenia => [95; 109; 105; 108; 108; 101; 110; 105; 97]
  end.
(** uchrono.h:143-154: the period of each named unit. *)
Definition unit_period (u : unit_name) : Z * Z :=
  match u with
  | Nanoseconds => nano | Microseconds => microsecond | Milliseconds => millisecond | Seconds => second
  | Minutes => minute | Hours => hour | Days => day | Weeks => week | Years => year | Months => month
  | Centuries => century | Millenia => millenium
  end.
(** uchrono.h:156-159, 138 [duration::text_write] of a named unit, to a stream with the default settings. *)
Definition d_text (u : unit_name) (c : Z) : list Z := dec_text c ++ suffix u.
