(** * P_Chrono: property theorems for uchrono.h (C77-C79). *)
From Verif Require Import Base UtilModel UtilSpec NumericModel ChronoModel ChronoSpec ChronoProofs.
From Coq Require Import ZArith.
Local Open Scope Z_scope.

(** ** C77: durations *)

(** Whatever a cast between durations returns is the number of whole ticks. *)
Theorem C77_duration_cast_value p q c r : period p -> period q ->
  duration_cast p q c = Ok r -> r = whole_ticks p q c.
Proof. exact (duration_cast_inv p q c r). Qed.
Print Assumptions C77_duration_cast_value.

(** Between periods one of which is a multiple of the other - as all the named
    ones from nanoseconds to weeks are - the cast gives the whole ticks
    whenever they can be represented. *)
Theorem C77_duration_cast_partial p q c : period p -> period q ->
  multiple p q \/ multiple q p -> int64 c -> int64 (whole_ticks p q c) ->
  duration_cast p q c = Ok (whole_ticks p q c).
Proof. intros Hp Hq Hm Hc Hi. apply duration_cast_ok; [assumption..|]. now apply multiple_product. Qed.
Print Assumptions C77_duration_cast_partial.

(** Otherwise the product computed first may overflow although the result is
    small: 10^17 weeks in months. *)
Theorem C77_duration_cast_refuted :
  exists p q c, period p /\ period q /\ int64 c /\ int64 (whole_ticks p q c) /\ duration_cast p q c = UB.
Proof.
  exists week, month, (10 ^ 17). split; [repeat split|]. split; [repeat split|].
  split; [split; vm_compute; congruence|]. split; [split; vm_compute; congruence|]. vm_compute. reflexivity.
Qed.
Print Assumptions C77_duration_cast_refuted.

(** The implicit conversion exists exactly when no precision can be lost, and
    is exact. *)
Theorem C77_implicit_conversion p q c : period p -> period q -> multiple p q -> int64 (whole_ticks p q c) ->
  exists d, duration_convert p q c = Some (Ok d) /\ same_time p c q d.
Proof.
  intros Hp Hq Hm Hi. destruct (duration_convert_ok p q c Hp Hq Hm Hi) as [A B]. now exists (whole_ticks p q c).
Qed.
Print Assumptions C77_implicit_conversion.

Theorem C77_no_lossy_conversion p q c : period p -> period q -> ~ multiple p q -> duration_convert p q c = None.
Proof. exact (duration_convert_none p q c). Qed.
Print Assumptions C77_no_lossy_conversion.

(** The calendar: whatever the count, a unit is the number of smaller units it
    should be (a year is the Julian 365 days and a quarter), as long as the
    result can be represented. *)
Theorem C77_units c : int64 c ->
  (int64 (1000 * c) -> duration_cast microsecond (1, nano_den) c = Ok (1000 * c) /\
     duration_cast millisecond microsecond c = Ok (1000 * c) /\ duration_cast second millisecond c = Ok (1000 * c)) /\
  (int64 (60 * c) -> duration_cast minute second c = Ok (60 * c) /\ duration_cast hour minute c = Ok (60 * c)) /\
  (int64 (24 * c) -> duration_cast day hour c = Ok (24 * c)) /\
  (int64 (7 * c) -> duration_cast week day c = Ok (7 * c)) /\
  (int64 (12 * c) -> duration_cast year month c = Ok (12 * c)) /\
  (int64 (8766 * c) -> duration_cast year hour c = Ok (8766 * c)) /\
  (int64 (100 * c) -> duration_cast century year c = Ok (100 * c)) /\
  (int64 (10 * c) -> duration_cast millenium century c = Ok (10 * c)) /\
  duration_cast second minute c = Ok (Z.quot c 60).
Proof.
  intros Hc.
  assert (T : forall p q k, period p -> period q -> multiple p q ->
            whole_ticks p q c = k * c -> int64 (k * c) -> duration_cast p q c = Ok (k * c)).
  { intros p q k Hp Hq Hm E Hi. rewrite <- E in *. apply C77_duration_cast_partial; auto. }
  assert (Q : forall p q k, 0 < snd p * fst q -> fst p * snd q = k * (snd p * fst q) -> whole_ticks p q c = k * c).
  { intros p q k Hpos E. unfold whole_ticks. replace (c * fst p * snd q) with (k * c * (snd p * fst q)) by (rewrite <- (Z.mul_assoc c), E; ring).
    apply Z.quot_mul. lia. }
  assert (U : forall p q k, period p -> period q -> fst p * snd q = k * (snd p * fst q) ->
            int64 (k * c) -> duration_cast p q c = Ok (k * c)).
  { intros p q k Hp Hq E Hi. apply T; try assumption; [now exists k|]. apply Q; [|assumption].
    destruct Hp as [[A _] _], Hq as [_ B]. now apply Z.mul_pos_pos. }
  assert (S : period nano /\ period microsecond /\ period millisecond /\ period second /\ period minute /\ period hour /\
    period day /\ period week /\ period year /\ period month /\ period century /\ period millenium)
    by (unfold period, lowest; repeat split; vm_compute; reflexivity).
  destruct S as (S1 & S2 & S3 & S4 & S5 & S6 & S7 & S8 & S9 & S10 & S11 & S12).
  split; [intros H; split; [|split]; apply U; auto|].
  split; [intros H; split; apply U; auto|].
  split; [intros H; apply U; auto|].
  split; [intros H; apply U; auto|].
  split; [intros H; apply U; auto|].
  split; [intros H; apply U; auto|].
  split; [intros H; apply U; auto|].
  split; [intros H; apply U; auto|].
  rewrite C77_duration_cast_partial; [|assumption|assumption|right; exists 60; reflexivity|assumption|].
  - f_equal. unfold whole_ticks. cbn [second minute fst snd]. f_equal; lia.
  - unfold whole_ticks. cbn [second minute fst snd]. replace (c * 1 * 1) with c by lia. apply quot_int64; [lia|assumption].
Qed.
Print Assumptions C77_units.

(** To a finer unit and back. *)
Theorem C77_round_trip p q c d : period p -> period q -> multiple p q -> int64 c ->
  duration_cast p q c = Ok d -> duration_cast q p d = Ok c.
Proof.
  intros Hp Hq Hm Hc E. pose proof (duration_cast_inv p q c d Hp Hq E) as D. subst d.
  rewrite <- (round_trip p q c Hp Hq Hm) at 2. apply duration_cast_ok; try assumption.
  apply multiple_product; try assumption; [now right| |now rewrite round_trip].
  unfold duration_cast in E. destruct (conv_ok p q Hp Hq) as (n & k & R & _ & Hk & _).
  rewrite R in E. cbn [bind fst snd] in E. destruct (s64 (c * n)) as [x| | |] eqn:S; try discriminate.
  apply s64_inv in S as [-> S]. cbn [bind] in E. rewrite quot64_ok in E by assumption.
  injection E as E. rewrite <- E. now apply quot_int64.
Qed.
Print Assumptions C77_round_trip.

Theorem C77_monotone p q a b x y : period p -> period q -> a <= b ->
  duration_cast p q a = Ok x -> duration_cast p q b = Ok y -> x <= y.
Proof.
  intros Hp Hq H A B. apply duration_cast_inv in A, B; try assumption. subst. now apply whole_ticks_mono.
Qed.
Print Assumptions C77_monotone.

(** Division and remainder belong together. *)
Theorem C77_divide a v : int64 a -> 0 < v -> exists k r,
  duration_div a v = Ok k /\ duration_mod a v = Ok r /\ a = k * v + r /\ Z.abs r < v.
Proof.
  intros Ha Hv. exists (Z.quot a v), (Z.rem a v). split; [now apply quot64_ok|]. split; [now apply rem64_ok|].
  pose proof (Z.quot_rem a v ltac:(lia)). pose proof (Z.rem_bound_abs a v ltac:(lia)). lia.
Qed.
Print Assumptions C77_divide.

Example C77_example :
  period week /\ period day /\ period millisecond /\ multiple week day /\ multiple second millisecond /\
  ~ multiple second minute /\
  duration_cast second minute 119 = Ok 1 /\ duration_cast second minute (-119) = Ok (-1) /\
  duration_convert second microsecond 1 = Some (Ok 1000000) /\ duration_convert second minute 60 = None /\
  duration_cast week month 100 = Ok 22.
Proof.
  split; [repeat split|]. split; [repeat split|]. split; [repeat split|].
  split; [exists 7; reflexivity|]. split; [exists 1000; reflexivity|].
  split; [intros [k K]; cbn in K; lia|]. repeat split.
Qed.

(** ** C78: hrtime_t *)
Theorem C78_add a b : normal a -> normal b -> moderate a -> moderate b ->
  exists r, hr_add a b = Ok r /\ normal r /\ ns r = ns a + ns b.
Proof. exact (hr_add_ok a b). Qed.
Print Assumptions C78_add.

Theorem C78_subtract a b : normal a -> normal b -> moderate a -> moderate b ->
  exists r, hr_sub a b = Ok r /\ normal r /\ ns r = ns a - ns b.
Proof. exact (hr_sub_ok a b). Qed.
Print Assumptions C78_subtract.

Theorem C78_compare a b : normal a -> normal b ->
  (hr_less a b = true <-> ns a < ns b) /\ (hr_eq a b = true <-> ns a = ns b).
Proof. split; [now apply hr_less_ok|now apply hr_eq_ok]. Qed.
Print Assumptions C78_compare.

Theorem C78_decrement a : normal a -> moderate a ->
  exists r, hr_decr a = Ok r /\ normal r /\ ns r = ns a - 1.
Proof. exact (hr_decr_ok a). Qed.
Print Assumptions C78_decrement.

(** ++ advances by one nanosecond, but is normalised only when the second is
    not reached. *)
Theorem C80_increment_partial a : normal a -> moderate a ->
  exists r, hr_incr a = Ok r /\ ns r = ns a + 1 /\ (tv_nsec a <> 10 ^ 9 - 1 -> normal r).
Proof. intros H M. apply hr_incr_ok; [unfold normal in H; lia|assumption]. Qed.
Print Assumptions C80_increment_partial.

(** After 999999999 ns comes 0 s 1000000000 ns, which compares different from
    (and less than) 1 s. *)
Theorem C80_increment_refuted :
  exists a r, normal a /\ moderate a /\ hr_incr a = Ok r /\ ~ normal r /\
    exists b, ns b = ns r /\ hr_eq r b = false /\ hr_less r b = true.
Proof.
  exists (Hr 0 999999999), (Hr 0 1000000000).
  split; [split; vm_compute; congruence|]. split; [split; vm_compute; congruence|].
  split; [reflexivity|]. split; [intros [_ H]; vm_compute in H; congruence|].
  exists (Hr 1 0). repeat split.
Qed.
Print Assumptions C80_increment_refuted.

Theorem C78_multiply a v : normal a -> 0 <= v -> int64 (tv_sec a * v) -> int64 (tv_nsec a * v) ->
  int64 (ns a * v / 10 ^ 9) -> exists r, hr_mul a v = Ok r /\ normal r /\ ns r = ns a * v.
Proof. exact (hr_mul_ok a v). Qed.
Print Assumptions C78_multiply.

(** The intermediate product of the nanoseconds may overflow although the
    result is representable: half a second times 2^35 (about 544 years). *)
Theorem C80_multiply_refuted :
  exists a v, normal a /\ moderate a /\ 0 <= v /\ int64 (ns a * v / 10 ^ 9) /\ hr_mul a v = UB.
Proof.
  exists (Hr 0 500000000), (2 ^ 35). split; [split; vm_compute; congruence|].
  split; [split; vm_compute; congruence|]. split; [vm_compute; congruence|].
  split; [split; vm_compute; congruence|]. vm_compute. reflexivity.
Qed.
Print Assumptions C80_multiply_refuted.

(** Division is right when the divisor divides the seconds ... *)
Theorem C80_divide_partial a v : normal a -> 0 < v -> int64 (tv_sec a) -> (v | tv_sec a) ->
  exists r, hr_div a v = Ok r /\ normal r /\ ns r = ns a / v.
Proof. exact (hr_div_ok a v). Qed.
Print Assumptions C80_divide_partial.

(** ... and wrong otherwise: for every positive divisor up to 2^33 that does
    not divide the seconds of a later-than-epoch time, the result is too
    large.  1 s / 2 is 1 s. *)
Theorem C80_divide_refuted :
  (forall a v, normal a -> 1 < v <= 2 ^ 33 -> int64 (tv_sec a) -> 0 <= tv_sec a -> ~ (v | tv_sec a) ->
    exists r, hr_div a v = Ok r /\ ns a / v < ns r) /\
  hr_div (Hr 1 0) 2 = Ok (Hr 0 1000000000).
Proof.
  split; [|reflexivity]. intros a v Ha [H1 H2] Hi Hp Hd.
  destruct (hr_div_value a v Ha ltac:(lia) Hi H2) as (r & R & V). exists r. split; [exact R|]. rewrite V.
  destruct a as [s n]. unfold normal, ns in *. cbn [tv_sec tv_nsec] in *.
  rewrite !Z.quot_div_nonneg by lia. rewrite Z.rem_mod_nonneg by lia.
  assert (1 <= s mod v).
  { pose proof (Z.mod_pos_bound s v ltac:(lia)). assert (s mod v <> 0); [|lia].
    intros E. apply Hd. now apply Z.mod_divide; [lia|]. }
  pose proof (Z.div_mod s v ltac:(lia)) as DM. pose proof (Z.mod_pos_bound s v ltac:(lia)) as MB.
  change (10 ^ 9) with 1000000000 in *.
  set (m := s mod v) in *. set (k := s / v) in *. clearbody m k. subst s.
  replace ((v * k + m) * 1000000000 + n) with (m * 1000000000 + n + k * 1000000000 * v) by ring.
  rewrite Z.div_add by lia.
  assert ((m * 1000000000 + n) / v < m * 1000000000 + n / v); [|lia].
  assert ((m * 1000000000 + n) / v <= m * 1000000000 / v + n / v + 1).
  { pose proof (Z.div_mod (m * 1000000000) v ltac:(lia)). pose proof (Z.mod_pos_bound (m * 1000000000) v ltac:(lia)).
    pose proof (Z.div_mod n v ltac:(lia)). pose proof (Z.mod_pos_bound n v ltac:(lia)).
    assert ((m * 1000000000 + n) / v < m * 1000000000 / v + n / v + 2); [|lia].
    apply Z.div_lt_upper_bound; [lia|]. nia. }
  assert (m * 1000000000 / v <= m * 1000000000 / 2).
  { apply Z.div_le_compat_l; lia. }
  assert (m * 1000000000 / 2 = m * 500000000) as E2.
  { replace (m * 1000000000) with (m * 500000000 * 2) by ring. apply Z.div_mul. lia. }
  lia.
Qed.
Print Assumptions C80_divide_refuted.

(** Negation gives the negated time, but not in the form the comparison
    operators need. *)
Theorem C80_negate_partial a : normal a -> moderate a ->
  exists r, hr_neg a = Ok r /\ ns r = - ns a /\ (tv_nsec a = 0 -> normal r).
Proof.
  destruct a as [s n]. intros Ha Ma. unfold hr_neg. cbn [tv_sec tv_nsec]. s64s.
  eexists. split; [reflexivity|]. range. lia.
Qed.
Print Assumptions C80_negate_partial.

Theorem C80_negate_refuted :
  exists a z r d, normal a /\ normal z /\ ns z = 0 /\ hr_neg a = Ok r /\ hr_sub z a = Ok d /\
    ns r = ns d /\ hr_eq r d = false.
Proof.
  exists (Hr 0 500000000), (Hr 0 0), (Hr 0 (-500000000)), (Hr (-1) 500000000).
  split; [split; vm_compute; congruence|]. split; [split; vm_compute; congruence|]. repeat split.
Qed.
Print Assumptions C80_negate_refuted.

(** To an integer and back. *)
Theorem C78_integer_round_trip v : int64 v ->
  exists t, hr_of_int v = Ok t /\ ns t = v /\ hr_to_int t = Ok v /\ (0 <= v -> normal t).
Proof.
  intros Hv. destruct (hr_int_round v Hv) as (t & E & B). destruct (hr_of_int_ok v Hv) as (t' & E' & V & N & _).
  rewrite E in E'. injection E' as <-. now exists t.
Qed.
Print Assumptions C78_integer_round_trip.

Example C78_example :
  normal (Hr 5 999999999) /\ moderate (Hr 5 999999999) /\
  hr_add (Hr 5 999999999) (Hr 1 1) = Ok (Hr 7 0) /\ hr_sub (Hr 7 0) (Hr 5 999999999) = Ok (Hr 1 1) /\
  hr_decr (Hr 7 0) = Ok (Hr 6 999999999) /\ hr_mul (Hr 1 500000000) 3 = Ok (Hr 4 500000000) /\
  hr_div (Hr 4 500000000) 2 = Ok (Hr 2 250000000) /\ hr_of_int 1500000000 = Ok (Hr 1 500000000).
Proof. split; [split; vm_compute; congruence|]. split; [split; vm_compute; congruence|]. repeat split. Qed.

(** ** C79: between hrtime_t and integer durations *)

(** To a unit that divides the nanosecond-resolved second (ns, us, ms, s):
    the time rounded down. *)
Theorem C79_to_fraction k m t : 0 < k -> 0 < m -> k * m = 10 ^ 9 -> normal t -> int64 (tv_sec t * k) ->
  int64 (ns t / m) -> cast_from_hr (1, k) t = Ok (ns t / m).
Proof. exact (cast_from_hr_sub k m t). Qed.
Print Assumptions C79_to_fraction.

(** To a whole number of seconds (s, min, hours, ...). *)
Theorem C79_to_multiple m t : 0 < m < 2 ^ 63 -> normal t -> 0 <= tv_sec t -> int64 (tv_sec t) ->
  cast_from_hr (m, 1) t = Ok (ns t / (m * 10 ^ 9)).
Proof. exact (cast_from_hr_mult m t). Qed.
Print Assumptions C79_to_multiple.

(** Other units: seconds and nanoseconds are truncated separately, one whole
    tick can get lost: 1.6 s in units of 1.5 s. *)
Theorem C81_to_other_refuted :
  exists q t, period q /\ normal t /\ whole_ticks nano q (ns t) = 1 /\ cast_from_hr q t = Ok 0.
Proof.
  exists (3, 2), (Hr 1 600000000). split; [repeat split|]. split; [split; vm_compute; congruence|].
  split; lazy; reflexivity.
Qed.
Print Assumptions C81_to_other_refuted.

(** The steady clock never runs backwards as long as the system's monotonic
    clock does not. *)
Theorem C79_steady_clock a b x y : normal a -> normal b -> int64 (ns a) -> int64 (ns b) ->
  int64 (tv_sec a * 10 ^ 9) -> int64 (tv_sec b * 10 ^ 9) ->
  cast_from_hr nano a = Ok x -> cast_from_hr nano b = Ok y -> (ns a <= ns b <-> x <= y).
Proof.
  intros Na Nb Ia Ib Sa Sb A B. change (cast_from_hr (1, 10 ^ 9) a = Ok x) in A.
  change (cast_from_hr (1, 10 ^ 9) b = Ok y) in B.
  rewrite (cast_from_hr_sub (10 ^ 9) 1) in A; try assumption; try lia; try (now rewrite Z.div_1_r).
  rewrite (cast_from_hr_sub (10 ^ 9) 1) in B; try assumption; try lia; try (now rewrite Z.div_1_r).
  injection A as <-. injection B as <-. rewrite !Z.div_1_r. reflexivity.
Qed.
Print Assumptions C79_steady_clock.

(** From an integer duration whose tick is a whole number [k] of nanoseconds. *)
Theorem C81_from_integer_partial p k c : period p -> 0 < k -> fst p * 10 ^ 9 = k * snd p ->
  0 <= c -> int64 c -> int64 (c / 10 ^ 9 * k) -> int64 (c mod 10 ^ 9 * k) -> int64 (c * k / 10 ^ 9) ->
  exists t, cast_to_hr p c = Ok t /\ normal t /\ ns t = c * k.
Proof. exact (cast_to_hr_multiple p k c). Qed.
Print Assumptions C81_from_integer_partial.

(** Whole seconds of any size. *)
Theorem C79_from_seconds c : 0 <= c < 2 ^ 63 -> cast_to_hr second c = Ok (Hr c 0).
Proof.
  intros [H0 H1].
  destruct (cast_to_hr_multiple second (10 ^ 9) c) as ([s n] & E & N & V).
  - repeat split.
  - reflexivity.
  - reflexivity.
  - assumption.
  - split; [pose proof (Z.pow_nonneg 2 63)|]; lia.
  - pose proof (Z.div_mod c (10 ^ 9) ltac:(lia)). pose proof (Z.mod_pos_bound c (10 ^ 9) ltac:(lia)).
    pose proof (Z.div_pos c (10 ^ 9) ltac:(lia) ltac:(lia)). range. lia.
  - pose proof (Z.mod_pos_bound c (10 ^ 9) ltac:(lia)). range. lia.
  - rewrite Z.div_mul by lia. split; [pose proof (Z.pow_nonneg 2 63)|]; lia.
  - rewrite E. unfold ns, normal in *. cbn [tv_sec tv_nsec] in *. change (10 ^ 9) with 1000000000 in *.
    f_equal. f_equal; lia.
Qed.
Print Assumptions C79_from_seconds.

(** Times before the epoch come out in a form that compares wrong; an hour
    count of a few million (about 300 years) overflows; a unit finer than the
    nanosecond is off by orders of magnitude (5 ms come out as 5 s). *)
Theorem C81_from_integer_refuted :
  (exists t, cast_to_hr second (-5) = Ok t /\ ns t = ns (Hr (-5) 0) /\ hr_eq t (Hr (-5) 0) = false /\
     hr_less (Hr (-5) 0) t = true) /\
  cast_to_hr hour 3000000 = UB /\
  (exists t, cast_to_hr (1, 10 ^ 12) (5 * 10 ^ 9) = Ok t /\ ns t = 5 * 10 ^ 9).
Proof.
  split; [exists (Hr 0 (-5000000000)); split; [lazy; reflexivity|repeat split]|]. split; [lazy; reflexivity|].
  exists (Hr 0 5000000000). split; lazy; reflexivity.
Qed.
Print Assumptions C81_from_integer_refuted.

Example C79_example :
  cast_from_hr millisecond (Hr 7200 42999999) = Ok 7200042 /\ cast_from_hr minute (Hr 7199 42) = Ok 119 /\
  cast_from_hr millisecond (Hr (-1) 500000000) = Ok (-500) /\
  cast_to_hr hour 2 = Ok (Hr 7200 0) /\ cast_to_hr millisecond 42 = Ok (Hr 0 42000000) /\
  normal (Hr 7200 42999999) /\ 1000 * 1000000 = 10 ^ 9.
Proof. do 5 (split; [lazy; reflexivity|]). split; [split; vm_compute; congruence|reflexivity]. Qed.
