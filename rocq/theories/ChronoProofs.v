(** * ChronoProofs *)
From Verif Require Import Base UtilModel UtilSpec UtilProofs NumericModel NumericProofs ChronoModel ChronoSpec.
From Coq Require Import ZArith Znumtheory.
Local Open Scope Z_scope.

Lemma s64_ok x : int64 x -> s64 x = Ok x.
Proof.
  unfold int64, s64. change (2 ^ 63) with 9223372036854775808. intros H.
  destruct (Z.leb_spec (- 9223372036854775808) x); [|lia].
  destruct (Z.leb_spec x 9223372036854775807); [reflexivity|lia].
Qed.
Lemma s64_inv x y : s64 x = Ok y -> y = x /\ int64 x.
Proof.
  unfold int64, s64. change (2 ^ 63) with 9223372036854775808.
  destruct (Z.leb_spec (- 9223372036854775808) x); cbn [andb]; [|discriminate].
  destruct (Z.leb_spec x 9223372036854775807); [|discriminate]. intros [= <-]. lia.
Qed.
Lemma quot_le x y : 0 < y -> Z.abs (Z.quot x y) <= Z.abs x.
Proof.
  intros H. rewrite <- Z.quot_abs by lia. rewrite (Z.abs_eq y) by lia.
  destruct (Z.eq_dec y 1) as [->|]; [rewrite Z.quot_1_r; lia|].
  destruct (Z.eq_dec (Z.abs x) 0) as [->|]; [rewrite Z.quot_0_l; lia|].
  assert (Z.abs x ÷ y < Z.abs x) by (apply Z.quot_lt; lia). lia.
Qed.
Lemma quot_int64 x y : 0 < y -> int64 x -> int64 (Z.quot x y).
Proof.
  intros Hy Hx. pose proof (quot_le x y Hy). unfold int64 in *. change (2 ^ 63) with 9223372036854775808 in *.
  assert (x = - 9223372036854775808 \/ Z.abs x <= 9223372036854775807) as [->|] by lia; [|lia].
  split; [lia|]. enough (Z.quot (-9223372036854775808) y <= 0) by lia.
  change (-9223372036854775808) with (- (9223372036854775808)). rewrite Z.quot_opp_l by lia. pose proof (Z.quot_pos 9223372036854775808 y). lia.
Qed.
Lemma quot64_ok x y : 0 < y -> int64 x -> quot64 x y = Ok (Z.quot x y).
Proof.
  intros Hy Hx. unfold quot64. destruct (Z.eqb_spec y 0); [lia|]. now apply s64_ok, quot_int64.
Qed.
Lemma rem64_ok x y : 0 < y -> int64 x -> rem64 x y = Ok (Z.rem x y).
Proof.
  intros Hy Hx. unfold rem64. destruct (Z.eqb_spec y 0); [lia|].
  rewrite s64_ok by now apply quot_int64. reflexivity.
Qed.

(** ** Durations *)
Lemma conv_ok p q : period p -> period q ->
  exists n d, ratio_divide p q = Ok (n, d) /\ 0 < n /\ 0 < d /\ Z.gcd n d = 1 /\
    n * (snd p * fst q) = d * (fst p * snd q).
Proof.
  intros [Lp Pp] [Lq Pq]. destruct (ratio_divide_ok p q Lp Lq ltac:(lia)) as ([n d] & E & [Hd Hg] & S).
  unfold same_ratio in S. cbn [fst snd] in *. exists n, d.
  split; [exact E|]. destruct Lp as [Dp _], Lq as [Dq _].
  assert (0 < n).
  { assert (0 < fst p * snd q) by (apply Z.mul_pos_pos; lia).
    assert (0 < snd p * fst q) by (apply Z.mul_pos_pos; lia). nia. }
  repeat split; try assumption. rewrite S. apply Z.mul_comm.
Qed.
Lemma quot_cross a b c d : 0 < b -> 0 < d -> a * d = c * b -> Z.quot a b = Z.quot c d.
Proof.
  intros Hb Hd E.
  transitivity (Z.quot (a * d) (b * d)); [symmetry; apply Z.quot_mul_cancel_r; lia|].
  rewrite E, (Z.mul_comm b d). apply Z.quot_mul_cancel_r; lia.
Qed.
Lemma whole_conv p q n d c : period p -> period q -> 0 < d -> n * (snd p * fst q) = d * (fst p * snd q) ->
  Z.quot (c * n) d = whole_ticks p q c.
Proof.
  intros [[Dp _] Pp] [[Dq _] Pq] Hd E. unfold whole_ticks.
  apply quot_cross; [assumption|apply Z.mul_pos_pos; lia|].
  replace (c * n * (snd p * fst q)) with (c * (n * (snd p * fst q))) by ring. rewrite E. ring.
Qed.

(** The product the cast computes first. *)
Definition cast_product (p q : Z * Z) (c : Z) : Prop :=
  exists n d, 0 < d /\ Z.gcd n d = 1 /\ n * (snd p * fst q) = d * (fst p * snd q) /\ int64 (c * n).

Lemma frac_unique n d n' d' X Y : 0 < d -> 0 < d' -> 0 < X -> Z.gcd n d = 1 -> Z.gcd n' d' = 1 ->
  n * X = d * Y -> n' * X = d' * Y -> n = n' /\ d = d'.
Proof.
  intros Hd Hd' HX G G' E E'.
  assert (n * d' = n' * d).
  { apply (Z.mul_reg_r _ _ X); [lia|].
    replace (n * d' * X) with (d' * (n * X)) by ring.
    replace (n' * d * X) with (d * (n' * X)) by ring. rewrite E, E'. ring. }
  assert ((n, d) = (n', d')) as [= -> ->]; [|now split].
  apply lowest_unique; unfold lowest, same_ratio; cbn [fst snd]; repeat split; assumption.
Qed.

Lemma duration_cast_ok p q c : period p -> period q -> cast_product p q c ->
  duration_cast p q c = Ok (whole_ticks p q c).
Proof.
  intros Hp Hq (n & d & Hd & G & E & Hi).
  destruct (conv_ok p q Hp Hq) as (n' & d' & R & _ & Hd' & G' & E').
  destruct (frac_unique n d n' d' (snd p * fst q) (fst p * snd q)) as [-> ->]; try assumption.
  { destruct Hp as [[? _] ?], Hq as [_ ?]. apply Z.mul_pos_pos; lia. }
  unfold duration_cast. rewrite R. cbn [bind fst snd]. rewrite s64_ok by assumption. cbn [bind].
  rewrite quot64_ok by assumption. f_equal. now apply whole_conv.
Qed.

Lemma duration_cast_inv p q c r : period p -> period q -> duration_cast p q c = Ok r ->
  r = whole_ticks p q c.
Proof.
  intros Hp Hq. destruct (conv_ok p q Hp Hq) as (n & d & R & _ & Hd & G & E).
  unfold duration_cast. rewrite R. cbn [bind fst snd].
  destruct (s64 (c * n)) as [x| | |] eqn:S; cbn [bind]; try discriminate.
  apply s64_inv in S as [-> S]. rewrite quot64_ok by assumption. intros [= <-]. now apply whole_conv.
Qed.

(** Coarser to finer. *)
Lemma multiple_conv p q n d : period p -> period q -> multiple p q -> 0 < d -> Z.gcd n d = 1 ->
  n * (snd p * fst q) = d * (fst p * snd q) -> d = 1 /\ fst p * snd q = n * (snd p * fst q).
Proof.
  intros [[Dp _] Pp] [[Dq _] Pq] [k Hk] Hd G E.
  assert (0 < snd p * fst q) by (apply Z.mul_pos_pos; lia).
  assert (n = d * k).
  { apply (Z.mul_reg_r _ _ (snd p * fst q)); [lia|]. rewrite E, Hk. ring. }
  subst n. rewrite Z.gcd_comm, Z.gcd_mul_diag_l in G by lia.
  subst d. split; [reflexivity|]. rewrite Hk. ring.
Qed.
Lemma duration_convert_ok p q c : period p -> period q -> multiple p q ->
  int64 (whole_ticks p q c) ->
  duration_convert p q c = Some (Ok (whole_ticks p q c)) /\ same_time p c q (whole_ticks p q c).
Proof.
  intros Hp Hq Hm Hi. destruct (conv_ok p q Hp Hq) as (n & d & R & _ & Hd & G & E).
  destruct (multiple_conv p q n d Hp Hq Hm Hd G E) as [-> M].
  assert (whole_ticks p q c = c * n) as W.
  { rewrite <- (whole_conv p q n 1 c Hp Hq Hd E). apply Z.quot_1_r. }
  split.
  - unfold duration_convert. rewrite R. cbn [Z.eqb Pos.eqb]. f_equal. apply duration_cast_ok; try assumption.
    exists n, 1. repeat split; try assumption; rewrite <- W; apply Hi.
  - unfold same_time. rewrite W.
    replace (c * fst p * snd q) with (c * (fst p * snd q)) by ring. rewrite M. ring.
Qed.
Lemma duration_convert_none p q c : period p -> period q -> ~ multiple p q -> duration_convert p q c = None.
Proof.
  intros Hp Hq Hm. destruct (conv_ok p q Hp Hq) as (n & d & R & _ & Hd & G & E).
  unfold duration_convert. rewrite R. destruct (Z.eqb_spec d 1) as [->|]; [|reflexivity].
  destruct Hm. exists n. rewrite E. ring.
Qed.

Lemma whole_ticks_mono p q a b : period p -> period q -> a <= b -> whole_ticks p q a <= whole_ticks p q b.
Proof.
  intros [[Dp _] Pp] [[Dq _] Pq] H. unfold whole_ticks. apply Z.quot_le_mono.
  - apply Z.mul_pos_pos; lia.
  - rewrite <- !Z.mul_assoc. apply Z.mul_le_mono_nonneg_r; [|assumption]. apply Z.mul_nonneg_nonneg; lia.
Qed.
Lemma round_trip p q c : period p -> period q -> multiple p q ->
  whole_ticks q p (whole_ticks p q c) = c.
Proof.
  intros Hp Hq Hm. destruct (conv_ok p q Hp Hq) as (n & d & R & Hn & Hd & G & E).
  destruct (multiple_conv p q n d Hp Hq Hm Hd G E) as [-> M].
  assert (whole_ticks p q c = c * n) as ->.
  { rewrite <- (whole_conv p q n 1 c Hp Hq Hd E). apply Z.quot_1_r. }
  destruct Hp as [[Dp _] Pp], Hq as [[Dq _] Pq]. unfold whole_ticks.
  replace (c * n * fst q * snd p) with (c * (snd q * fst p)).
  2:{ rewrite (Z.mul_comm (snd q)), M. ring. }
  apply Z.quot_mul. assert (0 < snd q * fst p) by (apply Z.mul_pos_pos; lia). lia.
Qed.
(** An existing cast of [p] to [q] never overflows on the way when either
    period is a multiple of the other and the result fits. *)
Lemma multiple_product p q c : period p -> period q -> multiple p q \/ multiple q p ->
  int64 c -> int64 (whole_ticks p q c) -> cast_product p q c.
Proof.
  intros Hp Hq Hm Hc Hi. destruct (conv_ok p q Hp Hq) as (n & d & R & Hn & Hd & G & E).
  exists n, d. repeat split; try assumption.
  all: destruct Hm as [Hm|Hm].
  1,3: destruct (multiple_conv p q n d Hp Hq Hm Hd G E) as [-> M];
    rewrite <- (Z.quot_1_r (c * n)), (whole_conv p q n 1 c Hp Hq Hd E); apply Hi.
  all: destruct (multiple_conv q p d n Hq Hp Hm Hn ltac:(rewrite Z.gcd_comm; exact G)
    ltac:(rewrite (Z.mul_comm (snd q)), (Z.mul_comm (fst q)); symmetry; exact E)) as [-> M];
    rewrite Z.mul_1_r; apply Hc.
Qed.

(** ** hrtime_t *)
Ltac range := unfold int64, normal, moderate, ns in *;
  change (2 ^ 63) with 9223372036854775808 in *; change (2 ^ 62) with 4611686018427387904 in *;
  change (10 ^ 9) with 1000000000 in *; unfold nano_den in *; cbn [tv_sec tv_nsec fst snd] in *.
Ltac s64s := repeat (first [rewrite bind_Ok | rewrite s64_ok by (range; lia)]); cbv beta iota.

Lemma hr_add_ok a b : normal a -> normal b -> moderate a -> moderate b ->
  exists r, hr_add a b = Ok r /\ normal r /\ ns r = ns a + ns b.
Proof.
  destruct a as [s n], b as [s' n']. intros Ha Hb Ma Mb. unfold hr_add. cbn [tv_sec tv_nsec]. s64s.
  destruct (Z.leb_spec nano_den (n + n')).
  - s64s. eexists. split; [reflexivity|]. range. lia.
  - s64s. eexists. split; [reflexivity|]. range. lia.
Qed.
Lemma hr_sub_ok a b : normal a -> normal b -> moderate a -> moderate b ->
  exists r, hr_sub a b = Ok r /\ normal r /\ ns r = ns a - ns b.
Proof.
  destruct a as [s n], b as [s' n']. intros Ha Hb Ma Mb. unfold hr_sub. cbn [tv_sec tv_nsec]. s64s.
  destruct (Z.ltb_spec (n - n') 0).
  - s64s. eexists. split; [reflexivity|]. range. lia.
  - s64s. eexists. split; [reflexivity|]. range. lia.
Qed.
Lemma hr_incr_ok a : 0 <= tv_nsec a <= 10 ^ 9 -> moderate a ->
  exists r, hr_incr a = Ok r /\ ns r = ns a + 1 /\ (tv_nsec a <> 10 ^ 9 - 1 -> normal r).
Proof.
  destruct a as [s n]. intros Ha Ma. unfold hr_incr. cbn [tv_sec tv_nsec] in *. s64s.
  destruct (Z.ltb_spec nano_den (n + 1)).
  - s64s. eexists. split; [reflexivity|]. range. lia.
  - eexists. split; [reflexivity|]. range. lia.
Qed.
Lemma hr_decr_ok a : normal a -> moderate a ->
  exists r, hr_decr a = Ok r /\ normal r /\ ns r = ns a - 1.
Proof.
  destruct a as [s n]. intros Ha Ma. unfold hr_decr. cbn [tv_sec tv_nsec] in *.
  destruct (Z.eqb_spec n 0).
  - s64s. eexists. split; [reflexivity|]. range. lia.
  - s64s. eexists. split; [reflexivity|]. range. lia.
Qed.
Lemma hr_less_ok a b : normal a -> normal b -> (hr_less a b = true <-> ns a < ns b).
Proof.
  destruct a as [s n], b as [s' n']. intros Ha Hb. unfold hr_less. cbn [tv_sec tv_nsec].
  rewrite orb_true_iff, andb_true_iff, !Z.ltb_lt, Z.eqb_eq. range. lia.
Qed.
Lemma hr_eq_ok a b : normal a -> normal b -> (hr_eq a b = true <-> ns a = ns b).
Proof.
  destruct a as [s n], b as [s' n']. intros Ha Hb. unfold hr_eq. cbn [tv_sec tv_nsec].
  rewrite andb_true_iff, !Z.eqb_eq. range. lia.
Qed.
Lemma hr_of_int_ok v : int64 v ->
  exists t, hr_of_int v = Ok t /\ ns t = v /\ (0 <= v -> normal t) /\ - 10 ^ 9 < tv_nsec t < 10 ^ 9.
Proof.
  intros Hv. unfold hr_of_int. rewrite quot64_ok by (range; lia). cbn [bind].
  rewrite rem64_ok by (range; lia). cbn [bind]. eexists. split; [reflexivity|].
  pose proof (Z.quot_rem v nano_den ltac:(unfold nano_den; lia)) as E.
  pose proof (Z.rem_bound_abs v nano_den ltac:(unfold nano_den; lia)) as B.
  assert (0 <= v -> 0 <= Z.rem v nano_den) by (intros; apply Z.rem_nonneg; unfold nano_den; lia).
  range. split; [lia|]. split; [lia|]. lia.
Qed.
Lemma hr_to_int_ok t : normal t -> int64 (ns t) -> int64 (tv_sec t * 10 ^ 9) -> hr_to_int t = Ok (ns t).
Proof.
  destruct t as [s n]. intros Ht Hi Hs. unfold hr_to_int. cbn [tv_sec tv_nsec] in *. s64s. reflexivity.
Qed.
Lemma hr_int_round v : int64 v -> exists t, hr_of_int v = Ok t /\ hr_to_int t = Ok v.
Proof.
  intros Hv. destruct (hr_of_int_ok v Hv) as ([s n] & E & V & _ & B). exists (Hr s n). split; [exact E|].
  unfold hr_to_int. cbn [tv_sec tv_nsec] in *.
  assert (int64 (s * nano_den)).
  { unfold hr_of_int in E. rewrite quot64_ok in E by (range; lia). cbn [bind] in E.
    rewrite rem64_ok in E by (range; lia). cbn [bind] in E. injection E as Es En.
    pose proof (Z.rem_nonneg v nano_den ltac:(unfold nano_den; lia)) as P1.
    pose proof (Z.rem_nonpos v nano_den ltac:(unfold nano_den; lia)) as P2.
    pose proof (Z.quot_rem v nano_den ltac:(unfold nano_den; lia)) as Q.
    rewrite Es, En in *. range. lia. }
  rewrite s64_ok by assumption. cbn [bind]. rewrite s64_ok; [f_equal|]; range; lia.
Qed.
Lemma hr_mul_ok a v : normal a -> 0 <= v -> int64 (tv_sec a * v) -> int64 (tv_nsec a * v) ->
  int64 (Z.div (ns a * v) (10 ^ 9)) ->
  exists r, hr_mul a v = Ok r /\ normal r /\ ns r = ns a * v.
Proof.
  destruct a as [s n]. intros Ha Hv H1 H2 H3. unfold hr_mul. cbn [tv_sec tv_nsec] in *.
  rewrite s64_ok by assumption. cbn [bind]. rewrite s64_ok by assumption. cbn [bind].
  assert (0 <= n * v) as Hnn by (range; nia).
  assert ((s * 1000000000 + n) * v / 1000000000 = s * v + (n * v) / 1000000000) as Hd.
  { replace ((s * 1000000000 + n) * v) with (n * v + s * v * 1000000000) by ring.
    rewrite Z.div_add by lia. lia. }
  pose proof (Z.div_mod (n * v) 1000000000 ltac:(lia)) as DM.
  pose proof (Z.mod_pos_bound (n * v) 1000000000 ltac:(lia)) as MB.
  destruct (Z.leb_spec nano_den (n * v)) as [L|L].
  - rewrite quot64_ok by (try assumption; reflexivity). cbn [bind].
    rewrite Z.quot_div_nonneg by (unfold nano_den; lia).
    assert (int64 (s * v + n * v / nano_den)) as HS.
    { unfold nano_den. rewrite <- Hd. exact H3. }
    rewrite s64_ok by exact HS. cbn [bind]. rewrite rem64_ok by (try assumption; reflexivity). cbn [bind].
    rewrite Z.rem_mod_nonneg by (unfold nano_den; lia).
    eexists. split; [reflexivity|]. unfold normal, ns, nano_den in *. cbn [tv_sec tv_nsec] in *.
    change (10 ^ 9) with 1000000000. split; [lia|].
    rewrite Z.mul_add_distr_r. rewrite Z.mul_add_distr_r. lia.
  - eexists. split; [reflexivity|]. unfold normal, ns, nano_den in *. cbn [tv_sec tv_nsec] in *.
    change (10 ^ 9) with 1000000000. split; [lia|]. ring.
Qed.
Lemma hr_div_ok a v : normal a -> 0 < v -> int64 (tv_sec a) -> (v | tv_sec a) ->
  exists r, hr_div a v = Ok r /\ normal r /\ ns r = ns a / v.
Proof.
  destruct a as [s n]. intros Ha Hv Hs [k Hk]. cbn [tv_sec] in *. subst s. unfold hr_div. cbn [tv_sec tv_nsec].
  assert (int64 n) by (range; lia).
  rewrite quot64_ok by assumption. cbn [bind]. rewrite rem64_ok by assumption. cbn [bind].
  rewrite Z.rem_mul by lia. rewrite Z.mul_0_l.
  rewrite (s64_ok 0) by (range; lia). cbn [bind]. rewrite Z.add_0_r.
  rewrite s64_ok by now apply quot_int64. cbn [bind]. rewrite quot64_ok by assumption. cbn [bind].
  rewrite Z.quot_mul by lia. eexists. split; [reflexivity|].
  rewrite Z.quot_div_nonneg by (range; lia).
  assert (0 <= n / v <= n).
  { split; [apply Z.div_pos; range; lia|]. apply Z.div_le_upper_bound; [lia|]. range. nia. }
  unfold ns, normal in *. cbn [tv_sec tv_nsec] in *. split; [range; lia|].
  replace (k * v * 10 ^ 9 + n) with (n + k * 10 ^ 9 * v) by ring. rewrite Z.div_add by lia. lia.
Qed.
Lemma hr_div_value a v : normal a -> 0 < v -> int64 (tv_sec a) -> v <= 2 ^ 33 ->
  exists r, hr_div a v = Ok r /\
    ns r = (Z.quot (tv_sec a) v + Z.rem (tv_sec a) v) * 10 ^ 9 + Z.quot (tv_nsec a) v.
Proof.
  destruct a as [s n]. intros Ha Hv Hs Hb. unfold hr_div. cbn [tv_sec tv_nsec] in *.
  assert (int64 n) by (range; lia).
  rewrite quot64_ok by assumption. cbn [bind]. rewrite rem64_ok by assumption. cbn [bind].
  pose proof (Z.rem_bound_abs s v ltac:(lia)) as B. rewrite (Z.abs_eq v) in B by lia.
  assert (0 <= Z.quot n v <= n).
  { rewrite Z.quot_div_nonneg by (range; lia). split; [apply Z.div_pos; range; lia|].
    apply Z.div_le_upper_bound; [lia|]. range. nia. }
  change (2 ^ 33) with 8589934592 in *.
  rewrite s64_ok by (range; lia). cbn [bind].
  rewrite s64_ok by (range; lia). cbn [bind]. rewrite quot64_ok by assumption. cbn [bind].
  eexists. split; [reflexivity|]. unfold ns. cbn [tv_sec tv_nsec]. unfold nano_den.
  change (10 ^ 9) with 1000000000. ring.
Qed.

(** ** Casts *)
Lemma nano_period : period nano.
Proof. repeat split. Qed.

(** To a unit that divides the second: [q = 1/k]. *)
Lemma ratio_divide_val p q n d : period p -> period q -> 0 < d -> Z.gcd n d = 1 ->
  n * (snd p * fst q) = d * (fst p * snd q) -> ratio_divide p q = Ok (n, d).
Proof.
  intros Hp Hq Hd G E. destruct (conv_ok p q Hp Hq) as (n' & d' & R & _ & Hd' & G' & E').
  destruct (frac_unique n d n' d' (snd p * fst q) (fst p * snd q)) as [-> ->]; try assumption.
  destruct Hp as [[? _] ?], Hq as [_ ?]. apply Z.mul_pos_pos; lia.
Qed.
Lemma period_intro n d : 0 < n -> 0 < d -> Z.gcd n d = 1 -> period (n, d).
Proof. intros. split; [split|]; assumption. Qed.
Lemma gcd_1_l d : Z.gcd 1 d = 1.
Proof. apply Z.gcd_1_l. Qed.

Lemma cast_from_hr_sub k m t : 0 < k -> 0 < m -> k * m = 10 ^ 9 -> normal t -> int64 (tv_sec t * k) ->
  int64 (ns t / m) ->
  cast_from_hr (1, k) t = Ok (ns t / m).
Proof.
  intros Hk Hm E Ht Hs Hi. destruct t as [s n]. cbn [tv_sec tv_nsec] in *.
  assert (period (1, k)) as Pq by (apply period_intro; [lia|lia|apply gcd_1_l]).
  assert (period (1, m)) as Pm by (apply period_intro; [lia|lia|apply gcd_1_l]).
  change (10 ^ 9) with 1000000000 in *.
  unfold cast_from_hr.
  rewrite (ratio_divide_val nano (1, k) 1 m) ; [|exact nano_period|exact Pq|lia|apply gcd_1_l|
    cbn [fst snd nano]; unfold nano_den; lia].
  cbn [bind fst snd].
  rewrite (ratio_divide_val (1, m) nano k 1) ; [|exact Pm|exact nano_period|lia|apply Z.gcd_1_r|
    cbn [fst snd nano]; unfold nano_den; lia].
  cbn [bind fst snd]. cbn [tv_sec tv_nsec]. rewrite s64_ok by assumption. cbn [bind].
  rewrite quot64_ok by (try assumption; lia). cbn [bind]. rewrite Z.quot_1_r, Z.mul_1_r.
  assert (int64 n) by (range; lia).
  rewrite s64_ok by assumption. cbn [bind]. rewrite quot64_ok by assumption. cbn [bind].
  rewrite Z.quot_div_nonneg by (range; lia).
  assert (s * k + n / m = ns (Hr s n) / m) as Q.
  { unfold ns. cbn [tv_sec tv_nsec]. change (10 ^ 9) with 1000000000. rewrite <- E.
    replace (s * (k * m) + n) with (n + s * k * m) by ring. rewrite Z.div_add by lia. lia. }
  rewrite Q. now apply s64_ok.
Qed.
Lemma cast_from_hr_mult m t : 0 < m < 2 ^ 63 -> normal t -> 0 <= tv_sec t -> int64 (tv_sec t) ->
  cast_from_hr (m, 1) t = Ok (ns t / (m * 10 ^ 9)).
Proof.
  intros [Hm Hm'] Ht Hp Hs. destruct t as [s n]. cbn [tv_sec tv_nsec] in *.
  change (10 ^ 9) with 1000000000 in *.
  assert (period (m, 1)) as Pq by (apply period_intro; [lia|lia|apply Z.gcd_1_r]).
  assert (period (1, m * 1000000000)) as Pm by (apply period_intro; [lia|lia|apply gcd_1_l]).
  unfold cast_from_hr.
  rewrite (ratio_divide_val nano (m, 1) 1 (m * 1000000000)) ; [|exact nano_period|exact Pq|lia|apply gcd_1_l|
    cbn [fst snd nano]; unfold nano_den; lia].
  cbn [bind fst snd].
  rewrite (ratio_divide_val (1, m * 1000000000) nano 1 m) ; [|exact Pm|exact nano_period|lia|apply gcd_1_l|
    cbn [fst snd nano]; unfold nano_den; lia].
  cbn [bind fst snd]. cbn [tv_sec tv_nsec]. rewrite !Z.mul_1_r. rewrite s64_ok by assumption. cbn [bind].
  rewrite quot64_ok by (try assumption; lia). cbn [bind].
  assert (int64 n) by (range; lia).
  rewrite s64_ok by assumption. cbn [bind]. rewrite quot64_ok by (try assumption; lia). cbn [bind].
  rewrite (Z.quot_small n) by (range; nia). rewrite Z.add_0_r.
  rewrite s64_ok by (apply quot_int64; assumption). f_equal.
  rewrite Z.quot_div_nonneg by lia. unfold ns. cbn [tv_sec tv_nsec]. change (10 ^ 9) with 1000000000.
  rewrite (Z.mul_comm m), <- Z.div_div by lia. f_equal.
  rewrite Z.div_add_l by lia. rewrite (Z.div_small n) by (range; lia). lia.
Qed.
(** From whole seconds. *)
Lemma cast_to_hr_multiple p k c : period p -> 0 < k -> fst p * 10 ^ 9 = k * snd p ->
  0 <= c -> int64 c -> int64 (c / 10 ^ 9 * k) -> int64 (c mod 10 ^ 9 * k) -> int64 (c * k / 10 ^ 9) ->
  exists t, cast_to_hr p c = Ok t /\ normal t /\ ns t = c * k.
Proof.
  intros Pp Hk E Hc Hi H1 H2 H3. change (10 ^ 9) with 1000000000 in *.
  unfold cast_to_hr.
  rewrite (ratio_divide_val p nano k 1); [|exact Pp|exact nano_period|lia|apply Z.gcd_1_r|
    cbn [fst snd nano]; unfold nano_den; lia].
  cbn [bind fst snd].
  unfold hr_of_int. rewrite quot64_ok by (try assumption; reflexivity). cbn [bind].
  rewrite rem64_ok by (try assumption; reflexivity). cbn [bind].
  rewrite Z.quot_div_nonneg by (unfold nano_den; lia). rewrite Z.rem_mod_nonneg by (unfold nano_den; lia).
  pose proof (Z.div_mod c 1000000000 ltac:(lia)) as DM.
  pose proof (Z.mod_pos_bound c 1000000000 ltac:(lia)) as MB. unfold nano_den.
  assert (c / 1000000000 * 1000000000 + c mod 1000000000 = c) as NC by lia.
  destruct (hr_mul_ok (Hr (c / 1000000000) (c mod 1000000000)) k) as ([s n] & M & N & V);
    cbn [tv_sec tv_nsec]; try assumption; try lia.
  { unfold ns. cbn [tv_sec tv_nsec]. change (10 ^ 9) with 1000000000. rewrite NC. exact H3. }
  rewrite M. cbn [bind].
  assert (int64 s) as Hs.
  { assert (ns (Hr s n) = c * k) as V'.
    { rewrite V. unfold ns. cbn [tv_sec tv_nsec]. change (10 ^ 9) with 1000000000. rewrite NC. reflexivity. }
    unfold ns in V'. cbn [tv_sec tv_nsec] in V'. change (10 ^ 9) with 1000000000 in V'.
    rewrite <- V' in H3. rewrite Z.div_add_l in H3 by lia. rewrite (Z.div_small n) in H3 by (range; lia).
    rewrite Z.add_0_r in H3. exact H3. }
  destruct (hr_div_ok (Hr s n) 1 N ltac:(lia)) as (r & R & NR & VR); cbn [tv_sec].
  { exact Hs. }
  { apply Z.divide_1_l. }
  exists r. split; [exact R|]. split; [exact NR|]. rewrite VR, Z.div_1_r, V.
  unfold ns. cbn [tv_sec tv_nsec]. change (10 ^ 9) with 1000000000. now rewrite NC.
Qed.
