(** * Theorems about times in different units and their texts. *)
From Verif Require Import Base UtilModel UtilSpec NumericModel ChronoModel ChronoSpec ChronoProofs StrOpsModel StrOpsSpec StrNumProofs ChronoOpsModel ChronoOpsSpec ChronoOpsProofs.
From Coq Require Import ZArith List Lia.
Import ListNotations.
Local Open Scope Z_scope.

(** ** C171 *)
(** The right operand is in a coarser unit, and its value [e] in the left one's can be represented. *)
Theorem C171_compare p q c d e : period p -> period q -> multiple q p -> same_time q d p e -> int64 e ->
  exists b1 b2, d_eq p q c d = Some (Ok b1) /\ (b1 = true <-> same_time p c q d) /\
    d_less p q c d = Some (Ok b2) /\ (b2 = true <-> shorter p c q d).
Proof.
  intros Hp Hq Hm E I. exists (c =? e), (c <? e). unfold d_eq, d_less, mixed. rewrite (to_left_ok p q d e Hp Hq Hm E I). cbn [bind].
  split; [reflexivity|]. split; [rewrite Z.eqb_eq; symmetry; now apply same_left|].
  split; [reflexivity|]. rewrite Z.ltb_lt. symmetry. now apply shorter_left.
Qed.
Print Assumptions C171_compare.
Theorem C171_arithmetic p q c d e : period p -> period q -> multiple q p -> same_time q d p e -> int64 e ->
  (int64 (c + e) -> exists r, d_add p q c d = Some (Ok r) /\ same_time p (r - c) q d) /\
  (int64 (c - e) -> exists r, d_sub p q c d = Some (Ok r) /\ same_time p (c - r) q d).
Proof.
  intros Hp Hq Hm E I. unfold d_add, d_sub, mixed. rewrite (to_left_ok p q d e Hp Hq Hm E I). cbn [bind].
  split; intros J; [exists (c + e)|exists (c - e)]; (split; [f_equal; now apply s64_ok|]);
    [replace (c + e - c) with e by lia|replace (c - (c - e)) with e by lia]; unfold same_time in *; lia.
Qed.
Print Assumptions C171_arithmetic.
(** Multiplying by a number and the negative: right whenever the result is a
    64-bit number, undefined when not; only the smallest duration has no negative. *)
Theorem C171_scale a v : int64 a ->
  (int64 (a * v) -> duration_mul a v = Ok (a * v)) /\ (~ int64 (a * v) -> duration_mul a v = UB) /\
  (a <> - 2 ^ 63 -> duration_neg a = Ok (- a)) /\ duration_neg (- 2 ^ 63) = UB.
Proof.
  intros Ha. unfold duration_mul, duration_neg. split; [apply s64_ok|]. split.
  - intros N. unfold s64, int64 in *. destruct (_ && _) eqn:E; [|reflexivity]. exfalso. apply N.
    apply Bool.andb_true_iff in E. destruct E as (E1 & E2). apply Z.leb_le in E1, E2. change (2 ^ 63) with 9223372036854775808. lia.
  - split; [|reflexivity]. intros N. apply s64_ok. unfold int64 in *. lia.
Qed.
Print Assumptions C171_scale.
(** Points in time: in different units they compare by the time they stand for; a point moved by a duration is that
    much away, later exactly for a positive duration, and moving it back restores it. *)
Theorem C171_time_point p q t d e : period p -> period q -> multiple q p -> same_time q d p e -> int64 e -> int64 t ->
  (exists b1 b2, tp_eq p q t d = Some (Ok b1) /\ (b1 = true <-> same_time p t q d) /\
    tp_less p q t d = Some (Ok b2) /\ (b2 = true <-> shorter p t q d)) /\
  (int64 (t + e) -> exists u b, tp_add p q t d = Some (Ok u) /\ tp_sub p q u d = Some (Ok t) /\
    tp_diff p p u t = Some (Ok e) /\ tp_less p p t u = Some (Ok b) /\ (b = true <-> 0 < d)).
Proof.
  intros Hp Hq Hm E I It. split; [exact (C171_compare p q t d e Hp Hq Hm E I)|].
  intros J. exists (t + e), (t <? t + e). unfold tp_add, tp_sub, tp_diff, tp_less, d_add, d_sub, d_less, mixed, duration_add, duration_sub.
  rewrite (to_left_ok p q d e Hp Hq Hm E I). cbn [bind]. rewrite (s64_ok (t + e) J).
  assert (T : forall x, to_left p p x = Some (Ok x)) by (intros x; unfold to_left, same_unit; now rewrite !Z.eqb_refl).
  rewrite !T. cbn [bind]. replace (t + e - e) with t by lia. replace (t + e - t) with e by lia.
  rewrite (s64_ok t It), (s64_ok e I). repeat (split; [reflexivity|]). rewrite Z.ltb_lt.
  pose proof (pos_prod p q Hp Hq) as P1. pose proof (pos_prod q p Hq Hp) as P2. unfold same_time in E.
  replace (d * fst q * snd p) with (d * (fst q * snd p)) in E by ring. replace (e * fst p * snd q) with (e * (fst p * snd q)) in E by ring.
  set (X := fst p * snd q) in *. set (Y := fst q * snd p) in *. clearbody X Y. split; intros; nia.
Qed.
Print Assumptions C171_time_point.
(** [time_point_cast] never runs backwards. *)
Theorem C171_cast_monotone p q t u x y : period p -> period q -> t <= u -> tp_cast p q t = Ok x -> tp_cast p q u = Ok y -> x <= y.
Proof.
  intros Hp Hq L A B. unfold tp_cast in *. apply duration_cast_inv in A; [|assumption..]. apply duration_cast_inv in B; [|assumption..].
  subst. now apply whole_ticks_mono.
Qed.
Print Assumptions C171_cast_monotone.
(** zero, min and max are zero and the ends of the range (but for C174_min_refuted). *)
Theorem C171_extremes :
  int64 d_min /\ int64 d_max /\ (forall c, int64 c -> d_min <= c <= d_max) /\ d_zero = 0 /\
  normal hr_max /\ int64 (tv_sec hr_max) /\ ns hr_zero = 0 /\
  (forall t, normal t -> int64 (tv_sec t) -> ns t <= ns hr_max /\ hr_less hr_max t = false).
Proof.
  split; [unfold int64, d_min; lia|]. split; [unfold int64, d_max; lia|]. split; [unfold int64, d_min, d_max; lia|].
  split; [reflexivity|]. split; [unfold normal; cbn; unfold nano_den; lia|]. split; [unfold int64; cbn [tv_sec hr_max]; lia|]. split; [reflexivity|].
  intros t N I. split.
  - unfold ns, hr_max, normal, int64, nano_den in *. cbn [tv_sec tv_nsec]. lia.
  - unfold hr_less, hr_max, normal, int64, nano_den in *. cbn [tv_sec tv_nsec]. lia.
Qed.
Print Assumptions C171_extremes.
Lemma per n : 0 < n -> period (1, n).
Proof. intros H. apply period_intro; [lia|lia|apply gcd_1_l]. Qed.
Lemma per_ n : 0 < n -> period (n, 1).
Proof. intros H. apply period_intro; [lia|lia|]. rewrite Z.gcd_comm. apply gcd_1_l. Qed.
(** 1500 ms against 2 s, 90 min + 1 h. *)
Example C171_example : period millisecond /\ period second /\ multiple second millisecond /\ same_time second 2 millisecond 2000 /\ int64 2000 /\
  d_less millisecond second 1500 2 = Some (Ok true) /\ d_add minute hour 90 1 = Some (Ok 150).
Proof.
  split; [apply per; lia|]. split; [apply per_; lia|]. split; [exists 1000; reflexivity|]. split; [reflexivity|].
  split; [unfold int64; lia|]. split; vm_compute; reflexivity.
Qed.

(** ** C172 *)
(** The coarser unit on the left does not compile, although the same comparison turned round does. *)
Theorem C172_other_order_refuted p q c d : period p -> period q -> multiple p q -> ~ multiple q p -> int64 (whole_ticks p q c) ->
  d_eq p q c d = None /\ d_less p q c d = None /\ exists b, d_less q p d c = Some (Ok b).
Proof.
  intros Hp Hq Hm Hn I. unfold d_eq, d_less, mixed. rewrite (to_left_none p q d Hp Hq Hn).
  destruct (duration_convert_ok p q c Hp Hq Hm I) as [_ E].
  rewrite (to_left_ok q p c (whole_ticks p q c) Hq Hp Hm E I). cbn [bind]. repeat split. eauto.
Qed.
Print Assumptions C172_other_order_refuted.
Example C172_seconds_milliseconds : d_less second millisecond 1 1500 = None /\ d_less millisecond second 1500 1 = Some (Ok false).
Proof. split; vm_compute; reflexivity. Qed.
(** A long duration cannot even be compared with a short one of a finer unit. *)
Theorem C172_overflow_refuted d : 2562048 <= d < 2 ^ 50 -> d_less nano hour 0 d = Some UB /\ d_eq nano hour 0 d = Some UB.
Proof.
  intros H. unfold d_less, d_eq, mixed, to_left. change (same_unit nano hour) with false. cbv iota. unfold duration_convert, duration_cast.
  replace (ratio_divide hour nano) with (@Ok (Z * Z) (3600000000000, 1)) by (vm_compute; reflexivity). cbn [bind fst snd].
  change (1 =? 1) with true. cbv iota. unfold s64.
  replace ((- 9223372036854775808 <=? d * 3600000000000) && (d * 3600000000000 <=? 9223372036854775807)) with false; [easy|].
  symmetry. apply Bool.andb_false_iff. right. apply Z.leb_gt. lia.
Qed.
Print Assumptions C172_overflow_refuted.

(** ** C173 *)
(** The text of a time from the epoch on, or of a whole number of seconds, is its exact value. *)
Theorem C173_time_text t : normal t -> int64 (tv_sec t) -> 0 <= tv_sec t \/ tv_nsec t = 0 -> seconds_text (hr_text t) (ns t).
Proof.
  intros Hn Hs H. pose proof (hr_text_sign t Hn Hs) as S. destruct (Z.ltb_spec (tv_sec t) 0) as [L|L]; [|exact S].
  destruct H as [H|H]; [lia|]. unfold ns. rewrite H in *. now replace (tv_sec t * 10 ^ 9 + 0) with (tv_sec t * 10 ^ 9 - 0) by lia.
Qed.
Print Assumptions C173_time_text.
(** Different times have different texts. *)
Theorem C173_distinct a b : normal a -> normal b -> 0 <= tv_sec a < 2 ^ 63 -> 0 <= tv_sec b < 2 ^ 63 -> hr_text a = hr_text b -> a = b.
Proof.
  intros Na Nb Sa Sb E. assert (Q : ns a = ns b).
  { apply (seconds_text_unique (hr_text a)); [|rewrite E]; apply C173_time_text; try assumption; unfold int64; try lia; now left. }
  destruct a as [s n], b as [s' n']. unfold ns, normal in *. cbn in *. f_equal; lia.
Qed.
Print Assumptions C173_distinct.
(** A duration is written as its count and its unit, and no two named units look alike. *)
Theorem C173_duration_text u c : int64 c -> number_and_unit (d_text u c) c (suffix u).
Proof.
  intros H. exists (dec_text c). split; [reflexivity|]. apply dec_text_number. unfold int64 in H. lia.
Qed.
Print Assumptions C173_duration_text.
Theorem C173_units_distinct u v : suffix u = suffix v -> u = v.
Proof. destruct u, v; intros H; try reflexivity; discriminate H. Qed.
Print Assumptions C173_units_distinct.
(** What is written stands for the time itself: the word is the unit's, and the unit is that long. *)
Theorem C173_named_units u c : int64 c ->
  number_and_unit (d_text u c) c (codes (unit_word u)) /\
  same_time (unit_period u) c nano (c * unit_ns u) /\
  (int64 (c * unit_ns u) -> duration_cast (unit_period u) nano c = Ok (c * unit_ns u)).
Proof.
  intros H. split; [|].
  - replace (codes (unit_word u)) with (suffix u) by (destruct u; reflexivity). now apply C173_duration_text.
  - assert (E : same_time (unit_period u) c nano (c * unit_ns u)).
    { unfold same_time. replace (c * unit_ns u * fst nano * snd (unit_period u)) with (c * (unit_ns u * fst nano * snd (unit_period u))) by ring.
      rewrite <- Z.mul_assoc. f_equal. destruct u; reflexivity. }
    split; [exact E|]. intros I.
    assert (Pu : period (unit_period u)) by (unfold period, lowest; destruct u; repeat split; vm_compute; reflexivity).
    assert (Pn : period nano) by (unfold period, lowest; repeat split; vm_compute; reflexivity).
    assert (W : whole_ticks (unit_period u) nano c = c * unit_ns u).
    { unfold whole_ticks. unfold same_time in E. rewrite E.
      replace (c * unit_ns u * fst nano * snd (unit_period u)) with (c * unit_ns u * (snd (unit_period u) * fst nano)) by ring.
      apply Z.quot_mul. destruct u; vm_compute; discriminate. }
    rewrite <- W. apply duration_cast_ok; [assumption..|].
    apply multiple_product; [assumption..| |assumption|rewrite W; assumption].
    left. exists (unit_ns u). destruct u; reflexivity.
Qed.
Print Assumptions C173_named_units.
Example C173_example : hr_text (Hr 12 345) = [49; 50; 46; 48; 48; 48; 48; 48; 48; 51; 52; 53] /\
  d_text Milliseconds (-7) = [45; 55; 95; 109; 115] /\ normal (Hr 12 345) /\ ns (Hr 12 345) = 12000000345.
Proof. split; [vm_compute; reflexivity|]. split; [vm_compute; reflexivity|]. split; [unfold normal; cbn; lia|vm_compute; reflexivity]. Qed.

(** ** C174 *)
(** A time before the epoch with a fraction is written as another time: half a second before it as "-1.500000000". *)
Theorem C174_negative_refuted t : normal t -> int64 (tv_sec t) -> tv_sec t < 0 -> 0 < tv_nsec t ->
  seconds_text (hr_text t) (tv_sec t * 10 ^ 9 - tv_nsec t) /\ ~ seconds_text (hr_text t) (ns t).
Proof.
  intros Hn Hs L N. pose proof (hr_text_sign t Hn Hs) as S. replace (tv_sec t <? 0) with true in S by (symmetry; now apply Z.ltb_lt).
  split; [exact S|]. intros Q. pose proof (seconds_text_unique _ _ _ S Q). unfold ns in *. lia.
Qed.
Print Assumptions C174_negative_refuted.
(** A time made of a negative number of nanoseconds has a minus sign in the middle of its text. *)
Theorem C174_sign_refuted v : - 10 ^ 9 < v < 0 -> exists t r, hr_of_int v = Ok t /\ hr_text t = [48; 46; 45] ++ r.
Proof.
  intros H. exists (Hr 0 v), (pad 8 (dec_digits 20 (- v) [])). split.
  - unfold hr_of_int. rewrite quot64_ok, rem64_ok; try (unfold nano_den, int64; lia). cbn [bind].
    rewrite <- (Z.opp_involutive v), Z.quot_opp_l, Z.rem_opp_l by (unfold nano_den; lia).
    rewrite Z.quot_small, Z.rem_small by (unfold nano_den; lia). now rewrite Z.opp_involutive.
  - unfold hr_text, dec_text_0. cbn [tv_sec tv_nsec]. replace (v <? 0) with true by (symmetry; now apply Z.ltb_lt).
    change (dec_text 0) with [48]. reflexivity.
Qed.
Print Assumptions C174_sign_refuted.
(** [min] is not the least time. *)
Theorem C174_min_refuted : exists t, normal t /\ int64 (tv_sec t) /\ hr_less t hr_min = true /\ ns t < ns hr_min.
Proof. exists (Hr (- 2 ^ 63) 0). split; [unfold normal; cbn; lia|]. split; [unfold int64; cbn; lia|]. split; vm_compute; reflexivity. Qed.
Print Assumptions C174_min_refuted.
(** It is the end of the first second: below it are the other times of that second. *)
Theorem C174_min_is : normal hr_min /\ int64 (tv_sec hr_min) /\
  forall t, normal t -> int64 (tv_sec t) -> ns t <> ns hr_min ->
    (hr_less t hr_min = true <-> tv_sec t = - 2 ^ 63) /\ (hr_less t hr_min = true <-> ns t < ns hr_min).
Proof.
  split; [split; reflexivity || (vm_compute; discriminate)|]. split; [split; reflexivity || (vm_compute; discriminate)|].
  intros t (N1 & N2) (I1 & I2) D. unfold hr_less, ns in *. change (tv_sec hr_min) with (- 2 ^ 63) in *. change (tv_nsec hr_min) with (10 ^ 9 - 1) in *.
  change (2 ^ 63) with 9223372036854775808 in *. change (10 ^ 9) with 1000000000 in *.
  destruct t as [a b]. cbn [tv_sec tv_nsec] in *.
  destruct (Z.ltb_spec a (- 9223372036854775808)), (Z.eqb_spec a (- 9223372036854775808)), (Z.ltb_spec b (1000000000 - 1)); cbn [orb andb];
    split; split; intros; try discriminate; try reflexivity; try lia.
Qed.
Print Assumptions C174_min_is.
Example C174_min_example : hr_less (Hr (- 2 ^ 63) 5) hr_min = true /\ hr_less (Hr (- 2 ^ 63 + 1) 0) hr_min = false.
Proof. split; vm_compute; reflexivity. Qed.
