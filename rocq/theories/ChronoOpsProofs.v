(** * ChronoOpsProofs: durations in different units, texts of times. *)
From Verif Require Import Base UtilModel UtilSpec NumericModel ChronoModel ChronoSpec ChronoProofs StrOpsModel StrOpsSpec StrNumProofs ChronoOpsModel ChronoOpsSpec.
From Coq Require Import ZArith List Lia.
Import ListNotations.
Local Open Scope Z_scope.

Lemma same_unit_eq p q : same_unit p q = true -> p = q.
Proof.
  unfold same_unit. rewrite Bool.andb_true_iff, !Z.eqb_eq. destruct p, q; cbn. now intros [-> ->].
Qed.
Lemma same_time_whole p q d e : period p -> period q -> multiple q p -> same_time q d p e -> whole_ticks q p d = e.
Proof.
  intros Hp Hq Hm E. destruct Hp as [[Dp _] Pp], Hq as [[Dq _] Pq]. unfold whole_ticks, same_time in *.
  rewrite E. replace (e * fst p * snd q) with (e * (snd q * fst p)) by ring. apply Z.quot_mul.
  assert (0 < snd q * fst p) by (apply Z.mul_pos_pos; lia). lia.
Qed.
Lemma to_left_ok p q d e : period p -> period q -> multiple q p -> same_time q d p e -> int64 e ->
  to_left p q d = Some (Ok e).
Proof.
  intros Hp Hq Hm E I. unfold to_left. destruct (same_unit p q) eqn:S.
  - apply same_unit_eq in S. subst q. do 2 f_equal. destruct Hp as [[Dp _] Pp]. unfold same_time in E.
    apply (Z.mul_reg_r _ _ (fst p * snd p)); [assert (0 < fst p * snd p) by (apply Z.mul_pos_pos; lia); lia|]. lia.
  - pose proof (same_time_whole p q d e Hp Hq Hm E) as W.
    destruct (duration_convert_ok q p d Hq Hp Hm) as [A _]; [now rewrite W|]. now rewrite A, W.
Qed.
Lemma to_left_none p q d : period p -> period q -> ~ multiple q p -> to_left p q d = None.
Proof.
  intros Hp Hq Hm. unfold to_left. destruct (same_unit p q) eqn:S.
  - apply same_unit_eq in S. subst q. destruct Hm. exists 1. lia.
  - now apply duration_convert_none.
Qed.
Lemma pos_prod (p q : Z * Z) : period p -> period q -> 0 < fst p * snd q.
Proof. intros [[_ _] Pp] [[Dq _] _]. apply Z.mul_pos_pos; lia. Qed.
Lemma same_left p q c d e : period p -> period q -> same_time q d p e -> (same_time p c q d <-> c = e).
Proof.
  intros Hp Hq E. pose proof (pos_prod p q Hp Hq) as P. unfold same_time in *. split.
  - intros H. apply (Z.mul_reg_r _ _ (fst p * snd q)); [lia|]. lia.
  - intros ->. lia.
Qed.
Lemma shorter_left p q c d e : period p -> period q -> same_time q d p e -> (shorter p c q d <-> c < e).
Proof.
  intros Hp Hq E. pose proof (pos_prod p q Hp Hq) as P. unfold same_time, shorter in *.
  rewrite E. replace (c * fst p * snd q) with (c * (fst p * snd q)) by ring.
  replace (e * fst p * snd q) with (e * (fst p * snd q)) by ring. symmetry. now apply Z.mul_lt_mono_pos_r.
Qed.

(** ** Texts *)
Lemma dec_digits_len k : forall fuel n acc, (1 <= k)%nat -> 0 <= n < 10 ^ Z.of_nat k ->
  (length (dec_digits fuel n acc) <= k + length acc)%nat.
Proof.
  induction k as [|k IH]; intros fuel n acc H1 Hn; [lia|]. destruct fuel as [|f]; [cbn; lia|]. cbn [dec_digits].
  destruct (Z.ltb_spec n 10) as [L|L]; [cbn [length]; lia|].
  destruct k as [|k]; [change (10 ^ Z.of_nat 1) with 10 in Hn; lia|].
  specialize (IH f (n / 10) ((48 + n mod 10) :: acc)). cbn [length] in IH.
  assert (0 <= n / 10 < 10 ^ Z.of_nat (S k)).
  { split; [apply Z.div_pos; lia|]. apply Z.div_lt_upper_bound; [lia|].
    rewrite (Nat2Z.inj_succ (S k)), Z.pow_succ_r in Hn by lia. lia. }
  assert (Q := IH ltac:(lia) H). lia.
Qed.
Lemma zeros_digits n : Forall2 digit_is (repeat 48 n) (repeat 0 n).
Proof. induction n as [|n IH]; cbn; constructor; [left; lia|exact IH]. Qed.
Lemma zeros_fold n : fold_left (fun a d => 10 * a + d) (repeat 0 n) 0 = 0.
Proof. induction n as [|n IH]; cbn; [reflexivity|exact IH]. Qed.
Lemma pad_numeral w ds n : numeral 10 ds n -> numeral 10 (pad w ds) n.
Proof.
  intros (N & vs & F & L & E). unfold pad. split.
  - intros Q. apply app_eq_nil in Q as [_ Q]. now apply N.
  - exists (repeat 0 (w - length ds) ++ vs). split; [apply Forall2_app; [apply zeros_digits|exact F]|]. split.
    + apply Forall_app. split; [|exact L]. apply Forall_forall. intros x I. apply repeat_spec in I. lia.
    + now rewrite fold_left_app, zeros_fold.
Qed.
Lemma pad_length w ds : (length ds <= w)%nat -> length (pad w ds) = w.
Proof. intros H. unfold pad. rewrite app_length, repeat_length. lia. Qed.
Lemma fraction_text v : 0 <= v < 10 ^ 9 -> numeral 10 (dec_text_0 9 v) v /\ length (dec_text_0 9 v) = 9%nat.
Proof.
  intros H. unfold dec_text_0. destruct (Z.ltb_spec v 0) as [L|L]; [lia|]. split.
  - apply pad_numeral, dec_20. lia.
  - apply pad_length. pose proof (dec_digits_len 9 20 v [] ltac:(lia) H) as Q. cbn [length] in Q. lia.
Qed.
Lemma hr_text_sign t : normal t -> - 2 ^ 63 <= tv_sec t < 2 ^ 63 ->
  seconds_text (hr_text t) (if tv_sec t <? 0 then tv_sec t * 10 ^ 9 - tv_nsec t else ns t).
Proof.
  intros Hn Hs. destruct (fraction_text (tv_nsec t) Hn) as [F L]. unfold hr_text, dec_text, seconds_text, ns.
  destruct (Z.ltb_spec (tv_sec t) 0) as [N|N].
  - exists [45], (dec_digits 20 (- tv_sec t) []), (dec_text_0 9 (tv_nsec t)), (- tv_sec t), (tv_nsec t).
    split; [reflexivity|]. split; [apply dec_20; lia|]. split; [exact F|]. split; [exact L|]. right. split; [reflexivity|]. lia.
  - exists [], (dec_digits 20 (tv_sec t) []), (dec_text_0 9 (tv_nsec t)), (tv_sec t), (tv_nsec t).
    split; [reflexivity|]. split; [apply dec_20; lia|]. split; [exact F|]. split; [exact L|]. left. split; [reflexivity|]. lia.
Qed.

(** A text has one meaning. *)
Lemma numeral_bound ds n : numeral 10 ds n -> 0 <= n < 10 ^ Z.of_nat (length ds).
Proof.
  intros (N & vs & F & L & ->). clear N. revert F L. revert vs.
  assert (G : forall ds vs a, Forall2 digit_is ds vs -> Forall (fun d => d < 10) vs -> 0 <= a ->
    a * 10 ^ Z.of_nat (length ds) <= fold_left (fun a d => 10 * a + d) vs a < (a + 1) * 10 ^ Z.of_nat (length ds)).
  { induction ds0 as [|c ds0 IH]; intros vs a F L Ha; inversion F as [|? y ? l' D F' ]; subst; [cbn; lia|]. inversion L as [|? ? L1 L2]; subst. cbn [length fold_left].
    assert (0 <= y) by (destruct D; lia). specialize (IH l' (10 * a + y) F' L2 ltac:(lia)).
    rewrite Nat2Z.inj_succ, Z.pow_succ_r by lia. set (P := 10 ^ Z.of_nat (length ds0)) in *.
    assert (0 < P) by (apply Z.pow_pos_nonneg; lia). nia. }
  intros vs F L. specialize (G ds vs 0 F L). lia.
Qed.
Lemma digit_unique c d e : digit_is c d -> digit_is c e -> d = e.
Proof. unfold digit_is. lia. Qed.
Lemma numeral_unique ds a b : numeral 10 ds a -> numeral 10 ds b -> a = b.
Proof.
  intros (_ & va & Fa & _ & ->) (_ & vb & Fb & _ & ->). f_equal. revert vb Fb. induction Fa as [|c d ds va D Fa IH]; intros vb Fb; inversion Fb; subst; [reflexivity|].
  f_equal; [eapply digit_unique; eauto|apply IH; assumption].
Qed.
Lemma split_point (i i' f f' : list Z) : i ++ [46] ++ f = i' ++ [46] ++ f' -> ~ In 46 i -> ~ In 46 i' -> i = i' /\ f = f'.
Proof.
  revert i'. induction i as [|c i IH]; intros [|c' i'] E N N'; cbn in E.
  - now injection E as ->.
  - injection E as <- _. destruct N'. now left.
  - injection E as -> _. destruct N. now left.
  - injection E as <- E. destruct (IH i' E) as [-> ->]; [intros I; apply N; now right|intros I; apply N'; now right|]. easy.
Qed.
Lemma numeral_no c ds n : numeral 10 ds n -> (c = 46 \/ c = 45) -> ~ In c ds.
Proof.
  intros (_ & vs & F & _) C I. induction F as [|x d ds vs D F IH]; [easy|]. destruct I as [->|I]; [|now apply IH]. unfold digit_is in D. lia.
Qed.
Lemma seconds_text_unique t a b : seconds_text t a -> seconds_text t b -> a = b.
Proof.
  intros (sg & i & f & x & y & -> & Ni & Nf & Lf & Sg) (sg' & i' & f' & x' & y' & E & Ni' & Nf' & Lf' & Sg').
  assert (X : sg = sg' /\ i ++ [46] ++ f = i' ++ [46] ++ f').
  { destruct Sg as [[-> _]|[-> _]], Sg' as [[-> _]|[-> _]]; cbn [app] in E.
    - easy.
    - exfalso. destruct i as [|c i]; [destruct Ni as [N _]; now apply N|]. cbn in E. injection E as -> _.
      apply (numeral_no 45 _ _ Ni); [now right|now left].
    - exfalso. destruct i' as [|c i']; [destruct Ni' as [N _]; now apply N|]. cbn in E. injection E as <- _.
      apply (numeral_no 45 _ _ Ni'); [now right|now left].
    - injection E as E. easy. }
  destruct X as [<- X]. apply split_point in X as [<- <-]; [|eapply numeral_no; eauto|eapply numeral_no; eauto].
  rewrite (numeral_unique _ _ _ Ni Ni') in *. rewrite (numeral_unique _ _ _ Nf Nf') in *.
  destruct Sg as [[S ->]|[S ->]], Sg' as [[S' ->]|[S' ->]]; congruence.
Qed.
