(** * NumericProofs: unumeric.h and uratio.h. *)
From Verif Require Import Base UtilModel UtilSpec UtilProofs NumericModel.
From Coq Require Import ZArith NArith Znumtheory.
Local Open Scope nat_scope.

Section Num.
  Context {T : Type}.

  Lemma accumulate_fold {A} (op : T -> A -> T) l : forall init,
    accumulate op l init = fold_left op l init.
  Proof. induction l; intros; simpl; auto. Qed.

  Lemma iota_nth (succ : T -> T) n : forall v i, i < n ->
    nth_error (iota succ n v) i = Some (Nat.iter i succ v).
  Proof.
    induction n as [|n IH]; intros v i H; [lia|]. destruct i; [reflexivity|].
    cbn [iota nth_error]. rewrite IH by lia. f_equal.
    clear. induction i as [|i IHi]; [reflexivity|]. cbn [Nat.iter nat_rect] in *. unfold Nat.iter in *. cbn in *. now rewrite IHi.
  Qed.
  Lemma iota_length (succ : T -> T) n : forall v, length (iota succ n v) = n.
  Proof. induction n; intros; simpl; auto. Qed.

  Lemma inner_product_ok {A B P} (sum : T -> P -> T) (prod : A -> B -> P) l1 : forall l2 init,
    length l1 <= length l2 ->
    inner_product sum prod l1 l2 init =
    Ok (fold_left (fun acc p => sum acc (prod (fst p) (snd p))) (combine l1 l2) init).
  Proof.
    induction l1 as [|x l1 IH]; intros [|y l2] init H; cbn in *; try lia; auto. apply IH. lia.
  Qed.

  Lemma wr_mid (l1 l2 : list T) x v k : k = length l1 -> wr (l1 ++ x :: l2) k v = Ok (l1 ++ v :: l2).
  Proof.
    intros ->. unfold wr. assert (upd (l1 ++ x :: l2) (length l1) v = Some (l1 ++ v :: l2)) as ->; [|auto].
    induction l1 as [|h t IH]; [reflexivity|]. cbn. now rewrite IH.
  Qed.
  Lemma rd_mid (l1 l2 : list T) x k : k = length l1 -> rd (l1 ++ x :: l2) k = Ok x.
  Proof. intros ->. unfold rd. rewrite nth_error_app2, Nat.sub_diag; auto. Qed.

  (** running totals of [x :: l]: [x], [op x1 x], [op x2 (op x1 x)], ... *)
  Fixpoint running (op : T -> T -> T) (acc : T) (l : list T) : list T :=
    match l with [] => [] | y :: t => op y acc :: running op (op y acc) t end.

  Lemma partial_sum_loop_ok op l : forall pre acc old post,
    length old = length l ->
    partial_sum_loop op l (pre ++ acc :: old ++ post) (length pre) =
    Ok (pre ++ acc :: running op acc l ++ post, length pre + length l).
  Proof.
    induction l as [|x l IH]; intros pre acc old post H.
    - destruct old; [|discriminate]. cbn. now rewrite Nat.add_0_r.
    - destruct old as [|o old]; [discriminate|]. cbn [partial_sum_loop].
      rewrite rd_mid by auto. cbn [bind].
      change (pre ++ acc :: (o :: old) ++ post) with (pre ++ [acc] ++ (o :: old ++ post)).
      rewrite app_assoc. rewrite wr_mid by (rewrite app_length; simpl; lia). cbn [bind].
      replace (S (length pre)) with (length (pre ++ [acc])) by (rewrite app_length; simpl; lia).
      rewrite IH by (simpl in H; lia).
      rewrite <- app_assoc. cbn [running app]. rewrite app_length. cbn [length]. f_equal. f_equal. lia.
  Qed.

  Lemma partial_sum_ok op x l pre o old post :
    length old = length l ->
    partial_sum op (x :: l) (pre ++ o :: old ++ post) (length pre) =
    Ok (pre ++ x :: running op x l ++ post, length pre + length l).
  Proof.
    intros H. cbn [partial_sum]. rewrite wr_mid by auto. cbn [bind]. now apply partial_sum_loop_ok.
  Qed.

  Lemma running_nth op l : forall acc i, i < length l ->
    nth_error (running op acc l) i = Some (fold_left (fun a y => op y a) (firstn (S i) l) acc).
  Proof.
    induction l as [|y l IH]; intros acc i H; [simpl in H; lia|].
    destruct i; [reflexivity|]. cbn [running nth_error firstn fold_left].
    rewrite IH by (simpl in H; lia). reflexivity.
  Qed.

  (** adjacent_difference: the loop writes past any output. *)
  Lemma adjdiff_loop_UB fuel (op : T -> T -> T) l first : forall out result,
    first < length l -> 0 < first -> length out - result < fuel -> length out < result + fuel ->
    adjacent_difference_loop fuel op l first out result = UB.
  Proof.
    induction fuel as [|f IH]; intros out result Hf H0 HL HL2; [lia|].
    cbn [adjacent_difference_loop]. destruct (Nat.ltb_spec first (length l)); [|lia].
    unfold rd at 1 2. destruct (nth_error l first) eqn:E1; [|reflexivity]. cbn [bind].
    destruct (nth_error l (first - 1)) eqn:E2; [|reflexivity]. cbn [bind].
    unfold wr. destruct (upd out result (op t t0)) as [out'|] eqn:E; [|reflexivity]. cbn [bind].
    assert (length out' = length out /\ result < length out) as [L R].
    { clear - E. revert result out' E. induction out as [|h t1 IH]; intros result out' E; [discriminate|].
      destruct result; cbn in E.
      - injection E as <-. simpl. lia.
      - destruct (upd t1 result (op t t0)) eqn:E'; [|discriminate]. injection E as <-.
        apply IH in E'. simpl. lia. }
    apply IH; lia.
  Qed.

  (** power *)
  Section Power.
    Variable op : T -> T -> T.
    Hypothesis assoc : forall a b c, op a (op b c) = op (op a b) c.

    Lemma iterop_S x m : 1 <= m -> iterop op x (S m) = op (iterop op x m) x.
    Proof. destruct m; [lia|reflexivity]. Qed.

    Lemma iterop_add x a b : 1 <= a -> 1 <= b ->
      iterop op x (a + b) = op (iterop op x a) (iterop op x b).
    Proof.
      intros Ha Hb. induction b as [|b IH]; [lia|].
      destruct b as [|b].
      - rewrite Nat.add_1_r. rewrite iterop_S by lia. reflexivity.
      - rewrite Nat.add_succ_r. rewrite iterop_S by lia. rewrite IH by lia.
        rewrite (iterop_S x (S b)) by lia. now rewrite assoc.
    Qed.

    Lemma power_loop_ok fuel : forall b e x n r a,
      1 <= e -> x = iterop op b e -> N.size_nat n <= fuel ->
      (1 <= a /\ r = iterop op b a) \/ (a = 0 /\ forall y, op r y = y) ->
      exists r', power_loop fuel op x n r = Ok r' /\
        ((N.div2 n = 0%N /\ r' = r) \/
         r' = iterop op b (a + e * (N.to_nat n - N.to_nat n mod 2))).
    Proof.
      induction fuel as [|f IH]; intros b e x n r a He Hx Hf Hr; cbn [power_loop].
      - destruct n as [|p]; [|destruct p; simpl in Hf; lia]. simpl. exists r. auto.
      - destruct (N.eqb_spec (N.div2 n) 0) as [E|E]; [exists r; auto|].
        destruct (IH b (e + e) (op x x) (N.div2 n) (if N.odd (N.div2 n) then op r (op x x) else r)
                    (if N.odd (N.div2 n) then a + (e + e) else a)) as (r' & E' & H').
        + lia.
        + rewrite iterop_add by lia. now subst x.
        + destruct n as [|[p|p|]]; simpl in *; lia.
        + destruct (N.odd (N.div2 n)); [|exact Hr]. left. split; [lia|].
          subst x. rewrite <- iterop_add by lia.
          destruct Hr as [[Ha ->]|[-> Hid]]; [rewrite <- iterop_add by lia; reflexivity|].
          rewrite Hid. reflexivity.
        + exists r'. split; [exact E'|]. right.
          set (m := N.div2 n) in *.
          assert (N.to_nat n - N.to_nat n mod 2 = 2 * N.to_nat m) as En.
          { subst m. rewrite N.div2_div. rewrite N2Nat.inj_div. change (N.to_nat 2) with 2.
            pose proof (Nat.div_mod (N.to_nat n) 2). lia. }
          rewrite En.
          assert (N.odd m = Nat.odd (N.to_nat m)) as Eo.
          { pose proof (N2Nat.inj_div m 2). destruct m as [|[p|p|]]; try reflexivity.
            - symmetry. apply Nat.odd_spec. exists (Pos.to_nat p). rewrite <- positive_N_nat. lia.
            - symmetry. rewrite <- Nat.negb_even. apply negb_false_iff. apply Nat.even_spec.
              exists (Pos.to_nat p). rewrite <- positive_N_nat. lia. }
          assert (N.to_nat m mod 2 = if N.odd m then 1 else 0) as Em.
          { rewrite Eo. pose proof (Nat.div2_odd (N.to_nat m)). 
            pose proof (Nat.div_mod (N.to_nat m) 2). rewrite <- Nat.div2_div in *.
            destruct (Nat.odd (N.to_nat m)); simpl in *; lia. }
          assert (1 <= N.to_nat m) by lia.
          destruct H' as [[Ez ->]| ->].
          * assert (N.to_nat m = 1) as M1.
            { rewrite N.div2_div in Ez. assert (N.to_nat (m / 2) = 0) as Q by now rewrite Ez.
              rewrite N2Nat.inj_div in Q. change (N.to_nat 2) with 2 in Q.
              pose proof (Nat.div_mod (N.to_nat m) 2). pose proof (Nat.mod_upper_bound (N.to_nat m) 2). lia. }
            rewrite M1 in *. change (1 mod 2) with 1 in Em.
            destruct (N.odd m); [|lia].
            subst x. rewrite <- iterop_add by lia.
            destruct Hr as [[Ha ->]|[-> Hid]].
            -- rewrite <- iterop_add by lia. f_equal. lia.
            -- rewrite Hid. f_equal. lia.
          * f_equal. rewrite Em. destruct (N.odd m) eqn:Eodd; [|lia].
            assert (N.to_nat m = 2 * (N.to_nat m / 2) + 1).
            { pose proof (Nat.div_mod (N.to_nat m) 2). lia. }
            nia.
    Qed.

    Lemma power_op_ok (one : T) x n :
      (N.odd n = true \/ forall y, op one y = y) -> (0 < n)%N ->
      power_op one op x n = Ok (iterop op x (N.to_nat n)).
    Proof.
      intros H Hn. unfold power_op.
      assert (N.to_nat n mod 2 = if N.odd n then 1 else 0) as Em.
      { destruct n as [|[p|p|]]; try reflexivity; try lia; cbn [N.odd].
        - replace (N.to_nat (N.pos p~1)) with (1 + Pos.to_nat p * 2) by (rewrite <- positive_N_nat; lia).
          now rewrite Nat.mod_add.
        - replace (N.to_nat (N.pos p~0)) with (0 + Pos.to_nat p * 2) by (rewrite <- positive_N_nat; lia).
          now rewrite Nat.mod_add. }
      destruct (power_loop_ok (N.size_nat n) x 1 x n (if N.odd n then x else one) (if N.odd n then 1 else 0))
        as (r & E & Hr).
      - lia.
      - reflexivity.
      - lia.
      - destruct (N.odd n); [left; auto|]. right. split; [auto|]. destruct H; [discriminate|auto].
      - rewrite E. f_equal. destruct Hr as [[Ez ->]| ->].
        + assert (n = 1)%N as ->.
          { rewrite N.div2_div in Ez. pose proof (N.div_mod n 2). pose proof (N.mod_lt n 2). lia. }
          reflexivity.
        + f_equal. rewrite Em in *. destruct (N.odd n); [|lia].
          pose proof (Nat.mod_le (N.to_nat n) 2). lia.
    Qed.

    Lemma power_op_0 (one : T) x : power_op one op x 0 = Ok one.
    Proof. reflexivity. Qed.
  End Power.
End Num.

Lemma iterop_Zmul x n : 1 <= n -> iterop Z.mul x n = (x ^ Z.of_nat n)%Z.
Proof.
  intros H. induction n as [|n IH]; [lia|]. destruct n.
  - now rewrite Z.pow_1_r.
  - rewrite iterop_S by lia. rewrite IH by lia. rewrite (Nat2Z.inj_succ (S n)), Z.pow_succ_r by lia. lia.
Qed.

Local Open Scope Z_scope.
(** ** ratio *)
Lemma quot_gcd_exact a g q : g <> 0 -> a = q * g -> Z.quot a g = q.
Proof. intros H ->. now apply Z.quot_mul. Qed.

Lemma gcd_cofactor a b p q g : g = Z.gcd a b -> g <> 0 -> a = p * g -> b = q * g -> Z.gcd p q = 1.
Proof.
  intros Hg Hz Ha Hb. pose proof (Z.gcd_nonneg a b).
  assert (Z.gcd (p * g) (q * g) = Z.gcd p q * g) as E by (rewrite Z.gcd_mul_mono_r_nonneg; lia).
  rewrite <- Ha, <- Hb, <- Hg in E. nia.
Qed.

Lemma ratio_ok n d : d <> 0 ->
  exists p, ratio n d = Ok p /\ lowest p /\ same_ratio p (n, d).
Proof.
  intros Hd. unfold ratio. destruct (Z.eqb_spec d 0); [contradiction|].
  rewrite gcd_ok. cbn [bind]. rewrite sign_sgn, absv_abs.
  remember (Z.gcd n d) as g eqn:Eg. assert (g <> 0) as Hg.
  { intros E. rewrite Eg in E. apply Z.gcd_eq_0 in E. lia. }
  assert (0 < g) by (pose proof (Z.gcd_nonneg n d); lia).
  destruct (Z.gcd_divide_l n d) as [a Ha]. destruct (Z.gcd_divide_r n d) as [b Hb]. rewrite <- Eg in Ha, Hb.
  assert (Z.gcd a b = 1) as G by (eapply gcd_cofactor; [exact Eg|exact Hg|exact Ha|exact Hb]).
  assert (Z.sgn d = Z.sgn b) as S by (rewrite Hb, Z.sgn_mul; rewrite (Z.sgn_pos g) by lia; lia).
  rewrite S. rewrite (quot_gcd_exact (n * Z.sgn b) g (a * Z.sgn b)) by (auto; rewrite Ha; ring).
  rewrite (quot_gcd_exact (Z.abs d) g (Z.abs b)) by (auto; rewrite Hb, Z.abs_mul; rewrite (Z.abs_eq g) by lia; ring).
  eexists. split; [reflexivity|]. split.
  - unfold lowest. cbn [fst snd]. assert (b <> 0) by (intros ->; lia). split; [lia|].
    rewrite Z.gcd_abs_r. destruct (Z.lt_ge_cases b 0).
    + rewrite Z.sgn_neg by lia. replace (a * -1) with (- a) by ring. now rewrite Z.gcd_opp_l.
    + rewrite Z.sgn_pos by lia. now rewrite Z.mul_1_r.
  - unfold same_ratio. cbn [fst snd]. rewrite Ha, Hb.
    transitivity (a * g * (Z.sgn b * b)); [ring|].
    replace (Z.sgn b * b) with (Z.abs b) by (destruct b; cbn; lia). ring.
Qed.

Lemma ratio_add_ok r1 r2 : lowest r1 -> lowest r2 ->
  exists p, ratio_add r1 r2 = Ok p /\ lowest p /\
    same_ratio p (fst r1 * snd r2 + fst r2 * snd r1, snd r1 * snd r2).
Proof.
  destruct r1 as [n1 d1], r2 as [n2 d2]. unfold lowest, ratio_add. cbn [fst snd].
  intros [H1 _] [H2 _]. rewrite gcd_ok. cbn [bind].
  remember (Z.gcd d1 d2) as g eqn:Eg.
  assert (g <> 0) as Hg by (intros E; rewrite Eg in E; apply Z.gcd_eq_0 in E; lia).
  destruct (Z.gcd_divide_l d1 d2) as [a Ha]. destruct (Z.gcd_divide_r d1 d2) as [b Hb]. rewrite <- Eg in Ha, Hb.
  rewrite (quot_gcd_exact d2 g b), (quot_gcd_exact d1 g a) by auto.
  destruct (ratio_ok (b * n1 + a * n2) (a * d2)) as (p & E & L & S).
  { assert (a <> 0) by (intros ->; lia). nia. }
  exists p. split; [exact E|]. split; [exact L|].
  unfold same_ratio in *. cbn [fst snd] in *.
  replace (n1 * d2 + n2 * d1) with ((b * n1 + a * n2) * g) by (rewrite Ha, Hb; ring).
  replace (fst p * (d1 * d2)) with (fst p * (a * d2) * g) by (rewrite Ha; ring).
  rewrite S. ring.
Qed.

Lemma ratio_neg_ok r : lowest r -> exists p, ratio (- fst r) (snd r) = Ok p /\ p = (- fst r, snd r) /\ lowest p.
Proof.
  destruct r as [n d]. unfold lowest. cbn [fst snd]. intros [H G].
  destruct (ratio_ok (- n) d) as ([a b] & E & L & S); [lia|]. unfold lowest, same_ratio in *. cbn [fst snd] in *.
  assert (Z.gcd (- n) d = 1) as Gn by now rewrite Z.gcd_opp_l.
  exists (a, b). split; [exact E|].
  (* both fractions are in lowest terms, hence equal *)
  assert ((d | b)) as D1.
  { apply Z.gauss with (- n); [|now rewrite Z.gcd_comm]. exists a. lia. }
  assert ((b | d)) as D2.
  { apply Z.gauss with a; [|rewrite Z.gcd_comm; tauto]. exists (- n). lia. }
  assert (b = d) as -> by (apply Z.divide_antisym_nonneg; lia || auto).
  assert (a = - n) as -> by nia. split; [reflexivity|]. cbn [fst snd]. auto.
Qed.

Lemma ratio_subtract_ok r1 r2 : lowest r1 -> lowest r2 ->
  exists p, ratio_subtract r1 r2 = Ok p /\ lowest p /\
    same_ratio p (fst r1 * snd r2 - fst r2 * snd r1, snd r1 * snd r2).
Proof.
  intros L1 L2. unfold ratio_subtract. destruct (ratio_neg_ok r2 L2) as (q & Eq & Q & Lq).
  rewrite Eq. cbn [bind]. destruct (ratio_add_ok r1 q L1 Lq) as (p & E & L & S).
  exists p. split; [exact E|]. split; [exact L|]. subst q. cbn [fst snd] in S.
  replace (fst r1 * snd r2 - fst r2 * snd r1) with (fst r1 * snd r2 + - fst r2 * snd r1) by ring. exact S.
Qed.

Lemma ratio_multiply_gen n1 d1 n2 d2 : d1 <> 0 -> d2 <> 0 ->
  exists p, ratio_multiply (n1, d1) (n2, d2) = Ok p /\ lowest p /\ same_ratio p (n1 * n2, d1 * d2).
Proof.
  intros H1 H2. unfold ratio_multiply. rewrite !gcd_ok. cbn [bind].
  remember (Z.gcd n1 d2) as g1 eqn:E1. remember (Z.gcd n2 d1) as g2 eqn:E2.
  assert (g1 <> 0) as G1 by (intros E; rewrite E1 in E; apply Z.gcd_eq_0 in E; lia).
  assert (g2 <> 0) as G2 by (intros E; rewrite E2 in E; apply Z.gcd_eq_0 in E; lia).
  destruct (Z.gcd_divide_l n1 d2) as [a Ha]. destruct (Z.gcd_divide_r n1 d2) as [b Hb]. rewrite <- E1 in Ha, Hb.
  destruct (Z.gcd_divide_l n2 d1) as [c Hc]. destruct (Z.gcd_divide_r n2 d1) as [d Hd]. rewrite <- E2 in Hc, Hd.
  rewrite (quot_gcd_exact n1 g1 a), (quot_gcd_exact n2 g2 c), (quot_gcd_exact d1 g2 d), (quot_gcd_exact d2 g1 b) by auto.
  destruct (ratio_ok (a * c) (d * b)) as (p & E & L & S).
  { assert (d <> 0) by (intros ->; lia). assert (b <> 0) by (intros ->; lia). nia. }
  exists p. split; [exact E|]. split; [exact L|]. unfold same_ratio in *. cbn [fst snd] in *.
  replace (n1 * n2) with (a * c * (g1 * g2)) by (rewrite Ha, Hc; ring).
  replace (d1 * d2) with (d * b * (g1 * g2)) by (rewrite Hd, Hb; ring).
  transitivity (fst p * (d * b) * (g1 * g2)); [ring|]. rewrite S. ring.
Qed.

Lemma ratio_multiply_ok r1 r2 : lowest r1 -> lowest r2 ->
  exists p, ratio_multiply r1 r2 = Ok p /\ lowest p /\ same_ratio p (fst r1 * fst r2, snd r1 * snd r2).
Proof.
  destruct r1 as [n1 d1], r2 as [n2 d2]. intros [H1 _] [H2 _]. cbn [fst snd] in *.
  apply ratio_multiply_gen; lia.
Qed.

Lemma ratio_divide_ok r1 r2 : lowest r1 -> lowest r2 -> fst r2 <> 0 ->
  exists p, ratio_divide r1 r2 = Ok p /\ lowest p /\ same_ratio p (fst r1 * snd r2, snd r1 * fst r2).
Proof.
  destruct r1 as [n1 d1], r2 as [n2 d2]. unfold ratio_divide. intros L1 L2 NZ. cbn [fst snd] in *.
  destruct (ratio_ok d2 n2 NZ) as ([a b] & E & L & S). rewrite E. cbn [bind].
  destruct (ratio_multiply_ok (n1, d1) (a, b) L1 L) as (p & Ep & Lp & Sp).
  exists p. split; [exact Ep|]. split; [exact Lp|].
  unfold lowest, same_ratio in *. cbn [fst snd] in *.
  destruct L as [Hb _].
  (* fst p * (d1*b) = n1*a*snd p ;  a*n2 = d2*b *)
  apply (Z.mul_reg_r _ _ b); [lia|].
  replace (fst p * (d1 * n2) * b) with (fst p * (d1 * b) * n2) by ring. rewrite Sp.
  replace (n1 * a * snd p * n2) with (n1 * (a * n2) * snd p) by ring. rewrite S. ring.
Qed.

Lemma lowest_unique p q : lowest p -> lowest q -> same_ratio p q -> p = q.
Proof.
  destruct p as [a b], q as [c d]. unfold lowest, same_ratio. cbn [fst snd]. intros [Hb G1] [Hd G2] S.
  assert ((d | b)) as D1.
  { apply Z.gauss with c; [|now rewrite Z.gcd_comm]. exists a. lia. }
  assert ((b | d)) as D2.
  { apply Z.gauss with a; [|rewrite Z.gcd_comm; tauto]. exists c. lia. }
  assert (b = d) as -> by (apply Z.divide_antisym_nonneg; lia || auto).
  assert (a = c) as -> by nia. reflexivity.
Qed.

Lemma ratio_equal_ok r1 r2 : lowest r1 -> lowest r2 ->
  (ratio_equal r1 r2 = true <-> same_ratio r1 r2).
Proof.
  intros L1 L2. unfold ratio_equal. rewrite andb_true_iff, !Z.eqb_eq. split.
  - intros [E1 E2]. unfold same_ratio. now rewrite E1, E2.
  - intros S. now rewrite (lowest_unique r1 r2 L1 L2 S).
Qed.

Lemma ratio_less_ok r1 r2 : lowest r1 -> lowest r2 ->
  exists b, ratio_less r1 r2 = Ok b /\ (b = true <-> fst r1 * snd r2 < fst r2 * snd r1).
Proof.
  intros L1 L2. unfold ratio_less. destruct (ratio_subtract_ok r1 r2 L1 L2) as (p & E & L & S).
  rewrite E. cbn [bind]. eexists. split; [reflexivity|]. rewrite Z.ltb_lt.
  unfold lowest, same_ratio in *. cbn [fst snd] in S.
  destruct L as [Hp _], L1 as [H1 _], L2 as [H2 _].
  assert (0 < snd r1 * snd r2) by nia. nia.
Qed.
Lemma ratio_less_equal_ok r1 r2 : lowest r1 -> lowest r2 ->
  exists b, ratio_less_equal r1 r2 = Ok b /\ (b = true <-> fst r1 * snd r2 <= fst r2 * snd r1).
Proof.
  intros L1 L2. unfold ratio_less_equal. destruct (ratio_subtract_ok r1 r2 L1 L2) as (p & E & L & S).
  rewrite E. cbn [bind]. eexists. split; [reflexivity|]. rewrite Z.leb_le.
  unfold lowest, same_ratio in *. cbn [fst snd] in S.
  destruct L as [Hp _], L1 as [H1 _], L2 as [H2 _].
  assert (0 < snd r1 * snd r2) by nia. nia.
Qed.
