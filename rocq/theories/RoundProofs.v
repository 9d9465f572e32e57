From Verif Require Import Base RoundModel RoundSpec.
From Coq Require Import ZArith List Lia Bool.
Import ListNotations.
Local Open Scope Z_scope.

Lemma rne_shift_ok n k : 0 <= k -> 
  2 * Z.abs (n - rne_shift n k * 2 ^ k) <= 2 ^ k /\
  (2 * Z.abs (n - rne_shift n k * 2 ^ k) = 2 ^ k -> Z.even (rne_shift n k) = true).
Proof.
  intros K. unfold rne_shift. rewrite Z.shiftr_div_pow2 by lia.
  assert (P : 0 < 2 ^ k) by (apply Z.pow_pos_nonneg; lia).
  pose proof (Z.div_mod n (2 ^ k) ltac:(lia)) as D. pose proof (Z.mod_pos_bound n (2 ^ k) P) as B.
  set (p := 2 ^ k) in *. set (q := n / p) in *. set (r := n mod p) in *. clearbody p q r.
  cbv zeta. replace (n - q * p) with r by lia.
  destruct (Z.ltb_spec (2 * r) p) as [A|A].
  { replace (n - q * p) with r by lia. rewrite Z.abs_eq by lia. split; lia. }
  destruct (Z.ltb_spec p (2 * r)) as [A2|A2].
  { replace (n - (q + 1) * p) with (- (p - r)) by lia. rewrite Z.abs_opp, Z.abs_eq by lia. split; lia. }
  assert (2 * r = p) by lia.
  destruct (Z.even q) eqn:Q.
  { replace (n - q * p) with r by lia. rewrite Z.abs_eq by lia. split; [lia|auto]. }
  replace (n - (q + 1) * p) with (- (p - r)) by lia. rewrite Z.abs_opp, Z.abs_eq by lia. split; [lia|].
  intros _. rewrite Z.even_add, Q. reflexivity.
Qed.

Lemma rint_ok x : nearest_even x (rint x).
Proof.
  unfold nearest_even, rint, scale, scaled. destruct (Z.leb_spec 0 (expo x)) as [H|H].
  - rewrite (Z.max_r 0 (expo x)) by lia. rewrite (Z.max_l 0 (- expo x)) by lia. rewrite Z.pow_0_r, Z.mul_1_r, Z.sub_diag.
    cbn. split; [lia|discriminate].
  - rewrite (Z.max_l 0 (expo x)) by lia. rewrite (Z.max_r 0 (- expo x)) by lia. rewrite Z.pow_0_r, Z.mul_1_r.
    apply rne_shift_ok. lia.
Qed.

Lemma nearest_unique x a b : nearest_even x a -> nearest_even x b -> a = b.
Proof.
  unfold nearest_even. intros [A A'] [B B'].
  assert (P : 0 < scale x) by (unfold scale; apply Z.pow_pos_nonneg; lia).
  set (p := scale x) in *. set (s := scaled x) in *. clearbody p s.
  assert (Z.abs (a - b) * p <= p).
  { rewrite <- (Z.abs_eq p) at 1 by lia. rewrite <- Z.abs_mul. replace ((a - b) * p) with ((s - b * p) - (s - a * p)) by lia. lia. }
  assert (Z.abs (a - b) <= 1) by nia.
  destruct (Z.eq_dec a b) as [E|E]; [exact E|exfalso].
  assert (C : a = b + 1 \/ b = a + 1) by lia.
  assert (T : 2 * Z.abs (s - a * p) = p /\ 2 * Z.abs (s - b * p) = p) by (destruct C as [-> | ->]; lia).
  destruct T as [T1 T2]. specialize (A' T1). specialize (B' T2).
  destruct C as [-> | ->]; rewrite Z.even_add in *.
  - rewrite B' in A'. discriminate.
  - rewrite A' in B'. discriminate.
Qed.

Lemma to_float_id x : is_float x -> to_float x = x.
Proof.
  unfold is_float, to_float. intros H. cbv zeta.
  destruct (Z.leb_spec (Z.log2 (Z.abs (mant x)) + 1) 24) as [_|A]; [reflexivity|exfalso].
  destruct (Z.eq_dec (mant x) 0) as [E|E].
  { rewrite E in A. cbn in A. lia. }
  assert (Z.log2 (Z.abs (mant x)) < 24) by (apply Z.log2_lt_pow2; lia). lia.
Qed.

Lemma cvt_ok x n : nearest_even x n -> fits i32 n -> cvt_si32 x = n.
Proof.
  intros H F. unfold cvt_si32. rewrite <- (nearest_unique _ _ _ H (rint_ok x)). unfold fits, i32 in F. cbn [tlo thi] in F.
  destruct (Z.leb_spec (- 2 ^ 31) n) as [_|A]; [|lia]. destruct (Z.leb_spec n (2 ^ 31 - 1)) as [_|A]; [reflexivity|lia].
Qed.
Lemma to_int_ok t n : fits t n -> to_int t n = Ok n.
Proof.
  intros [A B]. unfold to_int. destruct (Z.leb_spec (tlo t) n); [|lia]. destruct (Z.leb_spec n (thi t)); [reflexivity|lia].
Qed.

Lemma rd_at {A} (pre : list A) x post : rd (pre ++ x :: post) (length pre) = Ok x.
Proof. unfold rd. rewrite nth_error_app2 by lia. rewrite Nat.sub_diag. reflexivity. Qed.

Lemma pconvert_loop_ok {A B} (f : A -> outcome B) (todo : list A) : forall done pre res (ys : list B) post,
  length pre = length done -> Forall2 (fun x y => f x = Ok y) todo ys -> length res = length todo ->
  pconvert_loop f (done ++ todo) (pre ++ res ++ post) (length todo) (length done) = Ok (pre ++ ys ++ post).
Proof.
  induction todo as [|x t IH]; intros done pre res ys post L F R.
  - inversion F; subst. destruct res; [|discriminate]. reflexivity.
  - inversion F as [|? y ? ys' Hy Ft]; subst. destruct res as [|r0 res]; [discriminate|]. cbn [length] in R.
    cbn [length pconvert_loop]. rewrite rd_at. cbn [bind]. rewrite Hy. cbn [bind].
    assert (W : wr (pre ++ (r0 :: res) ++ post) (length done) y = Ok ((pre ++ [y]) ++ res ++ post)).
    { rewrite <- L. unfold wr. rewrite <- app_assoc. cbn [app].
      clear. induction pre as [|p pre IH]; [reflexivity|]. cbn [app length upd].
      destruct (upd (pre ++ r0 :: res ++ post) (length pre) y) eqn:E; inversion IH; subst; reflexivity. }
    rewrite W. cbn [bind].
    specialize (IH (done ++ [x]) (pre ++ [y]) res ys' post). rewrite <- !app_assoc in IH. cbn [app] in IH.
    assert (LD : length (done ++ [x]) = (length done + 1)%nat) by (rewrite app_length; reflexivity).
    assert (LP : length (pre ++ [y]) = (length pre + 1)%nat) by (rewrite app_length; reflexivity).
    rewrite LD, LP in IH. rewrite <- !app_assoc. cbn [app].
    apply IH; [lia|exact Ft|lia].
Qed.
Lemma pconvert_ok {A B} (f : A -> outcome B) op1 op2 ys : (length op1 <= length op2)%nat ->
  Forall2 (fun x y => f x = Ok y) op1 ys -> pconvert f op1 op2 = Ok (ys ++ skipn (length op1) op2).
Proof.
  intros L F. unfold pconvert. destruct (Nat.ltb_spec (length op2) (length op1)) as [A1|_]; [lia|].
  pose proof (pconvert_loop_ok f op1 [] [] (firstn (length op1) op2) ys (skipn (length op1) op2)) as H.
  cbn [app length] in H. rewrite firstn_skipn in H. apply H; [reflexivity|exact F|rewrite firstn_length; lia].
Qed.
Lemma pconvert4_eq a b c d w x y z :
  pconvert4 [a; b; c; d] [w; x; y; z] = pconvert fround_f_i32 [a; b; c; d] [w; x; y; z].
Proof. reflexivity. Qed.
