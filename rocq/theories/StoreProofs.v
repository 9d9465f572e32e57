(** * StoreProofs: rotate_cells exchanges the two parts. *)
From Verif Require Import Base UtilModel UtilProofs ByteModel ByteSpec ByteProofs StoreModel VectorModel VectorSpec.
From Coq Require Import ZArith ZifyBool ZifyNat.
Local Open Scope Z_scope.

Lemma gather_from_ok {A} es (cells : list A) m l : forall a,
  (forall i x, nth_error l i = Some x -> gather es cells m (a + es * Z.of_nat i) = Ok x) ->
  gather_from es cells m a (length l) = Ok l.
Proof.
  induction l as [|x l IH]; intros a H; [reflexivity|]. cbn [length gather_from].
  pose proof (H O x eq_refl) as H0. rewrite Z.mul_0_r, Z.add_0_r in H0. rewrite H0. cbn [bind].
  rewrite IH; [reflexivity|]. intros i y Hy.
  replace (a + es + es * Z.of_nat i) with (a + es * Z.of_nat (S i)) by lia. apply H. exact Hy.
Qed.

Lemma frags_of_ok m a k todo : forall j,
  (forall i, (j <= i < j + todo)%nat -> m (a + Z.of_nat i) = Some (k, i)) ->
  frags_of m a k j todo = true.
Proof.
  induction todo as [|t IH]; intros j H; [reflexivity|]. cbn [frags_of].
  rewrite (H j) by lia. rewrite !Nat.eqb_refl. apply IH. intros i Hi. apply H. lia.
Qed.

Lemma gather_ok {A} es (cells : list A) m a k x : 0 < es ->
  (forall j, 0 <= j < es -> m (a + j) = Some (k, Z.to_nat j)) ->
  nth_error cells k = Some x -> gather es cells m a = Ok x.
Proof.
  intros He H Hk. unfold gather.
  pose proof (H 0 ltac:(lia)) as H0. rewrite Z.add_0_r in H0. rewrite H0.
  rewrite frags_of_ok.
  - unfold rd. now rewrite Hk.
  - intros i Hi. rewrite H by lia. now rewrite Nat2Z.id.
Qed.

Lemma mul_mono es a b : 0 < es -> a <= b -> es * a <= es * b.
Proof. nia. Qed.
Lemma mul_lt_succ es a b : 0 < es -> a < b -> es * a + es <= es * b.
Proof. nia. Qed.

Lemma frag_mem_in es base n buf h i j : 0 < es -> 0 <= j < es -> 0 <= i < n ->
  frag_mem es base n buf h (base + es * i + j) = Some (Z.to_nat i, Z.to_nat j).
Proof.
  intros He Hj Hi. unfold frag_mem.
  assert (es * i + es <= es * n) by nia.
  assert (0 <= es * i) by nia.
  replace ((base <=? base + es * i + j) && (base + es * i + j <? base + es * n)) with true by lia.
  replace (base + es * i + j - base) with (i * es + j) by lia.
  rewrite Z.div_add_l, (Z.div_small j es), Z.add_0_r by lia.
  rewrite Z.add_comm, Z_mod_plus_full, (Z.mod_small j es) by lia. reflexivity.
Qed.

Lemma rotate_cells_ok4 {A} e es base (pre a b post : list A) :
  let n := Z.of_nat (length (pre ++ a ++ b ++ post)) in
  0 < es -> base mod 4 = 0 -> 0 <= base -> base + es * n <= stack_at e ->
  stack_at e + es * n < 2 ^ 64 - 15 ->
  rot_good (es * Z.of_nat (length pre)) (es * Z.of_nat (length pre + length a))
           (es * Z.of_nat (length pre + length a + length b)) = true ->
  rotate_cells e es base (pre ++ a ++ b ++ post) (length pre) (length pre + length a)
               (length pre + length a + length b) = Ok (pre ++ b ++ a ++ post).
Proof.
  intros n He Ha Hb Hs Hs2 Hr. unfold rotate_cells.
  fold n.
  replace (length pre + length a - length pre)%nat with (length a) by lia.
  replace (length pre + length a + length b - (length pre + length a))%nat with (length b) by lia.
  set (p := Z.of_nat (length pre)) in *. set (la := Z.of_nat (length a)). set (lb := Z.of_nat (length b)).
  rewrite !Nat2Z.inj_add in *. fold p la lb in Hr |- *.
  assert (Hn : p + la + lb <= n) by (unfold n, p, la, lb; rewrite !app_length; lia).
  assert (0 <= p /\ 0 <= la /\ 0 <= lb) as (P0 & P1 & P2) by (unfold p, la, lb; lia).
  set (f := base + es * p). set (m := base + es * (p + la)). set (l := base + es * (p + la + lb)).
  assert (E1 : m - f = es * la) by (unfold m, f; lia).
  assert (E2 : l - m = es * lb) by (unfold l, m; lia).
  assert (Emin : es * Z.min la lb = Z.min (m - f) (l - m)) by (rewrite E1, E2, Z.mul_min_distr_nonneg_l by lia; reflexivity).
  assert (Hla : 0 <= es * la) by nia. assert (Hlb : 0 <= es * lb) by nia. assert (Hlp : 0 <= es * p) by nia.
  assert (Hln : es * (p + la + lb) <= es * n) by nia.
  set (M := frag_mem es base n (stack_at e) (es * Z.min la lb)).
  destruct (rotate_fast_with_ok copy_backward_fast (stack_at e) M f m l) as (m' & R & [R1 R2] & S & _).
  - unfold f. lia.
  - lia.
  - unfold l, two64. lia.
  - unfold two64. lia.
  - intros x Hx. unfold M, frag_mem. replace ((base <=? x) && (x <? base + es * n)) with true by lia. discriminate.
  - intros x Hx. unfold M, frag_mem. destruct ((base <=? x) && (x <? base + es * n)); [discriminate|].
    replace ((stack_at e <=? x) && (x <? stack_at e + es * Z.min la lb)) with true by lia. discriminate.
  - left. unfold l, f. lia.
  - intros K1 K2 m1 B1 B2. unfold rot_good in Hr.
    assert (F4 : f mod 4 = (es * p) mod 4 /\ m mod 4 = (es * (p + la)) mod 4).
    { unfold f, m. split; Z.div_mod_to_equations; lia. }
    destruct F4 as [F4 M4].
    apply copy_backward_fast_ok; auto; try lia; unfold two64; try lia.
  - unfold rotate_fast. rewrite R. cbn [bind].
    replace (length (pre ++ a ++ b ++ post)) with (length (pre ++ b ++ a ++ post)) by (rewrite !app_length; lia).
    apply gather_from_ok. intros i x Hi.
    assert (Hi' : (i < length (pre ++ b ++ a ++ post))%nat) by (apply nth_error_Some; congruence).
    assert (Hin : Z.of_nat i < n) by (unfold n; rewrite !app_length in *; lia).
    set (z := Z.of_nat i) in *.
    assert (Out : forall y, base <= y < base + es * n -> ~ (f <= y < l) -> m' y = M y).
    { intros y Hy Hy2. apply S; [lia|]. lia. }
    destruct (Nat.lt_ge_cases i (length pre)) as [C1|C1].
    + rewrite nth_error_app1 in Hi by lia.
      apply gather_ok with (k := i); auto; [|rewrite nth_error_app1 by lia; auto].
      intros j Hj. assert (es * z + es <= es * p) by (apply mul_lt_succ; lia). assert (0 <= es * z) by nia.
      rewrite Out by (unfold f; lia). unfold M. rewrite frag_mem_in by lia. f_equal. f_equal. unfold z. lia.
    + rewrite nth_error_app2 in Hi by lia.
      destruct (Nat.lt_ge_cases i (length pre + length b)) as [C2|C2].
      * rewrite nth_error_app1 in Hi by lia.
        apply gather_ok with (k := (i + length a)%nat); auto.
        2:{ rewrite nth_error_app2 by lia. rewrite nth_error_app2 by lia. rewrite nth_error_app1 by lia.
            rewrite <- Hi. f_equal. lia. }
        intros j Hj.
        assert (es * z + es <= es * (p + lb)) by (apply mul_lt_succ; lia).
        assert (es * p <= es * z) by (apply mul_mono; lia).
        rewrite R1 by (unfold f; lia).
        replace (base + es * z + j - f + m) with (base + es * (z + la) + j) by (unfold m, f; lia).
        unfold M. rewrite frag_mem_in by (unfold z, la, lb, p in *; lia). f_equal. f_equal. unfold z, la. lia.
      * rewrite nth_error_app2 in Hi by lia.
        destruct (Nat.lt_ge_cases i (length pre + length b + length a)) as [C3|C3].
        -- rewrite nth_error_app1 in Hi by lia.
           apply gather_ok with (k := (i - length b)%nat); auto.
           2:{ rewrite nth_error_app2 by lia. rewrite nth_error_app1 by lia.
               rewrite <- Hi. f_equal. lia. }
           intros j Hj.
           assert (es * z + es <= es * (p + la + lb)) by (apply mul_lt_succ; lia).
           assert (es * (p + lb) <= es * z) by (apply mul_mono; lia).
           rewrite R2 by (unfold f, l; lia).
           replace (base + es * z + j - (l - m)) with (base + es * (z - lb) + j) by (unfold m, l; lia).
           unfold M. rewrite frag_mem_in by (unfold z, la, lb, p in *; lia). f_equal. f_equal. unfold z, lb. lia.
        -- rewrite nth_error_app2 in Hi by lia.
           apply gather_ok with (k := i); auto.
           2:{ rewrite nth_error_app2 by lia. rewrite nth_error_app2 by lia. rewrite nth_error_app2 by lia.
               rewrite <- Hi. f_equal. lia. }
           intros j Hj.
           assert (es * (p + la + lb) <= es * z) by (apply mul_mono; lia).
           assert (es * z + es <= es * n) by (apply mul_lt_succ; lia).
           rewrite Out by (unfold l; lia). unfold M. rewrite frag_mem_in by lia. f_equal. f_equal. unfold z. lia.
Qed.
Lemma rotate_cells_ok {A} e es base (pre a b post : list A) :
  let n := Z.of_nat (length (pre ++ a ++ b ++ post)) in
  0 < es -> base mod 16 = 0 -> 0 <= base -> base + es * n <= stack_at e ->
  stack_at e + es * n < 2 ^ 64 - 15 ->
  rot_good (es * Z.of_nat (length pre)) (es * Z.of_nat (length pre + length a))
           (es * Z.of_nat (length pre + length a + length b)) = true ->
  rotate_cells e es base (pre ++ a ++ b ++ post) (length pre) (length pre + length a)
               (length pre + length a + length b) = Ok (pre ++ b ++ a ++ post).
Proof.
  intros n He Ha. apply rotate_cells_ok4; [exact He|]. Z.div_mod_to_equations; lia.
Qed.


(** Sizes that are multiples of 4 are always moved right. *)
Lemma rot_good_4 es a b c : es mod 4 = 0 -> rot_good (es * a) (es * b) (es * c) = true \/ es * b < es * a.
Proof.
  intros H. destruct (Z.lt_ge_cases (es * b) (es * a)); [now right|left]. unfold rot_good.
  assert ((es * a) mod 4 = 0 /\ (es * b) mod 4 = 0) as [-> ->].
  { split; rewrite Z.mul_mod, H by lia; reflexivity. }
  lia.
Qed.
