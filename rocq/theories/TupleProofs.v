(** * TupleProofs. *)
From Verif Require Import Base Order TupleModel TupleSpec.
From Coq Require Import ZArith.

Lemma map2_nil {A B C} (f : A -> B -> C) b : map2 f [] b = [].
Proof. reflexivity. Qed.
Lemma map2_cons {A B C} (f : A -> B -> C) x y a b : map2 f (x :: a) (y :: b) = f x y :: map2 f a b.
Proof. reflexivity. Qed.
Lemma map2_app {A B C} (f : A -> B -> C) a1 a2 b1 b2 : length a1 = length b1 ->
  map2 f (a1 ++ a2) (b1 ++ b2) = map2 f a1 b1 ++ map2 f a2 b2.
Proof.
  revert b1. induction a1 as [|x a1 IH]; intros [|y b1] H; cbn in H; try lia; [reflexivity|].
  cbn [app]. rewrite !map2_cons, IH by lia. reflexivity.
Qed.
Lemma map2_length {A B C} (f : A -> B -> C) a b : length a = length b -> length (map2 f a b) = length a.
Proof. intros H. unfold map2. rewrite map_length, combine_length. lia. Qed.

Section P.
  Context {T : Type}.

  Lemma fill_from_ok (v : T) : forall n pre mid post, length mid = n ->
    fill_from (pre ++ mid ++ post) (length pre) n v = Ok (pre ++ repeat v n ++ post).
  Proof.
    induction n as [|n IH]; intros pre mid post L; destruct mid as [|x mid]; cbn in L; try lia; cbn [fill_from].
    - reflexivity.
    - cbn [app]. rewrite wr_app, bind_Ok.
      replace (pre ++ v :: mid ++ post) with ((pre ++ [v]) ++ mid ++ post) by now rewrite <- app_assoc.
      replace (length pre + 1) with (length (pre ++ [v])) by (rewrite app_length; reflexivity).
      rewrite IH by lia. now rewrite <- app_assoc.
  Qed.

  Lemma each_loop_ok (f : T -> T) : forall suf pre,
    each_loop f (pre ++ suf) (length suf) (length pre) = Ok (pre ++ map f suf).
  Proof.
    induction suf as [|x suf IH]; intros pre; cbn [each_loop length].
    - reflexivity.
    - rewrite rd_app, bind_Ok, wr_app, bind_Ok.
      replace (pre ++ f x :: suf) with ((pre ++ [f x]) ++ suf) by now rewrite <- app_assoc.
      replace (length pre + 1) with (length (pre ++ [f x])) by (rewrite app_length; reflexivity).
      rewrite IH. now rewrite <- app_assoc.
  Qed.

  Lemma zip_loop_ok {T2} (f : T -> T2 -> T) : forall n suf suf2 (pre : list T) (pre2 : list T2),
    length pre = length pre2 -> n <= length suf -> n <= length suf2 ->
    zip_loop f (pre ++ suf) (pre2 ++ suf2) n (length pre) =
      Ok (pre ++ map2 f (firstn n suf) (firstn n suf2) ++ skipn n suf).
  Proof.
    induction n as [|n IH]; intros suf suf2 pre pre2 L L1 L2; cbn [zip_loop].
    - reflexivity.
    - destruct suf as [|x suf]; [cbn in L1; lia|]. destruct suf2 as [|y suf2]; [cbn in L2; lia|].
      cbn [length] in *. rewrite rd_app, bind_Ok, (rd_app' pre2) by lia. rewrite bind_Ok, wr_app, bind_Ok.
      replace (pre ++ f x y :: suf) with ((pre ++ [f x y]) ++ suf) by now rewrite <- app_assoc.
      replace (pre2 ++ y :: suf2) with ((pre2 ++ [y]) ++ suf2) by now rewrite <- app_assoc.
      replace (length pre + 1) with (length (pre ++ [f x y])) by (rewrite app_length; reflexivity).
      rewrite IH by (rewrite ?app_length; cbn; lia). cbn [firstn skipn]. rewrite map2_cons. now rewrite <- app_assoc.
  Qed.

  Lemma op_tuple_ok {T2} (f : T -> T2 -> T) N a (b : list T2) : length a = N -> length b = N ->
    op_tuple f N a b = Ok (map2 f a b).
  Proof.
    intros La Lb. unfold op_tuple. pose proof (zip_loop_ok f N a b [] [] eq_refl ltac:(lia) ltac:(lia)) as E.
    cbn [app length] in E. rewrite !firstn_all2, skipn_all2, app_nil_r in E by lia. exact E.
  Qed.

  Lemma copy_n_ok : forall n pre mid post (src : list T) j, length mid = n -> j + n <= length src ->
    copy_n (pre ++ mid ++ post) (length pre) n src j = Ok (pre ++ slice src j (j + n) ++ post).
  Proof.
    induction n as [|n IH]; intros pre mid post src j L Ls; destruct mid as [|x mid]; cbn in L; try lia; cbn [copy_n].
    - rewrite Nat.add_0_r. unfold slice. now rewrite Nat.sub_diag.
    - destruct (rd_lt src j ltac:(lia)) as (y & E & N). rewrite E, bind_Ok. cbn [app]. rewrite wr_app, bind_Ok.
      replace (pre ++ y :: mid ++ post) with ((pre ++ [y]) ++ mid ++ post) by now rewrite <- app_assoc.
      replace (length pre + 1) with (length (pre ++ [y])) by (rewrite app_length; reflexivity).
      rewrite IH by lia. rewrite <- app_assoc. cbn [app]. f_equal. f_equal.
      apply nth_error_split in N as (s1 & s2 & -> & <-).
      unfold slice. replace (length s1 + S n - length s1) with (S n) by lia.
      replace (length s1 + 1 + n - (length s1 + 1)) with n by lia.
      rewrite !skipn_app, skipn_all, Nat.sub_diag.
      rewrite skipn_all2 by lia. replace (length s1 + 1 - length s1) with 1 by lia. reflexivity.
  Qed.

  (** ** Comparisons *)
  Lemma eq_loop_ok (eqb : T -> T -> bool) (D : DecEq eqb) : forall a b pre pre2, length a = length b -> length pre = length pre2 ->
    exists r, eq_loop eqb (pre ++ a) (pre2 ++ b) (length a) (length pre) = Ok r /\ (r = true <-> a = b).
  Proof.
    induction a as [|x a IH]; intros [|y b] pre pre2 L Lp; cbn in L; try lia; cbn [eq_loop length].
    - exists true. tauto.
    - rewrite rd_app, bind_Ok, (rd_app' pre2) by lia. rewrite bind_Ok.
      pose proof (D x y) as Dxy. destruct (eqb x y); cbn [negb].
      + replace (pre ++ x :: a) with ((pre ++ [x]) ++ a) by now rewrite <- app_assoc.
        replace (pre2 ++ y :: b) with ((pre2 ++ [y]) ++ b) by now rewrite <- app_assoc.
        replace (length pre + 1) with (length (pre ++ [x])) by (rewrite app_length; reflexivity).
        destruct (IH b (pre ++ [x]) (pre2 ++ [y])) as (r & E & H); [lia|rewrite !app_length; cbn; lia|].
        exists r. split; [exact E|]. rewrite H. destruct Dxy as (Dxy & _). specialize (Dxy eq_refl). subst.
        split; [now intros ->|]. now intros [= ->].
      + exists false. split; [reflexivity|]. split; [discriminate|]. intros [= -> ->]. destruct Dxy as (_ & Dxy).
        now apply Dxy.
  Qed.

  Lemma lex_cons (lt : T -> T -> bool) x y a b : length a = length b ->
    lex_before lt (x :: a) (y :: b) <-> lt x y = true \/ (equiv lt x y = true /\ lex_before lt a b).
  Proof.
    intros L. split.
    - intros (i & u & v & A & B & C & D). destruct i as [|i]; cbn in A, B.
      + left. congruence.
      + right. split; [apply (D 0 x y); [lia|reflexivity|reflexivity]|].
        exists i, u, v. repeat split; auto. intros j x' y' Hj Ha Hb. apply (D (S j)); auto. lia.
    - intros [H|(H & i & u & v & A & B & C & D)].
      + exists 0, x, y. repeat split; auto. intros. lia.
      + exists (S i), u, v. repeat split; auto. intros [|j] x' y' Hj Ha Hb; cbn in Ha, Hb; [congruence|].
        apply (D j); auto. lia.
  Qed.

  Lemma less_loop_ok (lt : T -> T -> bool) (asym : forall x y, lt x y = true -> lt y x = false) :
    forall a b pre pre2, length a = length b -> length pre = length pre2 ->
    exists r, less_loop lt (pre ++ a) (pre2 ++ b) (length a) (length pre) = Ok r /\ (r = true <-> lex_before lt a b).
  Proof.
    induction a as [|x a IH]; intros [|y b] pre pre2 L Lp; cbn in L; try lia; cbn [less_loop length].
    - exists false. split; [reflexivity|]. split; [discriminate|]. intros (i & u & v & A & _). destruct i; discriminate A.
    - rewrite rd_app, bind_Ok, (rd_app' pre2) by lia. rewrite bind_Ok.
      pose proof (lex_cons lt x y a b ltac:(lia)) as C. unfold equiv in C.
      destruct (lt y x) eqn:Eyx; cbn [negb].
      + exists false. split; [reflexivity|]. split; [discriminate|]. intros H. apply C in H as [H|(H & _)].
        * apply asym in H. congruence.
        * rewrite andb_comm in H. discriminate H.
      + destruct (lt x y) eqn:Exy.
        * exists true. split; [reflexivity|]. rewrite C. tauto.
        * replace (pre ++ x :: a) with ((pre ++ [x]) ++ a) by now rewrite <- app_assoc.
          replace (pre2 ++ y :: b) with ((pre2 ++ [y]) ++ b) by now rewrite <- app_assoc.
          replace (length pre + 1) with (length (pre ++ [x])) by (rewrite app_length; reflexivity).
          destruct (IH b (pre ++ [x]) (pre2 ++ [y])) as (r & E & H); [lia|rewrite !app_length; cbn; lia|].
          exists r. split; [exact E|]. rewrite H, C. cbn. intuition discriminate.
  Qed.

  Lemma swap_loop_ok : forall (a b pre pre2 : list T), length a = length b -> length pre = length pre2 ->
    swap_loop (pre ++ a) (pre2 ++ b) (length a) (length pre) = Ok (pre ++ b, pre2 ++ a).
  Proof.
    induction a as [|x a IH]; intros [|y b] pre pre2 L Lp; cbn in L; try lia; cbn [swap_loop length].
    - reflexivity.
    - rewrite rd_app, bind_Ok, (rd_app' pre2) by lia. rewrite bind_Ok, wr_app, bind_Ok, (wr_app' pre2) by lia. rewrite bind_Ok.
      replace (pre ++ y :: a) with ((pre ++ [y]) ++ a) by now rewrite <- app_assoc.
      replace (pre2 ++ x :: b) with ((pre2 ++ [x]) ++ b) by now rewrite <- app_assoc.
      replace (length pre + 1) with (length (pre ++ [y])) by (rewrite app_length; reflexivity).
      rewrite IH by (rewrite ?app_length; cbn; lia). now rewrite <- !app_assoc.
  Qed.

  Lemma set_values_ok : forall vs v (pre mid : list T) N, length vs + 1 <= length mid -> length pre + length mid = N ->
    set_values (pre ++ mid) (length pre) (vs ++ [v]) N = Ok (pre ++ vs ++ repeat v (N - length pre - length vs)).
  Proof.
    induction vs as [|w vs IH]; intros v pre mid N L E.
    - cbn [app set_values]. destruct (Nat.ltb_spec N (length pre)); [lia|].
      rewrite <- (app_nil_r mid). rewrite (fill_from_ok v (N - length pre)) by lia.
      rewrite app_nil_r. cbn. now rewrite Nat.sub_0_r.
    - destruct mid as [|x mid]; cbn [length] in *; [lia|].
      cbn [app set_values].
      destruct (vs ++ [v]) eqn:Ev; [destruct vs; discriminate Ev|]. rewrite <- Ev in *.
      rewrite wr_app, bind_Ok.
      replace (pre ++ w :: mid) with ((pre ++ [w]) ++ mid) by now rewrite <- app_assoc.
      replace (length pre + 1) with (length (pre ++ [w])) by (rewrite app_length; reflexivity).
      rewrite IH by (rewrite ?app_length; cbn; lia). rewrite <- app_assoc. cbn [app]. f_equal. f_equal. f_equal. f_equal.
      f_equal. rewrite app_length. cbn. lia.
  Qed.

  (** ** SIMD *)
  Lemma packop1_ok (op : T -> T) : forall n a i, i + n <= length a -> packop1 op a n i = Ok a.
  Proof.
    induction n as [|n IH]; intros a i H; cbn [packop1]; [reflexivity|].
    destruct (rd_lt a i ltac:(lia)) as (x & -> & _). rewrite bind_Ok. apply IH. lia.
  Qed.
  Lemma movq_ok : forall n (m : list T) i, i + n <= length m -> movq m i n = Ok (slice m i (i + n)).
  Proof.
    induction n as [|n IH]; intros m i H; cbn [movq].
    - unfold slice. now rewrite Nat.add_0_r, Nat.sub_diag.
    - destruct (rd_lt m i ltac:(lia)) as (x & E & N). rewrite E, bind_Ok, IH, bind_Ok by lia. f_equal.
      apply nth_error_split in N as (s1 & s2 & -> & <-).
      unfold slice. replace (length s1 + S n - length s1) with (S n) by lia.
      replace (length s1 + 1 + n - (length s1 + 1)) with n by lia.
      rewrite !skipn_app, skipn_all, Nat.sub_diag.
      rewrite skipn_all2 by lia. replace (length s1 + 1 - length s1) with 1 by lia. reflexivity.
  Qed.
  Lemma lanes2_map2 (f : T -> T -> T) : forall d s, lanes2 f d s = map2 f d s.
  Proof. induction d as [|x d IH]; intros [|y s]; cbn [lanes2]; auto. now rewrite map2_cons, IH. Qed.
  Lemma storeq_ok : forall r (pre mid post : list T), length mid = length r ->
    storeq (pre ++ mid ++ post) (length pre) r = Ok (pre ++ r ++ post).
  Proof.
    induction r as [|x r IH]; intros pre [|y mid] post L; cbn in L; try lia; cbn [storeq app]; [reflexivity|].
    rewrite wr_app, bind_Ok.
    replace (pre ++ x :: mid ++ post) with ((pre ++ [x]) ++ mid ++ post) by now rewrite <- app_assoc.
    replace (length pre + 1) with (length (pre ++ [x])) by (rewrite app_length; reflexivity).
    rewrite IH by lia. now rewrite <- app_assoc.
  Qed.

  Lemma mmx_pkop2_ok (f : T -> T -> T) N oin oout : length oin = N -> length oout = N ->
    mmx_pkop2 f N oin oout = Ok (map2 f oout oin).
  Proof.
    intros Li Lo. unfold mmx_pkop2. rewrite !movq_ok by lia. cbn [Nat.add]. rewrite !bind_Ok.
    unfold slice. rewrite !Nat.sub_0_r. cbn [skipn]. rewrite !firstn_all2 by lia.
    rewrite lanes2_map2. pose proof (storeq_ok (map2 f oout oin) [] oout []) as S.
    cbn [app length] in S. rewrite !app_nil_r in S. apply S. rewrite map2_length; lia.
  Qed.
  Lemma mmx_dbl_pkop2_ok (f : T -> T -> T) oin oout : length oin = 4 -> length oout = 4 ->
    mmx_dbl_pkop2 f oin oout = Ok (map2 f oout oin).
  Proof.
    intros Li Lo. do 4 (destruct oin as [|? oin]; [discriminate Li|]). destruct oin; [|discriminate Li].
    do 4 (destruct oout as [|? oout]; [discriminate Lo|]). destruct oout; [|discriminate Lo]. reflexivity.
  Qed.
  Lemma packop2_ok (f : T -> T -> T) N op1 op2 : length op1 = N -> length op2 = N ->
    packop2 f N op1 op2 = Ok (map2 f op2 op1).
  Proof. intros. apply op_tuple_ok; auto. Qed.
End P.

Lemma map2_ext {A B C} (f g : A -> B -> C) (P : A -> Prop) (Q : B -> Prop) a b :
  (forall x y, P x -> Q y -> f x y = g x y) -> Forall P a -> Forall Q b -> map2 f a b = map2 g a b.
Proof.
  intros H. revert b. induction a as [|x a IH]; intros [|y b] Fa Fb; try reflexivity.
  inversion Fa; inversion Fb; subst. rewrite !map2_cons, H, IH; auto.
Qed.

(** ** Lanes *)
Local Open Scope Z_scope.

Lemma pow_pred w : 1 <= w -> 2 ^ w = 2 * 2 ^ (w - 1).
Proof. intros. rewrite <- Z.pow_succ_r by lia. f_equal. lia. Qed.

Lemma unbits_conv sgn w x : 1 <= w -> unbits sgn w (x mod 2 ^ w) = conv sgn w x.
Proof.
  intros Hw. unfold unbits, conv, uconv, sconv. destruct sgn; [|reflexivity].
  pose proof (pow_pred w Hw) as P. assert (0 < 2 ^ (w - 1)) by (apply Z.pow_pos_nonneg; lia).
  set (h := 2 ^ (w - 1)) in *. rewrite P in *. clear P Hw.
  pose proof (Z.div_mod x (2 * h) ltac:(lia)) as D. pose proof (Z.mod_pos_bound x (2 * h) ltac:(lia)) as B.
  set (q := x / (2 * h)) in *. set (r := x mod (2 * h)) in *.
  destruct (Z.ltb_spec r h).
  - rewrite D. replace (2 * h * q + r + h) with ((r + h) + q * (2 * h)) by ring.
    rewrite Z.mod_add, Z.mod_small by lia. lia.
  - rewrite D. replace (2 * h * q + r + h) with ((r - h) + (q + 1) * (2 * h)) by ring.
    rewrite Z.mod_add, Z.mod_small by lia. lia.
Qed.

Lemma conv_id sgn w x : 1 <= w -> of_type sgn w x -> conv sgn w x = x.
Proof.
  intros Hw. unfold of_type, conv, uconv, sconv. pose proof (pow_pred w Hw).
  destruct sgn; intros H0.
  - rewrite Z.mod_small by lia. lia.
  - now apply Z.mod_small.
Qed.

Lemma unbits_bits sgn w x : 1 <= w -> of_type sgn w x -> unbits sgn w (bits w x) = x.
Proof. intros. unfold bits. rewrite unbits_conv, conv_id; auto. Qed.

Lemma padd_ok sgn w d s : 1 <= w -> i_padd sgn w d s = f_plus sgn w d s.
Proof.
  intros. unfold i_padd, f_plus, bits. rewrite <- unbits_conv by assumption. f_equal. symmetry. apply Z.add_mod.
  apply Z.pow_nonzero; lia.
Qed.
Lemma psub_ok sgn w d s : 1 <= w -> i_psub sgn w d s = f_minus sgn w d s.
Proof. intros. unfold i_psub, f_minus, bits. rewrite <- unbits_conv by assumption. f_equal. symmetry. apply Zminus_mod. Qed.

Lemma land_mod a b n : 0 <= n -> (Z.land a b) mod 2 ^ n = Z.land (a mod 2 ^ n) (b mod 2 ^ n).
Proof.
  intros. apply Z.bits_inj'. intros k Hk. rewrite Z.land_spec. destruct (Z.lt_ge_cases k n).
  - rewrite !Z.mod_pow2_bits_low, Z.land_spec by lia. reflexivity.
  - rewrite !Z.mod_pow2_bits_high by lia. reflexivity.
Qed.
Lemma lor_mod a b n : 0 <= n -> (Z.lor a b) mod 2 ^ n = Z.lor (a mod 2 ^ n) (b mod 2 ^ n).
Proof.
  intros. apply Z.bits_inj'. intros k Hk. rewrite Z.lor_spec. destruct (Z.lt_ge_cases k n).
  - rewrite !Z.mod_pow2_bits_low, Z.lor_spec by lia. reflexivity.
  - rewrite !Z.mod_pow2_bits_high by lia. reflexivity.
Qed.
Lemma lxor_mod a b n : 0 <= n -> (Z.lxor a b) mod 2 ^ n = Z.lxor (a mod 2 ^ n) (b mod 2 ^ n).
Proof.
  intros. apply Z.bits_inj'. intros k Hk. rewrite Z.lxor_spec. destruct (Z.lt_ge_cases k n).
  - rewrite !Z.mod_pow2_bits_low, Z.lxor_spec by lia. reflexivity.
  - rewrite !Z.mod_pow2_bits_high by lia. reflexivity.
Qed.
Lemma pand_ok sgn w d s : 1 <= w -> i_pand sgn w d s = f_and sgn w d s.
Proof. intros. unfold i_pand, f_and, bits. rewrite <- land_mod by lia. now apply unbits_conv. Qed.
Lemma por_ok sgn w d s : 1 <= w -> i_por sgn w d s = f_or sgn w d s.
Proof. intros. unfold i_por, f_or, bits. rewrite <- lor_mod by lia. now apply unbits_conv. Qed.
Lemma pxor_ok sgn w d s : 1 <= w -> i_pxor sgn w d s = f_xor sgn w d s.
Proof. intros. unfold i_pxor, f_xor, bits. rewrite <- lxor_mod by lia. now apply unbits_conv. Qed.

Section Sat.
  Context (w : Z) (Hw : 1 <= w).
  Let P := pow_pred w Hw.
  Let Q : 0 < 2 ^ (w - 1). Proof. apply Z.pow_pos_nonneg; lia. Qed.

  Lemma bits_u x : of_type false w x -> bits w x = x.
  Proof. intros H. now apply Z.mod_small. Qed.
  Lemma bits_s x : of_type true w x -> unbits true w (bits w x) = x.
  Proof. intros. now apply unbits_bits. Qed.

  Lemma paddus_ok d s : of_type false w d -> of_type false w s ->
    i_paddus w d s = Z.min (2 ^ w - 1) (d + s) /\ fpadds false w d s = Z.min (2 ^ w - 1) (d + s).
  Proof.
    intros Hd Hs. unfold i_paddus, fpadds, clamp, conv, uconv, tmax. rewrite !bits_u by assumption.
    unfold of_type in *. split.
    - destruct (Z.ltb_spec (d + s) 0), (Z.ltb_spec (2 ^ w - 1) (d + s)); lia.
    - destruct (Z.ltb_spec (2 ^ w - 1 - d) s); rewrite Z.mod_small; lia.
  Qed.
  Lemma psubus_ok d s : of_type false w d -> of_type false w s ->
    i_psubus w d s = Z.max 0 (d - s) /\ fpsubs false w d s = Z.max 0 (d - s).
  Proof.
    intros Hd Hs. unfold i_psubus, fpsubs, clamp, conv, uconv, tmin. rewrite !bits_u by assumption.
    unfold of_type in *. split.
    - destruct (Z.ltb_spec (d - s) 0), (Z.ltb_spec (2 ^ w - 1) (d - s)); lia.
    - destruct (Z.ltb_spec d (0 + s)); rewrite Z.mod_small; lia.
  Qed.
  Lemma padds_ok d s : of_type true w d -> of_type true w s ->
    i_padds w d s = Z.max (- 2 ^ (w - 1)) (Z.min (2 ^ (w - 1) - 1) (d + s)).
  Proof.
    intros Hd Hs. unfold i_padds, clamp. rewrite !bits_s by assumption.
    unfold of_type in *. destruct (Z.ltb_spec (d + s) (- 2 ^ (w - 1))), (Z.ltb_spec (2 ^ (w - 1) - 1) (d + s)); lia.
  Qed.
  Lemma psubs_ok d s : of_type true w d -> of_type true w s ->
    i_psubs w d s = Z.max (- 2 ^ (w - 1)) (Z.min (2 ^ (w - 1) - 1) (d - s)).
  Proof.
    intros Hd Hs. unfold i_psubs, clamp. rewrite !bits_s by assumption.
    unfold of_type in *. destruct (Z.ltb_spec (d - s) (- 2 ^ (w - 1))), (Z.ltb_spec (2 ^ (w - 1) - 1) (d - s)); lia.
  Qed.
  (** The scalar functor saturates downwards only. *)
  Lemma fpsubs_s d s : of_type true w d -> of_type true w s -> 0 <= s \/ d - s < 2 ^ (w - 1) ->
    fpsubs true w d s = Z.max (- 2 ^ (w - 1)) (Z.min (2 ^ (w - 1) - 1) (d - s)).
  Proof.
    intros Hd Hs C. unfold fpsubs, tmin, of_type in *.
    destruct (Z.ltb_spec d (- 2 ^ (w - 1) + s)); rewrite conv_id; unfold of_type; auto; lia.
  Qed.
  Lemma pavgu_ok d s : of_type false w d -> of_type false w s ->
    i_pavg false w d s = (d + s + 1) / 2 /\ fpavg false w d s = (d + s + 1) / 2.
  Proof.
    intros Hd Hs. unfold i_pavg, fpavg, unbits, conv, uconv. rewrite !bits_u by assumption.
    unfold of_type in *. split; [reflexivity|].
    rewrite Z.quot_div_nonneg by lia. apply Z.mod_small. split; [apply Z.div_pos; lia|].
    apply Z.div_lt_upper_bound; lia.
  Qed.
  Lemma fpmin_ok d s : fpmin d s = Z.min d s.
  Proof. unfold fpmin. destruct (Z.ltb_spec d s); lia. Qed.
  Lemma fpmax_ok d s : fpmax d s = Z.max d s.
  Proof. unfold fpmax. destruct (Z.ltb_spec s d); lia. Qed.
  Lemma pminmaxu_ok d s : of_type false w d -> of_type false w s -> i_pminu w d s = Z.min d s /\ i_pmaxu w d s = Z.max d s.
  Proof. intros. unfold i_pminu, i_pmaxu. now rewrite !bits_u by assumption. Qed.
  Lemma pminmaxs_ok d s : of_type true w d -> of_type true w s -> i_pmins w d s = Z.min d s /\ i_pmaxs w d s = Z.max d s.
  Proof. intros. unfold i_pmins, i_pmaxs. now rewrite !bits_s by assumption. Qed.
End Sat.
