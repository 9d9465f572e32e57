(** * Proofs about the texts of exceptions. *)
From Verif Require Import Base UtilModel StrOpsModel StrOpsSpec StrNumProofs ExcModel XTextModel XTextSpec.
From Coq Require Import ZArith List Lia String.
Import ListNotations.
Local Open Scope list_scope.
Local Open Scope Z_scope.

Lemma render_lit a f args : literal a -> render (a ++ f) args = (r <- render f args ;; Ok (a ++ r)).
Proof.
  induction a as [|c a IH]; intros L; cbn [app]; [now destruct (render f args)|].
  inversion L as [|? ? H1 H2]; subst. cbn [render]. apply Z.eqb_neq in H1. rewrite H1. cbn [negb]. rewrite (IH H2).
  destruct (render f args); reflexivity.
Qed.
Lemma render_end a args : literal a -> render a args = Ok a.
Proof. intros L. rewrite <- (app_nil_r a) at 1. rewrite render_lit by assumption. cbn. now rewrite app_nil_r. Qed.
Lemma render_s f t args : render (37 :: 115 :: f) (PText t :: args) = (r <- render f args ;; Ok (t ++ r)).
Proof. reflexivity. Qed.
Lemma render_d f v args : render (37 :: 100 :: f) (PLong v :: args) = (r <- render f args ;; Ok (dec_text (int32 v) ++ r)).
Proof. reflexivity. Qed.
Lemma render_u f v args : render (37 :: 117 :: f) (PLong v :: args) = (r <- render f args ;; Ok (dec_text (low32 v) ++ r)).
Proof. reflexivity. Qed.
Lemma render_X f v args : render (37 :: 88 :: f) (PLong v :: args) = (r <- render f args ;; Ok (hex_digits 8 (low32 v) [] ++ r)).
Proof. reflexivity. Qed.

Lemma hex_digit_is d : 0 <= d < 16 -> digit_is (hex_digit d) d.
Proof. intros H. unfold digit_is, hex_digit. destruct (Z.ltb_spec d 10); lia. Qed.
Lemma hex_step k n acc : hex_digits (S k) n acc = if n <? 16 then hex_digit n :: acc else hex_digits k (n / 16) (hex_digit (n mod 16) :: acc).
Proof. reflexivity. Qed.
Lemma hex_ok fuel : forall n acc, 0 <= n < 16 ^ Z.of_nat (S fuel) -> exists vs ds, hex_digits (S fuel) n acc = ds ++ acc /\ ds <> [] /\
  Forall2 digit_is ds vs /\ Forall (fun d => d < 16) vs /\ forall a, fold_left (fun a d => 16 * a + d) vs a = a * 16 ^ Z.of_nat (List.length vs) + n.
Proof.
  induction fuel as [|k IH]; intros n acc H; rewrite hex_step; destruct (Z.ltb_spec n 16) as [L|L].
  1, 3: exists [n], [hex_digit n]; split; [reflexivity|]; split; [discriminate|]; split; [constructor; [apply hex_digit_is; lia|constructor]|];
      split; [constructor; [lia|constructor]|]; intros a; cbn [fold_left List.length]; change (16 ^ Z.of_nat 1) with 16; lia.
  - exfalso. change (16 ^ Z.of_nat 1) with 16 in H. lia.
  - assert (P : 16 ^ Z.of_nat (S (S k)) = 16 * 16 ^ Z.of_nat (S k)) by (rewrite (Nat2Z.inj_succ (S k)), Z.pow_succ_r by lia; reflexivity).
    pose proof (Z.div_mod n 16 ltac:(lia)) as D. pose proof (Z.mod_pos_bound n 16 ltac:(lia)) as M.
    destruct (IH (n / 16) (hex_digit (n mod 16) :: acc)) as (vs & ds & E & N & F & B & V).
    { split; [apply Z.div_pos; lia|]. apply Z.div_lt_upper_bound; lia. }
    exists (vs ++ [n mod 16]), (ds ++ [hex_digit (n mod 16)]). split; [rewrite E, <- app_assoc; reflexivity|].
    split; [destruct ds; discriminate|].
    split; [apply Forall2_app; [assumption|constructor; [apply hex_digit_is; lia|constructor]]|].
    split; [apply Forall_app; split; [assumption|constructor; [lia|constructor]]|].
    intros a. rewrite fold_left_app, V. cbn [fold_left]. rewrite app_length. cbn [List.length].
    rewrite Nat.add_1_r, Nat2Z.inj_succ, Z.pow_succ_r by lia. lia.
Qed.
Lemma hex_upper fuel : forall n acc, 0 <= n -> upper acc -> upper (hex_digits fuel n acc).
Proof.
  assert (D : forall d, 0 <= d < 16 -> ~ (97 <= hex_digit d <= 122)) by (intros d H; unfold hex_digit; destruct (Z.ltb_spec d 10); lia).
  induction fuel as [|k IH]; intros n acc H A; [exact A|]. cbn [hex_digits]. destruct (Z.ltb_spec n 16) as [L|L].
  - constructor; [apply D; lia|exact A].
  - apply IH; [apply Z.div_pos; lia|]. constructor; [apply D, Z.mod_pos_bound; lia|exact A].
Qed.
Lemma hex_numeral n : 0 <= n < 2 ^ 32 -> numeral 16 (hex_digits 8 n []) n.
Proof.
  intros H. destruct (hex_ok 7 n []) as (vs & ds & E & N & F & B & V); [exact H|]. rewrite app_nil_r in E. rewrite E.
  split; [assumption|]. exists vs. split; [assumption|]. split; [assumption|]. rewrite V. lia.
Qed.
Lemma dec_decimal n : - 2 ^ 64 < n < 2 ^ 64 -> decimal (dec_text n) n.
Proof.
  intros H. unfold decimal, dec_text. destruct (Z.ltb_spec n 0) as [L|L].
  - right. exists (dec_digits 20 (- n) []). split; [reflexivity|]. apply dec_20. lia.
  - left. apply dec_20. lia.
Qed.
Lemma dec_numeral n : 0 <= n < 2 ^ 64 -> numeral 10 (dec_text n) n.
Proof. intros H. unfold dec_text. destruct (Z.ltb_spec n 0); [lia|]. now apply dec_20. Qed.
Lemma upto0_app t r : c_text t -> upto0 (t ++ 0 :: r) = t.
Proof.
  induction t as [|x t IH]; intros C; [reflexivity|]. inversion C as [|? ? H1 H2]; subst. cbn [app upto0].
  apply Z.eqb_neq in H1. rewrite H1. now rewrite IH.
Qed.
Lemma strncpy_text n t : c_text t -> upto0 (zero_at n (strncpy (S n) t)) = firstn n t.
Proof.
  intros C. unfold zero_at, strncpy.
  assert (E : firstn n (firstn (S n) t ++ repeat 0 (S n - List.length t)) = firstn n t ++ repeat 0 (n - List.length t)).
  { rewrite firstn_app, firstn_firstn, firstn_length. replace (Nat.min n (S n)) with n by lia. f_equal.
    destruct (Nat.le_gt_cases (S n) (List.length t)).
    - replace (S n - List.length t)%nat with O by lia. replace (n - List.length t)%nat with O by lia. cbn [repeat]. apply firstn_nil.
    - rewrite Nat.min_r by lia. set (j := (n - List.length t)%nat). replace (S n - List.length t)%nat with (S j) by lia.
      clearbody j. clear. cbn [repeat]. revert j. induction j as [|j IH]; [reflexivity|]. cbn [repeat firstn]. f_equal. exact IH. }
  rewrite E. destruct (n - List.length t)%nat as [|j] eqn:J; cbn [repeat]; rewrite <- app_assoc; cbn [app].
  - apply upto0_app. unfold c_text in *. rewrite <- (firstn_skipn n t) in C. now apply Forall_app in C.
  - rewrite upto0_app; [reflexivity|]. unfold c_text in *. rewrite <- (firstn_skipn n t) in C. now apply Forall_app in C.
Qed.
Lemma int32_small n : 0 <= n < 2 ^ 31 -> int32 n = n.
Proof. intros H. unfold int32, low32. rewrite Z.mod_small by lia. replace (n <? 2 ^ 31) with true by lia. reflexivity. Qed.
Lemma int32_range n : - 2 ^ 31 <= int32 n < 2 ^ 31.
Proof. unfold int32, low32. pose proof (Z.mod_pos_bound n (2 ^ 32) ltac:(lia)). destruct (Z.ltb_spec (n mod 2 ^ 32) (2 ^ 31)); lia. Qed.
Lemma int32_mod n : int32 n mod 2 ^ 32 = n mod 2 ^ 32.
Proof.
  unfold int32, low32. destruct (Z.ltb_spec (n mod 2 ^ 32) (2 ^ 31)); [apply Z.mod_mod; lia|].
  replace (n mod 2 ^ 32 - 2 ^ 32) with (n mod 2 ^ 32 + (-1) * 2 ^ 32) by lia. rewrite Z.mod_add by lia. apply Z.mod_mod; lia.
Qed.
Lemma low32_small n : 0 <= n < 2 ^ 32 -> low32 n = n.
Proof. intros H. apply Z.mod_small. lia. Qed.
