(** * StrOpsProofs *)
From Verif Require Import Base UtilModel StoreModel VectorModel VectorSpec MemModel MemSpec StringModel StringSpec StringProofs StringRun
  StringFindModel StringFindSpec StringFindProofs StrFmtModel FmtSpec IstrModel IstrSpec StrOpsModel StrOpsSpec.
From Coq Require Import ZArith Lia ZifyBool ZifyNat.
Local Open Scope Z_scope.

(** ** C strings *)
Lemma c_len_ok t rest : Forall (fun x => x <> 0) t -> c_len (t ++ 0 :: rest) = Ok (Z.of_nat (length t)).
Proof.
  induction 1 as [|c t Hc _ IH]; [reflexivity|]. cbn [app c_len length]. replace (c =? 0) with false by lia.
  rewrite IH. cbn [bind]. f_equal. lia.
Qed.
Lemma memcmp_refl l : memcmp l l = 0.
Proof. induction l as [|x l IH]; [reflexivity|]. cbn [memcmp]. now rewrite Z.eqb_refl. Qed.
Lemma memcmp_eq a : forall b, length a = length b -> memcmp a b = 0 -> a = b.
Proof.
  induction a as [|x a IH]; intros [|y b] L E; try discriminate; [reflexivity|]. cbn [memcmp] in E.
  destruct (Z.eqb_spec x y) as [->|N]; [|lia]. f_equal. apply IH; [injection L as L; exact L|exact E].
Qed.
Lemma firstn_exact {A} (l r : list A) n : length l = n -> firstn n (l ++ r) = l.
Proof. intros <-. rewrite firstn_app, Nat.sub_diag, firstn_all. cbn [firstn]. apply app_nil_r. Qed.
Lemma eq_text s t rest : Forall (fun x => x <> 0) t -> exists b,
  (n <- c_len (t ++ 0 :: rest) ;; Ok ((ssize s =? n) && (memcmp s (firstn (length s) (t ++ 0 :: rest)) =? 0))) = Ok b /\ (b = true <-> s = t).
Proof.
  intros HF. rewrite c_len_ok by exact HF. cbn [bind]. eexists. split; [reflexivity|].
  rewrite andb_true_iff, !Z.eqb_eq. unfold ssize. split.
  - intros (L & E). rewrite firstn_exact in E by lia. apply memcmp_eq; [lia|exact E].
  - intros ->. split; [reflexivity|]. rewrite firstn_exact by reflexivity. apply memcmp_refl.
Qed.
Lemma eq_c_ok s c t : points_to c t -> exists b, eq_c s c = Ok b /\ (b = true <-> s = t).
Proof. intros (a & rest & -> & HF). unfold eq_c. now apply eq_text. Qed.
Lemma eq_c_null s : exists b, eq_c s None = Ok b /\ (b = true <-> s = []).
Proof. exact (eq_text s [] [] (Forall_nil _)). Qed.
Lemma compare_c_ok s c t : points_to c t -> compare_c s c = Ok (str_compare s t).
Proof.
  intros (a & rest & -> & HF). unfold compare_c. rewrite c_len_ok by exact HF. cbn [bind]. do 2 f_equal.
  rewrite Nat2Z.id. now apply firstn_exact.
Qed.

(** ** Parts *)
Lemma part_u64 s start len : 0 <= start -> 0 <= len -> start + len < 2 ^ 64 ->
  iat s start <= iat s (u64 (start + len)) /\ part s (iat s start) (iat s (u64 (start + len))) = part_of s start len.
Proof.
  intros H1 H2 H3. rewrite StringFindProofs.u64_id by lia. unfold iat. split; [lia|].
  unfold part, part_of. set (r := skipn _ s).
  assert (Lr : length r = (length s - Z.to_nat (Z.min start (ssize s)))%nat) by apply skipn_length.
  unfold ssize in *.
  destruct (Z.leb_spec (start + len) (Z.of_nat (length s))).
  - f_equal. lia.
  - rewrite !firstn_all2; [reflexivity| |]; lia.
Qed.
Lemma compare_sub_ok s start len t : 0 <= start -> 0 <= len -> start + len < 2 ^ 64 ->
  compare_sub s start len t = Ok (str_compare (part_of s start len) t).
Proof.
  intros H1 H2 H3. destruct (part_u64 s start len H1 H2 H3) as (P & Q). unfold compare_sub. rewrite Q.
  replace (_ <=? _) with true by lia. reflexivity.
Qed.
Lemma compare_sub2_ok s s1 l1 t s2 l2 : 0 <= s1 -> 0 <= l1 -> s1 + l1 < 2 ^ 64 -> 0 <= s2 -> 0 <= l2 -> s2 + l2 < 2 ^ 64 ->
  compare_sub2 s s1 l1 t s2 l2 = Ok (str_compare (part_of s s1 l1) (part_of t s2 l2)).
Proof.
  intros A1 A2 A3 B1 B2 B3. destruct (part_u64 s s1 l1 A1 A2 A3) as (P & Q). destruct (part_u64 t s2 l2 B1 B2 B3) as (P' & Q').
  unfold compare_sub2. rewrite Q, Q'. replace (_ && _) with true by lia. reflexivity.
Qed.

(** ** copy, copyto *)
Lemma s_copy_ok s buf n start : 0 < n -> 0 <= start <= ssize s -> n <= ssize buf ->
  s_copy s buf n start = Ok (part_of s start n ++ skipn (length (part_of s start n)) buf, ssize (part_of s start n)) /\
  ssize (part_of s start n) = Z.min n (ssize s - start).
Proof.
  intros Hn Hs Hb. unfold s_copy. replace ((n =? 0) || (ssize s <? start)) with false by lia.
  assert (E : firstn (Z.to_nat (Z.min n (ssize s - start))) (skipn (Z.to_nat (iat s start)) s) = part_of s start n).
  { unfold part_of, iat. set (r := skipn _ s).
    assert (Lr : length r = (length s - Z.to_nat (Z.min start (ssize s)))%nat) by apply skipn_length. unfold ssize in *.
    destruct (Z.leb_spec n (Z.of_nat (length s) - start)); [f_equal; lia|]. rewrite !firstn_all2; [reflexivity| |]; lia. }
  assert (L : ssize (part_of s start n) = Z.min n (ssize s - start)).
  { rewrite <- E. unfold iat, ssize in *. rewrite firstn_length, skipn_length. lia. }
  rewrite E. unfold put_front. unfold ssize in *. replace (_ <=? _)%nat with true by lia. cbn [bind].
  split; [|exact L]. do 2 f_equal. lia.
Qed.
Lemma s_copyto_ok s buf n start : 2 <= n < 2 ^ 64 -> 0 <= start <= ssize s -> n <= ssize buf ->
  exists c, s_copyto s buf n start = Ok (part_of s start (n - 1) ++ 0 :: skipn (S (length (part_of s start (n - 1)))) buf, c) /\
    c = ssize (part_of s start (n - 1)) /\ c = Z.min (n - 1) (ssize s - start).
Proof.
  intros Hn Hs Hb. exists (ssize (part_of s start (n - 1))).
  destruct (s_copy_ok s buf (n - 1) start) as (E & L); [lia..|].
  unfold s_copyto. rewrite StringFindProofs.u64_id by lia. rewrite E. cbn [bind]. split; [|split; [reflexivity|exact L]].
  set (x := part_of s start (n - 1)) in *. unfold ssize at 1. rewrite Nat2Z.id.
  destruct (skipn (length x) buf) as [|y r] eqn:K.
  { exfalso. apply (f_equal (@length _)) in K. rewrite skipn_length in K. cbn [length] in K. unfold ssize in *. lia. }
  rewrite wr_app. cbn [bind]. do 3 f_equal.
  assert (Q : forall (l : list Z) k y r, skipn k l = y :: r -> skipn (S k) l = r).
  { intros l k. revert l. induction k as [|k IH]; intros l y' r' H; destruct l as [|z l]; try discriminate; [now injection H|]. cbn [skipn] in *. now apply (IH l y' r'). }
  now rewrite (Q _ _ _ _ K).
Qed.
