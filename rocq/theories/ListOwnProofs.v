From Coq Require Import ZArith.
From Verif Require Import Base StoreModel StoreProofs VectorModel VectorSpec VectorProofs RefArgModel RefArgProofs ListModel ListProofs ListOwnModel.
Local Open Scope nat_scope.

Section Own.
  Context {T : Type}.
  Variable e : env.
  Variable es : Z.
  Variable dflt : T.
  Hypothesis Hes : (0 < es)%Z.
  Hypothesis Hmem : enough_memory e.
  Hypothesis Henv : good_env e.

  Lemma wr_same (a : list T) : forall i x, nth_error a i = Some x -> wr a i x = Ok a.
  Proof.
    unfold wr. induction a as [|y a IH]; intros [|i] x H; cbn in *; try discriminate.
    - now inversion H.
    - specialize (IH i x H). destruct (upd a i x); inversion IH; subst; reflexivity.
  Qed.
  Lemma copy_in_same n : forall (a : list T) i, i + n <= length a -> copy_in n a i i = Ok a.
  Proof.
    induction n as [|n IH]; intros a i H; [reflexivity|]. cbn [copy_in].
    destruct (nth_error a i) as [x|] eqn:E; [|apply nth_error_None in E; lia].
    unfold rd. rewrite E. cbn [bind]. rewrite (wr_same a i x E). cbn [bind]. apply IH. lia.
  Qed.
  Lemma merge_own_ok v l : Vinv es v l -> (es * Z.of_nat (length l + length l) <= 2 ^ 31)%Z ->
    exists v', l_merge_own e es dflt v = Ok v' /\ Vinv es v' (repeat dflt (length l) ++ l).
  Proof.
    intros I B. unfold l_merge_own. pose proof I as (_ & S & _). rewrite S.
    destruct (insert_front_ok e es dflt (fun _ _ => true) (fun _ _ => true) Hes Henv Hmem v l (repeat dflt (length l)) I) as (v1 & E1 & I1); [rewrite repeat_length; exact B|].
    rewrite E1. cbn [bind].
    destruct (@in_place_ok T es Hes unit v1 (repeat dflt (length l) ++ l) (fun l => l <- copy_in (length l) l 0 0 ;; Ok (l, tt)) (repeat dflt (length l) ++ l) tt I1) as (v2 & E2 & I2).
    - cbv beta. rewrite copy_in_same by lia. reflexivity.
    - reflexivity.
    - rewrite E2. cbn [bind]. eauto.
  Qed.

  Hypothesis H4 : (es mod 4 = 0)%Z.

  Lemma erase_4 (v : vec T) l ep k : Vinv es v l -> ep + k <= length l ->
    exists v', erase e es v ep k = Ok v' /\ Vinv es v' (seq_erase l ep k).
  Proof.
    intros I B. apply (erase_ok e es Hes Henv v l ep k I B).
    destruct (rot_good_4 es (Z.of_nat ep) (Z.of_nat (ep + k)) (Z.of_nat (length l)) H4); [assumption|nia].
  Qed.
  Lemma length_insert (l : list T) ip x : length (seq_insert l ip x) = length l + length x.
  Proof. unfold seq_insert. rewrite !app_length, firstn_length, skipn_length. lia. Qed.
  Lemma length_slice (l : list T) i j : j <= length l -> length (slice l i j) = j - i.
  Proof. intros H. unfold slice. rewrite firstn_length, skipn_length. lia. Qed.

  Lemma splice_own_low (v : vec T) l ip i j : Vinv es v l -> i <= j -> j <= ip -> ip <= length l ->
    (es * Z.of_nat (length l + (j - i)) <= vcap v)%Z ->
    exists v', l_splice_own e es v ip i j = Ok v' /\ Vinv es v' (seq_erase (seq_insert l ip (slice l i j)) i (j - i)).
  Proof.
    intros I Hij Hj Hi Hc. unfold l_splice_own.
    destruct (insert_range_own_low e es Hes Hmem Henv H4 v l ip i j I Hij Hj Hi Hc) as (v1 & E1 & I1).
    rewrite E1. cbn [bind]. apply (erase_4 v1 _ i (j - i) I1). rewrite length_insert, length_slice; lia.
  Qed.
  Lemma splice_own_high (v : vec T) l ip i j : Vinv es v l -> i <= j -> ip + (j - i) <= i -> j <= length l ->
    (es * Z.of_nat (length l + (j - i)) <= vcap v)%Z ->
    exists v', l_splice_own e es v ip i j = Ok v' /\
      Vinv es v' (seq_erase (seq_insert l ip (slice l (i - (j - i)) i)) i (j - i)).
  Proof.
    intros I Hij Hp Hj Hc. unfold l_splice_own.
    destruct (insert_range_own_high e es Hes Hmem Henv H4 v l ip i j I Hij Hp Hj Hc) as (v1 & E1 & I1).
    rewrite E1. cbn [bind]. apply (erase_4 v1 _ i (j - i) I1). rewrite length_insert, length_slice; lia.
  Qed.
  Lemma splice_own_mid (v : vec T) l ip i j : Vinv es v l -> ip <= i < ip + (j - i) -> j <= length l ->
    (es * Z.of_nat (length l + (j - i)) <= vcap v)%Z -> l_splice_own e es v ip i j = UB.
  Proof. intros I H Hj Hc. unfold l_splice_own. rewrite (insert_range_own_mid e es Hes Hmem Henv H4 v l ip i j I H Hj Hc). reflexivity. Qed.

  Lemma insert_range_own_moved (v : vec T) l ip i j : Vinv es v l -> i <= j <= length l -> ip <= length l ->
    (es * Z.of_nat (length l + (j - i)) <= 2 ^ 31)%Z -> (vcap v < es * Z.of_nat (length l + (j - i)))%Z ->
    insert_range_own e es v ip i j = UB.
  Proof.
    intros I Hij Hi Hb Hc. unfold insert_range_own. destruct (Nat.ltb_spec j i); [lia|].
    assert (G : rot_good (es * Z.of_nat ip) (es * Z.of_nat (length l)) (es * Z.of_nat (length l + (j - i))) = true)
      by (destruct (rot_good_4 es (Z.of_nat ip) (Z.of_nat (length l)) (Z.of_nat (length l + (j - i))) H4); [assumption|nia]).
    destruct (insert_hole_ok e es Hes Henv Hmem v l ip (j - i) I Hi Hb G) as (v' & mv & r & E & _).
    rewrite E. cbn [bind].
    destruct (reserve_mv e es Hes Hmem v l (length l + (j - i)) I Hb) as (v1 & mv1 & R & _ & _ & _ & W).
    unfold insert_hole, vreserve in E. pose proof I as (_ & S & _). rewrite S in E. rewrite R in E. cbn [bind] in E.
    apply W in Hc. subst mv1.
    destruct (length l <? ip); [discriminate|].
    match type of E with bind ?q _ = _ => destruct q as [[? ?]| | |] end; cbn [bind] in E; try discriminate.
    match type of E with bind ?q _ = _ => destruct q as [?| | |] end; cbn [bind] in E; try discriminate.
    inversion E. reflexivity.
  Qed.
  Lemma splice_own_moved (v : vec T) l ip i j : Vinv es v l -> i <= j <= length l -> ip <= length l ->
    (es * Z.of_nat (length l + (j - i)) <= 2 ^ 31)%Z -> (vcap v < es * Z.of_nat (length l + (j - i)))%Z ->
    l_splice_own e es v ip i j = UB.
  Proof. intros I A B C D. unfold l_splice_own. rewrite (insert_range_own_moved v l ip i j I A B C D). reflexivity. Qed.
End Own.

(** The sequences. *)
Lemma erase_insert_low {T} (l : list T) ip i j : i <= j -> j <= ip -> ip <= length l ->
  seq_erase (seq_insert l ip (slice l i j)) i (j - i) = firstn i l ++ slice l j ip ++ slice l i j ++ skipn ip l.
Proof.
  intros A B C. unfold seq_erase, seq_insert, slice.
  assert (E : firstn ip l = firstn i l ++ firstn (j - i) (skipn i l) ++ firstn (ip - j) (skipn j l)).
  { rewrite <- (firstn_skipn i (firstn ip l)) at 1. rewrite firstn_firstn, Nat.min_l by lia. f_equal.
    rewrite skipn_firstn_comm. rewrite <- (firstn_skipn (j - i) (firstn (ip - i) (skipn i l))).
    rewrite firstn_firstn, Nat.min_l by lia. f_equal.
    rewrite skipn_firstn_comm, skipn_skipn. replace (j - i + i) with j by lia. f_equal. lia. }
  set (s := firstn (j - i) (skipn i l)) in *.
  assert (Ls : length s = j - i) by (unfold s; rewrite firstn_length, skipn_length; lia).
  assert (Li : length (firstn i l) = i) by (rewrite firstn_length; lia).
  f_equal.
  - rewrite firstn_app, firstn_firstn, Nat.min_l by lia. rewrite firstn_length, Nat.min_l by lia.
    replace (i - ip) with 0 by lia. apply app_nil_r.
  - rewrite E at 1. replace (i + (j - i)) with (length (firstn i l ++ s)) by (rewrite app_length; lia).
    rewrite <- !app_assoc. rewrite (app_assoc (firstn i l) s). rewrite skipn_app, skipn_all, Nat.sub_diag. reflexivity.
Qed.
Lemma erase_insert_high {T} (l : list T) ip i j : i <= j -> ip + (j - i) <= i -> j <= length l ->
  seq_erase (seq_insert l ip (slice l (i - (j - i)) i)) i (j - i) =
  firstn ip l ++ slice l (i - (j - i)) i ++ slice l ip (i - (j - i)) ++ skipn i l.
Proof.
  intros A B C. set (k := i - (j - i)). assert (K : k + (j - i) = i) by (unfold k; lia). clearbody k.
  unfold seq_erase, seq_insert, slice. replace (i - k) with (j - i) by lia.
  set (n := j - i) in *. clearbody n.
  assert (E : skipn ip l = firstn (k - ip) (skipn ip l) ++ firstn n (skipn k l) ++ skipn i l).
  { rewrite <- (firstn_skipn (k - ip) (skipn ip l)) at 1. f_equal. rewrite skipn_skipn. replace (k - ip + ip) with k by lia.
    rewrite <- (firstn_skipn n (skipn k l)) at 1. f_equal. rewrite skipn_skipn. f_equal. lia. }
  set (s := firstn n (skipn k l)) in *. set (m := firstn (k - ip) (skipn ip l)) in *.
  assert (Ls : length s = n) by (unfold s; rewrite firstn_length, skipn_length; lia).
  assert (Lm : length m = k - ip) by (unfold m; rewrite firstn_length, skipn_length; lia).
  assert (Lp : length (firstn ip l) = ip) by (rewrite firstn_length; lia).
  rewrite E. 
  assert (P1 : firstn i (firstn ip l ++ s ++ m ++ s ++ skipn i l) = firstn ip l ++ s ++ m).
  { replace (firstn ip l ++ s ++ m ++ s ++ skipn i l) with ((firstn ip l ++ s ++ m) ++ s ++ skipn i l) by (rewrite <- !app_assoc; reflexivity).
    rewrite firstn_app. assert (L : length (firstn ip l ++ s ++ m) = i) by (rewrite !app_length; lia).
    rewrite L, Nat.sub_diag. cbn [firstn]. rewrite app_nil_r. rewrite <- L at 1. apply firstn_all. }
  assert (P2 : skipn (i + n) (firstn ip l ++ s ++ m ++ s ++ skipn i l) = skipn i l).
  { replace (i + n) with (length (firstn ip l ++ s ++ m ++ s)) by (rewrite !app_length; lia).
    replace (firstn ip l ++ s ++ m ++ s ++ skipn i l) with ((firstn ip l ++ s ++ m ++ s) ++ skipn i l) by (rewrite <- !app_assoc; reflexivity).
    rewrite skipn_app, skipn_all, Nat.sub_diag. reflexivity. }
  rewrite P1, P2, <- !app_assoc. reflexivity.
Qed.
