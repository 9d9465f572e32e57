(** * Utf8IterProofs. *)
From Coq Require Import ZArith ZifyBool ZifyNat Lia.
From Verif Require Import Base UtilModel Utf8Model Utf8Spec Utf8Proofs StreamModel IsIterModel Utf8IterModel.
Local Open Scope Z_scope.

Lemma encode_all_app l m : encode_all (l ++ m) = encode_all l ++ encode_all m.
Proof. unfold encode_all. rewrite map_app, concat_app. reflexivity. Qed.
Lemma encode_small v : v < 128 -> encode v = [v].
Proof. intros H. unfold encode. replace (v <? 2 ^ 7) with true by lia. reflexivity. Qed.
Lemma encode_long v : is_char v -> 128 <= v -> (1 < length (encode v))%nat.
Proof. intros H L. pose proof (encode_length v H). unfold len_of in *. unfold is_char in H. repeat match goal with H : context [if ?c then _ else _] |- _ => destruct c eqn:? end; lia. Qed.
Lemma buf_end l : encode_all l ++ [0] = encode_all (l ++ [0]).
Proof. rewrite encode_all_app. reflexivity. Qed.
Lemma lead_enc v : is_char v -> exists c cs, encode v = c :: cs /\ seq_bytes c = Ok (Z.of_nat (length (encode v))).
Proof.
  intros H. pose proof (parts_ok v H) as P. destruct (parts v) as [[c cs] x]. destruct P as (E & C & L & _). exists c, cs. split; [exact E|].
  rewrite seq_bytes_lead by exact C. rewrite L, E. reflexivity.
Qed.
(** The last byte of a character counts as a character of one byte. *)
Lemma last_enc v : is_char v -> exists a c, encode v = a ++ [c] /\ seq_bytes c = Ok 1.
Proof.
  intros H. pose proof (parts_ok v H) as P. destruct (parts v) as [[c cs] x]. destruct P as (E & C & L & _ & _ & Fc & _).
  destruct cs as [|y cs].
  - exists [], c. split; [exact E|]. rewrite seq_bytes_lead by exact C. rewrite L. reflexivity.
  - destruct (exists_last (l := y :: cs)) as (a & z & Ez); [discriminate|]. rewrite Ez in *. exists (c :: a), z. split; [exact E|].
    apply Forall_app in Fc. destruct Fc as (_ & Fz). inversion Fz as [|? ? Hz _]; subst. rewrite seq_bytes_lead by lia. unfold lead. replace (z <? 192) with true by lia. reflexivity.
Qed.

(** ** Positions *)
Lemma at_ok l i : Forall is_char l -> (i <= length l)%nat ->
  utf8_at (encode_all l) i = Ok ((length (encode_all (firstn i l)) + length (encode (nth i (l ++ [0%Z]) 0%Z)) - 1)%nat, nth i (l ++ [0]) 0).
Proof.
  intros H Hi. unfold utf8_at. rewrite buf_end.
  assert (G : forall m pre k, Forall is_char m -> (k < length m)%nat ->
    (it <- utf8_read (pre ++ encode_all m) (length pre) ;; utf8_skip (pre ++ encode_all m) it k) =
    Ok ((length pre + length (encode_all (firstn k m)) + length (encode (nth k m 0%Z)) - 1)%nat, nth k m 0)).
  { clear. intros m. induction m as [|v m IH]; intros pre k H Hk; [cbn in Hk; lia|]. inversion H as [|? ? Hv Hm]; subst.
    change (encode_all (v :: m)) with (encode v ++ encode_all m). rewrite utf8_read_ok by exact Hv. cbn [bind]. destruct k as [|k].
    - cbn [utf8_skip firstn nth]. unfold encode_all. cbn [map concat length]. do 2 f_equal. lia.
    - cbn [utf8_skip firstn nth]. pose proof (encode_pos v Hv). unfold utf8_next. cbn [fst].
      replace (S (length pre + length (encode v) - 1)) with (length (pre ++ encode v)) by (rewrite app_length; lia).
      rewrite (app_assoc pre). rewrite (IH (pre ++ encode v) k Hm) by (cbn in Hk; lia). do 2 f_equal.
      change (encode_all (v :: firstn k m)) with (encode v ++ encode_all (firstn k m)). rewrite !app_length. lia. }
  assert (F : Forall is_char (l ++ [0])) by (apply Forall_app; split; [exact H|]; repeat constructor; unfold is_char; lia).
  specialize (G (l ++ [0]) [] i F ltac:(rewrite app_length; cbn; lia)). cbn [app length Nat.add] in G. rewrite G.
  do 2 f_equal. rewrite firstn_app. replace (i - length l)%nat with 0%nat by lia. cbn [firstn]. rewrite app_nil_r. reflexivity.
Qed.
Lemma base_ok p v : is_char v -> utf8_base ((p + length (encode v) - 1)%nat, v) = Z.of_nat p.
Proof.
  intros H. unfold utf8_base. cbn [fst snd]. rewrite utf8_bytes_len by (unfold is_char in H; lia). rewrite <- encode_length by exact H.
  pose proof (encode_pos v H). lia.
Qed.
Lemma dist_from m : Forall is_char m -> forall pre v post f, is_char v -> (length m + 1 < f)%nat ->
  utf8_dist (pre ++ encode_all m ++ encode v ++ post) (length pre) (length pre + length (encode_all m) + length (encode v) - 1) f =
  Ok (Z.of_nat (length m) + (if v <? 128 then 0 else 1)).
Proof.
  induction 1 as [|x m Hx H IH]; intros pre v post f Hv Hf; (destruct f as [|f]; [lia|]); cbn [utf8_dist].
  - change (encode_all []) with (@nil Z). cbn [app length]. rewrite Nat.add_0_r. destruct (Z.ltb_spec v 128) as [L|L].
    + rewrite encode_small by exact L. cbn [length]. replace (Nat.ltb _ _) with false by (symmetry; apply Nat.ltb_ge; lia). reflexivity.
    + pose proof (encode_long v Hv L). replace (Nat.ltb _ _) with true by (symmetry; apply Nat.ltb_lt; lia).
      destruct (lead_enc v Hv) as (c & cs & E & Q). rewrite E at 1. cbn [app]. rewrite rd_at. cbn [bind]. rewrite Q. cbn [bind].
      destruct f as [|f]; [lia|]. cbn [utf8_dist]. replace (Nat.ltb _ _) with false by (symmetry; apply Nat.ltb_ge; lia). reflexivity.
  - change (encode_all (x :: m)) with (encode x ++ encode_all m). rewrite <- app_assoc. rewrite app_length. pose proof (encode_pos x Hx). pose proof (encode_pos v Hv).
    replace (Nat.ltb _ _) with true by (symmetry; apply Nat.ltb_lt; lia).
    destruct (lead_enc x Hx) as (c & cs & E & Q). rewrite E at 1. cbn [app]. rewrite rd_at. cbn [bind]. rewrite Q. cbn [bind]. rewrite Nat2Z.id.
    replace (length pre + length (encode x))%nat with (length (pre ++ encode x)) by apply app_length.
    replace (length pre + (length (encode x) + length (encode_all m)) + length (encode v) - 1)%nat with (length (pre ++ encode x) + length (encode_all m) + length (encode v) - 1)%nat by (rewrite app_length; lia).
    rewrite (app_assoc pre). rewrite IH by (auto; cbn [length] in Hf; lia). cbn [bind length]. f_equal. lia.
Qed.
Lemma minus_ok l i j a b : Forall is_char l -> (i <= j <= length l)%nat -> utf8_at (encode_all l) i = Ok a -> utf8_at (encode_all l) j = Ok b ->
  utf8_minus (encode_all l) b a = Ok (Z.of_nat (j - i) + (if (i =? j)%nat then 0 else if nth j (l ++ [0]) 0 <? 128 then 0 else 1)).
Proof.
  intros H Hij Ea Eb. rewrite at_ok in Ea, Eb by (auto; lia). injection Ea as <-. injection Eb as <-. unfold utf8_minus. cbn [fst].
  assert (F : Forall is_char (l ++ [0])) by (apply Forall_app; split; [exact H|]; repeat constructor; unfold is_char; lia).
  destruct (Nat.eqb_spec i j) as [<- |N].
  { cbn [utf8_dist]. rewrite Nat.ltb_irrefl. do 2 f_equal. lia. }
  set (u := nth i (l ++ [0]) 0). set (v := nth j (l ++ [0]) 0).
  assert (Cut : exists m rest, l ++ [0] = firstn i l ++ u :: m ++ v :: rest /\ firstn j l = firstn i l ++ u :: m /\ length m = (j - i - 1)%nat).
  { assert (E1 : l ++ [0] = firstn j l ++ v :: skipn (S j) (l ++ [0])).
    { rewrite <- (firstn_skipn j (l ++ [0])) at 1. rewrite firstn_app. replace (j - length l)%nat with 0%nat by lia. cbn [firstn]. rewrite app_nil_r. f_equal.
      assert (K : (j < length (l ++ [0%Z]))%nat) by (rewrite app_length; cbn; lia). unfold v. clear - K. revert K. generalize (l ++ [0]). intros q. revert q.
      induction j as [|j IH]; intros [|x q] K; cbn [length] in K; try lia; cbn [skipn nth]; [reflexivity|]. apply IH. lia. }
    assert (E2 : firstn j l = firstn i l ++ u :: skipn (S i) (firstn j l)).
    { rewrite <- (firstn_skipn i (firstn j l)) at 1. rewrite firstn_firstn, Nat.min_l by lia. f_equal.
      assert (K : (i < length (firstn j l))%nat) by (rewrite firstn_length; lia).
      assert (U : u = nth i (firstn j l) 0). { unfold u. rewrite E1. rewrite app_nth1 by exact K. reflexivity. }
      rewrite U. clear - K. revert K. generalize (firstn j l). intros q. revert q.
      induction i as [|i IH]; intros [|x q] K; cbn [length] in K; try lia; cbn [skipn nth]; [reflexivity|]. apply IH. lia. }
    exists (skipn (S i) (firstn j l)), (skipn (S j) (l ++ [0])). split; [|split; [exact E2|]].
    - rewrite E1 at 1. rewrite E2 at 1. rewrite <- app_assoc. reflexivity.
    - rewrite skipn_length, firstn_length. lia. }
  destruct Cut as (m & rest & E1 & E2 & Lm). clearbody u v. rewrite E2. rewrite buf_end, E1, !encode_all_app.
  change (encode_all (u :: m ++ v :: rest)) with (encode u ++ encode_all (m ++ v :: rest)). change (encode_all (u :: m)) with (encode u ++ encode_all m).
  rewrite encode_all_app. change (encode_all (v :: rest)) with (encode v ++ encode_all rest).
  rewrite E1 in F. apply Forall_app in F. destruct F as (F0 & F). inversion F as [|? ? Hu F']; subst. apply Forall_app in F'. destruct F' as (Fm & F'). inversion F' as [|? ? Hv _]; subst.
  destruct (last_enc u Hu) as (q & c & Eq & Q). pose proof (encode_pos v Hv). pose proof (encode_pos u Hu).
  remember (S (length (encode_all l))) as f eqn:Ef. cbn [utf8_dist]. rewrite !app_length. replace (Nat.ltb _ _) with true by (symmetry; apply Nat.ltb_lt; lia).
  rewrite Eq. set (p := encode_all (firstn i l)).
  replace (length p + length (q ++ [c]) - 1)%nat with (length (p ++ q)) by (rewrite !app_length; cbn [length]; lia).
  replace (p ++ (q ++ [c]) ++ encode_all m ++ encode v ++ encode_all rest) with ((p ++ q) ++ c :: encode_all m ++ encode v ++ encode_all rest) by (rewrite <- !app_assoc; reflexivity).
  rewrite rd_at. cbn [bind]. rewrite Q. cbn [bind]. change (Z.to_nat 1) with 1%nat.
  replace ((p ++ q) ++ c :: encode_all m ++ encode v ++ encode_all rest) with ((p ++ q ++ [c]) ++ encode_all m ++ encode v ++ encode_all rest) by (rewrite <- !app_assoc; reflexivity).
  replace (length (p ++ q) + 1)%nat with (length (p ++ q ++ [c])) by (rewrite !app_length; cbn [length]; lia).
  replace (length p + (length (q ++ [c]) + length (encode_all m)) + length (encode v) - 1)%nat with (length (p ++ q ++ [c]) + length (encode_all m) + length (encode v) - 1)%nat by (rewrite !app_length; cbn [length]; lia).
  rewrite (dist_from m Fm); [|exact Hv|].
  - cbn [bind]. rewrite Lm. f_equal. destruct (v <? 128); lia.
  - pose proof (encode_all_length l H) as L1. lia.
Qed.
