(** * StrNumProofs: string to number conversions. *)
From Verif Require Import Base UtilModel StringFindModel FmtSpec IstrModel IstrSpec StrOpsModel StrOpsSpec.
From Coq Require Import ZArith Lia ZifyBool ZifyNat.
Local Open Scope Z_scope.

(** The model of strtol is the one used for streams. *)
Lemma strtol_strto base l : strtol base l = strto fin_long base l.
Proof. reflexivity. Qed.

Lemma digit_is_value c d : digit_is c d -> digit_value c = d /\ isspace c = false /\ c <> 45 /\ c <> 43 /\ c <> 0 /\ 0 <= d < 36.
Proof.
  unfold digit_is, digit_value, isspace. intros [(H & ->)|(H & [-> | ->])].
  - replace ((48 <=? 48 + d) && (48 + d <=? 57)) with true by lia. repeat split; lia.
  - replace ((48 <=? 97 + (d - 10)) && (97 + (d - 10) <=? 57)) with false by lia.
    replace ((97 <=? 97 + (d - 10)) && (97 + (d - 10) <=? 122)) with true by lia. repeat split; lia.
  - replace ((48 <=? 65 + (d - 10)) && (65 + (d - 10) <=? 57)) with false by lia.
    replace ((97 <=? 65 + (d - 10)) && (65 + (d - 10) <=? 122)) with false by lia.
    replace ((65 <=? 65 + (d - 10)) && (65 + (d - 10) <=? 90)) with true by lia. repeat split; lia.
Qed.
Lemma no_digit_value c : (forall d, ~ digit_is c d) -> digit_value c = 99.
Proof.
  intros H. unfold digit_value.
  destruct ((48 <=? c) && (c <=? 57)) eqn:A; [exfalso; apply (H (c - 48)); left; lia|].
  destruct ((97 <=? c) && (c <=? 122)) eqn:B; [exfalso; apply (H (c - 87)); right; lia|].
  destruct ((65 <=? c) && (c <=? 90)) eqn:C; [exfalso; apply (H (c - 55)); right; lia|]. reflexivity.
Qed.
Lemma no_digit_0 d : ~ digit_is 0 d.
Proof. unfold digit_is. lia. Qed.
(** What follows the digits in memory: a character that is none. *)
Lemma tail_head rest : no_digit rest -> exists c t, map Some rest ++ [Some 0] = Some c :: t /\ digit_value c = 99.
Proof.
  destruct rest as [|c r]; intros H; [exists 0, []; split; reflexivity|].
  exists c, (map Some r ++ [Some 0]). split; [reflexivity|now apply no_digit_value].
Qed.
Lemma digits_num base vs : forall ds a k t, Forall2 digit_is ds vs -> Forall (fun d => d < base) vs ->
  digits base (map Some ds ++ t) a k = digits base t (fold_left (fun a d => base * a + d) vs a) (k + length ds)%nat.
Proof.
  induction vs as [|d vs IH]; intros ds a k t F L; inversion F as [|c ? ds' ? Hc F']; subst.
  - cbn [map app fold_left length]. now rewrite Nat.add_0_r.
  - inversion L as [|? ? Hd L']; subst. cbn [map app fold_left length digits].
    destruct (digit_is_value _ _ Hc) as (V & _). rewrite V. replace (d <? base) with true by lia.
    rewrite IH by assumption. f_equal. lia.
Qed.
Lemma not48 {A} (d : Z) (X Y : A) : d <> 48 -> (match d with 48 => X | _ => Y end) = Y.
Proof.
  intros N. destruct d as [|p|p]; try reflexivity.
  do 6 (destruct p as [p|p|]; try reflexivity). now destruct N.
Qed.
Lemma prefix_none base d x t k : 2 <= base <= 36 ->
  (digit_value x < base \/ digit_value x = 99) ->
  (t = [] -> x = 0) -> (forall y u, t = y :: u -> y <> None) ->
  sto_prefix base (Some d :: Some x :: t) k = Ok (base, Some d :: Some x :: t, k).
Proof.
  intros Hb Hx Ht Hn. unfold sto_prefix. replace (base =? 0) with false by lia.
  destruct (Z.eq_dec d 48) as [->|N]; [|now rewrite not48].
  assert (NX : base = 16 -> x <> 120 /\ x <> 88).
  { intros ->. split; intros ->; destruct Hx as [Hx|Hx]; vm_compute in Hx; discriminate. }
  destruct t as [|[y|] u].
  - rewrite Ht by reflexivity. reflexivity.
  - destruct (Z.eq_dec base 16) as [E16|N16].
    + destruct (NX E16) as (N1 & N2). replace ((x =? 120) || (x =? 88)) with false by lia. reflexivity.
    + replace (false || (base =? 16)) with false by lia. rewrite andb_false_r. reflexivity.
  - now destruct (Hn None u eq_refl).
Qed.
Lemma skip_white sp : forall c t k, Forall is_white sp -> isspace c = false ->
  skip_spaces (map Some sp ++ Some c :: t) k = Ok (Some c :: t, (k + length sp)%nat).
Proof.
  induction sp as [|w sp IH]; intros c t k HF Hc.
  - cbn [map app skip_spaces length]. rewrite Hc, Nat.add_0_r. reflexivity.
  - inversion HF as [|? ? Hw HF']; subst. cbn [map app skip_spaces length].
    assert (W : isspace w = true) by (unfold isspace, is_white in *; lia). rewrite W, (IH c t) by assumption.
    do 2 f_equal. lia.
Qed.
Lemma no_sign c l k : c <> 45 -> c <> 43 -> sto_sign (Some c :: l) k = Ok (false, Some c :: l, k).
Proof.
  intros N1 N2. unfold sto_sign. destruct c as [|p|p]; try reflexivity.
  do 6 (destruct p as [p|p|]; try reflexivity); [now destruct N1|now destruct N2] || (now destruct N2) || now destruct N1.
Qed.
Lemma digits_part fin base ds n rest neg k : 2 <= base <= 36 -> numeral base ds n -> no_digit rest ->
  (' (b, l, k0) <- sto_prefix base (map Some ds ++ map Some rest ++ [Some 0]) k ;;
   ' (v, k1) <- digits b l 0 k0 ;;
   if (k1 =? k)%nat then Ok (0, O) else Ok ((fin : bool -> Z -> Z) neg v, k1)) = Ok (fin neg n, (k + length ds)%nat).
Proof.
  intros Hb (Hne & vs & F & L & ->) Hr. destruct (tail_head rest Hr) as (c & t & E & Hc).
  assert (Hsome : forall r (y : option Z), In y (map Some r ++ [Some 0]) -> y <> None).
  { intros r y Hin. apply in_app_or in Hin as [Hin|[<-|[]]]; [|discriminate]. apply in_map_iff in Hin as (z & <- & _). discriminate. }
  assert (Hall : forall y u, map Some rest ++ [Some 0] = y :: u -> y <> None).
  { intros y u E'. rewrite E in E'. injection E' as <- _. discriminate. }
  assert (P : sto_prefix base (map Some ds ++ map Some rest ++ [Some 0]) k = Ok (base, map Some ds ++ map Some rest ++ [Some 0], k)).
  { destruct ds as [|d ds]; [congruence|]. inversion F as [|? d' ? vs' Hd F']; subst. inversion L as [|? ? _ L']; subst.
    cbn [map app]. destruct ds as [|x ds].
    - cbn [map app]. rewrite E. apply prefix_none; [exact Hb|right; exact Hc| |].
      + intros ->. destruct rest as [|r0 rest]; [now injection E|]. exfalso. apply (f_equal (@length _)) in E. rewrite app_length, map_length in E. cbn [length] in E. lia.
      + intros y u Et. rewrite Et in E. pose proof (Hsome rest y) as Q. rewrite E in Q. apply Q. right. left. reflexivity.
    - inversion F' as [|? x' ? vs'' Hx F'']; subst. inversion L' as [|? ? Lx _]; subst. cbn [map app].
      apply prefix_none; [exact Hb|left; now rewrite (proj1 (digit_is_value _ _ Hx))| |].
      + intros H. exfalso. destruct ds; cbn [map app] in H; [rewrite E in H|]; discriminate.
      + intros y u H. destruct ds as [|z ds]; cbn [map app] in H; [now apply (Hall y u)|]. injection H as <- _. discriminate. }
  rewrite P. cbn [bind]. rewrite (digits_num base vs ds 0 k _ F L), E. cbn [digits]. rewrite Hc. replace (99 <? base) with false by lia.
  cbn [bind]. destruct ds; [congruence|]. cbn [length]. replace (k + S (length ds) =? k)%nat with false by lia. reflexivity.
Qed.
Lemma numeral_nonneg base ds n : 2 <= base -> numeral base ds n -> 0 <= n.
Proof.
  intros Hb (_ & vs & F & _ & ->).
  assert (Q : forall vs ds a, Forall2 digit_is ds vs -> 0 <= a -> 0 <= fold_left (fun a d => base * a + d) vs a).
  { clear - Hb. induction vs as [|d vs IH]; intros ds a F Ha; inversion F as [|c ? ds' ? Hc F']; subst; [exact Ha|].
    cbn [fold_left]. apply (IH ds'); [exact F'|]. destruct (digit_is_value _ _ Hc) as (_ & _ & _ & _ & _ & Hd). nia. }
  exact (Q vs ds 0 F (Z.le_refl 0)).
Qed.
Lemma strto_ok (fin : bool -> Z -> Z) s base n used : 2 <= base <= 36 -> number_at s base n used ->
  exists (neg : bool) (m : Z), 0 <= m /\ n = (if neg then - m else m) /\ strto fin base (map Some s ++ [Some 0]) = Ok (fin neg m, Z.to_nat used) /\ 0 <= used.
Proof.
  intros Hb (sp & sg & ds & rest & m & -> & Hsp & Hn & Hr & Hsg & ->).
  pose proof (numeral_nonneg base ds m ltac:(lia) Hn) as Hm.
  pose proof (fun (neg : bool) (k : nat) => digits_part fin base ds m rest neg k Hb Hn Hr) as D.
  assert (H1 : exists d ds', ds = d :: ds' /\ isspace d = false /\ d <> 45 /\ d <> 43).
  { destruct Hn as (Hne & vs & F & _). destruct ds as [|d ds]; [congruence|]. exists d, ds. inversion F as [|? v ? ? Hd _]; subst.
    destruct (digit_is_value _ _ Hd) as (_ & A & B & C & _). auto. }
  destruct H1 as (d & ds' & Ed & W & N1 & N2).
  assert (G : forall neg sg, (sg = [] /\ neg = false \/ sg = [43] /\ neg = false \/ sg = [45] /\ neg = true) ->
    strto fin base (map Some (sp ++ sg ++ ds ++ rest) ++ [Some 0]) = Ok (fin neg m, length (sp ++ sg ++ ds))).
  { clear Hsg sg. intros neg sg Hsg. rewrite !map_app, <- !app_assoc. unfold strto. rewrite !app_length.
    destruct Hsg as [(-> & ->)|[(-> & ->)|(-> & ->)]]; cbn [map app length].
    - rewrite Ed at 1. cbn [map app]. rewrite skip_white by assumption. cbn [bind Nat.add]. rewrite no_sign by assumption. cbn [bind].
      specialize (D false (length sp)). rewrite Ed in D at 1. cbn [map app] in D. rewrite D. reflexivity.
    - rewrite skip_white by (assumption || reflexivity). cbn [bind Nat.add sto_sign]. rewrite (D false (S (length sp))). do 2 f_equal. lia.
    - rewrite skip_white by (assumption || reflexivity). cbn [bind Nat.add sto_sign]. rewrite (D true (S (length sp))). do 2 f_equal. lia. }
  destruct Hsg as [(-> & ->)|[(-> & ->)|(-> & ->)]].
  - exists false, m. repeat split; [exact Hm| |lia]. rewrite (G false []) by auto. now rewrite Nat2Z.id.
  - exists false, m. repeat split; [exact Hm| |lia]. rewrite (G false [43]) by auto. now rewrite Nat2Z.id.
  - exists true, m. repeat split; [exact Hm| |lia]. rewrite (G true [45]) by auto. now rewrite Nat2Z.id.
Qed.
Lemma stol_ok s base n used : 2 <= base <= 36 -> number_at s base n used -> stol s base = Ok (clamp_long n, used).
Proof.
  intros Hb H. destruct (strto_ok fin_long s base n used Hb H) as (neg & m & Hm & -> & E & Hu).
  unfold stol. rewrite E. cbn [bind]. rewrite Z2Nat.id by exact Hu. reflexivity.
Qed.
Lemma stoul_ok s base n used : 2 <= base <= 36 -> number_at s base n used ->
  stoul s base = Ok (if Z.abs n <? 2 ^ 64 then u64 n else 2 ^ 64 - 1, used).
Proof.
  intros Hb H. destruct (strto_ok fin_ulong s base n used Hb H) as (neg & m & Hm & -> & E & Hu).
  unfold stoul. rewrite E. cbn [bind]. rewrite Z2Nat.id by exact Hu. unfold fin_ulong. do 2 f_equal.
  replace (Z.abs (if neg then - m else m)) with m by (destruct neg; lia).
  destruct (Z.leb_spec (2 ^ 64) m), (Z.ltb_spec m (2 ^ 64)); try reflexivity; lia.
Qed.
(** No number: 0, and 0 characters. *)
Lemma stol_none s base : 2 <= base <= 36 -> no_digit s -> (forall c t, s = c :: t -> ~ is_white c /\ c <> 43 /\ c <> 45) ->
  stol s base = Ok (0, 0).
Proof.
  intros Hb Hn Hs. unfold stol, strto. destruct (tail_head s Hn) as (c & t & E & Hc). rewrite E.
  assert (Hw : isspace c = false /\ c <> 45 /\ c <> 43).
  { destruct s as [|c' s]; [injection E as <- _; repeat split; discriminate|]. injection E as <- _.
    destruct (Hs c' s eq_refl) as (A & B & C). split; [unfold isspace, is_white in *; lia|]. split; assumption. }
  destruct Hw as (W & N1 & N2). cbn [skip_spaces]. rewrite W. cbn [bind]. rewrite no_sign by assumption. cbn [bind].
  assert (P : sto_prefix base (Some c :: t) 0 = Ok (base, Some c :: t, O)).
  { unfold sto_prefix. rewrite not48 by (intros ->; discriminate). replace (base =? 0) with false by lia. reflexivity. }
  rewrite P. cbn [bind digits]. rewrite Hc. replace (99 <? base) with false by lia. reflexivity.
Qed.

(** ** printf *)
Lemma dec_digits_ok fuel : forall n acc, 0 <= n < 10 ^ Z.of_nat fuel -> exists vs ds, dec_digits fuel n acc = ds ++ acc /\
  (0 < fuel -> ds <> [])%nat /\ Forall2 digit_is ds vs /\ Forall (fun d => d < 10) vs /\ n = fold_left (fun a d => 10 * a + d) vs 0.
Proof.
  induction fuel as [|f IH]; intros n acc H.
  { exists [], []. cbn in H. repeat split; try constructor; [lia|cbn; lia]. }
  cbn [dec_digits]. destruct (Z.ltb_spec n 10).
  - exists [n], [48 + n]. split; [reflexivity|]. split; [discriminate|]. split; [constructor; [left; lia|constructor]|].
    split; [constructor; [lia|constructor]|]. cbn [fold_left]. lia.
  - rewrite Nat2Z.inj_succ, Z.pow_succ_r in H by lia.
    pose proof (Z.mod_pos_bound n 10 ltac:(lia)) as Hd. pose proof (Z.div_mod n 10 ltac:(lia)) as Dm.
    destruct (IH (n / 10) ((48 + n mod 10) :: acc)) as (vs & ds & E & _ & F & L & Q); [nia|].
    exists (vs ++ [n mod 10]), (ds ++ [48 + n mod 10]). rewrite E, <- app_assoc. repeat split.
    + intros _ H1. destruct ds; discriminate.
    + apply Forall2_app; [exact F|]. constructor; [left; lia|constructor].
    + apply Forall_app. split; [exact L|]. constructor; [lia|constructor].
    + rewrite fold_left_app. cbn [fold_left]. rewrite <- Q. exact Dm.
Qed.
Lemma dec_20 m : 0 <= m < 2 ^ 64 -> numeral 10 (dec_digits 20 m []) m.
Proof.
  intros Hm. destruct (dec_digits_ok 20 m []) as (vs & ds & E & N & F & L & Q).
  { split; [apply Hm|]. eapply Z.lt_trans; [apply Hm|]. vm_compute. reflexivity. }
  rewrite E, app_nil_r. split; [apply N; apply Nat.lt_0_succ|]. exists vs. auto.
Qed.
Lemma dec_text_number n : - 2 ^ 64 < n < 2 ^ 64 -> number_at (dec_text n) 10 n (Z.of_nat (length (dec_text n))).
Proof.
  intros H. unfold number_at, dec_text. destruct (Z.ltb_spec n 0) as [L|L].
  - pose proof (dec_20 (- n) ltac:(lia)) as D. set (ds := dec_digits 20 (- n) []) in *. clearbody ds.
    exists [], [45], ds, [], (- n). rewrite app_nil_r.
    split; [reflexivity|]. split; [constructor|]. split; [exact D|]. split; [exact I|]. split; [|reflexivity].
    right. right. split; [reflexivity|lia].
  - pose proof (dec_20 n ltac:(lia)) as D. set (ds := dec_digits 20 n []) in *. clearbody ds.
    exists [], [], ds, [], n. rewrite app_nil_r.
    split; [reflexivity|]. split; [constructor|]. split; [exact D|]. split; [exact I|]. split; [|reflexivity]. now left.
Qed.
Lemma dec_digits_size fuel : forall n acc, (length (dec_digits fuel n acc) <= fuel + length acc)%nat.
Proof.
  induction fuel as [|f IH]; intros n acc; [cbn; lia|]. cbn [dec_digits]. destruct (n <? 10); [cbn [length]; lia|].
  specialize (IH (n / 10) ((48 + n mod 10) :: acc)). cbn [length] in IH. lia.
Qed.
Lemma dec_digits_some fuel : forall n acc, dec_digits (S fuel) n acc <> [].
Proof.
  induction fuel as [|f IH]; intros n acc; cbn [dec_digits]; destruct (n <? 10); try discriminate. apply IH.
Qed.
Lemma dec_text_size v : dec_text v <> [] /\ Z.of_nat (length (dec_text v)) <= 21.
Proof.
  unfold dec_text. destruct (v <? 0).
  - split; [discriminate|]. pose proof (dec_digits_size 20 (- v) []) as H. cbn [length] in *. lia.
  - split; [apply dec_digits_some|]. pose proof (dec_digits_size 20 v []) as H. cbn [length] in H. lia.
Qed.
