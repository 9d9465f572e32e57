(** * StrNumBase: string to number conversions with base 0 and with 0x. *)
From Verif Require Import Base UtilModel StringFindModel FmtSpec IstrModel IstrSpec StrOpsModel StrOpsSpec StrNumProofs.
From Coq Require Import ZArith Lia ZifyBool ZifyNat.
Local Open Scope Z_scope.

Definition rest_of (fin : bool -> Z -> Z) (base : Z) (neg : bool) (l : list (option Z)) (k : nat) : outcome (Z * nat) :=
  ' (b, l, k0) <- sto_prefix base l k ;;
  ' (v, k1) <- digits b l 0 k0 ;;
  if (k1 =? k)%nat then Ok (0, O) else Ok (fin neg v, k1).

Lemma strto_head fin base sp sg (neg : bool) d body : Forall is_white sp -> isspace d = false -> d <> 45 -> d <> 43 ->
  (sg = [] /\ neg = false \/ sg = [43] /\ neg = false \/ sg = [45] /\ neg = true) ->
  strto fin base (map Some (sp ++ sg ++ d :: body) ++ [Some 0]) =
  rest_of fin base neg (map Some (d :: body) ++ [Some 0]) (length (sp ++ sg)).
Proof.
  intros Hsp W N1 N2 Hsg. rewrite !map_app, <- !app_assoc. unfold strto, rest_of. rewrite !app_length.
  destruct Hsg as [(-> & ->)|[(-> & ->)|(-> & ->)]]; cbn [map app length].
  - rewrite skip_white by assumption. cbn [bind Nat.add]. rewrite no_sign by assumption. cbn [bind]. now rewrite Nat.add_0_r.
  - rewrite skip_white by (assumption || reflexivity). cbn [bind Nat.add sto_sign]. now rewrite Nat.add_1_r.
  - rewrite skip_white by (assumption || reflexivity). cbn [bind Nat.add sto_sign]. now rewrite Nat.add_1_r.
Qed.
Lemma digits_rest base ds m rest k : numeral base ds m -> no_digit rest -> base <= 99 ->
  digits base (map Some ds ++ map Some rest ++ [Some 0]) 0 k = Ok (m, (k + length ds)%nat) /\ (0 < length ds)%nat.
Proof.
  intros (Hne & vs & F & L & ->) Hr Hb. destruct (tail_head rest Hr) as (c & t & E & Hc).
  rewrite (digits_num base vs ds 0 k _ F L), E. cbn [digits]. rewrite Hc. replace (99 <? base) with false by lia.
  split; [reflexivity|]. destruct ds; [congruence|]. cbn. lia.
Qed.
Lemma numeral_head base ds m : numeral base ds m -> exists d t, ds = d :: t /\ isspace d = false /\ d <> 45 /\ d <> 43 /\ digit_value d < base.
Proof.
  intros (Hne & vs & F & L & _). destruct ds as [|d t]; [congruence|]. inversion F as [|? v ? vs' Hd _]; subst. inversion L; subst.
  destruct (digit_is_value _ _ Hd) as (V & A & B & C & _). exists d, t. rewrite V. auto.
Qed.

(** 0x: base 16 or 0 *)
Lemma strto_hex fin sp sg (neg : bool) x ds m rest base : Forall is_white sp -> x = 120 \/ x = 88 -> base = 0 \/ base = 16 ->
  (sg = [] /\ neg = false \/ sg = [43] /\ neg = false \/ sg = [45] /\ neg = true) -> numeral 16 ds m -> no_digit rest ->
  strto fin base (map Some (sp ++ sg ++ 48 :: x :: ds ++ rest) ++ [Some 0]) = Ok (fin neg m, length (sp ++ sg ++ 48 :: x :: ds)).
Proof.
  intros Hsp Hx Hb Hsg Hn Hr. rewrite (strto_head fin base sp sg neg 48 (x :: ds ++ rest)) by (assumption || reflexivity || lia). unfold rest_of.
  destruct (numeral_head _ _ _ Hn) as (h & t & Eh & _ & _ & _ & Vh). rewrite Eh. cbn [map app sto_prefix].
  replace ((x =? 120) || (x =? 88)) with true by lia. replace ((base =? 0) || (base =? 16)) with true by lia.
  replace (digit_value h <? 16) with true by lia. cbn [andb bind].
  destruct (digits_rest 16 ds m rest (length (sp ++ sg) + 2) Hn Hr ltac:(lia)) as (D & P). rewrite Eh in D. cbn [map app] in D.
  rewrite map_app, <- app_assoc, D. cbn [bind]. rewrite <- Eh.
  replace (length (sp ++ sg) + 2 + length ds =? length (sp ++ sg))%nat with false by lia.
  do 2 f_equal. rewrite !app_length. cbn [length]. lia.
Qed.
(** base 0, no 0 in front: decimal *)
Lemma strto_dec fin sp sg (neg : bool) d ds m rest : Forall is_white sp -> d <> 48 ->
  (sg = [] /\ neg = false \/ sg = [43] /\ neg = false \/ sg = [45] /\ neg = true) -> numeral 10 (d :: ds) m -> no_digit rest ->
  strto fin 0 (map Some (sp ++ sg ++ (d :: ds) ++ rest) ++ [Some 0]) = Ok (fin neg m, length (sp ++ sg ++ d :: ds)).
Proof.
  intros Hsp Hd Hsg Hn Hr. destruct (numeral_head _ _ _ Hn) as (h & t & Eh & W & N1 & N2 & Vh). injection Eh as <- <-.
  cbn [app]. rewrite (strto_head fin 0 sp sg neg d (ds ++ rest)) by assumption. unfold rest_of, sto_prefix. cbn [map app].
  rewrite not48 by exact Hd. cbn [bind Z.eqb].
  destruct (digits_rest 10 (d :: ds) m rest (length (sp ++ sg)) Hn Hr ltac:(lia)) as (D & P). cbn [map app] in D.
  rewrite map_app, <- app_assoc, D. cbn [bind].
  replace (length (sp ++ sg) + length (d :: ds) =? length (sp ++ sg))%nat with false by (cbn [length]; lia).
  do 2 f_equal. rewrite !app_length. cbn [length]. lia.
Qed.
(** base 0, a 0 in front: octal *)
Lemma strto_oct fin sp sg (neg : bool) ds m rest : Forall is_white sp ->
  (sg = [] /\ neg = false \/ sg = [43] /\ neg = false \/ sg = [45] /\ neg = true) -> numeral 8 (48 :: ds) m -> no_digit rest ->
  strto fin 0 (map Some (sp ++ sg ++ (48 :: ds) ++ rest) ++ [Some 0]) = Ok (fin neg m, length (sp ++ sg ++ 48 :: ds)).
Proof.
  intros Hsp Hsg Hn Hr. cbn [app]. rewrite (strto_head fin 0 sp sg neg 48 (ds ++ rest)) by (assumption || reflexivity || lia). unfold rest_of.
  assert (P : sto_prefix 0 (map Some (48 :: ds ++ rest) ++ [Some 0]) (length (sp ++ sg)) =
              Ok (8, map Some (48 :: ds ++ rest) ++ [Some 0], length (sp ++ sg))).
  { assert (X : forall x t, ds ++ rest = x :: t -> x <> 120 /\ x <> 88).
    { intros x t E. destruct ds as [|y ds]; cbn [app] in E.
      - subst rest. cbn [no_digit] in Hr. split; intros ->; apply (Hr 33); right; lia.
      - injection E as <- <-. destruct Hn as (_ & vs & F & L & _). inversion F as [|? ? ? vs' _ F']; subst.
        inversion F' as [|? v ? ? Hy _]; subst. inversion L as [|? ? _ L']; subst. inversion L'; subst.
        unfold digit_is in Hy. split; lia. }
    destruct (ds ++ rest) as [|x t]; [reflexivity|]. destruct (X x t eq_refl) as (N1 & N2).
    cbn [map app sto_prefix]. replace ((x =? 120) || (x =? 88)) with false by lia.
    destruct t as [|y t]; cbn [map app]; reflexivity. }
  rewrite P. cbn [bind].
  destruct (digits_rest 8 (48 :: ds) m rest (length (sp ++ sg)) Hn Hr ltac:(lia)) as (D & Q). cbn [map app] in D |- *.
  rewrite map_app, <- app_assoc, D. cbn [bind].
  replace (length (sp ++ sg) + length (48%Z :: ds) =? length (sp ++ sg))%nat with false by (cbn [length]; lia).
  do 2 f_equal. rewrite !app_length. cbn [length]. lia.
Qed.
