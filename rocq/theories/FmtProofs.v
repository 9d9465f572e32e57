(** * FmtProofs: proofs about the generated format. *)
From Verif Require Import Base FmtModel FmtSpec.
From Coq Require Import ZArith ZifyBool ZifyNat Lia.
Local Open Scope Z_scope.

Lemma number_snoc l c : number (l ++ [c]) = 10 * number l + (c - 48).
Proof. unfold number. rewrite fold_left_app. reflexivity. Qed.

Lemma number_nonneg l : Forall (fun c => is_digit c = true) l -> 0 <= number l.
Proof.
  induction l as [|c l IH] using rev_ind; intros H; [cbn; lia|]. apply Forall_app in H. destruct H as (H1 & H2). inversion H2; subst.
  rewrite number_snoc. unfold is_digit in *. specialize (IH H1). lia.
Qed.
Lemma number_pos l : Forall (fun c => is_digit c = true) l -> l <> [] -> hd 0 l <> 48 -> 1 <= number l.
Proof.
  induction l as [|c l IH] using rev_ind; intros H Hn Hh; [congruence|]. apply Forall_app in H. destruct H as (H1 & H2). inversion H2; subst.
  rewrite number_snoc. unfold is_digit in *. destruct l as [|d l].
  - cbn in *. lia.
  - specialize (IH H1 ltac:(discriminate) Hh). lia.
Qed.

Lemma decimal_unique : forall l l' n, decimal l n -> decimal l' n -> l = l'.
Proof.
  induction l as [|c l IH] using rev_ind; intros l' n (A1 & A2 & A3 & A4) (B1 & B2 & B3 & B4); [congruence|].
  destruct l' as [|c' l' _] using rev_ind; [congruence|].
  apply Forall_app in A2, B2. destruct A2 as (A2 & A5), B2 as (B2 & B5). apply Forall_inv in A5, B5.
  rewrite number_snoc in *. unfold is_digit in A5, B5.
  assert (c = c' /\ number l = number l') as (<- & En) by lia. f_equal.
  assert (NZ : forall m, m <> [] -> hd 0 m = 48 -> m ++ [c] = [48] -> False).
  { intros m Hm _ E. destruct m as [|x [|y m]]; [congruence|discriminate|discriminate]. }
  destruct l as [|x l], l' as [|y l'].
  - reflexivity.
  - exfalso. destruct (Z.eq_dec y 48) as [->|Hy].
    + destruct (B4 eq_refl) as (_ & E). apply (NZ (48 :: l')); auto. discriminate.
    + pose proof (number_pos (y :: l') B2 ltac:(discriminate) Hy). change (number []) with 0 in En. lia.
  - exfalso. destruct (Z.eq_dec x 48) as [->|Hx].
    + destruct (A4 eq_refl) as (_ & E). apply (NZ (48 :: l)); auto. discriminate.
    + pose proof (number_pos (x :: l) A2 ltac:(discriminate) Hx). change (number []) with 0 in En. lia.
  - apply (IH (y :: l') (number (x :: l))).
    + split; [discriminate|]. split; [exact A2|]. split; [reflexivity|]. intros E. destruct (A4 E) as (_ & E2). destruct (NZ (x :: l)); auto. discriminate.
    + split; [discriminate|]. split; [exact B2|]. split; [symmetry; exact En|]. intros E. destruct (B4 E) as (_ & E2). destruct (NZ (y :: l')); auto. discriminate.
Qed.

Lemma put_ok c l : (length l < 16)%nat -> put c l = Ok (l ++ [c]).
Proof. intros H. unfold put. destruct (Nat.ltb_spec (length l) 16); [reflexivity|lia]. Qed.
Lemma put_all_ok : forall cs l, (length l + length cs <= 16)%nat -> put_all cs l = Ok (l ++ cs).
Proof.
  induction cs as [|c cs IH]; intros l H; cbn [put_all length] in *; [rewrite app_nil_r; reflexivity|].
  rewrite put_ok by lia. cbn [bind]. rewrite IH by (rewrite app_length; cbn [length]; lia). rewrite <- app_assoc. reflexivity.
Qed.

Lemma encode_ok : forall k fuel n l, 0 <= n < 10 ^ Z.of_nat k -> (1 <= k <= fuel)%nat -> (length l + k <= 16)%nat ->
  exists ds, encode_loop fuel n l = Ok (l ++ ds) /\ decimal (rev ds) n /\ (length ds <= k)%nat.
Proof.
  induction k as [|k IH]; intros fuel n l Hn Hf Hl; [lia|]. destruct fuel as [|fuel]; [lia|].
  cbn [encode_loop]. rewrite put_ok by lia. cbn [bind].
  assert (Hd : is_digit (48 + n mod 10) = true). { pose proof (Z.mod_pos_bound n 10 ltac:(lia)). unfold is_digit. lia. }
  pose proof (Z.div_mod n 10 ltac:(lia)) as DM.
  destruct (Z.eqb_spec (n / 10) 0) as [E|E].
  - exists [48 + n mod 10]. split; [reflexivity|]. split; [|cbn [length]; lia]. cbn [rev app].
    split; [discriminate|]. split; [constructor; [exact Hd|constructor]|]. cbn [number fold_left hd]. unfold number. cbn [fold_left]. split; [lia|].
    intros H. split; [lia|]. f_equal. lia.
  - assert (Hk : (1 <= k)%nat). { destruct k; [|lia]. change (10 ^ Z.of_nat 1) with 10 in Hn. exfalso. apply E. apply Z.div_small. lia. }
    destruct (IH fuel (n / 10) (l ++ [48 + n mod 10])) as (ds & E1 & (D1 & D2 & D3 & D4) & L1).
    { replace (Z.of_nat (S k)) with (Z.of_nat k + 1) in Hn by lia. rewrite Z.pow_add_r in Hn by lia. change (10 ^ 1) with 10 in Hn.
      split; [apply Z.div_pos; lia|]. apply Z.div_lt_upper_bound; lia. }
    { lia. } { rewrite app_length. cbn [length]. lia. }
    exists ((48 + n mod 10) :: ds). rewrite E1, <- app_assoc. split; [reflexivity|]. cbn [rev]. split; [|cbn [length]; lia].
    split; [destruct (rev ds); discriminate|]. split; [apply Forall_app; split; [exact D2|constructor; [exact Hd|constructor]]|].
    rewrite number_snoc. split; [lia|]. intros H. destruct (rev ds) as [|x t] eqn:Er; [congruence|]. cbn [app hd] in H.
    exfalso. destruct (D4 H) as (? & _). lia.
Qed.

Definition flag (b : bool) (c : Z) : list Z := if b then [c] else [].
Lemma put_if_ok b c l : (length l < 16)%nat -> put_if b c l = Ok (l ++ flag b c).
Proof. intros H. destruct b; cbn [put_if flag]; [apply put_ok; exact H|rewrite app_nil_r; reflexivity]. Qed.
Lemma flag_len b c : (length (flag b c) <= 1)%nat. Proof. destruct b; cbn; lia. Qed.

(** The format, piece by piece. *)
Lemma fmtstring_ok s t : settings s -> exists ws ps,
  fmtstring s t = Ok (37 :: (if w_width s =? 0 then [] else flag (w_fill s =? 48) 48 ++ ws) ++ flag (has (w_flags s) f_left) 45 ++
     (if is_integer t then flag (has (w_flags s) f_showpos) 43 ++ flag (has (w_flags s) f_showbase) 35 else 46 :: ps) ++
     length_of t ++ [conversion s t]) /\
  decimal (rev ws) (w_width s) /\ decimal (rev ps) (w_prec s) /\ (length ws <= 5)%nat /\ (length ps <= 3)%nat.
Proof.
  intros (Hw & Hp).
  destruct (encode_ok 5 10 (w_width s) (37 :: flag (w_fill s =? 48) 48)) as (ws & E1 & D1 & L1).
  { change (10 ^ Z.of_nat 5) with 100000. lia. } { lia. } { pose proof (flag_len (w_fill s =? 48) 48). cbn [length]. lia. }
  set (A := if w_width s =? 0 then [] else flag (w_fill s =? 48) 48 ++ ws).
  assert (LA : (length A <= 6)%nat). { unfold A. destruct (_ =? 0); cbn [length]; [lia|]. rewrite app_length. pose proof (flag_len (w_fill s =? 48) 48). lia. }
  destruct (encode_ok 3 10 (w_prec s) ((37 :: A) ++ flag (has (w_flags s) f_left) 45 ++ [46])) as (ps & E2 & D2 & L2).
  { change (10 ^ Z.of_nat 3) with 1000. lia. } { lia. } { rewrite !app_length. pose proof (flag_len (has (w_flags s) f_left) 45). cbn [length]. lia. }
  exists ws, ps. split; [|auto]. unfold fmtstring. rewrite put_ok by (cbn; lia). cbn [bind app].
  assert (EA : (if w_width s =? 0 then Ok [37] else l <- put_if (w_fill s =? 48) 48 [37] ;; encode_dec (w_width s) l) = Ok (37 :: A)).
  { unfold A. destruct (_ =? 0); [reflexivity|]. rewrite put_if_ok by (cbn; lia). cbn [bind app]. unfold encode_dec. rewrite E1. reflexivity. }
  rewrite EA. cbn [bind]. rewrite put_if_ok by (cbn [length]; lia). cbn [bind].
  set (B := flag (has (w_flags s) f_left) 45). assert (LB : (length B <= 1)%nat) by apply flag_len.
  set (C := if is_integer t then flag (has (w_flags s) f_showpos) 43 ++ flag (has (w_flags s) f_showbase) 35 else 46 :: ps).
  assert (LC : (length C <= 4)%nat).
  { unfold C. destruct (is_integer t); [rewrite app_length; pose proof (flag_len (has (w_flags s) f_showpos) 43); pose proof (flag_len (has (w_flags s) f_showbase) 35); lia|cbn [length]; lia]. }
  assert (EC : (if is_integer t then l <- put_if (has (w_flags s) f_showpos) 43 ((37 :: A) ++ B) ;; put_if (has (w_flags s) f_showbase) 35 l
                else l <- put 46 ((37 :: A) ++ B) ;; encode_dec (w_prec s) l) = Ok ((37 :: A) ++ B ++ C)).
  { unfold C. destruct (is_integer t).
    - rewrite put_if_ok by (rewrite app_length; cbn [length]; lia). cbn [bind].
      rewrite put_if_ok by (rewrite !app_length; pose proof (flag_len (has (w_flags s) f_showpos) 43); cbn [length]; lia).
      rewrite <- !app_assoc. reflexivity.
    - rewrite put_ok by (rewrite app_length; cbn [length]; lia). cbn [bind]. unfold encode_dec.
      rewrite <- app_assoc. fold B in E2. rewrite E2. rewrite <- !app_assoc. reflexivity. }
  rewrite EC. cbn [bind].
  assert (LT : (length (typestring t) <= 3)%nat) by (destruct t; cbn; lia).
  rewrite put_all_ok by (rewrite !app_length; cbn [length]; lia). cbn [bind].
  assert (ET : (if is_integer t then if has (w_flags s) f_hex then set_last (if has (w_flags s) f_uppercase then 88 else 120) (((37 :: A) ++ B ++ C) ++ typestring t)
                  else if has (w_flags s) f_oct then set_last 111 (((37 :: A) ++ B ++ C) ++ typestring t) else ((37 :: A) ++ B ++ C) ++ typestring t
                else if has (w_flags s) f_scientific then set_last 69 (((37 :: A) ++ B ++ C) ++ typestring t) else ((37 :: A) ++ B ++ C) ++ typestring t)
               = ((37 :: A) ++ B ++ C) ++ length_of t ++ [conversion s t]).
  { assert (Ts : typestring t = length_of t ++ [last (typestring t) 0]) by (destruct t; reflexivity).
    assert (SL : forall c, set_last c (((37 :: A) ++ B ++ C) ++ typestring t) = ((37 :: A) ++ B ++ C) ++ length_of t ++ [c]).
    { intros c. unfold set_last. rewrite Ts. rewrite removelast_app by (destruct (length_of t); discriminate).
      rewrite removelast_last, <- app_assoc. reflexivity. }
    rewrite !SL. unfold conversion.
    destruct t; cbn [is_integer length_of typestring]; repeat destruct (has _ _); reflexivity. }
  cbv zeta. rewrite ET. rewrite put_ok.
  2:{ rewrite !app_length. assert ((length (length_of t) <= 2)%nat) by (destruct t; cbn; lia). cbn [length]. 
      assert ((length A + length B + length C + length (length_of t) <= 13)%nat); [|lia].
      unfold C in *. destruct t; cbn [is_integer length_of length] in *; try lia;
      rewrite app_length in *; pose proof (flag_len (has (w_flags s) f_showpos) 43); pose proof (flag_len (has (w_flags s) f_showbase) 35); lia. }
  cbn [bind]. rewrite <- !app_assoc. reflexivity.
Qed.

Lemma span_stop p a l : Forall (fun c => p c = true) a -> (match l with [] => True | c :: _ => p c = false end) -> span p (a ++ l) = (a, l).
Proof.
  induction 1 as [|c a Hc Ha IH]; intros Hl; cbn [app].
  - destruct l as [|c l]; [reflexivity|]. cbn [span]. rewrite Hl. reflexivity.
  - cbn [span]. rewrite Hc, (IH Hl). reflexivity.
Qed.

Definition no_flags (s : fmtst) (t : ntype) : Prop :=
  has (w_flags s) f_left = false /\
  (is_integer t = true -> has (w_flags s) f_showpos = false /\ has (w_flags s) f_showbase = false).

Lemma digits_rev l n : decimal (rev l) n -> Forall (fun c => is_digit c = true) l.
Proof. intros (_ & H & _). apply Forall_rev in H. rewrite rev_involutive in H. exact H. Qed.
Lemma digit_not_flag c : is_digit c = true -> c <> 48 -> is_flag c = false.
Proof. unfold is_digit, is_flag. intros H1 H2. cbn [existsb]. lia. Qed.
Lemma digit_not_length c : is_digit c = true -> is_length c = false.
Proof. unfold is_digit, is_length. intros H1. cbn [existsb]. lia. Qed.

(** What a parser makes of the pieces. *)
Lemma parse_tail s t : is_conv (conversion s t) = true /\ is_length (conversion s t) = false /\ is_digit (conversion s t) = false /\ is_flag (conversion s t) = false /\
  Forall (fun c => is_length c = true) (length_of t) /\ conversion s t <> 46 /\ 
  match length_of t ++ [conversion s t] with [] => True | c :: _ => is_digit c = false /\ is_flag c = false /\ c <> 46 end.
Proof.
  unfold conversion. destruct t; repeat destruct (has _ _); cbn; repeat split; try discriminate; repeat constructor.
Qed.

Lemma parse_pieces fl ws po s t :
  Forall (fun c => is_flag c = true) fl -> Forall (fun c => is_digit c = true) ws -> hd 0 ws <> 48 ->
  match po with None => True | Some ps => Forall (fun c => is_digit c = true) ps end ->
  parse (37 :: fl ++ ws ++ (match po with None => [] | Some ps => 46 :: ps end) ++ length_of t ++ [conversion s t]) =
  Some (mkconv (existsb (Z.eqb 45) fl) (existsb (Z.eqb 43) fl) (existsb (Z.eqb 32) fl) (existsb (Z.eqb 35) fl) (existsb (Z.eqb 48) fl)
     (match ws with [] => None | _ => Some (number ws) end) (match po with None => None | Some ps => Some (number ps) end) (length_of t) (conversion s t)).
Proof.
  intros Hf Hw Hh Hp. destruct (parse_tail s t) as (T1 & T2 & T3 & T4 & T5 & T6 & T7).
  set (R := match po with None => [] | Some ps => 46 :: ps end ++ length_of t ++ [conversion s t]).
  assert (HR : match R with [] => True | c :: _ => is_digit c = false /\ is_flag c = false end).
  { unfold R. destruct po as [ps|]; cbn [app]; [split; reflexivity|]. destruct (length_of t ++ [conversion s t]); [exact I|]. tauto. }
  unfold parse. rewrite (span_stop is_flag fl (ws ++ R)); [|exact Hf|].
  2:{ destruct ws as [|c ws]; cbn [app]; [destruct R; [exact I|tauto]|]. apply Forall_inv in Hw. apply digit_not_flag; [exact Hw|exact Hh]. }
  rewrite (span_stop is_digit ws R); [|exact Hw|destruct R; [exact I|tauto]].
  assert (TL : span is_length (length_of t ++ [conversion s t]) = (length_of t, [conversion s t])) by (apply span_stop; [exact T5|exact T2]).
  unfold R. destruct po as [ps|]; cbn [app].
  - rewrite (span_stop is_digit ps (length_of t ++ [conversion s t])); [|exact Hp|destruct (length_of t ++ [conversion s t]); [exact I|tauto]].
    rewrite TL, T1. reflexivity.
  - assert (M : match length_of t ++ [conversion s t] with
        | 46 :: l => let '(d, l0) := span is_digit l in (Some (number d), l0)
        | _ => (None, length_of t ++ [conversion s t]) end = (None, length_of t ++ [conversion s t])).
    { clear - T7. destruct (length_of t ++ [conversion s t]) as [|c l]; [reflexivity|]. destruct T7 as (_ & _ & T7).
      destruct c as [|p|p]; try reflexivity. do 6 (destruct p as [p|p|]; try reflexivity). congruence. }
    rewrite M, TL, T1. reflexivity.
Qed.

Lemma decimal_nonempty_rev l n : decimal (rev l) n -> l <> [].
Proof. intros (H & _) ->. apply H. reflexivity. Qed.

Lemma palindrome_digits l n : decimal (rev l) n -> palindrome n -> rev l = l.
Proof.
  intros H (d & Hd & Hr). pose proof (decimal_unique _ _ _ H Hd) as E. rewrite E. rewrite <- Hr, <- E, rev_involutive. reflexivity.
Qed.
Lemma decimal_hd l n : decimal l n -> n <> 0 -> hd 0 l <> 48.
Proof. intros (_ & _ & _ & H) Hn E. destruct (H E). congruence. Qed.
(** The last digit written first. *)
Lemma decimal_rev_hd l n : decimal (rev l) n -> hd 0 l = 48 + n mod 10.
Proof.
  intros (A & B & C & D). destruct l as [|c l]; [exfalso; apply A; reflexivity|]. cbn [rev hd] in *. rewrite number_snoc in C.
  apply Forall_app in B. destruct B as (_ & B). apply Forall_inv in B. unfold is_digit in B. lia.
Qed.

Lemma flags_forall b1 b2 b3 b4 : Forall (fun c => is_flag c = true) (flag b1 48 ++ flag b2 45 ++ flag b3 43 ++ flag b4 35).
Proof. destruct b1, b2, b3, b4; cbn; repeat constructor. Qed.

Lemma span_flags_digits : forall ws X, Forall (fun c => is_digit c = true) ws -> (exists c, In c ws /\ c <> 48) ->
  exists a b, span is_flag (ws ++ X) = (a, b ++ X) /\ Forall (fun c => is_digit c = true) b /\ b <> [].
Proof.
  induction ws as [|c ws IH]; intros X HF (d & Hd & Hn); [destruct Hd|]. inversion HF; subst. cbn [app span].
  destruct (Z.eq_dec c 48) as [->|Hc].
  - destruct (IH X) as (a & b & E & Hb & Hb2); [assumption|destruct Hd as [Hd|Hd]; [congruence|eauto]|].
    cbn [is_flag existsb Z.eqb]. change (is_flag 48) with true. cbn iota. rewrite E. exists (48 :: a), b. auto.
  - rewrite digit_not_flag by assumption. exists [], (c :: ws). split; [reflexivity|]. split; [exact HF|discriminate].
Qed.

Lemma decimal_some_digit l n : decimal (rev l) n -> n <> 0 -> exists c, In c l /\ c <> 48.
Proof.
  intros H Hn. pose proof (decimal_hd _ _ H Hn) as Hh. destruct H as (H & _). destruct (rev l) as [|c t] eqn:E; [congruence|].
  exists c. split; [|exact Hh]. apply in_rev. rewrite E. left. reflexivity.
Qed.

Lemma parse_bad a f X : (exists c, In c a /\ c <> 48) -> Forall (fun c => is_digit c = true) a ->
  In f [45; 43; 35] -> X <> [] -> parse (37 :: a ++ f :: X) = None.
Proof.
  intros Hs Ha Hf HX. unfold parse.
  destruct (span_flags_digits a (f :: X) Ha Hs) as (p & b & E & Hb & Hb2). rewrite E.
  rewrite (span_stop is_digit b (f :: X) Hb). 2:{ destruct Hf as [<-|[<-|[<-|[]]]]; reflexivity. }
  assert (M : match f :: X with 46 :: l => let '(d, l0) := span is_digit l in (Some (number d), l0) | _ => (None, f :: X) end = (None, f :: X)).
  { destruct Hf as [<-|[<-|[<-|[]]]]; reflexivity. }
  rewrite M. change (f :: X) with ([] ++ f :: X). rewrite (span_stop is_length [] (f :: X) (Forall_nil _)).
  2:{ destruct Hf as [<-|[<-|[<-|[]]]]; reflexivity. }
  destruct X; [congruence|reflexivity].
Qed.
