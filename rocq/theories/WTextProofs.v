(** * WTextProofs: characters, wide characters and bitsets in text streams. *)
From Verif Require Import Base UtilModel Utf8Model Utf8Spec Utf8Proofs BitsetModel BitsetSpec BitsetProofs StreamModel FileModel IstrModel IstrSpec IstrProofs IstrRun WTextModel WTextSpec.
From Coq Require Import ZArith ZifyBool ZifyNat Lia.
Local Open Scope Z_scope.

Lemma chars_skipd p l : chars_of p l = match skipd p l with [] => [] | c :: t => c :: chars_of p t end.
Proof. induction l as [|c l IH]; cbn [chars_of filter skipd]; [reflexivity|]. destruct (p c) eqn:E; cbn [negb]; [exact IH|reflexivity]. Qed.

Lemma skipd_len' p l : (length (skipd p l) <= length l)%nat.
Proof. induction l as [|c l IH]; cbn [skipd length]; [lia|]. destruct (p c); cbn [length]; lia. Qed.
Lemma skipd_app' p l r : Forall (fun c => p c = true) l -> skipd p (l ++ r) = skipd p r.
Proof. induction 1 as [|c l Hc Hl IH]; cbn [app skipd]; [reflexivity|]. rewrite Hc. exact IH. Qed.

Section Generic.
  Variable uf : Z -> io ist Z.
  Variable P : ist -> list Z -> Prop.
  Hypothesis P_view : forall s txt, P s txt -> exists w rest, txt = w ++ rest /\ View s w.
  Hypothesis P_move : forall s txt k, P s txt -> (Z.of_nat k <= t_remaining s) -> P (tput_pos (t_pos s + Z.of_nat k) s) (skipn k txt).
  Hypothesis P_gc : forall s txt g, P s txt -> P (tput_gcount g s) txt.
  Hypothesis P_state : forall s txt, P s txt -> t_state s = 0 \/ (t_state s = 6 /\ txt = []).
  Hypothesis uf_ok : forall s txt, P s txt -> t_remaining s = 0 ->
    exists s', uf 1 s = Ok (s', Val (t_remaining s')) /\ P s' txt /\ t_gcount s' = t_gcount s /\ kept s s' /\
      (txt = [] -> t_remaining s' = 0 /\ t_state s' = 6) /\ (txt <> [] -> 0 < t_remaining s').

  Lemma char_ok fuel s txt : P s txt -> (length txt + 1 < fuel)%nat -> is_delim s (nth 0 (t_delims s) 0) = true ->
    exists s' rest, iread_char uf fuel s = Ok (s', Val (hd 0 (chars_of (is_delim s) txt))) /\ P s' rest /\
      chars_of (is_delim s) rest = tl (chars_of (is_delim s) txt) /\ (length rest <= length txt)%nat /\ kept s s' /\
      t_state s' = (match chars_of (is_delim s) txt with [] => 6 | _ => 0 end).
  Proof.
    intros H Hf Hn. unfold iread_char, skip_delimiters.
    destruct (skip_delimiters_loop_ok uf P P_view P_move P_gc P_state uf_ok fuel s txt _ H Hf Hn) as (s1 & E & H1 & G1 & K1 & A1 & B1).
    pose proof (skipd_len' (is_delim s) txt) as Ln. rewrite chars_skipd. exists s1, (tl (skipd (is_delim s) txt)). rewrite E.
    destruct (skipd (is_delim s) txt) as [|c t]; cbn [hd tl length] in *.
    - split; [reflexivity|]. split; [exact H1|]. split; [reflexivity|]. split; [lia|]. split; [exact K1|apply A1; reflexivity].
    - split; [reflexivity|]. split; [exact H1|]. split; [reflexivity|]. split; [lia|]. split; [exact K1|]. apply B1. discriminate.
  Qed.

  Lemma chars_ok fuel : forall n s txt, P s txt -> (length txt + 1 < fuel)%nat -> is_delim s (nth 0 (t_delims s) 0) = true ->
    (n <= length (chars_of (is_delim s) txt))%nat ->
    exists s' rest, times n (iread_char uf fuel) s = Ok (s', Val (firstn n (chars_of (is_delim s) txt))) /\ P s' rest /\
      chars_of (is_delim s) rest = skipn n (chars_of (is_delim s) txt) /\ (length rest <= length txt)%nat /\ kept s s' /\ (t_state s = 0 -> t_state s' = 0).
  Proof.
    induction n as [|n IH]; intros s txt H Hf Hn Hl; cbn [times].
    - exists s, txt. repeat split; auto.
    - destruct (char_ok fuel s txt H Hf Hn) as (s1 & rest & E & H1 & C1 & L1 & K1 & S1). unfold iobind at 1. rewrite E. cbn [bind].
      destruct (chars_of (is_delim s) txt) as [|c cs] eqn:Ec; [cbn [length] in Hl; lia|]. cbn [hd tl length firstn skipn] in *.
      assert (Dl : is_delim s1 = is_delim s) by (unfold is_delim; destruct K1 as (-> & _); reflexivity).
      assert (Dn : t_delims s1 = t_delims s) by apply K1.
      destruct (IH s1 rest H1) as (s' & r & E' & H' & C' & L' & K' & S').
      { lia. } { rewrite Dl, Dn. exact Hn. } { rewrite Dl, C1. lia. }
      rewrite Dl, C1 in *. unfold iobind. rewrite E'. cbn [bind ret]. exists s', r. split; [reflexivity|]. split; [exact H'|]. split; [exact C'|]. split; [lia|].
      split; [exact (kept_trans _ _ _ K1 K')|]. auto.
  Qed.

  Lemma bs_read_ok sz fuel : forall i ws l s txt, (i <= sz)%nat -> Binv sz false ws l -> P s txt -> (length txt + 1 < fuel)%nat -> is_delim s (nth 0 (t_delims s) 0) = true -> t_state s = 0 ->
    exists s' ws' l', bs_text_read uf sz fuel i ws s = Ok (s', Val ws') /\ Binv sz false ws' l' /\
      (forall n, nth n l' false = if ((n <? i) && (i - 1 - n <? length (chars_of (is_delim s) txt)))%nat then nth (i - 1 - n) (chars_of (is_delim s) txt) 0 =? 49 else nth n l false) /\
      t_state s' = (if (i <=? length (chars_of (is_delim s) txt))%nat then 0 else 6) /\
      exists rest, P s' rest /\ chars_of (is_delim s) rest = skipn i (chars_of (is_delim s) txt) /\ kept s s'.
  Proof.
    induction i as [|i IH]; intros ws l s txt Hi HB H Hf Hn Hs; cbn [bs_text_read].
    - exists s, ws, l. split; [reflexivity|]. split; [exact HB|]. split; [reflexivity|]. split; [exact Hs|]. exists txt. split; [exact H|]. split; [reflexivity|apply kept_refl].
    - unfold iobind. destruct (char_ok fuel s txt H Hf Hn) as (s1 & rest & E & H1 & C1 & L1 & K1 & S1). rewrite E. cbn [bind]. unfold t_good. rewrite S1.
      assert (Dl : is_delim s1 = is_delim s) by (unfold is_delim; destruct K1 as (-> & _); reflexivity).
      assert (Dn : t_delims s1 = t_delims s) by apply K1.
      destruct (chars_of (is_delim s) txt) as [|c cs] eqn:Ec.
      + cbn [Z.eqb]. exists s1, ws, l. split; [reflexivity|]. split; [exact HB|]. split.
        { intros n. replace (_ && _)%bool with false; [reflexivity|]. cbn [length]. symmetry. apply andb_false_iff. right. lia. }
        split; [exact S1|]. exists rest. split; [exact H1|]. split; [rewrite C1; reflexivity|exact K1].
      + cbn [Z.eqb hd tl] in *. destruct (bs_set_ok sz false ws l i (c =? 49) HB ltac:(lia)) as (ws1 & E1 & B1). rewrite E1.
        destruct (IH ws1 _ s1 rest ltac:(lia) B1 H1 ltac:(lia) ltac:(rewrite Dl, Dn; exact Hn) S1) as (s' & ws' & l' & E' & B' & N' & S' & r & Hr & Cr & Kr).
        rewrite Dl, C1 in *. exists s', ws', l'. split; [exact E'|]. split; [exact B'|]. split.
        { intros n. rewrite N'. cbn [length]. pose proof (Binv_length sz _ _ _ HB) as Ll.
          assert (Sb : forall n, nth n (set_bit l i (c =? 49)) false = if (n =? i)%nat then (c =? 49) else nth n l false).
          { intros m. unfold set_bit. destruct (Nat.eqb_spec m i) as [->|Nm].
            - rewrite app_nth2 by (rewrite firstn_length; lia). rewrite firstn_length. replace (i - Nat.min i (length l))%nat with O by lia. reflexivity.
            - destruct (Nat.lt_ge_cases m i) as [L|L].
              + rewrite app_nth1 by (rewrite firstn_length; lia). rewrite <- (firstn_skipn i l) at 2. rewrite app_nth1 by (rewrite firstn_length; lia). reflexivity.
              + rewrite app_nth2 by (rewrite firstn_length; lia). rewrite firstn_length. replace (Nat.min i (length l)) with i by lia.
                destruct (m - i)%nat as [|k] eqn:Ek; [lia|]. cbn [nth]. rewrite <- (firstn_skipn (S i) l) at 2. rewrite app_nth2 by (rewrite firstn_length; lia).
                rewrite firstn_length. f_equal. lia. }
          destruct (Nat.lt_ge_cases n i) as [L|L].
          - replace (n <? i)%nat with true by lia. replace (n <? S i)%nat with true by lia. cbn [andb].
            replace (S i - 1 - n)%nat with (S (i - 1 - n))%nat by lia. cbn [nth]. rewrite Sb. replace (n =? i)%nat with false by lia.
            change (S (i - 1 - n) <? S (length cs))%nat with (i - 1 - n <? length cs)%nat. reflexivity.
          - replace (n <? i)%nat with false by lia. cbn [andb]. rewrite Sb. destruct (Nat.eqb_spec n i) as [->|Nn].
            + replace (i <? S i)%nat with true by lia. replace (S i - 1 - i)%nat with O by lia. reflexivity.
            + replace (n <? S i)%nat with false by lia. reflexivity. }
        split; [exact S'|]. exists r. split; [exact Hr|]. split; [exact Cr|exact (kept_trans _ _ _ K1 Kr)].
  Qed.
End Generic.

(** ** Wide characters *)
Lemma firstn_enc v r : firstn (length (encode v)) (encode v ++ r) = encode v.
Proof. rewrite firstn_app, Nat.sub_diag, firstn_all. cbn [firstn]. apply app_nil_r. Qed.
Lemma i_view_rem s txt : IInv s txt -> t_remaining s = Z.of_nat (length txt).
Proof. intros H. apply view_rem, H. Qed.
Lemma lead_facts v : is_char v -> exists c cs, encode v = c :: cs /\ 0 <= c < 256 /\ seq_bytes c = Ok (Z.of_nat (length (encode v))) /\ (c = 0 -> v = 0).
Proof.
  intros H. pose proof (parts_ok v H) as Q. destruct (parts v) as [[c cs] x]. destruct Q as (E & C & L & X & X0 & Fc & Fv).
  exists c, cs. split; [exact E|]. split; [exact C|]. split; [rewrite seq_bytes_lead by exact C; rewrite L, E; reflexivity|].
  intros ->. unfold lead in L. change (0 <? 192) with true in L. cbn iota in L. destruct cs; [|cbn [length] in L; lia]. cbn [fold_left] in Fv. subst x. rewrite Z.land_0_l in Fv. congruence.
Qed.
Lemma encode_len6 v : is_char v -> (length (encode v) <= 6)%nat.
Proof. intros _. unfold encode. repeat match goal with |- context [if ?b then _ else _] => destruct b end; cbn [length]; lia. Qed.
(** The stream after the delimiters, before the character. *)
Lemma at_char fuel s d v rest : IInv s (d ++ encode v ++ rest) -> (length (d ++ encode v ++ rest) + 1 < fuel)%nat -> is_delim s (nth 0 (t_delims s) 0) = true ->
  is_delim s 0 = true -> Forall (fun c => is_delim s c = true) d -> is_char v -> is_delim s (hd 0 (encode v)) = false ->
  exists s', iread_wchar iss_underflow fuel s = Ok (s', Val v) /\ IInv s' rest /\ t_state s' = 0 /\ kept s s'.
Proof.
  intros H Hf Hn H0 HD Hv Hh. destruct (lead_facts v Hv) as (c & cs & E & C & Sb & Cz). rewrite E in Hh. cbn [hd] in Hh.
  unfold iread_wchar, skip_delimiters. unfold iobind at 1.
  destruct (skip_delimiters_loop_ok iss_underflow IInv IInv_view IInv_move IInv_gc IInv_state IInv_uf fuel s _ _ H Hf Hn) as (s1 & Es & H1 & G1 & K1 & A1 & B1).
  rewrite Es. cbn [bind]. rewrite (skipd_app' _ _ _ HD) in *.
  assert (Ek : skipd (is_delim s) (encode v ++ rest) = encode v ++ rest) by (rewrite E; cbn [app skipd]; rewrite Hh; reflexivity).
  rewrite Ek in *. assert (Eh : hd 0 (encode v ++ rest) = c) by (rewrite E; reflexivity). rewrite Eh.
  assert (Nz : c <> 0) by (intros ->; congruence). replace (c =? 0) with false by lia.
  destruct (B1 ltac:(rewrite E; discriminate)) as (S1 & s0 & U & P0 & R0 & G0 & K0). unfold iobind at 1. rewrite U. cbn [bind]. rewrite Sb.
  pose proof (i_view_rem _ _ P0) as Rm. rewrite app_length in Rm.
  unfold iobind at 1. replace (t_remaining s0 <? Z.of_nat (length (encode v))) with false by lia. cbn [bind].
  unfold take_wchar. rewrite Nat2Z.id.
  pose proof (view_bytes s0 _ (proj1 P0) (length (encode v)) 0 ltac:(rewrite app_length; lia)) as Vb. rewrite Z.add_0_r in Vb. cbn [skipn] in Vb. rewrite firstn_enc in Vb.
  rewrite Vb. cbn [bind]. pose proof (utf8_read_ok [] v [] Hv) as Ur. cbn [app length] in Ur. rewrite app_nil_r in Ur. rewrite Ur. cbn [bind].
  destruct (IstrProofs.skip_ok iss_underflow IInv IInv_view IInv_move IInv_gc IInv_state IInv_uf s0 _ (length (encode v)) P0 ltac:(lia)) as (Esk & H2).
  unfold iobind. rewrite Esk. cbn [bind ret]. eexists. split; [reflexivity|].
  rewrite skipn_app, skipn_all, Nat.sub_diag in H2. cbn [app skipn] in H2. split; [exact H2|]. split; [|exact K0].
  cbn [tput_pos t_state]. destruct P0 as (_ & [Q|(Q & Qn)]); [exact Q|rewrite E in Qn; discriminate].
Qed.
Lemma at_end fuel s d : IInv s d -> (length d + 1 < fuel)%nat -> is_delim s (nth 0 (t_delims s) 0) = true -> Forall (fun c => is_delim s c = true) d ->
  exists s', iread_wchar iss_underflow fuel s = Ok (s', Val 0) /\ t_state s' = 6.
Proof.
  intros H Hf Hn HD. unfold iread_wchar, skip_delimiters. unfold iobind at 1.
  destruct (skip_delimiters_loop_ok iss_underflow IInv IInv_view IInv_move IInv_gc IInv_state IInv_uf fuel s _ _ H Hf Hn) as (s1 & Es & H1 & G1 & K1 & A1 & B1).
  rewrite Es. cbn [bind]. pose proof (skipd_app' (is_delim s) d [] HD) as Q. rewrite app_nil_r in Q. cbn [skipd] in Q. rewrite Q in *. cbn [hd Z.eqb ret]. exists s1. split; [reflexivity|apply A1; reflexivity].
Qed.
Lemma wide_ok fuel : forall l trail s, IInv s (wide_text l trail) -> (length (wide_text l trail) + 1 < fuel)%nat -> is_delim s (nth 0 (t_delims s) 0) = true -> is_delim s 0 = true ->
  Forall (fun x => Forall (fun c => is_delim s c = true) (fst x) /\ is_char (snd x) /\ is_delim s (hd 0 (encode (snd x))) = false) l -> t_state s = 0 ->
  exists s', times (length l) (iread_wchar iss_underflow fuel) s = Ok (s', Val (map snd l)) /\ t_state s' = 0 /\ IInv s' trail /\ kept s s'.
Proof.
  induction l as [|(d, v) l IH]; intros trail s H Hf Hn H0 HF Hs; cbn [length times wide_text map] in *.
  - exists s. repeat split; auto; apply H.
  - inversion HF as [|? ? (F1 & F2 & F3) F']; subst. cbn [fst snd] in *.
    destruct (at_char fuel s d v _ H Hf Hn H0 F1 F2 F3) as (s1 & E & H1 & S1 & K1). unfold iobind at 1. rewrite E. cbn [bind].
    assert (Dl : is_delim s1 = is_delim s) by (unfold is_delim; destruct K1 as (-> & _); reflexivity).
    assert (Dn : t_delims s1 = t_delims s) by apply K1.
    destruct (IH trail s1 H1) as (s' & E' & S' & I' & K').
    { rewrite !app_length in Hf. lia. } { rewrite Dl, Dn. exact Hn. } { rewrite Dl. exact H0. } { rewrite Dl. exact F'. } { exact S1. }
    unfold iobind. rewrite E'. cbn [bind ret]. exists s'. split; [reflexivity|]. split; [exact S'|]. split; [exact I'|exact (kept_trans _ _ _ K1 K')].
Qed.
(** The size of the view stays. *)
Definition IInvN (n : Z) (s : ist) (txt : list Z) : Prop := IInv s txt /\ t_size s = n.
Lemma IInvN_view n s txt : IInvN n s txt -> exists w rest, txt = w ++ rest /\ View s w.
Proof. intros (H & _). apply IInv_view, H. Qed.
Lemma IInvN_move n s txt k : IInvN n s txt -> (Z.of_nat k <= t_remaining s) -> IInvN n (tput_pos (t_pos s + Z.of_nat k) s) (skipn k txt).
Proof. intros (H & N) R. split; [apply IInv_move; assumption|exact N]. Qed.
Lemma IInvN_gc n s txt g : IInvN n s txt -> IInvN n (tput_gcount g s) txt.
Proof. intros H. exact H. Qed.
Lemma IInvN_state n s txt : IInvN n s txt -> t_state s = 0 \/ (t_state s = 6 /\ txt = []).
Proof. intros H. apply H. Qed.
Lemma IInvN_uf n s txt : IInvN n s txt -> t_remaining s = 0 ->
  exists s', iss_underflow 1 s = Ok (s', Val (t_remaining s')) /\ IInvN n s' txt /\ t_gcount s' = t_gcount s /\ kept s s' /\
    (txt = [] -> t_remaining s' = 0 /\ t_state s' = 6) /\ (txt <> [] -> 0 < t_remaining s').
Proof.
  intros (H & N) R. destruct (IInv_uf s txt H R) as (s' & E & H' & Q). exists s'. split; [exact E|]. split; [split; [exact H'|]|exact Q].
  clear - E N. unfold iss_underflow, iobind, t_verify, t_overrun in E. destruct (_ <=? _); cbn [bind ret] in E; injection E as <- _; exact N.
Qed.
(** A sequence cut off by the end of the text. *)
Lemma at_cut fuel s d v a b : IInv s (d ++ a) -> (length (d ++ a) + 1 < fuel)%nat -> is_delim s (nth 0 (t_delims s) 0) = true ->
  is_delim s 0 = true -> Forall (fun c => is_delim s c = true) d -> is_char v -> is_delim s (hd 0 (encode v)) = false -> encode v = a ++ b -> a <> [] -> b <> [] -> t_state s = 0 ->
  exists s' x, iread_wchar iss_underflow fuel s = Ok (s', Val x) /\ t_state s' = 4 /\ View s' a /\ t_size s' = t_size s.
Proof.
  intros H Hf Hn H0 HD Hv Hh Hab Na Nb Hs. destruct (lead_facts v Hv) as (c & cs & E & C & Sb & Cz). rewrite E in Hh. cbn [hd] in Hh.
  destruct a as [|c' a]; [congruence|]. assert (c' = c) as -> by (rewrite E in Hab; cbn [app] in Hab; congruence).
  unfold iread_wchar, skip_delimiters. unfold iobind at 1.
  destruct (skip_delimiters_loop_ok iss_underflow (IInvN (t_size s)) (IInvN_view _) (IInvN_move _) (IInvN_gc _) (IInvN_state _) (IInvN_uf _) fuel s _ _ (conj H eq_refl) Hf Hn) as (s1 & Es & H1 & G1 & K1 & A1 & B1).
  rewrite Es. cbn [bind]. rewrite (skipd_app' _ _ _ HD) in *.
  assert (Ek : skipd (is_delim s) (c :: a) = c :: a) by (cbn [skipd]; rewrite Hh; reflexivity).
  rewrite Ek in *. cbn [hd].
  assert (Nz : c <> 0) by (intros ->; congruence). replace (c =? 0) with false by lia.
  destruct (B1 ltac:(discriminate)) as (S1 & s0 & U & (P0 & N0) & R0 & G0 & K0). unfold iobind at 1. rewrite U. cbn [bind]. rewrite Sb.
  pose proof (i_view_rem _ _ P0) as Rm.
  assert (Le : (length (c :: a) < length (encode v))%nat). { rewrite Hab, app_length. destruct b; [congruence|cbn [length]; lia]. }
  assert (S0 : t_state s0 = 0) by (destruct P0 as (_ & [Q|(Q & Qn)]); [exact Q|discriminate]).
  unfold iobind at 1. replace (t_remaining s0 <? Z.of_nat (length (encode v))) with true by lia.
  assert (Ve : forall s, t_remaining s = Z.of_nat (length (c :: a)) -> (t_state s = 0 \/ t_state s = 4) -> t_verify (Z.of_nat (length (encode v))) s = Ok (tput_state 4 s, Val false)).
  { intros s2 R2 S2. unfold t_verify. rewrite R2. replace (_ <=? _) with false by lia. unfold iobind, t_overrun. cbn [bind ret].
    assert (Hb : Z.lor (t_state s2) (overrun_bits (Z.of_nat (length (c :: a)))) = 4).
    { unfold overrun_bits. assert (Le6 : (length (c :: a) < 6)%nat) by (pose proof (encode_len6 v Hv); lia). rewrite (u32_id (Z.of_nat (length (c :: a)))) by (change (2 ^ 32) with 4294967296; lia). replace (Z.of_nat (length (c :: a)) =? 0) with false by (cbn [length]; lia). destruct S2 as [-> | ->]; reflexivity. }
    rewrite Hb. reflexivity. }
  unfold iss_underflow. unfold iobind at 1. unfold iobind at 1. rewrite Ve by auto. cbn [bind ret].
  assert (R2 : t_remaining (tput_state 4 s0) = t_remaining s0) by reflexivity. rewrite R2.
  replace (t_remaining s0 <? Z.of_nat (length (encode v))) with true by lia. unfold iobind. rewrite Ve by auto. cbn [bind ret].
  eexists _, _. split; [reflexivity|]. split; [reflexivity|]. split; [exact (proj1 P0)|exact N0].
Qed.
