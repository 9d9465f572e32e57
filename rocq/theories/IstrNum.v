(** * IstrNum: reading integers. *)
From Verif Require Import Base UtilModel StringFindModel StreamModel FileModel FmtSpec IstrModel IstrSpec IstrProofs IstrRun.
From Coq Require Import ZArith ZifyBool ZifyNat Lia.
Local Open Scope Z_scope.

(** A view followed by [after] in memory. *)
Definition NInv (after : list (option Z)) (s : ist) (txt : list Z) : Prop :=
  (exists pre, t_mem s = pre ++ map Some txt ++ after /\ t_pos s = Z.of_nat (length pre) /\
    t_size s = t_pos s + Z.of_nat (length txt) /\ t_size s < 2 ^ 61) /\
  t_base s = 0 /\ (t_state s = 0 \/ (t_state s = 6 /\ txt = [])).
Section After.
  Variable after : list (option Z).
  Lemma NInv_IInv s txt : NInv after s txt -> IInv s txt.
  Proof. intros ((pre & H) & _ & S). split; [exists pre, after; exact H|exact S]. Qed.
  Lemma NInv_view s txt : NInv after s txt -> exists w rest, txt = w ++ rest /\ View s w.
  Proof. intros H. apply IInv_view, NInv_IInv, H. Qed.
  Lemma NInv_move s txt k : NInv after s txt -> (Z.of_nat k <= t_remaining s) -> NInv after (tput_pos (t_pos s + Z.of_nat k) s) (skipn k txt).
  Proof.
    intros H R. pose proof (IInv_move _ _ k (NInv_IInv _ _ H) R) as (_ & S). pose proof (view_rem s txt (proj1 (NInv_IInv _ _ H))) as Rw.
    destruct H as ((pre & M & P & Sz & B) & Bs & _). split; [|split; [exact Bs|exact S]].
    exists (pre ++ map Some (firstn k txt)). cbn [tput_pos t_mem t_pos t_size].
    assert (L : length (firstn k txt) = k) by (rewrite firstn_length; lia).
    split; [rewrite <- app_assoc, M; f_equal; rewrite app_assoc, <- map_app, firstn_skipn; reflexivity|].
    rewrite app_length, map_length, L, skipn_length. lia.
  Qed.
  Lemma NInv_gc s txt g : NInv after s txt -> NInv after (tput_gcount g s) txt.
  Proof. intros H. exact H. Qed.
  Lemma NInv_state s txt : NInv after s txt -> t_state s = 0 \/ (t_state s = 6 /\ txt = []).
  Proof. intros H. apply H. Qed.
  Lemma NInv_uf s txt : NInv after s txt -> t_remaining s = 0 ->
    exists s', iss_underflow 1 s = Ok (s', Val (t_remaining s')) /\ NInv after s' txt /\ t_gcount s' = t_gcount s /\ kept s s' /\
      (txt = [] -> t_remaining s' = 0 /\ t_state s' = 6) /\ (txt <> [] -> 0 < t_remaining s').
  Proof.
    intros H R. pose proof (view_rem s txt (proj1 (NInv_IInv _ _ H))) as Rw. assert (txt = []) as -> by (destruct txt; [reflexivity|cbn [length] in Rw; lia]).
    destruct H as (V & Bs & S).
    unfold iss_underflow, iobind, t_verify. rewrite R. change (1 <=? 0) with false. cbn iota. unfold iobind, t_overrun. cbn [bind].
    eexists. split; [reflexivity|]. assert (E : Z.lor (t_state s) (overrun_bits 0) = 6) by (destruct S as [->|(-> & _)]; reflexivity).
    rewrite E. split; [split; [exact V|split; [exact Bs|right; split; reflexivity]]|]. split; [reflexivity|]. split; [split; reflexivity|]. split; [intros _; split; [exact R|reflexivity]|congruence].
  Qed.
  Lemma NInv_new txt : (Z.of_nat (length txt) < 2 ^ 61) -> NInv after (iss_new txt after) txt.
  Proof. intros H. split; [|split; [reflexivity|left; reflexivity]]. exists []. cbn. repeat split; try lia. Qed.
End After.
Definition n_skip a := skip_delimiters_loop_ok iss_underflow (NInv a) (NInv_view a) (NInv_move a) (NInv_gc a) (NInv_state a) (NInv_uf a).

(** ** strtol on a decimal number *)
Lemma digit_char c : is_digit c = true -> digit_value c = c - 48 /\ 48 <= c <= 57 /\ isspace c = false.
Proof. unfold is_digit, digit_value, isspace. intros H. replace ((48 <=? c) && (c <=? 57)) with true by lia. lia. Qed.
Lemma digits_stop b c t a k : 2 <= b <= 36 -> digit_value c = 99 -> digits b (Some c :: t) a k = Ok (a, k).
Proof. intros Hb Hc. cbn [digits]. rewrite Hc. replace (99 <? b) with false by lia. reflexivity. Qed.
Lemma digits_ok ds : forall a k t, Forall (fun c => is_digit c = true) ds ->
  digits 10 (map Some ds ++ t) a k = digits 10 t (fold_left (fun a c => 10 * a + (c - 48)) ds a) (k + length ds)%nat.
Proof.
  induction ds as [|c ds IH]; intros a k t HF; cbn [map app length fold_left]; [rewrite Nat.add_0_r; reflexivity|].
  inversion HF as [|? ? Hc HF']; subst. destruct (digit_char c Hc) as (Hv & Hr & _). cbn [digits]. rewrite Hv. replace (c - 48 <? 10) with true by lia.
  rewrite IH by exact HF'. f_equal. lia.
Qed.
Lemma strtol_digits (neg : bool) ds n c (t : list (option Z)) k : decimal ds n -> digit_value c = 99 -> c <> 120 /\ c <> 88 ->
  (' (base, l, k0) <- match map Some ds ++ Some c :: t with
      | Some 48 :: Some x :: ((Some h :: _) as t') =>
          if ((x =? 120) || (x =? 88)) && ((0 =? 0) || (0 =? 16)) && (digit_value h <? 16)
          then Ok (16, t', (k + 2)%nat)
          else Ok (if 0 =? 0 then 8 else 0, map Some ds ++ Some c :: t, k)
      | Some 48 :: Some x :: _ => if (x =? 120) || (x =? 88) then UB else Ok (if 0 =? 0 then 8 else 0, map Some ds ++ Some c :: t, k)
      | Some 48 :: _ => UB
      | _ => Ok (if 0 =? 0 then 10 else 0, map Some ds ++ Some c :: t, k)
      end ;;
  ' (v, k1) <- digits base l 0 k0 ;;
  if (k1 =? k)%nat then Ok (0, O) else Ok (clamp_long (if neg then - v else v), k1)) = Ok (clamp_long (if neg then - n else n), (k + length ds)%nat).
Proof.
  intros (Hne & HF & Hn & H0) Hc (Hx & HX).
  destruct ds as [|d ds]; [congruence|]. inversion HF as [|? ? Hd1 HF']; subst x l. destruct (digit_char d Hd1) as (Hv & Hr & _).
  destruct (Z.eq_dec d 48) as [->|N48].
  - destruct (H0 eq_refl) as (-> & E). injection E as ->. cbn [map app].
    replace ((c =? 120) || (c =? 88)) with false by lia. change (0 =? 0) with true. cbn [andb].
    assert (Q : digits 8 (Some 48 :: Some c :: t) 0 k = Ok (0, S k)).
    { cbn [digits]. change (digit_value 48) with 0. change (0 <? 8) with true. cbn iota. rewrite Hc. change (99 <? 8) with false. reflexivity. }
    destruct t as [|[h|] t]; cbn [bind]; rewrite Q; cbn [bind]; replace (S k =? k)%nat with false by lia; cbn [length]; do 2 f_equal; lia.
  - assert (Q : digits 10 (map Some (d :: ds) ++ Some c :: t) 0 k = Ok (n, (k + length (d :: ds))%nat)).
    { rewrite (digits_ok _ 0 k _ HF). fold (number (d :: ds)). rewrite Hn. apply digits_stop; [lia|exact Hc]. }
    transitivity (' (v, k1) <- digits 10 (map Some (d :: ds) ++ Some c :: t) 0 k;; (if (k1 =? k)%nat then Ok (0, O) else Ok (clamp_long (if neg then - v else v), k1))).
    { cbn [map app]. assert (In d [49;50;51;52;53;54;55;56;57]) as [<-|[<-|[<-|[<-|[<-|[<-|[<-|[<-|[<-|[]]]]]]]]]] by (cbn; lia); reflexivity. }
    rewrite Q. cbn [bind]. cbn [length]. replace (k + S (length ds) =? k)%nat with false by lia. reflexivity.
Qed.
Lemma strtol_ok t n c rest : integer_text t n -> digit_value c = 99 -> strtol 0 (map Some t ++ Some c :: rest) = Ok (clamp_long n, length t).
Proof.
  intros (ds & Hd & ->) Hc.
  assert (HxX : c <> 120 /\ c <> 88) by (split; intros ->; discriminate).
  pose proof Hd as (Hne & HF & Hn & H0). destruct ds as [|d ds]; [congruence|]. inversion HF as [|? ? Hd1 _]; subst x l. destruct (digit_char d Hd1) as (Hv & Hr & Hsp).
  unfold strtol. destruct (Z.ltb_spec n 0) as [L|L].
  - cbn [map app skip_spaces]. change (isspace 45) with false. cbn [bind].
    pose proof (strtol_digits true (d :: ds) _ c rest 1 Hd Hc HxX) as Q. cbn [map app] in Q. rewrite Q. do 2 f_equal. f_equal. lia.
  - cbn [map app skip_spaces]. rewrite Hsp. cbn [bind].
    assert (Sg : forall (X : outcome (bool * list (option Z) * nat)) Y W, (match d with 45 => X | 43 => Y | _ => W end) = W).
    { intros X Y W. assert (In d [48;49;50;51;52;53;54;55;56;57]) as [<-|[<-|[<-|[<-|[<-|[<-|[<-|[<-|[<-|[<-|[]]]]]]]]]]] by (cbn; lia); reflexivity. }
    rewrite Sg. cbn [bind].
    pose proof (strtol_digits false (d :: ds) _ c rest 0 Hd Hc HxX) as Q. cbn [map app] in Q. rewrite Q. do 2 f_equal. f_equal. lia.
Qed.

Lemma skipd_app p l r : Forall (fun c => p c = true) l -> skipd p (l ++ r) = skipd p r.
Proof. induction 1 as [|c l Hc Hl IH]; cbn [app skipd]; [reflexivity|]. rewrite Hc. exact IH. Qed.
Lemma text_head t n : integer_text t n -> exists c u, t = c :: u /\ (c = 45 \/ 48 <= c <= 57).
Proof.
  intros (ds & (Hne & HF & _) & ->). destruct ds as [|d ds]; [congruence|]. inversion HF as [|? ? Hd _]; subst.
  destruct (digit_char d Hd) as (_ & Hr & _). destruct (n <? 0); eauto.
Qed.
(** What is after the text: another character or the end of the view, with a
    character that is neither a digit nor a letter in memory. *)
Definition ends (rest : list Z) (after : list (option Z)) : Prop :=
  match rest with
  | c :: _ => digit_value c = 99
  | [] => exists c a, after = Some c :: a /\ digit_value c = 99
  end.

Lemma read_number_ok cast after fuel s seps t n rest :
  NInv after s (seps ++ t ++ rest) -> (length (seps ++ t ++ rest) + 1 < fuel)%nat ->
  Forall (fun c => is_delim s c = true) seps -> integer_text t n -> (forall c, 45 = c \/ 48 <= c <= 57 -> is_delim s c = false) -> ends rest after ->
  is_delim s (nth 0 (t_delims s) 0) = true ->
  exists s', read_number iss_underflow cast fuel s = Ok (s', Val (cast (clamp_long n))) /\ NInv after s' rest /\ t_state s' = (match rest with [] => 6 | _ => 0 end) /\
    t_gcount s' = t_gcount s /\ kept s s'.
Proof.
  intros H Hf HS Ht Hd He Hn. unfold read_number, skip_delimiters. unfold iobind at 1.
  destruct (n_skip after fuel s _ _ H Hf Hn) as (s1 & E & H1 & G1 & K1 & A1 & B1). rewrite E. cbn [bind].
  rewrite (skipd_app _ _ _ HS) in *. destruct (text_head t n Ht) as (c & u & Et & Hc).
  assert (Es : skipd (is_delim s) (t ++ rest) = t ++ rest). { rewrite Et. cbn [app skipd]. rewrite Hd by lia. reflexivity. }
  rewrite Es in *. assert (Hne : t ++ rest <> []) by (rewrite Et; discriminate).
  destruct (B1 Hne) as (S1 & s0 & U & H0 & R0 & G0 & K0). replace (hd 0 (t ++ rest)) with c by (rewrite Et; reflexivity). replace (c =? 0) with false by lia.
  unfold iobind at 1. rewrite U. cbn [bind]. unfold iobind.
  destruct fuel as [|fuel]; [lia|]. cbn [read_number_loop].
  pose proof H0 as ((pre & M & Ps & Sz & Bd) & Bs & _). rewrite M, Bs.
  assert (Sk : skipn (Z.to_nat (t_pos s0)) (pre ++ map Some (t ++ rest) ++ after) = map Some (t ++ rest) ++ after).
  { rewrite Ps, Nat2Z.id, skipn_app, skipn_all, Nat.sub_diag. reflexivity. }
  rewrite Sk.
  assert (Hs : exists c2 r2, map Some (t ++ rest) ++ after = map Some t ++ Some c2 :: r2 /\ digit_value c2 = 99).
  { rewrite map_app, <- app_assoc. destruct rest as [|c2 rest]; cbn [ends map app] in *; [destruct He as (c2 & a & -> & Q)|]; eauto. }
  destruct Hs as (c2 & r2 & Ec2 & Hc2). rewrite Ec2, (strtol_ok t n c2 r2 Ht Hc2).
  assert (Rk : Z.of_nat (length t) <= t_remaining s0). { unfold t_remaining. rewrite u64_id by lia. rewrite Sz, app_length. lia. }
  unfold iobind at 1. destruct (skip_ok iss_underflow (NInv after) (NInv_view after) (NInv_move after) (NInv_gc after) (NInv_state after) (NInv_uf after) s0 _ _ H0 Rk) as (Ek & H2).
  rewrite Ek. cbn [bind].
  assert (E2 : skipn (length t) (t ++ rest) = rest) by (rewrite skipn_app, skipn_all, Nat.sub_diag; reflexivity). rewrite E2 in H2.
  set (s2 := tput_pos (t_pos s0 + Z.of_nat (length t)) s0) in *.
  assert (K2 : kept s s2). { exact K0. }
  rewrite app_length in Sz. destruct rest as [|c3 rest].
  - cbn [length] in Sz. assert (Eq : (t_pos s0 + Z.of_nat (length t) =? t_size s2) = true) by (unfold s2; cbn [tput_pos t_size]; lia).
    assert (R2 : t_remaining s2 = 0). { unfold t_remaining, s2. cbn [tput_pos t_size t_pos]. rewrite u64_id; lia. }
    destruct (NInv_uf after s2 [] H2 R2) as (s' & Eu & H' & G' & K' & A' & _). destruct (A' eq_refl) as (R' & St').
    unfold iobind. rewrite Eq, Eu. cbn [bind]. rewrite R'. cbn [Z.eqb negb bind ret]. exists s'. split; [reflexivity|]. split; [exact H'|]. split; [exact St'|].
    split; [rewrite G'; exact G0|exact (kept_trans _ _ _ K2 K')].
  - cbn [length] in Sz. assert (Eq : (t_pos s0 + Z.of_nat (length t) =? t_size s2) = false) by (unfold s2; cbn [tput_pos t_size]; lia).
    unfold iobind. rewrite Eq. cbn [bind ret]. exists s2. split; [reflexivity|]. split; [exact H2|]. split; [|split; [exact G0|exact K2]].
    destruct (NInv_state after s2 _ H2) as [S2|(_ & S2)]; [exact S2|discriminate].
Qed.

Lemma read_numbers_ok cast after fuel d : forall ts ns s seps,
  NInv after s (seps ++ joined d ts) -> (length (seps ++ joined d ts) + 1 < fuel)%nat -> Forall2 integer_text ts ns ->
  Forall (fun c => is_delim s c = true) seps -> is_delim s d = true -> digit_value d = 99 ->
  (forall c, 45 = c \/ 48 <= c <= 57 -> is_delim s c = false) -> (exists c a, after = Some c :: a /\ digit_value c = 99) ->
  is_delim s (nth 0 (t_delims s) 0) = true ->
  exists s', times (length ts) (read_number iss_underflow cast fuel) s = Ok (s', Val (map (fun n => cast (clamp_long n)) ns)).
Proof.
  induction ts as [|t ts IH]; intros ns s seps H Hf H2 HS Hd Hv Hc Ha Hn; inversion H2 as [|? n ? ns' Ht H2']; subst.
  - exists s. reflexivity.
  - cbn [length times]. set (rest := match ts with [] => [] | _ => d :: joined d ts end).
    assert (Ej : joined d (t :: ts) = t ++ rest) by (unfold rest; destruct ts; [symmetry; apply app_nil_r|reflexivity]). rewrite Ej in *.
    assert (He : ends rest after) by (unfold rest; destruct ts; [exact Ha|exact Hv]).
    destruct (read_number_ok cast after fuel s seps t n rest H Hf HS Ht Hc He Hn) as (s1 & E & H1 & _ & _ & K1).
    unfold iobind at 1. rewrite E. cbn [bind map].
    assert (Dl : is_delim s1 = is_delim s) by (unfold is_delim; destruct K1 as (-> & _); reflexivity).
    assert (Dn : t_delims s1 = t_delims s) by apply K1.
    assert (Q : exists s', times (length ts) (read_number iss_underflow cast fuel) s1 = Ok (s', Val (map (fun n => cast (clamp_long n)) ns'))).
    { destruct ts as [|t2 ts]; [inversion H2'; subst; exists s1; reflexivity|].
      apply (IH ns' s1 [d]); [exact H1| | exact H2'| | | exact Hv| | exact Ha|]; rewrite ?Dl, ?Dn; auto.
      rewrite !app_length in Hf. unfold rest in Hf. rewrite app_length. cbn [length] in *. lia. }
    destruct Q as (s' & E'). unfold iobind. rewrite E'. cbn [bind]. eexists. reflexivity.
Qed.

(** ** Single characters *)
Lemma get_ok fuel s c txt : IInv s (c :: txt) -> 
  exists s', t_get iss_underflow fuel s = Ok (s', Val c) /\ s' = tput_pos (t_pos s + 1) (tput_gcount 1 s) /\ IInv s' txt /\ t_ungetc s' = Ok (tput_gcount 1 s, Val tt).
Proof.
  intros H. pose proof (view_rem s _ (proj1 H)) as R. cbn [length] in R.
  unfold t_get, t_read. unfold iobind at 1. unfold iobind at 1. replace (t_remaining s <? 1) with false by lia. cbn [bind].
  unfold iobind at 1. cbn [bind]. unfold t_raw, iobind, t_verify.
  assert (R' : t_remaining (tput_gcount 1 s) = t_remaining s) by reflexivity. rewrite R'. replace (1 <=? t_remaining s) with true by lia. cbn [bind].
  pose proof (view_bytes (tput_gcount 1 s) (c :: txt) (proj1 (IInv_gc _ _ 1 H)) 1 0 ltac:(cbn; lia)) as B. rewrite Z.add_0_r in B. cbn [skipn firstn] in B.
  change (Z.to_nat 1) with 1%nat. rewrite B. cbn [bind ret].
  pose proof (proj1 H) as (pre & post & M & P & S & L). cbn [length] in *.
  cbn [tput_gcount t_pos]. rewrite u64_id by lia. eexists. split; [reflexivity|]. split; [reflexivity|]. split.
  - exact (IInv_move _ _ 1 (IInv_gc _ _ 1 H) ltac:(rewrite R'; lia)).
  - unfold t_ungetc, t_seek. cbn [tput_pos t_pos t_size]. rewrite u64_id by lia. replace (t_size (tput_gcount 1 s) <? t_pos s + 1 - 1) with false by (cbn [tput_gcount t_size]; lia).
    replace (t_pos s + 1 - 1) with (t_pos s) by lia. reflexivity.
Qed.
Lemma ignore_loop_ok d : forall fuel s txt n, IInv s txt -> (length txt + 1 < fuel)%nat -> 0 <= n < 2 ^ 62 ->
  exists s' k, ignore_loop iss_underflow fuel n d s = Ok (s', Val k) /\ IInv s' (skipn (taken n d txt) txt) /\ t_pos s' = t_pos s + Z.of_nat (taken n d txt).
Proof.
  induction fuel as [|fuel IH]; intros s txt n H Hf Hn; [lia|]. cbn [ignore_loop]. destruct (Z.eqb_spec n 0) as [->|N].
  - eexists s, _. split; [reflexivity|]. unfold taken. cbn. rewrite Z.add_0_r. auto.
  - unfold iobind at 1. destruct (more_ok iss_underflow IInv IInv_view IInv_move IInv_gc IInv_state IInv_uf s txt H) as (s1 & E & H1 & G1 & K1 & A1 & B1).
    assert (P1 : t_pos s1 = t_pos s).
    { clear - E. unfold t_more in E. destruct (_ =? 0); [|injection E as <- _; reflexivity]. unfold iss_underflow, iobind, t_verify, t_overrun in E.
      destruct (_ <=? _); cbn [bind ret] in E; injection E as <- _; reflexivity. }
    rewrite E. cbn [bind]. destruct txt as [|c txt].
    { eexists s1, _. split; [reflexivity|]. unfold taken. rewrite firstn_nil. cbn [until fst length Nat.ltb Nat.leb skipn]. rewrite P1, Z.add_0_r. auto. }
    unfold iobind at 1. destruct (get_ok fuel s1 c txt H1) as (s2 & E2 & Es2 & H2 & _). rewrite E2. cbn [bind].
    assert (P2 : t_pos s2 = t_pos s + 1). { rewrite Es2. cbn [tput_pos t_pos]. lia. }
    assert (Sn : Z.to_nat n = S (Z.to_nat (n - 1))) by lia. unfold taken. rewrite Sn. cbn [firstn until].
    destruct (Z.eqb_spec c d) as [->|Nc].
    + eexists s2, _. split; [reflexivity|]. cbn [fst length Nat.ltb Nat.leb skipn]. rewrite P2. auto.
    + assert (En : u64 (n - 1) = n - 1) by (apply u64_id; lia). rewrite En.
      destruct (IH s2 txt (n - 1) H2 ltac:(cbn [length] in Hf; lia) ltac:(lia)) as (s' & k & E' & H' & P'). exists s', k. split; [exact E'|].
      unfold taken in H', P'. destruct (until d (firstn (Z.to_nat (n - 1)) txt)) as (a, b). cbn [fst length] in *.
      change (S (length a) <? S (length (firstn (Z.to_nat (n - 1)) txt)))%nat with (length a <? length (firstn (Z.to_nat (n - 1)) txt))%nat.
      destruct (_ <? _)%nat; cbn [skipn]; (split; [exact H'|rewrite P', P2; lia]).
Qed.

Lemma bool_loop_ok d rest zs : d <> 0 -> forall w c s, IInv s (w ++ d :: rest) ->
  exists s' s2, bool_loop iss_underflow (c :: w ++ 0 :: zs) c s = Ok (s2, Val tt) /\ t_ungetc s2 = Ok (s', Val tt) /\ t_state s' = 0 /\ t_remaining s' = Z.of_nat (length (d :: rest)).
Proof.
  intros Hd. induction w as [|x w IH]; intros c s H; cbn [app] in *.
  - cbn [bool_loop]. rewrite Z.eqb_refl. unfold iobind at 1.
    destruct (more_ok iss_underflow IInv IInv_view IInv_move IInv_gc IInv_state IInv_uf s _ H) as (s1 & E & H1 & G1 & K1 & A1 & B1). rewrite E. cbn [bind].
    destruct (B1 ltac:(discriminate)) as (R1 & S1). unfold iobind at 1.
    destruct (iread_ok iss_underflow IInv IInv_view IInv_move IInv_gc IInv_state IInv_uf s1 d rest H1 R1) as (s2 & E2 & H2 & Es2 & U2). rewrite E2. cbn [bind bool_loop].
    replace (d =? 0) with false by lia. exists s1, s2. split; [reflexivity|]. split; [exact U2|]. split; [exact S1|]. apply view_rem, H1.
  - cbn [bool_loop]. rewrite Z.eqb_refl. unfold iobind at 1.
    destruct (more_ok iss_underflow IInv IInv_view IInv_move IInv_gc IInv_state IInv_uf s _ H) as (s1 & E & H1 & G1 & K1 & A1 & B1). rewrite E. cbn [bind].
    destruct (B1 ltac:(discriminate)) as (R1 & S1). unfold iobind at 1.
    destruct (iread_ok iss_underflow IInv IInv_view IInv_move IInv_gc IInv_state IInv_uf s1 x _ H1 R1) as (s2 & E2 & H2 & Es2 & U2). rewrite E2. cbn [bind].
    exact (IH x s2 H2).
Qed.
