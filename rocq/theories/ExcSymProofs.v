(** * ExcSymProofs: backtraces: their text, copies, and reading them from damaged streams. *)
From Verif Require Import Base UtilModel UtilSpec UtilProofs StreamModel StreamSpec StreamProofs SerialModel SerialSpec SerialProofs.
From Verif Require Import Utf8Proofs ExcModel ExcSpec ExcProofs.
From Coq Require Import ZArith ZifyBool ZifyNat.
Local Open Scope Z_scope.

(** ** Names *)
Lemma index_app c l r : ~ In c l -> index c (l ++ c :: r) = Some (length l).
Proof.
  induction l as [|x t IH]; intros H; cbn [app index length].
  - now rewrite Z.eqb_refl.
  - destruct (Z.eqb_spec x c) as [->|]; [elim H; now left|]. rewrite IH; [reflexivity|]. intros H'. apply H. now right.
Qed.
Lemma upto0_id l : ~ In 0 l -> upto0 l = l.
Proof.
  induction l as [|x t IH]; intros H; cbn [upto0]; [reflexivity|]. destruct (Z.eqb_spec x 0) as [->|]; [elim H; now left|].
  rewrite IH; [reflexivity|]. intros H'. apply H. now right.
Qed.
Lemma in_firstn {A} (x : A) n l : In x (firstn n l) -> In x l.
Proof. intros H. rewrite <- (firstn_skipn n l). apply in_or_app. now left. Qed.
Lemma slice_mid {A} (a b c : list A) n : (n <= length b)%nat -> slice (a ++ b ++ c) (length a) (length a + n) = firstn n b.
Proof.
  intros H. unfold slice. rewrite skipn_app, skipn_all, Nat.sub_diag. cbn [app skipn].
  replace (length a + n - length a)%nat with n by lia. rewrite firstn_app. replace (n - length b)%nat with O by lia.
  now rewrite firstn_O, app_nil_r.
Qed.
Section Names.
  Variable want : bool.
  Variable dem : list Z -> option (list Z).
  Lemma extract_ok line file func tail rest : described line file func tail -> ~ In 40 file -> ~ In 43 file -> ~ In 43 func -> Z.of_nat (length line) < 2 ^ 63 ->
    fits_demangler want dem func -> extract_name want dem line rest = Ok (shown want dem func).
  Proof.
    intros (E & N0) Hf1 Hf2 Hf3 Hl Hd. unfold extract_name.
    assert (I1 : index 40 line = Some (length file)) by (rewrite E; now apply index_app).
    assert (I2 : index 43 line = Some (length (file ++ [40] ++ func))).
    { rewrite E. replace (file ++ [40] ++ func ++ [43] ++ tail) with ((file ++ [40] ++ func) ++ 43 :: tail) by (now rewrite <- !app_assoc).
      apply index_app. rewrite !in_app_iff. cbn [In]. intuition congruence. }
    rewrite I1, I2. cbv zeta.
    set (st := Z.of_nat (length file) + 1).
    assert (D : Z.of_nat (length (file ++ [40] ++ func)) - st = Z.of_nat (length func)) by (rewrite !app_length; cbn [length]; unfold st; lia).
    rewrite D. assert (Ll : (length line >= length func)%nat) by (rewrite E, !app_length; lia). rewrite u64_id by lia.
    set (n := Z.min (Z.of_nat (length func)) 255).
    assert (Em : line ++ 0 :: rest = (file ++ [40]) ++ func ++ ([43] ++ tail ++ 0 :: rest)) by (rewrite E, <- !app_assoc; reflexivity).
    rewrite Em. set (mem := (file ++ [40]) ++ func ++ [43] ++ tail ++ 0 :: rest).
    assert (Lm : Z.of_nat (length mem) >= st + Z.of_nat (length func)) by (unfold mem; rewrite !app_length; cbn [length]; unfold st; lia).
    replace (Z.of_nat (length mem) <? st + n) with false by (unfold n; lia).
    replace (Z.to_nat (st + n)) with (length (file ++ [40%Z]) + Z.to_nat n)%nat by (rewrite app_length; cbn [length]; unfold st, n; lia).
    replace (Z.to_nat st) with (length (file ++ [40])) by (rewrite app_length; cbn [length]; unfold st; lia).
    unfold mem. rewrite slice_mid by (unfold n; lia).
    assert (Ef : firstn (Z.to_nat n) func = firstn 255 func).
    { unfold n. destruct (Z.le_gt_cases (Z.of_nat (length func)) 255).
      - rewrite !firstn_all2 by lia. reflexivity.
      - f_equal. lia. }
    rewrite Ef. assert (N0f : ~ In 0 (firstn 255 func)).
    { intros H. apply in_firstn in H. apply N0. rewrite E, !in_app_iff. tauto. }
    rewrite upto0_id by exact N0f. unfold demangle_type_name, shown. unfold fits_demangler in Hd.
    destruct want.
    - specialize (Hd eq_refl). destruct (dem (firstn 255 func)) as [d|]; [|reflexivity]. specialize (Hd d eq_refl).
      replace (256 <? Z.of_nat (length d) + 1) with false by lia. f_equal.
      destruct (Z.le_gt_cases (Z.of_nat (length d)) 254).
      + rewrite !firstn_all2 by lia. reflexivity.
      + f_equal. lia.
    - f_equal. apply firstn_all2. rewrite firstn_length. lia.
  Qed.
  (** A '+' in the path of the file. *)
  Lemma extract_plus line f1 f2 after : line = f1 ++ [43] ++ f2 ++ [40] ++ after -> ~ In 40 f1 -> ~ In 40 f2 -> ~ In 43 f1 ->
    Z.of_nat (length line) < 2 ^ 63 -> (length after < 254)%nat -> extract_name want dem line [] = UB.
  Proof.
    intros E H1 H2 H3 Hl Ha. unfold extract_name.
    assert (I1 : index 40 line = Some (length (f1 ++ [43] ++ f2))).
    { rewrite E. replace (f1 ++ [43] ++ f2 ++ [40] ++ after) with ((f1 ++ [43] ++ f2) ++ 40 :: after) by (now rewrite <- !app_assoc).
      apply index_app. rewrite !in_app_iff. cbn [In]. intuition congruence. }
    assert (I2 : index 43 line = Some (length f1)) by (rewrite E; now apply index_app).
    rewrite I1, I2. cbv zeta.
    assert (U : 255 <= u64 (Z.of_nat (length f1) - (Z.of_nat (length (f1 ++ [43] ++ f2)) + 1))).
    { rewrite !app_length. cbn [length]. rewrite E in Hl. rewrite !app_length in Hl. cbn [length] in Hl.
      unfold u64, UtilModel.two64 in *.
      match goal with |- 255 <= ?z mod _ => replace z with (z + 2 ^ 64 + (-1) * 2 ^ 64) by lia end.
      change 18446744073709551616 with (2 ^ 64). rewrite Z.mod_add by lia. rewrite Z.mod_small by lia. lia. }
    replace (Z.min (u64 (Z.of_nat (length f1) - (Z.of_nat (length (f1 ++ [43] ++ f2)) + 1))) 255) with 255 by lia.
    assert (Lm : Z.of_nat (length (line ++ [0])) < Z.of_nat (length (f1 ++ [43] ++ f2)) + 1 + 255).
    { rewrite E, !app_length. cbn [length]. lia. }
    now replace (Z.of_nat (length (line ++ [0])) <? Z.of_nat (length (f1 ++ [43] ++ f2)) + 1 + 255) with true by lia.
  Qed.
  Lemma extract_long line file func tail rest d : described line file func tail -> ~ In 40 file -> ~ In 43 file -> ~ In 43 func ->
    (length func <= 255)%nat -> Z.of_nat (length line) < 2 ^ 63 ->
    want = true -> dem func = Some d -> (256 <= length d)%nat -> extract_name want dem line rest = UB.
  Proof.
    intros (E & N0) Hf1 Hf2 Hf3 Hlf Hl Hw Hd Hld. unfold extract_name.
    assert (I1 : index 40 line = Some (length file)) by (rewrite E; now apply index_app).
    assert (I2 : index 43 line = Some (length (file ++ [40] ++ func))).
    { rewrite E. replace (file ++ [40] ++ func ++ [43] ++ tail) with ((file ++ [40] ++ func) ++ 43 :: tail) by (now rewrite <- !app_assoc).
      apply index_app. rewrite !in_app_iff. cbn [In]. intuition congruence. }
    rewrite I1, I2. cbv zeta.
    set (st := Z.of_nat (length file) + 1).
    assert (D : Z.of_nat (length (file ++ [40] ++ func)) - st = Z.of_nat (length func)) by (rewrite !app_length; cbn [length]; unfold st; lia).
    rewrite D. rewrite u64_id by lia. replace (Z.min (Z.of_nat (length func)) 255) with (Z.of_nat (length func)) by lia.
    assert (Em : line ++ 0 :: rest = (file ++ [40]) ++ func ++ ([43] ++ tail ++ 0 :: rest)) by (rewrite E, <- !app_assoc; reflexivity).
    rewrite Em. destruct (_ <? _); [reflexivity|].
    replace (Z.to_nat (st + Z.of_nat (length func))) with (length (file ++ [40%Z]) + length func)%nat by (rewrite app_length; cbn [length]; unfold st; lia).
    replace (Z.to_nat st) with (length (file ++ [40])) by (rewrite app_length; cbn [length]; unfold st; lia).
    rewrite slice_mid by lia. rewrite firstn_all. rewrite upto0_id by (intros H; apply N0; rewrite E, !in_app_iff; tauto).
    unfold demangle_type_name. rewrite Hw, Hd. now replace (256 <? Z.of_nat (length d) + 1) with true by lia.
  Qed.

  (** ** The whole text *)
  Lemma all_names_ok fs : Forall (frame_ok want dem) fs -> all_names want dem (map fst fs) = Ok (map (fun p => shown want dem (snd p)) fs).
  Proof.
    induction 1 as [|[line func] t (Hl & Hd & file & tail & De & H1 & H2 & H3) Ht IH]; cbn [map all_names fst snd] in *; [reflexivity|].
    rewrite (extract_ok line file func tail) by auto. cbn [bind]. rewrite IH. reflexivity.
  Qed.
  Lemma sym_size_len names : sym_size names = Z.of_nat (length (joined names)) + 1.
  Proof. induction names as [|x t IH]; [reflexivity|]. unfold joined in *. cbn [sym_size fold_right flat_map]. fold (sym_size t). rewrite IH, !app_length. cbn [length]. lia. Qed.
  Lemma fill_ok names : forall total pre, total = Z.of_nat (length pre) + sym_size names ->
    fill_syms total names (map Some pre ++ repeat (Some 0) (Z.to_nat (sym_size names))) (length pre) =
    Ok (map Some (pre ++ joined names) ++ [Some 0], length (pre ++ joined names)).
  Proof.
    induction names as [|x t IH]; intros total pre Ht; cbn [fill_syms].
    - cbn [sym_size fold_right] in *. replace (Z.of_nat (length pre) <? total - 1) with false by lia. unfold joined. cbn [flat_map]. rewrite app_nil_r. reflexivity.
    - pose proof (sym_size_len (x :: t)) as L. pose proof (sym_size_len t) as Lt. 
      assert (Lj : length (joined (x :: t)) = (length x + 1 + length (joined t))%nat) by (unfold joined; cbn [flat_map]; rewrite !app_length; cbn [length]; lia).
      replace (Z.of_nat (length pre) <? total - 1) with true by lia.
      set (y := map (@Some Z) x ++ [Some 10]). assert (Ly : length y = (length x + 1)%nat) by (unfold y; rewrite app_length, map_length; cbn [length]; lia).
      set (blk := map Some pre ++ repeat (Some 0) (Z.to_nat (sym_size (x :: t)))).
      assert (Lb : length blk = (length pre + Z.to_nat (sym_size (x :: t)))%nat) by (unfold blk; now rewrite app_length, map_length, repeat_length).
      replace (length pre + length y <=? length blk)%nat with true by lia.
      assert (Eb : firstn (length pre) blk ++ y ++ skipn (length pre + length y) blk = map Some (pre ++ x ++ [10]) ++ repeat (Some 0) (Z.to_nat (sym_size t))).
      { unfold blk. rewrite firstn_app, skipn_app, map_length, Nat.sub_diag, firstn_O, app_nil_r.
        rewrite firstn_all2 by (rewrite map_length; lia). rewrite skipn_all2 by (rewrite map_length; lia). cbn [app].
        replace (length pre + length y - length pre)%nat with (length y) by lia.
        replace (Z.to_nat (sym_size (x :: t))) with (length y + Z.to_nat (sym_size t))%nat by lia.
        rewrite repeat_app, skipn_app, repeat_length, Nat.sub_diag. rewrite skipn_all2 by (rewrite repeat_length; lia). cbn [app skipn].
        unfold y. rewrite !map_app. rewrite <- !app_assoc. reflexivity. }
      rewrite Eb. replace (length pre + length y)%nat with (length (pre ++ x ++ [10])) by (rewrite !app_length; cbn [length]; lia).
      rewrite IH by (rewrite !app_length; cbn [length]; lia). unfold joined. cbn [flat_map]. rewrite <- !app_assoc. reflexivity.
  Qed.
  Lemma make_ok mal addrs fs : (forall n, mal n = true) -> (length addrs <= 64)%nat -> Forall (fun a => 0 <= a < 2 ^ 64) addrs -> Forall (frame_ok want dem) fs ->
    Forall (fun p => ~ In 0 (shown want dem (snd p))) fs ->
    Z.of_nat (length (joined (map (fun p => shown want dem (snd p)) fs))) < 2 ^ 32 ->
    exists b, bt_make want dem mal addrs (Some (map fst fs)) = Ok b /\ shows b addrs (joined (map (fun p => shown want dem (snd p)) fs)).
  Proof.
    intros Hm La Va Hf Hz Hl. unfold bt_make. rewrite all_names_ok by exact Hf. cbn [bind].
    set (names := map (fun p => shown want dem (snd p)) fs) in *. rewrite Hm.
    pose proof (fill_ok names (sym_size names) [] ltac:(cbn [length]; lia)) as F. cbn [map app length] in F. rewrite F. cbn [bind].
    eexists. split; [reflexivity|]. unfold shows. cbn [bn baddr bsz bsyms].
    split; [exact La|]. split; [reflexivity|].
    assert (Hlen : length (firstn max_frames (addrs ++ repeat 0 max_frames)) = 64%nat) by (unfold max_frames; rewrite firstn_length, app_length, repeat_length; lia).
    split; [exact Hlen|]. split.
    { rewrite firstn_firstn. rewrite Nat.min_l by (unfold max_frames; lia). rewrite firstn_app, Nat.sub_diag, firstn_O, app_nil_r. apply firstn_all. }
    split; [exact Va|]. split.
    { unfold joined, names. apply Forall_forall. intros c Hc. apply in_flat_map in Hc. destruct Hc as (y & Hy & Hc). apply in_map_iff in Hy.
      destruct Hy as (p & <- & Hp). rewrite Forall_forall in Hz. specialize (Hz p Hp). apply in_app_or in Hc. destruct Hc as [Hc|[<-|[]]]; [congruence|discriminate]. }
    split; [apply u32_id; lia|]. split; [exact Hl|]. now left.
  Qed.
  (** Printing. *)
  Lemma cstr_ok l r : Forall (fun c => c <> 0) l -> cstr (map Some l ++ Some 0 :: r) = Ok l.
  Proof. induction 1 as [|c t Hc Ht IH]; cbn [map app cstr]; [reflexivity|]. destruct (Z.eqb_spec c 0); [contradiction|]. now rewrite IH. Qed.
  Lemma lines_ok fmtp names : forall addrs, length addrs = length names -> Forall (fun x => ~ In 10 x) names ->
    bt_lines fmtp addrs (joined names) = Ok (flat_map (fun p => fmtp (fst p) ++ snd p ++ [10]) (combine addrs names)).
  Proof.
    induction names as [|x t IH]; intros [|a r] L H; try discriminate; [reflexivity|]. inversion H as [|? ? Hx Ht]; subst.
    cbn [bt_lines combine flat_map fst snd]. unfold joined. cbn [flat_map]. fold (joined t). rewrite <- app_assoc. cbn [app].
    rewrite index_app by exact Hx. change (x ++ 10 :: joined t) with (x ++ [10] ++ joined t). rewrite app_assoc.
    replace (S (length x)) with (length (x ++ [10])) by (rewrite app_length; cbn [length]; lia).
    rewrite skipn_app, skipn_all, Nat.sub_diag. cbn [app skipn]. rewrite IH by (auto; cbn [length] in L; lia). cbn [bind].
    rewrite firstn_app, firstn_all, Nat.sub_diag, firstn_O, app_nil_r. rewrite <- !app_assoc. reflexivity.
  Qed.
  Lemma bt_text_ok fmtp b addrs names : shows b addrs (joined names) -> bsyms b <> None -> length addrs = length names -> Forall (fun x => ~ In 10 x) names ->
    bt_text fmtp b = Ok (flat_map (fun p => fmtp (fst p) ++ snd p ++ [10]) (combine addrs names)).
  Proof.
    intros (L & N & _ & F & _ & T & _ & _ & Sy) Nn Ln Hn. unfold bt_text. rewrite N.
    destruct (Z.eqb_spec (Z.of_nat (length addrs)) 0) as [E|E].
    { destruct addrs; [reflexivity|discriminate]. }
    replace (Z.of_nat max_frames <? Z.of_nat (length addrs)) with false by (unfold max_frames; lia).
    destruct Sy as [-> | (E' & _)]; [|contradiction].
    rewrite cstr_ok by exact T. cbn [bind]. rewrite Nat2Z.id, F. now apply lines_ok.
  Qed.
End Names.

(** ** Copies *)
Lemma copy_ok mal v a t : shows v a t -> bsyms v <> None -> mal (Z.of_nat (length t) + 1) = true ->
  exists v', bt_copy mal v = Ok v' /\ shows v' a t /\ bsyms v' <> None.
Proof.
  intros Sh Nn Hm. pose proof Sh as (L & N & L64 & F & V & T & S & B & [E | (E & _)]); [|contradiction].
  unfold bt_copy. rewrite E. rewrite cstr_ok by exact T. cbn [bind]. rewrite Hm. eexists. split; [reflexivity|]. unfold shows. cbn [bn baddr bsz bsyms].
  split; [|discriminate]. repeat (split; [assumption|]). now left.
Qed.
Lemma copy_null mal v : bsyms v = None -> bt_copy mal v = UB.
Proof. intros E. unfold bt_copy. now rewrite E. Qed.

Lemma blk b : has_block b = match bsyms b with Some _ => 1 | None => 0 end. Proof. reflexivity. Qed.
Lemma owned_snoc vs l v : owned (mkcs (vs ++ [Some v]) l) = owned (mkcs vs l) + has_block v.
Proof.
  unfold owned. cbn [vars]. rewrite fold_right_app. cbn [fold_right].
  rewrite (blk v). induction vs as [|x t IH]; cbn [fold_right]; [lia|]. rewrite IH. lia.
Qed.
Lemma owned_upd vs : forall i v vs', nth_error vs i = Some (Some v) -> upd vs i None = Some vs' -> owned (mkcs vs' 0) = owned (mkcs vs 0) - has_block v.
Proof.
  unfold owned. cbn [vars]. induction vs as [|x t IH]; intros [|i] v vs' E U; rewrite (blk v); cbn [nth_error upd] in *; try discriminate.
  - injection E as ->. injection U as <-. cbn [fold_right]. lia.
  - destruct (upd t i None) as [t'|] eqn:U'; [|discriminate]. injection U as <-. cbn [fold_right]. rewrite (IH i v t' E U'), (blk v). lia.
Qed.
Lemma run_owned want dem mal ops : forall s s', existsb is_assign ops = false -> live s = owned s -> crun want dem mal s ops = Ok s' -> live s' = owned s'.
Proof.
  induction ops as [|o t IH]; intros s s' Ha Hl E; cbn [crun existsb] in *; [now injection E as <-|].
  apply orb_false_iff in Ha. destruct Ha as [Ho Ht].
  destruct (cstep want dem mal s o) as [s1| | |] eqn:E1; try discriminate. cbn [bind] in E. apply (IH s1 s' Ht); [|exact E].
  destruct s as [vs lv]. unfold owned in Hl. cbn [live vars] in Hl.
  destruct o as [ad ls|i|i j|i]; cbn [cstep vars live is_assign] in *; try discriminate.
  - destruct (bt_make want dem mal ad ls) as [b| | |]; try discriminate. injection E1 as <-. rewrite owned_snoc. cbn [live]. unfold owned. cbn [vars]. lia.
  - destruct (nth_error vs i) as [[v|]|]; try discriminate. destruct (bt_copy mal v) as [b| | |]; try discriminate. injection E1 as <-. rewrite owned_snoc. cbn [live]. unfold owned. cbn [vars]. lia.
  - destruct (nth_error vs i) as [[v|]|] eqn:En; try discriminate. unfold wr in E1. destruct (upd vs i None) as [vs'|] eqn:U; [|discriminate]. injection E1 as <-.
    pose proof (owned_upd vs i v vs' En U) as O. unfold owned in *. cbn [vars live] in *. lia.
Qed.
Lemma destroyed_owned s : all_destroyed s -> owned s = 0.
Proof. unfold all_destroyed, owned. induction 1 as [|v t -> Ht IH]; cbn [fold_right]; [reflexivity|exact IH]. Qed.

(** ** Damaged streams *)
Lemma bits_on n : Z.land allbadbits (overrun_bits n) =? 0 = false.
Proof. unfold overrun_bits. destruct (u32 n =? 0); reflexivity. Qed.
Lemma i_read_exc s n : i_inside s -> 0 <= n -> iexc s = allbadbits ->
  if ipos s + n <=? Z.of_nat (length (idata s)) then
    i_read n s = Ok (i_at s (ipos s + n), Val (Some (slice (idata s) (Z.to_nat (ipos s)) (Z.to_nat (ipos s + n)))))
  else exists s', i_read n s = Ok (s', Thrown stream_bounds) /\ i_inside s'.
Proof.
  intros Hs Hn Hx. pose proof (i_read_ok s n Hs Hn) as R. destruct (_ <=? _); [exact R|].
  destruct R as (rem & r & E & Rf & [-> | ->]).
  - exfalso. revert E. unfold i_read, i_verify, iobind. destruct (n <=? i_remaining s).
    + cbn [bind]. destruct (i_raw n s) as [[s1 [l|?]]| | |]; unfold i_set_pos, ret; cbn [bind]; intros X; try discriminate X; injection X; discriminate.
    + unfold i_overrun. rewrite Hx. rewrite bits_on. cbn [bind]. discriminate.
  - exists (i_failed s rem). split; [exact E|]. exact Hs.
Qed.
Lemma i_seek_exc s p : i_inside s -> 0 <= p -> iexc s = allbadbits ->
  if p <=? Z.of_nat (length (idata s)) then i_seek p s = Ok (i_at s p, Val tt)
  else exists s', i_seek p s = Ok (s', Thrown stream_bounds) /\ i_inside s'.
Proof.
  intros Hs Hp Hx. pose proof (i_seek_ok s p Hs Hp) as R. destruct (Z.leb_spec p (Z.of_nat (length (idata s)))) as [L|L]; [exact R|].
  unfold i_seek, isize. replace (Z.of_nat (length (idata s)) <? p) with true by lia. unfold i_overrun. rewrite Hx.
  rewrite bits_on. eexists. split; [reflexivity|exact Hs].
Qed.
Lemma at_inside s p : i_inside s -> 0 <= p <= Z.of_nat (length (idata s)) -> i_inside (i_at s p).
Proof. unfold i_inside, i_at. cbn [ipos idata]. lia. Qed.
Lemma of_bytes_nonneg l : Forall (fun b => 0 <= b < 256) l -> 0 <= of_bytes_le l < 256 ^ Z.of_nat (length l).
Proof.
  induction 1 as [|b t Hb Ht IH]; cbn [of_bytes_le length]; [lia|].
  rewrite Nat2Z.inj_succ, Z.pow_succ_r by lia. lia.
Qed.
Lemma bt_read_safe mal old s : (forall n, mal n = true) -> i_inside s -> i_bytes s -> iexc s = allbadbits -> Z.of_nat (length (idata s)) < 2 ^ 32 ->
  word_at (idata s) (ipos s) <= 64 -> exists s' r, bt_read false mal old s = Ok (s', r) /\ i_inside s'.
Proof.
  intros Hm Hs Hb Hx Hl Hw. unfold bt_read. cbn [andb]. unfold iread. cbn [andb]. unfold iobind.
  assert (P0 : 0 <= ipos s) by (unfold i_inside in Hs; lia).
  pose proof (i_read_exc s 4 Hs ltac:(lia) Hx) as R. change (Z.of_nat 4) with 4.
  destruct (Z.leb_spec (ipos s + 4) (Z.of_nat (length (idata s)))) as [L1|L1].
  2: { destruct R as (s' & -> & I). cbn [bind]. eauto. }
  rewrite R. cbn [bind ret]. clear R. fold (word_at (idata s) (ipos s)).
  assert (B1 : 0 <= word_at (idata s) (ipos s)).
  { unfold word_at. apply of_bytes_nonneg. now apply Forall_slice. }
  set (n := word_at (idata s) (ipos s)) in *.
  assert (Hs1 : i_inside (i_at s (ipos s + 4))) by (apply at_inside; [exact Hs|lia]).
  pose proof (i_read_exc _ 4 Hs1 ltac:(lia) Hx) as R. cbn [i_at ipos idata] in R.
  destruct (Z.leb_spec (ipos s + 4 + 4) (Z.of_nat (length (idata s)))) as [L2|L2].
  2: { destruct R as (s' & -> & I). cbn [bind]. eauto. }
  fold (i_at s (ipos s + 4)) in *. rewrite R. cbn [bind ret]. clear R.
  match goal with |- context [of_bytes_le ?l] => set (sz := of_bytes_le l); assert (B2 : 0 <= sz < 2 ^ 32) end.
  { unfold sz. match goal with |- 0 <= of_bytes_le ?l < _ => assert (Lw : length l = 4%nat) end.
    { unfold slice. rewrite firstn_length, skipn_length. unfold i_inside in Hs. lia. }
    match goal with |- 0 <= of_bytes_le ?l < _ => pose proof (of_bytes_nonneg l) as W; rewrite Lw in W end.
    change (256 ^ Z.of_nat 4) with (2 ^ 32) in W. apply W. now apply Forall_slice. }
  clearbody sz. change (i_at (i_at s (ipos s + 4)) (ipos s + 4 + 4)) with (i_at s (ipos s + 4 + 4)).
  set (p2 := ipos s + 4 + 4) in *.
  assert (Hs2 : i_inside (i_at s p2)) by (apply at_inside; [exact Hs|lia]).
  pose proof (i_read_exc _ sz Hs2 ltac:(lia) Hx) as R. cbn [i_at ipos idata] in R. fold (i_at s p2) in R.
  destruct (Z.leb_spec (p2 + sz) (Z.of_nat (length (idata s)))) as [L3|L3].
  2: { destruct R as (s' & -> & I). cbn [bind]. eauto. }
  rewrite R. cbn [bind]. clear R. rewrite u32_id by lia. rewrite Hm.
  replace (sz + 1 <? sz) with false by lia. replace (sz <? sz + 1) with true by lia. cbn [bind].
  match goal with |- context [slice ?d ?i ?j] => set (sl := slice d i j); assert (Ls : length sl = Z.to_nat sz) by (unfold sl, slice; rewrite firstn_length, skipn_length; unfold i_inside in Hs; lia) end.
  clearbody sl. replace (sz + 1 - sz) with 1 by lia. change (repeat None (Z.to_nat 1)) with [@None Z].
  unfold wr. rewrite <- Ls. rewrite <- (map_length (@Some Z) sl). rewrite upd_last. unfold lift. cbn [bind].
  change (i_at (i_at s p2) (p2 + sz)) with (i_at s (p2 + sz)). set (p3 := p2 + sz) in *.
  assert (Hs3 : i_inside (i_at s p3)) by (apply at_inside; [exact Hs|lia]).
  unfold i_align. cbn [i_at ipos]. rewrite align_pad by (unfold grain; lia).
  pose proof (i_seek_exc _ (p3 + (- p3) mod 8) Hs3 ltac:(lia) Hx) as R. cbn [i_at idata] in R. fold (i_at s p3) in *.
  destruct (Z.leb_spec (p3 + (- p3) mod 8) (Z.of_nat (length (idata s)))) as [L4|L4].
  2: { destruct R as (s' & -> & I). cbn [bind]. eauto. }
  rewrite R. cbn [bind]. clear R. change (i_at (i_at s p3) (p3 + (- p3) mod 8)) with (i_at s (p3 + (- p3) mod 8)). set (p4 := p3 + (- p3) mod 8) in *.
  assert (Hs4 : i_inside (i_at s p4)) by (apply at_inside; [exact Hs|lia]).
  pose proof (i_read_exc _ (n * 8) Hs4 ltac:(lia) Hx) as R. cbn [i_at ipos idata] in R. fold (i_at s p4) in *.
  destruct (Z.leb_spec (p4 + n * 8) (Z.of_nat (length (idata s)))) as [L5|L5].
  2: { destruct R as (s' & -> & I). cbn [bind]. eauto. }
  rewrite R. cbn [bind]. replace (Z.of_nat max_frames <? n) with false by (unfold max_frames; lia).
  eexists. eexists. split; [reflexivity|]. apply at_inside; [exact Hs4|]. cbn [i_at idata]. lia.
Qed.
(** More frames than the array has, and all of them there. *)
Lemma bt_read_many dbg mal old n l post st ex : (forall n, mal n = true) -> 64 < n < 2 ^ 32 -> zlen l = n * 8 -> 8 + zlen (l ++ post) < 2 ^ 63 ->
  bt_read dbg mal old (mkis (bytes_le 4 n ++ bytes_le 4 0 ++ l ++ post) 0 st ex) = UB.
Proof.
  intros Hm Hn Hl H. change (mkis (bytes_le 4 n ++ bytes_le 4 0 ++ l ++ post) 0 st ex) with (rdr [] (bytes_le 4 n ++ bytes_le 4 0 ++ l ++ post) st ex).
  assert (H4 : zlen ([] ++ bytes_le 4 n ++ bytes_le 4 0 ++ l ++ post) < 2 ^ 63) by (rewrite app_nil_l, (zlen_app (bytes_le 4 n)), (zlen_app (bytes_le 4 0)), !bytes_zlen; change (Z.of_nat 4) with 4; lia).
  unfold bt_read. cbn [rdr ipos]. change (zlen (@nil Z) mod 8 =? 0) with true. rewrite andb_false_r. unfold iobind.
  fold (rdr [] (bytes_le 4 n ++ bytes_le 4 0 ++ l ++ post) st ex).
  rewrite iread_rdr; [|unfold int_ok; change (256 ^ Z.of_nat 4) with (2 ^ 32); lia|reflexivity|exact H4]. cbn [bind]. rewrite app_assoc in H4.
  rewrite iread_rdr; [|unfold int_ok; change (256 ^ Z.of_nat 4) with (2 ^ 32); lia|intros _; rewrite app_nil_l, bytes_zlen; reflexivity|exact H4]. cbn [bind]. rewrite app_assoc in H4.
  set (pre := ([] ++ bytes_le 4 n) ++ bytes_le 4 0) in *.
  pose proof (rdr_read pre [] (l ++ post) st ex 0 H4 eq_refl) as R0. rewrite app_nil_l, app_nil_r in R0. rewrite R0. clear R0. cbn [bind].
  change (u32 (0 + 1)) with 1. rewrite Hm. unfold lift. cbn [Z.ltb Z.compare bind map app]. change (wr _ (Z.to_nat 0) (Some 0)) with (Ok [Some 0]). cbn [bind].
  assert (L8 : zlen pre = 8) by (unfold pre; rewrite app_nil_l, zlen_app, !bytes_zlen; reflexivity).
  assert (P8 : pad (zlen pre) 8 = []) by (rewrite L8; reflexivity).
  pose proof (rdr_align pre (l ++ post) st ex 8) as R. rewrite P8, app_nil_l, app_nil_r in R. rewrite R by (auto; unfold grain; lia). cbn [bind].
  rewrite (rdr_read pre l post st ex (n * 8)) by auto. cbn [bind]. now replace (Z.of_nat max_frames <? n) with true by (unfold max_frames; lia).
Qed.
Lemma bt_read_wrap dbg mal old n st : 0 <= n < 2 ^ 32 -> bt_read dbg mal old (mkis (bytes_le 4 n ++ bytes_le 4 4294967295) 0 st 0) = UB.
Proof.
  intros Hn.
  assert (H4 : zlen ([] ++ bytes_le 4 n ++ bytes_le 4 4294967295 ++ []) < 2 ^ 63) by (rewrite app_nil_l, app_nil_r, zlen_app, !bytes_zlen; reflexivity).
  replace (mkis (bytes_le 4 n ++ bytes_le 4 4294967295) 0 st 0) with (rdr [] (bytes_le 4 n ++ bytes_le 4 4294967295 ++ []) st 0) by (now rewrite app_nil_r).
  unfold bt_read. cbn [rdr ipos]. change (zlen (@nil Z) mod 8 =? 0) with true. rewrite andb_false_r. unfold iobind.
  fold (rdr [] (bytes_le 4 n ++ bytes_le 4 4294967295 ++ []) st 0).
  rewrite iread_rdr; [|unfold int_ok; change (256 ^ Z.of_nat 4) with (2 ^ 32); lia|reflexivity|exact H4]. cbn [bind]. rewrite app_assoc in H4.
  rewrite iread_rdr; [|unfold int_ok; change (256 ^ Z.of_nat 4) with (2 ^ 32); lia|intros _; rewrite app_nil_l, bytes_zlen; reflexivity|exact H4]. cbn [bind]. rewrite app_assoc in H4.
  set (pre := ([] ++ bytes_le 4 n) ++ bytes_le 4 4294967295) in *.
  assert (L8 : zlen pre = 8) by (unfold pre; rewrite app_nil_l, zlen_app, !bytes_zlen; reflexivity).
  assert (R : exists s', i_read 4294967295 (rdr pre [] st 0) = Ok (s', Val None)).
  { unfold i_read, i_verify, iobind, i_remaining, isize. cbn [rdr idata ipos]. rewrite app_nil_r. fold (zlen pre). rewrite Z.sub_diag.
    change (u64 0) with 0. cbn [Z.leb Z.compare]. unfold i_overrun. cbv zeta. cbn [rdr iexc]. change (Z.land 0 (overrun_bits 0) =? 0) with true. cbv iota zeta. unfold ret. cbn [bind]. eexists. reflexivity. }
  destruct R as (s' & R). rewrite R. cbn [bind]. change (u32 (4294967295 + 1)) with 0. unfold lift. destruct (mal 0); cbn [bind]; [|reflexivity].
  reflexivity.
Qed.
