(** * IsIterNum: istream_iterator over numbers and over binary data. *)
From Verif Require Import Base UtilModel StreamModel SerialSpec SerialProofs FmtSpec IstrModel IstrSpec IstrProofs IstrRun IstrNum IsIterModel IsIterSpec.
From Coq Require Import ZArith ZifyBool ZifyNat Lia.
Local Open Scope Z_scope.

Section Numbers.
  Variables (cast : Z -> Z) (after : list (option Z)) (fuel : nat) (d : Z).
  Let eofp := fun s : ist => negb (Z.land (t_state s) eofbit =? 0).
  Let Rd := it_Read ist Z t_remaining iss_underflow 1 eofp (fun _ => read_number iss_underflow cast fuel).
  Let Cp := it_copy ist Z t_remaining iss_underflow t_pos 1 eofp (fun _ => read_number iss_underflow cast fuel).

  Lemma read_none s seps : NInv after s seps -> (length seps + 1 < fuel)%nat -> Forall (fun c => is_delim s c = true) seps -> is_delim s (nth 0 (t_delims s) 0) = true ->
    exists s', read_number iss_underflow cast fuel s = Ok (s', Val 0) /\ t_state s' = 6.
  Proof.
    intros H Hf HS Hn. unfold read_number, skip_delimiters. unfold iobind at 1.
    destruct (n_skip after fuel s _ _ H Hf Hn) as (s1 & E & H1 & G1 & K1 & A1 & B1). rewrite E. cbn [bind].
    assert (Es : skipd (is_delim s) seps = []) by (rewrite <- (app_nil_r seps), (skipd_app _ _ _ HS); reflexivity).
    rewrite Es in *. cbn [hd Z.eqb]. exists s1. split; [reflexivity|]. apply A1. reflexivity.
  Qed.

  Lemma read_nums : forall ts ns s seps tail gas v,
    NInv after s (seps ++ terminated d ts ++ tail) -> (length (seps ++ terminated d ts ++ tail) + 1 < fuel)%nat -> (length ts < gas)%nat -> Forall2 integer_text ts ns ->
    tail = [] \/ (exists m, integer_text tail m) ->
    Forall (fun c => is_delim s c = true) seps -> is_delim s d = true -> digit_value d = 99 ->
    (forall c, 45 = c \/ 48 <= c <= 57 -> is_delim s c = false) -> (exists c a, after = Some c :: a /\ digit_value c = 99) ->
    is_delim s (nth 0 (t_delims s) 0) = true ->
    exists s', (i <~ Rd (mkiter true v) ;; Cp gas i (mkiter false 0)) s = Ok (s', Val (map (fun n => cast (clamp_long n)) ns)).
  Proof.
    induction ts as [|t ts IH]; intros ns s seps tail gas v H Hf Hg H2 HT HS Hd Hv Hc Ha Hn; inversion H2 as [|? n ? ns' Ht H2']; subst; (destruct gas as [|gas]; [lia|]);
      unfold Rd at 1, it_Read; cbn [it_live it_val]; unfold iobind at 1 2.
    - cbn [terminated map concat app] in H, Hf.
      assert (M : (exists s1, (if t_remaining s <? 1 then (r <~ iss_underflow 1 ;; ret (r <? 1)) s else Ok (s, Val false)) = Ok (s1, Val true)) \/
                  ((if t_remaining s <? 1 then (r <~ iss_underflow 1 ;; ret (r <? 1)) s else Ok (s, Val false)) = Ok (s, Val false))).
      { destruct (Z.ltb_spec (t_remaining s) 1) as [L|L]; [left|right; reflexivity]. pose proof (view_rem _ _ (proj1 (NInv_IInv _ _ _ H))) as R.
        destruct (NInv_uf after s _ H ltac:(lia)) as (s1 & E & _ & _ & _ & A & _). unfold iobind. rewrite E. cbn [bind]. exists s1.
        destruct A as (-> & _); [|reflexivity]. destruct (seps ++ tail); [reflexivity|cbn [length] in R; lia]. }
      destruct M as [(s1 & ->)| ->]; cbn [bind].
      { cbn [ret bind]. exists s1. reflexivity. }
      destruct HT as [->|(m & Hm)].
      + rewrite app_nil_r in H, Hf. destruct (read_none s seps H Hf HS Hn) as (s' & E & S'). unfold iobind at 1. rewrite E. cbn [bind].
        assert (Ef : eofp s' = true) by (unfold eofp; rewrite S'; reflexivity). rewrite Ef. exists s'. reflexivity.
      + destruct (read_number_ok cast after fuel s seps tail m []) as (s' & E & _ & S' & _); rewrite ?app_nil_r; auto.
        unfold iobind at 1. rewrite E. cbn [bind].
        assert (Ef : eofp s' = true) by (unfold eofp; rewrite S'; reflexivity). rewrite Ef. exists s'. reflexivity.
    - assert (Et : terminated d (t :: ts) ++ tail = t ++ (d :: terminated d ts ++ tail)).
      { unfold terminated. cbn [map concat]. rewrite <- !app_assoc. reflexivity. }
      rewrite Et in H, Hf. pose proof (view_rem _ _ (proj1 (NInv_IInv _ _ _ H))) as R. rewrite !app_length in R. cbn [length] in R.
      replace (t_remaining s <? 1) with false by lia. cbn [bind].
      destruct (read_number_ok cast after fuel s seps t n (d :: terminated d ts ++ tail) H Hf HS Ht Hc Hv Hn) as (s1 & E & H1 & S1 & _ & K1).
      unfold iobind at 1. rewrite E. cbn [bind].
      assert (Ef : eofp s1 = false) by (unfold eofp; rewrite S1; reflexivity). rewrite Ef.
      assert (Dl : is_delim s1 = is_delim s) by (unfold is_delim; destruct K1 as (-> & _); reflexivity).
      assert (Dn : t_delims s1 = t_delims s) by apply K1.
      unfold Cp at 1. cbn [bind it_copy]. unfold it_eq. cbn [it_live negb andb orb]. unfold it_incr. fold Rd. fold Cp.
      destruct (IH ns' s1 [d] tail gas (cast (clamp_long n))) as (s' & E'); rewrite ?Dl, ?Dn; auto.
      { rewrite !app_length in *. cbn [length] in *. rewrite !app_length in *. lia. }
      { cbn [length] in Hg. lia. }
      revert E'. unfold iobind. destruct (Rd (mkiter true (cast (clamp_long n))) s1) as [[s3 [i|e]]| | |]; cbn [bind]; try discriminate.
      destruct (Cp gas i (mkiter false 0) s3) as [[s4 [l|e]]| | |]; cbn [bind]; try discriminate. intros X. injection X as <- ->. exists s4. reflexivity.
  Qed.
End Numbers.

(** ** Binary *)
Lemma zlen_concat w (l : list Z) : zlen (concat (map (bytes_le w) l)) = Z.of_nat w * zlen l.
Proof.
  induction l as [|v l IH]; [unfold zlen; cbn [map concat length]; lia|]. cbn [map concat]. rewrite zlen_app, bytes_zlen, IH. unfold zlen. cbn [length]. lia.
Qed.
Section Binary.
  Variables (dbg : bool) (w : nat) (tail : list Z) (st e : Z).
  Hypothesis Hw : (0 < w)%nat.
  Hypothesis Ht : zlen tail < Z.of_nat w.
  Definition at_pos (vs rest : list Z) : istream := rdr (concat (map (bytes_le w) vs)) (concat (map (bytes_le w) rest) ++ tail) st e.
  Definition fit (vs rest : list Z) : Prop := Forall (int_ok w) (vs ++ rest) /\ zlen (concat (map (bytes_le w) (vs ++ rest)) ++ tail) < 2 ^ 62.

  Lemma fit_len vs rest : fit vs rest -> Z.of_nat w * zlen vs + Z.of_nat w * zlen rest + zlen tail < 2 ^ 62 /\ 0 <= zlen vs /\ 0 <= zlen rest /\ 0 <= zlen tail.
  Proof.
    intros (_ & L). rewrite zlen_app, zlen_concat, zlen_app in L. pose proof (zlen_nonneg vs). pose proof (zlen_nonneg rest). pose proof (zlen_nonneg tail). lia.
  Qed.
  Lemma size_at vs rest : isize (at_pos vs rest) = Z.of_nat w * zlen vs + Z.of_nat w * zlen rest + zlen tail.
  Proof. unfold isize, at_pos, rdr. cbn [idata]. fold (zlen (concat (map (bytes_le w) vs) ++ concat (map (bytes_le w) rest) ++ tail)). rewrite !zlen_app, !zlen_concat. lia. Qed.
  Lemma pos_at vs rest : ipos (at_pos vs rest) = Z.of_nat w * zlen vs.
  Proof. unfold at_pos, rdr. cbn [ipos]. apply zlen_concat. Qed.
  Lemma rem_at vs rest : fit vs rest -> i_remaining (at_pos vs rest) = Z.of_nat w * zlen rest + zlen tail.
  Proof.
    intros F. destruct (fit_len _ _ F) as (L & A & B & C). unfold i_remaining. rewrite size_at, pos_at.
    replace (Z.of_nat w * zlen vs + Z.of_nat w * zlen rest + zlen tail - Z.of_nat w * zlen vs) with (Z.of_nat w * zlen rest + zlen tail) by lia.
    apply u64_id. assert (0 <= Z.of_nat w * zlen vs) by (apply Z.mul_nonneg_nonneg; lia). assert (0 <= Z.of_nat w * zlen rest) by (apply Z.mul_nonneg_nonneg; lia). lia.
  Qed.
  Lemma fit_move vs v rest : fit vs (v :: rest) <-> fit (vs ++ [v]) rest.
  Proof. unfold fit. rewrite <- app_assoc. reflexivity. Qed.

  Lemma Read_step vs v rest x : fit vs (v :: rest) -> bi_Read dbg w (mkiter true x) (at_pos vs (v :: rest)) = Ok (at_pos (vs ++ [v]) rest, Val (mkiter true v)).
  Proof.
    intros F. destruct (fit_len _ _ F) as (L & A & B & C). unfold bi_Read, it_Read. cbn [it_live it_val]. unfold iobind at 1. rewrite rem_at by exact F.
    assert (R : (Z.of_nat w * zlen (v :: rest) + zlen tail <? Z.of_nat w) = false).
    { apply Z.ltb_ge. unfold zlen at 1. cbn [length]. rewrite Nat2Z.inj_succ, Z.mul_succ_r. pose proof (zlen_nonneg rest). unfold zlen in *. assert (0 <= Z.of_nat w * Z.of_nat (length rest)) by (apply Z.mul_nonneg_nonneg; lia). lia. }
    rewrite R. cbn [bind]. unfold iobind at 1, b_extract, iobind. unfold at_pos at 1. cbn [map concat]. rewrite <- app_assoc.
    destruct F as (F & L2). apply Forall_app in F. destruct F as (F1 & F2). inversion F2 as [|? ? Hv F3]; subst.
    rewrite iread_rdr; [|exact Hv| |].
    - cbn [bind negb]. unfold at_pos. rewrite map_app, concat_app. cbn [map concat]. rewrite app_nil_r. reflexivity.
    - intros _. rewrite zlen_concat. rewrite Z.mul_comm. apply Z_mod_mult.
    - rewrite map_app, concat_app in L2. cbn [map concat] in L2. rewrite <- !app_assoc in L2. lia.
  Qed.
  Lemma Read_end vs x : fit vs [] -> exists b, (b = 4 \/ b = 6) /\
    bi_Read dbg w (mkiter true x) (at_pos vs []) =
      Ok (mkis (idata (at_pos vs [])) (ipos (at_pos vs [])) (Z.lor st b) e, if Z.land e b =? 0 then Val (mkiter false x) else Thrown stream_bounds).
  Proof.
    intros F. destruct (fit_len _ _ F) as (L & A & B & C). pose proof (rem_at _ _ F) as R. change (zlen []) with 0 in R. rewrite Z.mul_0_r, Z.add_0_l in R.
    unfold bi_Read, it_Read. cbn [it_live it_val]. unfold iobind at 1. rewrite R.
    replace (zlen tail <? Z.of_nat w) with true by lia. unfold i_underflow, i_verify. unfold iobind at 1 2. rewrite R.
    replace (Z.of_nat w <=? zlen tail) with false by lia. unfold iobind, i_overrun.
    exists (overrun_bits (zlen tail)). split; [unfold overrun_bits; destruct (u32 _ =? 0); [right|left]; reflexivity|].
    set (b := overrun_bits (zlen tail)). change (iexc (at_pos vs [])) with e. change (istate (at_pos vs [])) with st.
    destruct (Z.land e b =? 0) eqn:X; cbn [bind ret]; [|reflexivity].
    assert (R2 : i_remaining (mkis (idata (at_pos vs [])) (ipos (at_pos vs [])) (Z.lor st b) e) = zlen tail) by exact R.
    rewrite R2. replace (zlen tail <? Z.of_nat w) with true by lia. reflexivity.
  Qed.

  Let Cp := it_copy istream Z i_remaining i_underflow ipos (Z.of_nat w) (fun _ => false) (b_extract dbg w).
  Lemma copy_bin : forall rest vs fuel x, fit vs rest -> (length rest < fuel)%nat ->
    (e = 0 -> exists s', (i <~ bi_Read dbg w (mkiter true x) ;; Cp fuel i (mkiter false 0)) (at_pos vs rest) = Ok (s', Val rest)) /\
    (e = 7 -> exists s', (i <~ bi_Read dbg w (mkiter true x) ;; Cp fuel i (mkiter false 0)) (at_pos vs rest) = Ok (s', Thrown stream_bounds)).
  Proof.
    induction rest as [|v rest IH]; intros vs fuel x F Hf; (destruct fuel as [|fuel]; [lia|]).
    - destruct (Read_end vs x F) as (b & Hb & E). unfold iobind. rewrite E. cbn [bind]. split; intros Ee.
      + replace (Z.land e b =? 0) with true by (rewrite Ee; reflexivity). eexists. reflexivity.
      + replace (Z.land e b =? 0) with false by (rewrite Ee; destruct Hb as [->| ->]; reflexivity). eexists. reflexivity.
    - unfold iobind. rewrite (Read_step vs v rest x F). cbn [bind]. unfold Cp. cbn [it_copy]. unfold it_eq. cbn [it_live negb andb orb]. unfold it_incr. fold Cp.
      change (it_Read istream Z i_remaining i_underflow (Z.of_nat w) (fun _ => false) (b_extract dbg w)) with (bi_Read dbg w).
      apply fit_move in F. destruct (IH (vs ++ [v]) fuel v F ltac:(cbn [length] in Hf; lia)) as (I1 & I2).
      split; intros Ee; [destruct (I1 Ee) as (s' & E)|destruct (I2 Ee) as (s' & E)]; revert E; unfold iobind;
        (destruct (bi_Read dbg w (mkiter true v) (at_pos (vs ++ [v]) rest)) as [[s3 [i|z]]| | |]; cbn [bind]; try discriminate).
      + destruct (Cp fuel i (mkiter false 0) s3) as [[s4 [l|z]]| | |]; cbn [bind]; try discriminate. intros X. injection X as <- ->. exists s4. reflexivity.
      + destruct (Cp fuel i (mkiter false 0) s3) as [[s4 [l|z]]| | |]; cbn [bind]; try discriminate. intros X. injection X as <- ->. exists s4. reflexivity.
      + intros X. injection X as <- ->. exists s3. reflexivity.
  Qed.

  Lemma plus_ok : forall n vs v rest, (n <= length rest)%nat -> fit (vs ++ [v]) rest ->
    exists y, nth_error (v :: rest) n = Some y /\
      bi_plus dbg w n (mkiter true v) (at_pos (vs ++ [v]) rest) = Ok (at_pos (vs ++ firstn (S n) (v :: rest)) (skipn n rest), Val (mkiter true y)).
  Proof.
    induction n as [|n IH]; intros vs v rest Hn F; [exists v; split; reflexivity|]. destruct rest as [|u rest]; [cbn [length] in Hn; lia|].
    unfold bi_plus. cbn [it_plus]. unfold it_incr. fold (bi_Read dbg w). unfold iobind. rewrite (Read_step _ _ _ _ F). cbn [bind]. fold (bi_plus dbg w).
    pose proof (proj1 (fit_move (vs ++ [v]) u rest) F) as F2. destruct (IH (vs ++ [v]) u rest ltac:(cbn [length] in Hn; lia) F2) as (y & Ey & E). exists y. split; [exact Ey|].
    etransitivity; [exact E|]. rewrite <- app_assoc. reflexivity.
  Qed.
  (** Back by [n] from the value last read. *)
  Lemma back_ok n vs back v rest : fit (vs ++ v :: back) rest -> length back = n ->
    forall x, bi_minus dbg w (Z.of_nat n) (mkiter true x) (at_pos (vs ++ v :: back) rest) = Ok (at_pos (vs ++ [v]) (back ++ rest), Val (mkiter true v)).
  Proof.
    intros F Hn x. assert (F' : fit vs (v :: back ++ rest)). { unfold fit in *. rewrite <- app_assoc in F. exact F. }
    destruct (fit_len _ _ F) as (L & A & B & C). unfold bi_minus, it_minus, it_back. cbn [it_live]. unfold iobind. rewrite pos_at.
    assert (Lv : zlen (vs ++ v :: back) = zlen vs + (Z.of_nat n + 1)) by (unfold zlen; rewrite app_length; cbn [length]; lia).
    rewrite Lv in *. pose proof (zlen_nonneg vs) as Nv.
    assert (M1 : Z.of_nat n + 1 <= Z.of_nat w * (Z.of_nat n + 1)) by nia. assert (M0 : 0 <= Z.of_nat w * zlen rest) by (apply Z.mul_nonneg_nonneg; lia).
    assert (M2 : 0 <= Z.of_nat w * zlen vs) by (apply Z.mul_nonneg_nonneg; lia).
    rewrite Z.mul_add_distr_l in L. rewrite (u64_id (Z.of_nat n + 1)) by lia. rewrite (u64_id ((Z.of_nat n + 1) * Z.of_nat w)) by lia.
    replace (Z.of_nat w * (zlen vs + (Z.of_nat n + 1)) - (Z.of_nat n + 1) * Z.of_nat w) with (Z.of_nat w * zlen vs) by lia. rewrite u64_id by lia.
    unfold i_seek. rewrite size_at, Lv, Z.mul_add_distr_l. replace (_ <? _) with false by lia. unfold i_set_pos. cbn [bind]. rewrite u64_id by lia.
    assert (Es : mkis (idata (at_pos (vs ++ v :: back) rest)) (Z.of_nat w * zlen vs) (istate (at_pos (vs ++ v :: back) rest)) (iexc (at_pos (vs ++ v :: back) rest)) = at_pos vs (v :: back ++ rest)).
    { unfold at_pos, rdr. cbn [idata istate iexc]. rewrite zlen_concat. f_equal.
      rewrite map_app, concat_app, <- app_assoc. f_equal. cbn [map concat]. rewrite map_app, concat_app, <- !app_assoc. reflexivity. }
    rewrite Es. fold (bi_Read dbg w). apply Read_step, F'.
  Qed.
  Lemma decr_is_minus i s : bi_decr dbg w i s = bi_minus dbg w 1 i s.
  Proof. reflexivity. Qed.
End Binary.
