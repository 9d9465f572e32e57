(** * LifeInEnd: an ifstream without a file reads nothing. *)
From Verif Require Import Base UtilModel UtilProofs StringFindModel StreamModel FileModel FileSpec FdModel IstrModel IstrSpec IstrProg IstrProofs IstrRun LifeInModel LifeInSpec LifeInProofs.
From Coq Require Import ZArith ZifyBool ZifyNat Lia.
Local Open Scope Z_scope.

(** No file: read(2) fails, or has failed. *)
Definition no_more (f : file) : Prop := f_exc f = 0 /\ (f_sched f = [SErr] \/ f_state f <> 0).

Lemma lor_nz a b : b <> 0 -> Z.lor a b <> 0.
Proof. intros H E. apply Z.lor_eq_0_iff in E. tauto. Qed.

Lemma overrun_nz r : overrun_bits r <> 0.
Proof. unfold overrun_bits. destruct (_ =? 0); discriminate. Qed.

Lemma dead_fill s old fuel : 0 <= old -> old + 1 <= b_size s -> (1 < fuel)%nat -> no_more (t_file s) ->
  exists s1, fill_loop fuel old (old + 1) s = Ok (s1, Val old) /\ f_state (t_file s1) <> 0 /\
    Z.land (f_state (t_file s1)) eofbit = Z.land (f_state (t_file s)) eofbit /\ t_mem s1 = t_mem s.
Proof.
  intros Ho Hb Hf (X & D). destruct fuel as [|fuel]; [lia|]. cbn [fill_loop]. unfold f_good.
  replace (old <? old + 1) with true by lia. cbn [andb].
  destruct (Z.eqb_spec (f_state (t_file s)) 0) as [S0|S0].
  - destruct D as [D|D]; [|contradiction].
    assert (R : freadsome (Z.to_nat (b_size s - old)) (t_file s) =
                Ok (mkf (Z.lor (f_state (t_file s)) failbit) (f_exc (t_file s)) (f_out (t_file s)) (f_in (t_file s)) [], Val [])).
    { unfold freadsome, iobind at 1. rewrite D. cbn [length fread_retry]. unfold iobind at 1, sys_read. rewrite D. cbn [bind ret].
      unfold iobind, ret, f_fail. cbn [f_exc f_state bind]. rewrite X. reflexivity. }
    rewrite R. cbv zeta. eexists. split; [reflexivity|]. cbn [tput_file t_file t_mem f_state map app length]. rewrite S0.
    split; [discriminate|]. split; [reflexivity|]. rewrite Nat.add_0_r. apply firstn_skipn.
  - exists s. auto.
Qed.

Lemma dead_underflow s : View s [] -> t_size s <= b_size s < 2 ^ 60 -> no_more (t_file s) ->
  exists s', ifs_underflow 1 s = Ok (s', Val 0) /\ t_remaining s' = 0 /\ t_state s' <> 0.
Proof.
  intros V B D. pose proof (view_rem s [] V) as R. cbn [length] in R. destruct V as (pre & post & M & Ps & Sz & Bd). cbn [length map app] in *.
  unfold ifs_underflow. unfold iobind at 1.
  destruct (Z.eqb_spec (Z.land (f_state (t_file s)) eofbit) 0) as [E0|E0].
  - set (needed := Z.max 1 (b_size s / 2)). set (free := b_size s - t_pos s).
    assert (Hhalf : 0 <= b_size s / 2 <= b_size s). { split; [apply Z.div_pos; lia|]. apply Z.div_le_upper_bound; lia. }
    destruct (align_ok (Z.max 0 (needed - free)) 8) as (ought & Ea & _ & Ha); [lia|lia|unfold two64, needed, free; lia|]. rewrite Ea.
    set (k := Z.min (t_pos s) ought). set (old := t_pos s - k).
    set (m := erase_front (Z.to_nat k) (Z.to_nat (b_size s)) (t_mem s)).
    assert (Lm0 : Z.of_nat (length (t_mem s)) = b_size s + 1) by (unfold b_size; lia).
    assert (Lm : length m = length (t_mem s)). { unfold m. apply erase_front_length; unfold k; lia. }
    cbn zeta. set (s1 := mkt m (t_size s) (t_pos s) (t_state s) (t_gcount s) (t_delims s) (t_base s) (t_file s)).
    assert (B1 : b_size s1 = b_size s). { unfold b_size at 1. cbn [s1 t_mem]. lia. }
    set (s2 := if b_size s1 - old <? 1 then tput_view (buf_resize (Z.to_nat (old + needed)) (t_mem s1)) 0 s1 else s1).
    assert (H2 : 0 <= old /\ old + 1 <= b_size s2 < 2 ^ 60 /\ t_file s2 = t_file s).
    { unfold s2. rewrite B1. destruct (Z.ltb_spec (b_size s - old) 1) as [L|L].
      - unfold b_size at 1 2. cbn [tput_view t_mem s1]. rewrite buf_resize_length by lia.
        assert (0 <= old /\ old = 0 /\ b_size s = 0) by (unfold old, k, needed, free in *; lia).
        split; [lia|]. split; [unfold needed; lia|]. reflexivity.
      - rewrite B1. unfold old, k. split; [lia|]. split; [unfold old, k in *; lia|]. reflexivity. }
    clearbody s2. destruct H2 as (Ho & Hb & F2).
    assert (Fl : exists fl, fl = S (length (f_sched (t_file s2))) /\ ((1 < fl)%nat \/ f_state (t_file s2) <> 0)).
    { eexists. split; [reflexivity|]. rewrite F2. destruct D as (_ & [D|D]); [left; rewrite D; cbn [length]; lia|right; exact D]. }
    destruct Fl as (fl & Efl & Fl). rewrite <- Efl.
    assert (G : exists s3, fill_loop fl old (old + 1) s2 = Ok (s3, Val old) /\ f_state (t_file s3) <> 0 /\
      Z.land (f_state (t_file s3)) eofbit = Z.land (f_state (t_file s2)) eofbit /\ t_mem s3 = t_mem s2).
    { destruct Fl as [Fl|Fl]; [apply dead_fill; [lia|lia|exact Fl|rewrite F2; exact D]|].
      exists s2. split; [|auto]. rewrite Efl. cbn [fill_loop]. unfold f_good. destruct (Z.eqb_spec (f_state (t_file s2)) 0); [contradiction|].
      rewrite andb_false_r. reflexivity. }
    destruct G as (s3 & E3 & N3 & L3 & M3). unfold iobind at 1. rewrite E3. cbn [bind].
    assert (Lm2 : Z.of_nat (length (t_mem s2)) = b_size s2 + 1) by (unfold b_size; lia).
    cbn [tput_state t_mem t_file]. rewrite M3, upd_some by lia. unfold t_seek. cbn [tput_view t_size]. rewrite Z.ltb_irrefl. cbn [bind].
    unfold iobind at 1. cbn [tput_pos tput_view tput_state t_file]. rewrite L3, F2, E0. change (0 =? 0) with true. cbn [bind].
    assert (Rm : t_remaining (tput_pos old (tput_view (firstn (Z.to_nat old) (t_mem s2) ++ Some 0 :: skipn (S (Z.to_nat old)) (t_mem s2)) old
                   (tput_state (f_state (t_file s3)) s3))) = 0).
    { unfold t_remaining. cbn [tput_pos tput_view tput_state t_size t_pos]. rewrite u64_id; lia. }
    rewrite Rm. eexists. split; [reflexivity|]. split; [exact Rm|]. cbn [tput_pos tput_view tput_state t_state]. exact N3.
  - cbn [bind]. unfold iobind at 1. destruct (Z.eqb_spec (Z.land (f_state (t_file s)) eofbit) 0); [contradiction|].
    unfold iobind at 1, t_verify. rewrite R. change (1 <=? 0) with false. cbn iota. unfold iobind, t_overrun. cbn [bind ret].
    change (Z.of_nat 0) with 0.
    assert (Rm : t_remaining (tput_state (Z.lor (t_state s) (overrun_bits 0)) s) = 0) by exact R.
    change (1 <=? 0) with false. unfold ret. cbn [bind]. rewrite Rm. eexists. split; [reflexivity|]. split; [exact Rm|]. cbn [tput_state t_state]. apply lor_nz, overrun_nz.
Qed.

Lemma dead_getline fuel d s : (0 < fuel)%nat -> View s [] -> t_size s <= b_size s < 2 ^ 60 -> no_more (t_file s) ->
  exists s', getline ifs_underflow fuel d s = Ok (s', Val []) /\ t_state s' <> 0.
Proof.
  intros Hf V B D. destruct fuel as [|fuel]; [lia|].
  destruct (dead_underflow (tput_gcount 0 s) V B D) as (s' & E & R & N).
  unfold getline, get_string, iobind at 1. unfold iobind at 1. cbn [bind get_string_loop]. unfold iobind at 1, t_more.
  pose proof (view_rem _ _ V : t_remaining (tput_gcount 0 s) = _) as Rs. rewrite Rs. change (Z.of_nat (@length Z []) =? 0) with true. cbn iota.
  unfold iobind at 1. rewrite E. unfold ret. cbn [bind]. change (negb (0 =? 0)) with false. cbn [bind]. cbn iota. cbn [bind].
  unfold iobind, take_delim. cbn [bind]. rewrite R. change (0 =? 0) with true. cbn iota. cbn [bind ret].
  exists s'. split; [reflexivity|exact N].
Qed.
