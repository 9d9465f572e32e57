(** * LifeInProofs: opening further files with an ifstream. *)
From Verif Require Import Base UtilModel UtilProofs StringFindModel StreamModel FileModel FileSpec FdModel IstrModel IstrSpec IstrProg IstrProofs IstrRun LifeInModel LifeInSpec.
From Coq Require Import ZArith ZifyBool ZifyNat Lia.
Local Open Scope Z_scope.

(** A stream that can be given a file: [w] is buffered and unread. *)
Definition Openable (s : ist) (w : list Z) : Prop := View s w /\ t_size s <= b_size s < 2 ^ 60 /\ f_exc (t_file s) = 0.

Lemma FInv_openable s txt : FInv s txt -> exists w, Openable s w /\ txt = w ++ f_in (t_file s).
Proof. intros (w & V & E & _ & X & _ & B). exists w. split; [split; [exact V|split; [exact B|exact X]]|exact E]. Qed.
Lemma FInv_done s : FInv s [] -> Openable s [].
Proof. intros H. destruct (FInv_openable s [] H) as (w & O & E). destruct w; [exact O|discriminate]. Qed.
Lemma unattached_openable sz : Z.of_nat sz < 2 ^ 60 -> Openable (ifs_unattached sz) [].
Proof.
  intros H. unfold ifs_unattached, ifs_new, Openable, View, b_size, no_input. cbn [t_mem t_size t_pos t_file f_exc map app length].
  split; [exists [], (repeat None sz ++ [Some 0]); cbn; auto with zarith|]. rewrite app_length, repeat_length. cbn [length]. split; [lia|reflexivity].
Qed.
Lemma open_ok s w f : Openable s w -> readable f ->
  exists s', ifs_open (Some f) s = Ok (s', Val tt) /\ FInv s' (w ++ f_in f) /\ t_state s' = 0 /\ t_delims s' = t_delims s.
Proof.
  intros (V & B & X) (S & X' & N & A). unfold ifs_open. cbv zeta. eexists. split; [reflexivity|].
  cbn [f_state]. split; [|split; reflexivity]. exists w. split; [exact V|].
  cbn [tput_state tput_file t_file t_state f_in f_state f_sched f_exc]. split; [reflexivity|]. rewrite Nat.add_0_r. split; [left; auto|]. auto.
Qed.

(** underflow (0) after everything buffered was skipped. *)
Lemma sync_ok s txt : FInv s txt -> f_state (t_file s) = 0 ->
  exists s', ifs_sync s = Ok (s', Val (-1)) /\ FInv s' (f_in (t_file s)) /\ t_state s' = 0 /\ t_file s' = t_file s.
Proof.
  intros (w & V & E & S & X & N & B) Sf. destruct S as [(S1 & S2 & S3)|(S1 & S2 & _)]; [|congruence].
  pose proof (view_rem s w V) as Rw. destruct V as (pre & post & M & Ps & Sz & Bd).
  unfold ifs_sync. unfold iobind at 1. unfold t_skip, t_seek. rewrite Rw. rewrite u64_id by lia. replace (t_size s <? t_pos s + Z.of_nat (length w)) with false by lia.
  cbn [bind].
  assert (L0 : Z.of_nat (length (t_mem s)) = b_size s + 1). { unfold b_size. lia. }
  unfold iobind at 1. unfold ifs_underflow. unfold iobind at 1. cbn [tput_pos t_file]. rewrite S2. change (Z.land 0 eofbit =? 0) with true. cbn iota.
  cbv zeta. change (b_size (tput_pos (t_pos s + Z.of_nat (length w)) s)) with (b_size s). cbn [tput_pos t_pos t_mem t_size t_state t_gcount t_delims t_base].
  set (p := t_pos s + Z.of_nat (length w)).
  set (needed := Z.max 0 (b_size s / 2)). set (free := b_size s - p).
  assert (Hhalf : 0 <= b_size s / 2 <= b_size s). { split; [apply Z.div_pos; lia|]. apply Z.div_le_upper_bound; lia. }
  destruct (align_ok (Z.max 0 (needed - free)) 8) as (ought & Ea & _ & Ha); [lia|lia|unfold two64, needed, free, p; lia|]. rewrite Ea.
  set (k := Z.min p ought). set (old := p - k).
  set (m := erase_front (Z.to_nat k) (Z.to_nat (b_size s)) (t_mem s)).
  assert (Lm : length m = length (t_mem s)). { unfold m. apply erase_front_length; unfold k, p; lia. }
  assert (Ho : 0 <= old <= b_size s) by (unfold old, k, p; lia).
  cbv zeta. set (s1 := mkt m (t_size s) p (t_state s) (t_gcount s) (t_delims s) (t_base s) (t_file s)).
  assert (B1 : b_size s1 = b_size s). { unfold b_size at 1. cbn [s1 t_mem]. lia. }
  replace (b_size s1 - old <? 0) with false by lia. clear B1. subst s1.
  unfold iobind at 1. cbn [fill_loop]. replace (old <? old + 0) with false by lia. cbn [andb bind tput_state t_mem t_file t_size t_pos t_state t_gcount t_delims t_base].
  rewrite upd_some by lia. unfold t_seek. cbn [tput_view t_size]. rewrite Z.ltb_irrefl. cbn [bind].
  unfold iobind at 1. cbn [tput_pos tput_view tput_state t_file]. rewrite S2. change (Z.land 0 eofbit =? 0) with true. cbn [bind].
  cbn [tput_pos tput_view tput_state t_mem t_file t_size t_pos t_state t_gcount t_delims t_base].
  rewrite ?S2. unfold t_good. cbn [t_state Z.eqb]. eexists. split; [reflexivity|]. cbn [t_state t_file]. split; [|split; reflexivity].
  assert (Lp : length (firstn (Z.to_nat old) m) = Z.to_nat old) by (rewrite firstn_length; lia).
  exists []. unfold View, b_size. cbn [tput_pos tput_view tput_state t_mem t_file t_size t_pos t_state app map length].
  split. { exists (firstn (Z.to_nat old) m), (Some 0 :: skipn (S (Z.to_nat old)) m). split; [reflexivity|]. rewrite Lp. cbn [tput_pos tput_view tput_state t_mem t_file t_size t_pos t_state]. lia. }
  split; [reflexivity|]. split; [left; auto|]. split; [exact X|]. split; [exact N|]. rewrite app_length, Lp. cbn [length]. rewrite skipn_length. lia.
Qed.

Lemma read_files_ok fuel d : forall fs s, Openable s [] -> Forall (fun f => readable f /\ (length (f_in f) < fuel)%nat) fs ->
  exists s', read_files fuel d fs s = Ok (s', Val (map (fun f => pieces d (f_in f)) fs)).
Proof.
  induction fs as [|f fs IH]; intros s O HF; [eexists; reflexivity|]. inversion HF as [|? ? (R & L) HF']; subst.
  cbn [read_files map]. unfold iobind at 1. destruct (open_ok s [] f O R) as (s1 & E1 & I1 & _). rewrite E1. cbn [bind app] in *.
  destruct (f_getlines fuel d (f_in f) s1 I1 L) as (s2 & E2 & I2 & _ & _). unfold iobind at 1. rewrite E2. cbn [bind].
  destruct (IH s2 (FInv_done s2 I2) HF') as (s' & E'). unfold iobind at 1. rewrite E'. cbn [bind]. eexists. reflexivity.
Qed.
