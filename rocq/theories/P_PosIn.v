(** * P_PosIn: positions in text and memory streams (C132-C137). *)
From Verif Require Import Base UtilModel StringFindModel StreamModel FileModel IstrModel IstrSpec IstrProg IstrProofs IstrRun PosModel PosSpec PosProg PosInSpec PosIn.
From Coq Require Import ZArith ZifyBool ZifyNat Lia.
Local Open Scope Z_scope.

(** ** C132: ifstream: reading begins where the seek went, and tellg tells where
    the next character comes from *)
(** For every file, buffer size, division of the file into portions by read(2),
    set of delimiters and history of requests, tellg, seekg and clear. *)
Theorem C132_positioned_reads : forall dl sz d sched fuel ops (isd := fun c => existsb (Z.eqb c) (0 :: dl)),
  (length dl < 15)%nat -> Z.of_nat sz < 2 ^ 60 -> no_errors sched -> (length d + needs d ops < answers sched)%nat -> (length d + 1 < fuel)%nat ->
  (In (InRead RWord) ops -> Forall plain d) -> sensible isd d true 0 ops ->
  exists p', pi_run fuel ops (pi_delims dl (pi_open sz d sched)) = Ok (p', Val (visits isd d 0 ops)).
Proof.
  intros dl sz d sched fuel ops isd Hd Hs N A Hf HW HS.
  assert (D : forall c, is_delim (pi_s (pi_delims dl (pi_open sz d sched))) c = isd c) by (intros c; apply is_delim_set, Hd).
  destruct (pi_run_ok fuel d isd Hf ops 0 true 0 (pi_delims dl (pi_open sz d sched))) as (p' & E & _).
  - rewrite Nat.add_0_r. apply PInv_open; assumption.
  - exact HW.
  - exact HS.
  - exact D.
  - reflexivity.
  - rewrite <- D. apply first_delim, Hd.
  - exists p'. exact E.
Qed.
Print Assumptions C132_positioned_reads.
Example C132_case (d := [97; 98; 10; 99; 100; 10; 101]) (ops := [InRead (RLine 10); InTell; InRead (RGet 2 10); InTell; InSeek 1 Sbeg; InRead RWord; InTell; InSeek (-1) Send; InRead (RLine 10); InTell; InClear; InSeek 3 Sbeg; InRead (RLine 10)]) :
  sensible (fun c => existsb (Z.eqb c) [0; 10]) d true 0 ops /\
  visits (fun c => existsb (Z.eqb c) [0; 10]) d 0 ops =
    [Text [97; 98]; Position 3; Text [99; 0]; Position 4; Done; Text [98]; Position 3; Done; Text [101]; Position 7; Done; Done; Text [99; 100]] /\
  exists p', pi_run 20 ops (pi_delims [10] (pi_open 3 d (SOk 1 :: SIntr :: repeat (SOk 2) 40))) =
    Ok (p', Val [Text [97; 98]; Position 3; Text [99; 0]; Position 4; Done; Text [98]; Position 3; Done; Text [101]; Position 7; Done; Done; Text [99; 100]]).
Proof.
  split; [vm_compute; repeat split; try discriminate; auto|]. split; [vm_compute; reflexivity|]. eexists. vm_compute. reflexivity.
Qed.

(** ** C133: seekg makes the characters at its target readable (violated) *)
(** After the end of the file was reached, seeking to the beginning gives
    nothing to read; with clear() before it, it does. *)
Theorem C133_eof_refuted : forall d sz sched fuel, Forall (fun c => c <> 10) d -> d <> [] ->
  Z.of_nat sz < 2 ^ 60 -> no_errors sched -> (length d + (length d + 1) < answers sched)%nat -> (length d + 1 < fuel)%nat ->
  exists p', pi_run fuel [InRead (RLine 10); InSeek 0 Sbeg; InRead (RLine 10)] (pi_open sz d sched) = Ok (p', Val [Text d; Done; Text []]).
Proof.
  intros d sz sched fuel Hd Hn Hs N A Hf. 
  assert (U : until 10 d = (d, [])).
  { clear - Hd. induction Hd as [|c d Hc Hd IH]; [reflexivity|]. cbn [until]. replace (c =? 10) with false by lia. rewrite IH. reflexivity. }
  assert (F : FInvR (length d) (pi_s (pi_open sz d sched)) d).
  { apply (FInvR_new (length d) sz (mkf 0 0 [] d sched)); [|cbn [f_in f_sched]; lia|exact Hs]. repeat split; [exact N|]. cbn [f_in f_sched]. lia. }
  destruct (getline_ok ifs_underflow (FInvR (length d)) (FInvR_view _) (FInvR_move _) (FInvR_gc _) (FInvR_state _) (FInvR_uf _) fuel 10 _ d F ltac:(lia)) as (s1 & E1 & F1 & K1 & _ & S1).
  rewrite U in *. cbn [fst snd tl] in *. assert (Sf : f_state (t_file s1) = 6). { destruct F1 as (w & _ & _ & S & _). destruct S as [(S & _)|(_ & S & _)]; [rewrite S in S1; discriminate|exact S]. }
  cbn [pi_run]. unfold iobind at 1. cbn [pi_step read_one]. unfold iobind at 1, on_text at 1. rewrite E1. cbn [bind ret]. unfold iobind at 1. unfold iobind at 1. cbn [pi_open pi_data pi_pos pi_step].
  unfold iobind at 1. unfold pi_seekg. unfold iobind at 1, on_text at 1. cbn [bind pi_s]. unfold iobind at 1, pi_lseek. cbn [pi_data pi_pos pi_s target tput_view t_file]. change (0 <? 0) with false. cbn iota. cbn [bind].
  unfold pi_clear, on_text at 1. cbn [pi_s tput_file tput_state t_file f_state]. rewrite Sf. cbn [bind ret]. unfold iobind at 1. unfold iobind at 1. cbn [pi_step]. unfold iobind at 1, on_text at 1. cbn [pi_s read_one].
  unfold getline. unfold iobind at 1. unfold get_string. unfold iobind at 1. cbn [bind]. destruct fuel as [|fuel]; [lia|]. cbn [get_string_loop]. unfold iobind at 1. unfold t_more. 
  unfold t_remaining at 1. cbn [tput_gcount tput_state tput_file tput_view t_size t_pos]. change (u64 (0 - 0) =? 0) with true. cbn iota. unfold iobind at 1. unfold ifs_underflow. unfold iobind at 1.
  cbn [tput_gcount tput_state tput_file tput_view t_file f_state]. change (Z.land 6 eofbit =? 0) with false. cbn iota. cbn [bind]. unfold iobind at 1. cbn [tput_gcount tput_state tput_file tput_view t_file f_state]. change (Z.land 6 eofbit =? 0) with false. cbn iota.
  unfold iobind at 1. unfold t_verify. unfold t_remaining at 1. cbn [tput_gcount tput_state tput_file tput_view t_size t_pos]. change (1 <=? u64 (0 - 0)) with false. cbn iota. unfold iobind at 1, t_overrun at 1. cbn [bind ret].
  unfold t_remaining at 1. cbn [tput_gcount tput_state tput_file tput_view t_size t_pos]. change (negb (u64 (0 - 0) =? 0)) with false. cbn iota. cbn [bind ret]. unfold iobind at 1, take_delim.
  unfold t_remaining at 1. cbn [tput_gcount tput_state tput_file tput_view t_size t_pos]. change (u64 (0 - 0) =? 0) with true. cbn iota. cbn [bind ret]. unfold iobind. cbn [bind ret].
  eexists. reflexivity.
Qed.
Print Assumptions C133_eof_refuted.
(** A seek relative to the current position is relative to what was read from
    the file instead: after one line, seekg (0, cur) goes to the end. *)
Theorem C133_cur_refuted (d := [97; 10; 98; 10; 99]) : exists p',
  pi_run 20 [InRead (RLine 10); InTell; InSeek 0 Scur; InTell; InRead (RLine 10)] (pi_open 64 d (repeat (SOk 64) 9)) = Ok (p', Val [Text [97]; Position 2; Done; Position 5; Text []]).
Proof. eexists. vm_compute. reflexivity. Qed.
Print Assumptions C133_cur_refuted.
(** After a seek, the number 12345 is read as 0. *)
Definition two_numbers : io pif (Z * Z) :=
  a <~ on_text (read_number ifs_underflow as_int 20) ;; _ <~ pi_seekg 0 Sbeg ;; b <~ on_text (read_number ifs_underflow as_int 20) ;; ret (a, b).
Theorem C133_number_refuted : exists p,
  two_numbers (pi_open 8 [49; 50; 51; 52; 53; 32; 54; 32] (repeat (SOk 64) 9)) = Ok (p, Val (12345, 0)).
Proof. match goal with |- exists p, ?l = _ => let v := eval vm_compute in l in match v with Ok (?q, _) => exists q end end. vm_compute. reflexivity. Qed.
Print Assumptions C133_number_refuted.

(** ** C134: putback *)
(** A character put back in place of the one just read is read next, and the
    text goes on after it as before; the file's portions do not matter. *)
Theorem C134_putback : forall dl sz f fuel ops c x rest ops' (isd := fun c => existsb (Z.eqb c) (0 :: dl)),
  (length dl < 15)%nat -> Z.of_nat sz < 2 ^ 60 -> readable f -> (length (f_in f) + 1 < fuel)%nat ->
  (In RWord ops -> Forall plain (f_in f)) -> (In RWord ops' -> Forall plain (x :: rest)) -> Forall reasonable ops -> Forall reasonable ops' ->
  left_after isd ops (f_in f) = c :: rest ->
  exists s', with_putback fuel ops x ops' (set_delimiters dl (ifs_new sz f)) = Ok (s', Val (answers_to isd ops (f_in f), c, answers_to isd ops' (x :: rest))).
Proof.
  intros dl sz f fuel ops c x rest ops' isd Hd Hs R Hf HW HW' HR HR' HL.
  assert (D : forall c, is_delim (set_delimiters dl (ifs_new sz f)) c = isd c) by (intros y; apply is_delim_set, Hd).
  apply (with_putback_ok 0 isd); try assumption.
  - exact (FInv_set dl _ _ (FInv_new sz f R Hs)).
  - reflexivity.
  - rewrite <- D. apply first_delim, Hd.
Qed.
Print Assumptions C134_putback.
Example C134_case (f := mkf 0 0 [] [97; 32; 98; 99; 32; 100] (repeat (SOk 2) 20)) : readable f /\ left_after (fun c => existsb (Z.eqb c) [0; 32]) [RWord] (f_in f) = [98; 99; 32; 100] /\
  exists s', with_putback 20 [RWord] 120 [RWord; RWord] (set_delimiters [32] (ifs_new 3 f)) = Ok (s', Val ([[97]], 98, [[120; 99]; [100]])).
Proof.
  split; [repeat split; [repeat constructor|cbn; lia]|]. split; [reflexivity|]. eexists. vm_compute. reflexivity.
Qed.
(** At the beginning of the buffer, as after a seek, putback replaces the
    character that comes next and makes the stream fail. *)
Theorem C137_putback_refuted : exists p1 s1 s2, pi_seekg 1 Sbeg (pi_open 8 [97; 98; 99] (repeat (SOk 8) 9)) = Ok (p1, Val tt) /\
  ifs_underflow 1 (pi_s p1) = Ok (s1, Val 1) /\ t_putback 120 s1 = Ok (s2, Val tt) /\ t_state s2 = failbit /\
  exists s3, read_all ifs_underflow 20 [RLine 10] s2 = Ok (s3, Val [[120; 99]]).
Proof. eexists _, _, _. split; [vm_compute; reflexivity|]. split; [vm_compute; reflexivity|]. split; [vm_compute; reflexivity|]. split; [reflexivity|]. eexists. vm_compute. reflexivity. Qed.
Print Assumptions C137_putback_refuted.

(** ** C135: positions in memory streams: seeks from the beginning and from the
    current position *)
Definition goal (p n : Z) (w : dir) : Z := match w with Beg => n | Cur => p + n | End => 0 end.
Theorem C135_istream : forall s n w, w <> End -> 0 <= ipos s <= isize s -> isize s < 2 ^ 61 -> - 2 ^ 61 < n < 2 ^ 61 ->
  (0 <= goal (ipos s) n w <= isize s -> exists s', i_seekg n w s = Ok (s', Val tt) /\ ipos s' = goal (ipos s) n w /\ idata s' = idata s /\ istate s' = istate s) /\
  (~ 0 <= goal (ipos s) n w <= isize s -> exists s' r, i_seekg n w s = Ok (s', r) /\ ipos s' = ipos s /\ idata s' = idata s /\ Z.land (istate s') failbit <> 0 /\
     (r = Thrown stream_bounds <-> Z.land (iexc s) (overrun_bits (isize s)) <> 0) /\ (r = Val tt \/ r = Thrown stream_bounds)).
Proof.
  intros s n w Hw Hp Hz Hn.
  assert (E : i_seekg n w s = i_seek (u64 (goal (ipos s) n w)) s) by (destruct w; [reflexivity|reflexivity|congruence]). rewrite E. set (g := goal (ipos s) n w).
  assert (Hg : - 2 ^ 62 < g < 2 ^ 62) by (unfold g; destruct w; cbn [goal]; lia). split; intros H.
  - rewrite u64_id by lia. unfold i_seek. replace (isize s <? g) with false by lia. unfold i_set_pos. rewrite u64_id by lia. eexists. split; [reflexivity|]. auto.
  - assert (Hu : isize s < u64 g). { destruct (Z.ltb_spec g 0) as [L|L]; [|rewrite u64_id by (unfold g in *; destruct w; cbn [goal] in *; lia); lia]. unfold u64, two64. replace g with ((g + 2 ^ 64) + -1 * 2 ^ 64) by lia. rewrite Z.mod_add by lia. rewrite Z.mod_small; lia. }
    unfold i_seek. replace (isize s <? u64 g) with true by lia. unfold i_overrun.
    assert (FB : forall a r, Z.land (Z.lor a (overrun_bits r)) failbit <> 0).
    { intros a r. rewrite Z.land_lor_distr_l. intros X. apply Z.lor_eq_0_iff in X. destruct X as (_ & X). revert X. unfold overrun_bits. destruct (_ =? 0); vm_compute; discriminate. }
    destruct (Z.eqb_spec (Z.land (iexc s) (overrun_bits (isize s))) 0) as [Q|Q]; eexists _, _; (split; [reflexivity|]); cbn [ipos idata istate]; (split; [reflexivity|]); (split; [reflexivity|]); (split; [apply FB|]).
    + split; [split; [discriminate|congruence]|auto].
    + split; [split; [auto|reflexivity]|auto].
Qed.
Print Assumptions C135_istream.
Theorem C135_ostream : forall s n w, w <> End -> 0 <= opos s <= osize s -> osize s < 2 ^ 61 -> - 2 ^ 61 < n < 2 ^ 61 ->
  (0 <= goal (opos s) n w <= osize s -> exists s', o_seekp n w s = Ok (s', Val tt) /\ opos s' = goal (opos s) n w /\ odata s' = odata s /\ ostate s' = ostate s) /\
  (~ 0 <= goal (opos s) n w <= osize s -> exists s' r, o_seekp n w s = Ok (s', r) /\ opos s' = opos s /\ odata s' = odata s /\ Z.land (ostate s') failbit <> 0 /\
     (r = Thrown stream_bounds <-> Z.land (oexc s) (overrun_bits (osize s)) <> 0) /\ (r = Val tt \/ r = Thrown stream_bounds)).
Proof.
  intros s n w Hw Hp Hz Hn.
  assert (E : o_seekp n w s = o_seek (u64 (goal (opos s) n w)) s) by (destruct w; [reflexivity|reflexivity|congruence]). rewrite E. set (g := goal (opos s) n w).
  assert (Hg : - 2 ^ 62 < g < 2 ^ 62) by (unfold g; destruct w; cbn [goal]; lia). split; intros H.
  - rewrite u64_id by lia. unfold o_seek. replace (osize s <? g) with false by lia. unfold o_set_pos. rewrite u64_id by lia. eexists. split; [reflexivity|]. auto.
  - assert (Hu : osize s < u64 g). { destruct (Z.ltb_spec g 0) as [L|L]; [|rewrite u64_id by (unfold g in *; destruct w; cbn [goal] in *; lia); lia]. unfold u64, two64. replace g with ((g + 2 ^ 64) + -1 * 2 ^ 64) by lia. rewrite Z.mod_add by lia. rewrite Z.mod_small; lia. }
    unfold o_seek. replace (osize s <? u64 g) with true by lia. unfold o_overrun.
    assert (FB : forall a r, Z.land (Z.lor a (overrun_bits r)) failbit <> 0).
    { intros a r. rewrite Z.land_lor_distr_l. intros X. apply Z.lor_eq_0_iff in X. destruct X as (_ & X). revert X. unfold overrun_bits. destruct (_ =? 0); vm_compute; discriminate. }
    destruct (Z.eqb_spec (Z.land (oexc s) (overrun_bits (osize s))) 0) as [Q|Q]; eexists _, _; (split; [reflexivity|]); cbn [opos odata ostate]; (split; [reflexivity|]); (split; [reflexivity|]); (split; [apply FB|]).
    + split; [split; [discriminate|congruence]|auto].
    + split; [split; [auto|reflexivity]|auto].
Qed.
Print Assumptions C135_ostream.
Example C135_case : (exists s', i_seekg (-1) Cur (mkis [1; 2; 3] 2 0 7) = Ok (s', Val tt) /\ ipos s' = 1) /\ (exists s', i_seekg (-3) Cur (mkis [1; 2; 3] 2 0 7) = Ok (s', Thrown stream_bounds) /\ ipos s' = 2).
Proof. split; eexists; vm_compute; split; reflexivity. Qed.

(** ** C136: a seek from the end means the same in memory as in a file (violated) *)
(** In a file seekg (n, end) goes to size + n; in memory to size - n: so n = -1
    fails there, and n = 1, which is after the end, goes to the last byte. *)
Theorem C136_end_refuted : forall s t, isize s < 2 ^ 61 -> 0 < isize s -> osize t < 2 ^ 61 -> 0 < osize t ->
  (exists s', i_seekg 1 End s = Ok (s', Val tt) /\ ipos s' = isize s - 1) /\
  (exists s' r, i_seekg (-1) End s = Ok (s', r) /\ ipos s' = ipos s /\ Z.land (istate s') failbit <> 0) /\
  (exists t', o_seekp 1 End t = Ok (t', Val tt) /\ opos t' = osize t - 1) /\
  (exists t' r, o_seekp (-1) End t = Ok (t', r) /\ opos t' = opos t /\ Z.land (ostate t') failbit <> 0) /\
  (forall d sched, exists r, ra_seek (-1) Send (ra_open (7 :: d) 0 sched) = Ok (r, Val (size d)) /\ ra_pos r = size d).
Proof.
  intros s t H1 H2 H3 H4.
  assert (FB : forall a r, Z.land (Z.lor a (overrun_bits r)) failbit <> 0).
  { intros a r. rewrite Z.land_lor_distr_l. intros X. apply Z.lor_eq_0_iff in X. destruct X as (_ & X). revert X. unfold overrun_bits. destruct (_ =? 0); vm_compute; discriminate. }
  split; [|split; [|split; [|split]]].
  - unfold i_seekg, i_seek, i_set_pos. rewrite u64_id by lia. replace (_ <? _) with false by lia. rewrite u64_id by lia. eexists. split; reflexivity.
  - unfold i_seekg, i_seek. rewrite u64_id by lia. replace (_ <? _) with true by lia. unfold i_overrun. destruct (_ =? 0); eexists _, _; (split; [reflexivity|]); (split; [reflexivity|apply FB]).
  - unfold o_seekp, o_seek, o_set_pos. rewrite u64_id by lia. replace (_ <? _) with false by lia. rewrite u64_id by lia. eexists. split; reflexivity.
  - unfold o_seekp, o_seek. rewrite u64_id by lia. replace (_ <? _) with true by lia. unfold o_overrun. destruct (_ =? 0); eexists _, _; (split; [reflexivity|]); (split; [reflexivity|apply FB]).
  - intros d sched. unfold ra_seek, ra_open. cbn [ra_pos ra_data target length]. replace (Z.of_nat (S (length d)) + -1) with (size d) by (unfold size; lia).
    replace (size d <? 0) with false by (unfold size; lia). eexists. split; reflexivity.
Qed.
Print Assumptions C136_end_refuted.
