(** * P_LifeIn: opening further files with an ifstream (C161-C163). *)
From Verif Require Import Base UtilModel StringFindModel StreamModel FileModel FileSpec FdModel IstrModel IstrSpec IstrProg IstrProofs IstrRun LifeInModel LifeInSpec LifeInProofs LifeInEnd.
From Coq Require Import ZArith ZifyBool ZifyNat Lia.
Local Open Scope Z_scope.

(** ** C161: files read to their end one after the other deliver each its own
    lines. *)
Theorem C161_files : forall d sz fs fuel, Z.of_nat sz < 2 ^ 60 ->
  Forall (fun f => readable f /\ (length (f_in f) < fuel)%nat) fs ->
  exists s', read_files fuel d fs (ifs_unattached sz) = Ok (s', Val (map (fun f => pieces d (f_in f)) fs)).
Proof. intros d sz fs fuel H HF. apply read_files_ok; [apply unattached_openable, H|exact HF]. Qed.
Print Assumptions C161_files.
Example C161_example (f1 := mkf 0 0 [] [97; 98; 10; 99] [SOk 1; SIntr; SOk 0; SOk 9; SOk 9; SOk 9])
    (f2 := mkf 0 0 [] [120; 10] [SOk 9; SOk 9; SOk 9]) :
  readable f1 /\ readable f2 /\
  exists s', read_files 20 10 [f1; f2] (ifs_unattached 4) = Ok (s', Val [[[97; 98]; [99]]; [[120]; []]]).
Proof.
  split; [repeat split; cbn; try lia; repeat constructor|]. split; [repeat split; cbn; try lia; repeat constructor|]. eexists. vm_compute. reflexivity.
Qed.

(** ** C162: reopening or closing an ifstream that has unread bytes. *)
(** The lines of the old file that were in the buffer come before those of the
    new file. *)
Theorem C162_reopen_refuted (f1 := mkf 0 0 [] [97; 10; 98; 10] [SOk 9; SOk 9; SOk 9; SOk 9; SOk 9])
    (f2 := mkf 0 0 [] [120; 10] [SOk 9; SOk 9; SOk 9]) :
  readable f1 /\ readable f2 /\
  exists s', (_ <~ ifs_open (Some f1) ;; a <~ getline ifs_underflow 20 10 ;; _ <~ ifs_open (Some f2) ;; b <~ getline ifs_underflow 20 10 ;; ret (a, b))
    (ifs_unattached 8) = Ok (s', Val ([97], [98])) /\ t_state s' = 0.
Proof.
  split; [repeat split; cbn; try lia; repeat constructor|]. split; [repeat split; cbn; try lia; repeat constructor|].
  eexists. split; [vm_compute; reflexivity|reflexivity].
Qed.
Print Assumptions C162_reopen_refuted.
(** In general: what was buffered and not read is read first. *)
Theorem C162_old_bytes_first : forall d sz f1 f2 n s1 ls fuel, readable f1 -> readable f2 -> Z.of_nat sz < 2 ^ 60 ->
  (length (f_in f1) + length (f_in f2) < fuel)%nat ->
  times n (getline ifs_underflow fuel d) (ifs_new sz f1) = Ok (s1, Val ls) ->
  exists w, (exists taken, f_in f1 = taken ++ w ++ f_in (t_file s1)) /\ t_remaining s1 = Z.of_nat (length w) /\
    exists s2, (_ <~ ifs_open (Some f2) ;; times (length (pieces d (w ++ f_in f2))) (getline ifs_underflow fuel d)) s1 =
      Ok (s2, Val (pieces d (w ++ f_in f2))).
Proof.
  intros d sz f1 f2 n s1 ls fuel R1 R2 Hs Hf H.
  assert (G : forall n s txt, FInv s txt -> (length txt < fuel)%nat -> forall s1 ls, times n (getline ifs_underflow fuel d) s = Ok (s1, Val ls) ->
    exists taken rest, txt = taken ++ rest /\ FInv s1 rest).
  { clear H n s1 ls. induction n as [|n IH]; intros s txt I L s1 ls H; cbn [times] in H.
    - injection H as <- _. exists [], txt. auto.
    - destruct (f_getline fuel d s txt I L) as (s2 & E & I2 & _). unfold iobind at 1 in H. rewrite E in H. cbn [bind] in H.
      pose proof (until_spec d txt) as US. destruct (until d txt) as (a, b). cbn [fst snd] in *. destruct US as (Et & _ & Hb).
      unfold iobind in H. destruct (times n (getline ifs_underflow fuel d) s2) as [[s3 [l3|x]]| | |] eqn:E3; cbn [bind] in H; try discriminate. injection H as <- _.
      assert (Ltl : (length (tl b) <= length b)%nat) by (destruct b; cbn [tl length]; lia).
      destruct (IH s2 (tl b) I2) with (s1 := s3) (ls := l3) as (tk & rs & E4 & I4); [rewrite Et, app_length in L; lia|exact E3|].
      destruct b as [|x b]; cbn [tl] in E4.
      + exists (a ++ tk), rs. split; [|exact I4]. rewrite Et, <- app_assoc, <- E4. reflexivity.
      + exists (a ++ x :: tk), rs. split; [|exact I4]. rewrite Et, <- app_assoc. cbn [app]. rewrite <- E4. reflexivity. }
  destruct (G n _ (f_in f1) (FInv_new sz f1 R1 Hs) ltac:(lia) s1 ls H) as (tk & rs & E & I).
  destruct (FInv_openable s1 rs I) as (w & O & Ew). exists w. split; [exists tk; rewrite E, Ew; reflexivity|].
  split; [apply view_rem; apply O|].
  destruct (open_ok s1 w f2 O R2) as (s2 & E2 & I2 & _). unfold iobind. rewrite E2. cbn [bind].
  destruct (f_getlines fuel d (w ++ f_in f2) s2 I2) as (s3 & E3 & _).
  { assert (length w <= length (f_in f1))%nat by (rewrite E, Ew, !app_length; lia). rewrite app_length. lia. }
  eexists. rewrite E3. reflexivity.
Qed.
Print Assumptions C162_old_bytes_first.
(** close() does not end reading: what was buffered is still delivered, and the
    stream is good. *)
Theorem C162_close_refuted (f1 := mkf 0 0 [] [97; 10; 98; 10] [SOk 9; SOk 9; SOk 9; SOk 9; SOk 9]) :
  readable f1 /\
  exists s', (_ <~ ifs_open (Some f1) ;; a <~ getline ifs_underflow 20 10 ;; _ <~ ifs_close ;; b <~ getline ifs_underflow 20 10 ;; ret (a, b))
    (ifs_unattached 8) = Ok (s', Val ([97], [98])) /\ t_state s' = 0.
Proof. split; [repeat split; cbn; try lia; repeat constructor|]. eexists. split; [vm_compute; reflexivity|reflexivity]. Qed.
Print Assumptions C162_close_refuted.

(** Once what was buffered has been read, a closed stream and one whose open()
    failed deliver nothing, whatever is left in the file, and are not good. *)
Theorem C162_closed_reads_nothing : forall d sz f n s1 ls fuel, readable f -> Z.of_nat sz < 2 ^ 60 -> (length (f_in f) < fuel)%nat ->
  times n (getline ifs_underflow fuel d) (ifs_new sz f) = Ok (s1, Val ls) -> t_remaining s1 = 0 ->
  (exists s', (_ <~ ifs_close ;; getline ifs_underflow fuel d) s1 = Ok (s', Val []) /\ t_state s' <> 0) /\
  (exists s2 s', ifs_open None s1 = Ok (s2, Val tt) /\ t_state s2 = badbit /\
                 getline ifs_underflow fuel d s2 = Ok (s', Val []) /\ t_state s' <> 0).
Proof.
  intros d sz f n s1 ls fuel R Hs Hf H R0.
  assert (G : forall n s txt, FInv s txt -> (length txt < fuel)%nat -> forall s1 ls, times n (getline ifs_underflow fuel d) s = Ok (s1, Val ls) ->
    exists rest, FInv s1 rest).
  { clear H n s1 ls R0. induction n as [|n IH]; intros s txt I L s1 ls H; cbn [times] in H.
    - injection H as <- _. eauto.
    - destruct (f_getline fuel d s txt I L) as (s2 & E & I2 & _). unfold iobind at 1 in H. rewrite E in H. cbn [bind] in H.
      pose proof (until_spec d txt) as US. destruct (until d txt) as (a, b). cbn [fst snd] in *. destruct US as (Et & _ & Hb).
      unfold iobind in H. destruct (times n (getline ifs_underflow fuel d) s2) as [[s3 [l3|x]]| | |] eqn:E3; cbn [bind] in H; try discriminate. injection H as <- _.
      assert (Ltl : (length (tl b) <= length b)%nat) by (destruct b; cbn [tl length]; lia).
      apply (IH s2 (tl b) I2) with (s1 := s3) (ls := l3); [rewrite Et, app_length in L; lia|exact E3]. }
  destruct (G n _ (f_in f) (FInv_new sz f R Hs) Hf s1 ls H) as (rest & I).
  destruct (FInv_openable s1 rest I) as (w & (V & B & X) & _).
  assert (w = []) as -> by (pose proof (view_rem _ _ V) as Rw; destruct w; [reflexivity|cbn [length] in Rw; lia]).
  split.
  - unfold iobind, ifs_close. cbv zeta. cbn [bind].
    apply dead_getline; [lia|exact V|exact B|]. split; [reflexivity|left; reflexivity].
  - unfold ifs_open. cbv zeta. eexists.
    destruct (dead_getline fuel d (tput_state badbit (tput_file (no_input badbit) s1)) ltac:(lia) V B) as (s' & E & N).
    { split; [reflexivity|left; reflexivity]. }
    exists s'. split; [reflexivity|]. split; [reflexivity|]. split; [exact E|exact N].
Qed.
Print Assumptions C162_closed_reads_nothing.
Example C162_closed_example (f := mkf 0 0 [] [97; 10; 98; 10] [SOk 1; SOk 9; SOk 9; SOk 9; SOk 9]) : readable f /\
  exists s1, times 1 (getline ifs_underflow 20 10) (ifs_new 8 f) = Ok (s1, Val [[97]]) /\ t_remaining s1 = 0 /\ f_in (t_file s1) = [98; 10].
Proof. split; [repeat split; cbn; try lia; repeat constructor|]. eexists. split; [vm_compute; reflexivity|]. split; reflexivity. Qed.

(** ** C163: sync() returns -1 when it has succeeded and the stream is good, and
    throws away what the stream has read from the file and the program has not
    read from the stream. *)
Theorem C163_sync_value_refuted : forall sz f, readable f -> Z.of_nat sz < 2 ^ 60 ->
  exists s', ifs_sync (ifs_new sz f) = Ok (s', Val (-1)) /\ t_state s' = 0.
Proof.
  intros sz f R Hs. destruct (sync_ok _ _ (FInv_new sz f R Hs)) as (s' & E & _ & S & _); [apply R|]. eauto.
Qed.
Print Assumptions C163_sync_value_refuted.
Example C163_sync_discards (f := mkf 0 0 [] [97; 10; 98; 10; 99; 10] [SOk 3; SOk 9; SOk 9; SOk 9; SOk 9; SOk 9; SOk 9]) :
  readable f /\
  exists s', (a <~ getline ifs_underflow 20 10 ;; r <~ ifs_sync ;; b <~ getline ifs_underflow 20 10 ;; ret (a, r, b)) (ifs_new 8 f) = Ok (s', Val ([97], -1, [99])).
Proof. split; [repeat split; cbn; try lia; repeat constructor|]. eexists. vm_compute. reflexivity. Qed.
