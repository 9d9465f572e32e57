(** * P_Pos: seeking and positions (C130, C131). *)
From Verif Require Import Base UtilModel StoreModel StoreProofs VectorSpec MemModel MemSpec MemProofs StringModel StreamModel FileModel FileSpec FileProofs OStrModel OStrSpec OStrProofs OStrRun OStrFile OStrExt IstrModel IstrSpec PosModel PosSpec PosProofs PosOut P_File P_Text.
From Coq Require Import ZArith ZifyBool ZifyNat Lia.
Local Open Scope Z_scope.

(** ** C130: fstream: every write goes to, and every read comes from, the offset
    the calls before have left *)
Theorem C130_random_access : forall d exc sched ops,
  ra_run ops (ra_open d exc sched) <> UB /\
  forall r' xs, ra_run ops (ra_open d exc sched) = Ok (r', xs) -> accesses (d, 0) ops xs (ra_data r', ra_pos r').
Proof.
  intros d exc sched ops. split.
  - pose proof (ra_sane ops (ra_open d exc sched)) as S. intros E. rewrite E in S. exact S.
  - intros r' xs H. exact (run_ok ops (ra_open d exc sched) r' xs (Z.le_refl 0) H).
Qed.
Print Assumptions C130_random_access.
(** clear () makes the stream good, whatever happened before. *)
Theorem C130_clear : forall d exc sched ops r' xs,
  ra_run (ops ++ [RaClear]) (ra_open d exc sched) = Ok (r', xs) -> f_state (ra_f r') = 0.
Proof.
  intros d exc sched ops. generalize (ra_open d exc sched). induction ops as [|o t IH]; intros r r' xs H; cbn [app ra_run] in H.
  - cbn in H. injection H as <- _. reflexivity.
  - destruct (ra_step o r) as [[r1 x]| | |]; cbn [bind] in H; try discriminate.
    destruct (ra_run (t ++ [RaClear]) r1) as [[r2 ys]| | |] eqn:E; cbn [bind] in H; try discriminate. injection H as <- _. eapply IH, E.
Qed.
Print Assumptions C130_clear.
(** What is written at [p] is read back from [p], whatever the portions, and the
    rest of the file is as it was. *)
Theorem C130_readback : forall d p l u v t, 0 <= p -> (0 < length l)%nat ->
  Forall progress u -> (length l <= offered u)%nat -> Forall no_error v -> (length l <= offered_read v)%nat ->
  exists r', ra_run [RaSeek p Sbeg; RaWrite l; RaTell; RaSeek p Sbeg; RaRead (length l)] (ra_open d 0 (u ++ v ++ t)) =
    Ok (r', [GotNum p; GotNum (size l); GotNum (p + size l); GotNum p; GotBytes l]) /\ overwritten d p l (ra_data r').
Proof.
  intros d p l u v t Hp Hl Hu Ho Hv Hov.
  set (f0 := mkf 0 0 [] (skipn (Z.to_nat p) d) u).
  destruct (C49_write_completes l f0 u [] (eq_sym (app_nil_r _)) Hu Ho) as (f1 & E1 & O1 & S1). cbn [f0 f_out f_state app] in O1, S1.
  pose proof (fwrite_ext (v ++ t) l f0) as X. rewrite E1 in X. unfold more at 1 in X. cbn [f0 f_state f_exc f_out f_in f_sched] in X.
  pose proof E1 as Q. apply fwrite_loop_spec in Q. destruct Q as (c & w & H1 & H2 & H3 & H4 & H5 & H6). cbn [f0 f_in f_exc f_sched] in H3, H4, H5.
  set (r1 := mkra d p (mkf 0 0 [] (skipn (Z.to_nat p) d) (u ++ v ++ t))).
  set (r2 := mkra (put_at d p l) (p + size l) (at_offset (put_at d p l) (p + size l) (more (v ++ t) f1))).
  assert (W : ra_step (RaWrite l) r1 = Ok (r2, GotNum (size l))).
  { cbn [ra_step]. unfold ra_write, on_file, iobind, r1, at_offset. cbn [ra_data ra_pos ra_f f_state f_exc f_sched]. rewrite X. cbn [bind ret].
    do 2 f_equal. unfold settle, r2. cbn [ra_data ra_pos ra_f more f_out f_in]. rewrite O1, H3. f_equal; [unfold size; lia|]. f_equal. unfold size. lia. }
  set (r3 := mkra (put_at d p l) p (at_offset (put_at d p l) p (at_offset (put_at d p l) (p + size l) (more (v ++ t) f1)))).
  destruct (put_at_ok d p l Hp) as (Ls & Bs). assert (L0 : size l <> 0) by (unfold size; lia). replace (size l =? 0) with false in Ls by lia.
  assert (In3 : firstn (length l) (skipn (Z.to_nat p) (put_at d p l)) = l).
  { apply byte_ext.
    - unfold size in *. rewrite firstn_length, skipn_length. lia.
    - intros i Hi. assert (Hi' : i < size l) by (unfold size in *; rewrite firstn_length in Hi; lia).
      rewrite byte_firstn, byte_skipn, Bs. replace (i <? Z.of_nat (length l)) with true by (unfold size in Hi'; lia).
      replace (i <? 0) with false by lia. replace (Z.of_nat (Z.to_nat p) + i) with (p + i) by lia.
      replace ((p <=? p + i) && (p + i <? p + size l)) with true by lia. f_equal. lia. }
  assert (R : exists r4, ra_step (RaRead (length l)) r3 = Ok (r4, GotBytes l) /\ ra_data r4 = put_at d p l).
  { cbn [ra_step]. unfold ra_read, on_file, r3, at_offset. cbn [ra_data ra_pos ra_f more f_state f_exc f_sched].
    rewrite S1, H4. set (f3 := mkf 0 0 [] _ _).
    assert (HF : Forall no_error (f_sched f1 ++ v)).
    { apply Forall_app. split; [|exact Hv]. rewrite H5 in Hu. apply Forall_app in Hu. destruct Hu as (_ & Hu). eapply Forall_impl; [|exact Hu].
      intros [k| | |] A; unfold no_error; try discriminate. destruct A. }
    destruct (C49_read_completes (length l) f3 (repeat 0 (length l)) (f_sched f1 ++ v) t) as (f4 & E4 & _); try assumption.
    - rewrite repeat_length. lia.
    - reflexivity.
    - cbn [f3 f_sched]. rewrite app_assoc. reflexivity.
    - cbn [f3 f_in]. rewrite skipn_length. unfold size in Ls. lia.
    - assert (A : forall a b, offered_read (a ++ b) = (offered_read a + offered_read b)%nat).
      { clear. induction a as [|[k| | |] a IH]; intros b; cbn [app offered_read]; rewrite ?IH; lia. } rewrite A. lia.
    - rewrite E4. cbn [f3 f_in]. rewrite In3. rewrite firstn_app, firstn_all, Nat.sub_diag, firstn_O, app_nil_r.
      eexists. split; [reflexivity|]. unfold settle. cbn [ra_data ra_pos].
      pose proof (C49_read (length l) f3 (repeat 0 (length l)) f4 _ _ ltac:(rewrite repeat_length; lia) E4) as (d4 & _ & _ & _ & O4 & _). rewrite O4. reflexivity. }
  destruct R as (r4 & R & D4).
  exists r4. split; [|rewrite D4; apply put_at_ok, Hp].
  assert (K1 : ra_step (RaSeek p Sbeg) (ra_open d 0 (u ++ v ++ t)) = Ok (r1, GotNum p)).
  { cbn [ra_step]. unfold ra_seek. cbn [target ra_pos]. replace (p <? 0) with false by lia. reflexivity. }
  assert (K3 : ra_step (RaSeek p Sbeg) r2 = Ok (r3, GotNum p)).
  { cbn [ra_step]. unfold ra_seek. cbn [target ra_pos]. replace (p <? 0) with false by lia. reflexivity. }
  cbn [ra_run]. rewrite K1. cbn [bind]. rewrite W. cbn [bind]. change (ra_step RaTell r2) with (Ok (r2, GotNum (p + size l))). cbn [bind]. rewrite K3. cbn [bind]. rewrite R. reflexivity.
Qed.
Print Assumptions C130_readback.
Example C130_case : exists r', ra_run [RaSeek 2 Sbeg; RaWrite [7; 8; 9]; RaTell; RaSeek (-4) Scur; RaRead 9; RaSize; RaSeek (-9) Scur] (ra_open [1; 2; 3] 0 [SOk 1; SIntr; SOk 5; SOk 0; SOk 9; SOk 9]) =
  Ok (r', [GotNum 2; GotNum 3; GotNum 5; GotNum 1; GotBytes [2; 7; 8; 9]; GotNum 5; GotNum (-1)]) /\ ra_data r' = [1; 2; 7; 8; 9].
Proof. eexists. split; vm_compute; reflexivity. Qed.

(** ** C131: ofstream: output goes where the seeks before it say, however it is
    buffered, and tellp tells where that is *)
Theorem C131_positioned : forall e nul h d sched fuel ops s (f := mkf 0 0 [] [] sched),
  good_env e -> malloc_ok e 4096 = true -> (forall n, malloc_ok e n = true -> n <= 2 ^ 30) -> has_nul h nul ->
  Forall (fun r => r <> SErr /\ r <> SOk 0) sched -> opened e nul h f s -> (33 <= fuel)%nat ->
  Forall (fun o => match o with PoIo o => Z.of_nat (length (bytes_of o)) < 2 ^ 30 | _ => True end) ops ->
  seeks_ok (size d) 0 ops ->
  po_run e nul fuel ops (mkpo d 0 s) <> UB /\
  (forall p' x, po_run e nul fuel ops (mkpo d 0 s) = Ok (p', Thrown x) -> x = bad_alloc) /\
  forall p' xs, po_run e nul fuel ops (mkpo d 0 s) = Ok (p', Val xs) ->
    exists d' q buf, edits (d, 0) ops xs (d', q) /\
      buffered (po_s p') = Ok (map Some buf) /\ overwritten (po_file p') (po_offset p') buf d' /\ q = po_offset p' + size buf /\
      (forall os, ops = os ++ [PoIo OFlush] -> po_file p' = d').
Proof.
  intros e nul h d sched fuel ops s f Henv Hmin Hlim Hn HU Ho Hfu HF HS.
  set (v := repeat SErr (S (Z.to_nat (pclears ops)))). pose proof (pclears_nonneg ops) as Hcl.
  assert (En : enough (0 + pclears ops) (more v f)).
  { unfold enough, f_good. cbn [more f f_state f_sched Z.eqb]. rewrite errors_app. unfold v. rewrite errors_repeat. pose proof (errors_nonneg sched). lia. }
  assert (Fs : s_file s = f).
  { destruct Ho as [Ho|Ho].
    - destruct (of_default_ok e nul h f Hn Hmin) as (s0 & E & _ & F & _). rewrite Ho in E. injection E as <-. exact F.
    - unfold of_named in Ho. destruct (oss_default_ok e nul h f Hn) as (s0 & E & _ & F & _). rewrite Ho in E. injection E as <-. exact F. }
  assert (HP : PI e nul v (0 + pclears ops) (mkpo d 0 s) []).
  { split; [cbn; lia|]. split; [cbn [po_s]; rewrite Fs; split; [reflexivity|split; [reflexivity|exact HU]]|].
    exact (opened_inv e nul h (more v f) (smore v s) (0 + pclears ops) Hn Hmin (smore_opened e nul h f s v Ho) eq_refl En). }
  pose proof (po_run_ok e nul Henv Hlim v fuel ops 0 (mkpo d 0 s) [] ltac:(lia) HP ltac:(lia) HF) as R.
  assert (L0 : logical (mkpo d 0 s) [] = (d, 0)) by reflexivity. rewrite L0 in R. cbn [fst snd] in R. specialize (R HS).
  destruct (po_run e nul fuel ops (mkpo d 0 s)) as [[p' [xs|x]]| | |]; try contradiction.
  - split; [discriminate|]. split; [intros ? ? E; discriminate|]. intros p1 ys E. injection E as <- <-.
    destruct R as (W & Ed & HP' & Fl). pose proof HP' as (Hp & _ & HI). destruct (PI_written e nul _ _ _ _ HP') as (w & EW & Iw & Ew).
    exists (put_at (po_data p') (po_pos p') W), (po_pos p' + size W), w. split; [exact Ed|].
    assert (Eq : put_at (po_data p') (po_pos p') W = put_at (po_file p') (po_offset p') w).
    { rewrite EW. unfold po_file, po_offset. fold (size (po_written p')). rewrite put_at_app by exact Hp. reflexivity. }
    split; [eapply OInv_load; [exact Hlim|exact Iw]|]. rewrite Eq. split; [apply put_at_ok; unfold po_offset; lia|].
    split; [rewrite EW, size_app; unfold po_offset, size; lia|].
    intros os Eo. specialize (Fl os Eo). rewrite Fl in Ew. symmetry in Ew. apply size_nil in Ew. subst w. reflexivity.
  - split; [discriminate|]. split; [|intros ? ? E; discriminate]. intros p1 y E. injection E as <- <-. exact R.
  - split; [discriminate|]. split; intros ? ? E; discriminate.
Qed.
Print Assumptions C131_positioned.
Example C131_case : exists s p', opened small_env lnul lit (mkf 0 0 [] [] [SOk 1; SIntr; SOk 9; SAgain; SOk 9; SOk 9]) s /\
  seeks_ok 3 0 [PoIo (OWrite [7; 8]); PoTell; PoSeek 1 Send; PoIo (OPut 9); PoTell; PoSeek (-4) Scur; PoIo (OWrite [5]); PoIo OFlush] /\
  po_run small_env lnul 33 [PoIo (OWrite [7; 8]); PoTell; PoSeek 1 Send; PoIo (OPut 9); PoTell; PoSeek (-4) Scur; PoIo (OWrite [5]); PoIo OFlush] (mkpo [1; 2; 3] 0 s) =
    Ok (p', Val [None; Some 2; None; None; Some 5; None; None; None]) /\ po_file p' = [7; 5; 3; 0; 9].
Proof.
  eexists _, _. split; [right; reflexivity|]. split; [vm_compute; repeat split; discriminate|]. split; vm_compute; reflexivity.
Qed.
