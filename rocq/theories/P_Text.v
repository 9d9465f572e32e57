(** * P_Text: text output streams (C50, C51, C72). *)
From Verif Require Import Base UtilModel StoreModel StoreProofs VectorSpec MemModel MemSpec MemProofs StringModel StreamModel FileModel OStrModel OStrSpec OStrProofs OStrRun OStrFile OStrExt.
From Coq Require Import ZArith ZifyBool ZifyNat Lia.
Local Open Scope Z_scope.

(** An environment with 4096 bytes of memory per block at most. *)
Definition small_env : env := mkenv (fun _ => 4096) (fun n => n <=? 4096) (2 ^ 40).
Lemma small_good : good_env small_env.
Proof. intros n Hn. cbn [malloc_at stack_at small_env]. change (2 ^ 64) with 18446744073709551616. change (2 ^ 40) with 1099511627776. split; [reflexivity|]. lia. Qed.
Definition lit : heap := [mkblk [Some 0] 16 Literal; mkblk [Some 97; Some 98; Some 99; Some 0] 32 Literal].
Definition lnul : ptr := Some (O, 0).
Lemma lit_nul : has_nul lit lnul. Proof. exists O, 16. split; reflexivity. Qed.

(** ** C51: whatever is written to a new ostringstream (blocks, characters,
    formatted text), with any flushes in between, str() returns the bytes in
    order.  If memory runs out inside an operation the operation throws
    bad_alloc and has contributed a first part of its bytes. *)
Theorem C51_ostringstream : forall e nul h f ops s,
  has_nul h nul -> oss_default e nul h f = Ok s ->
  Z.of_nat (total_bytes ops) + 2 <= 2 ^ 31 ->
  exists s' rs W s'', orun (oss_step e nul) ops s = Ok (s', rs) /\ contributions ops rs W /\
    oss_str e nul s' = Ok (s'', Val (map Some W)) /\
    (enough_memory e -> W = flat_map bytes_of ops /\ Forall (fun r => r = Val tt) rs).
Proof.
  intros e nul h f ops s Hn E Hb. destruct (oss_default_ok e nul h f Hn) as (s0 & E0 & I0 & _).
  rewrite E in E0. injection E0 as <-.
  destruct (oss_run_ok e nul ops s [] I0) as (s' & rs & W & R & C & I & M); [cbn [length Nat.add]; exact Hb|].
  destruct (oss_flush_ok e nul s' W I) as (s'' & F & I2 & _ & _ & L).
  exists s', rs, W, s''. split; [exact R|]. split; [exact C|]. split.
  { unfold oss_str, iobind. rewrite F. cbn [bind]. rewrite L. reflexivity. }
  intros Hm. assert (NT : forall x, ~ In (Thrown x) rs).
  { intros x Hx. destruct M as (k & Hk & Hf); [eauto|]. rewrite Hm in Hf; [discriminate|lia]. }
  clear - C NT. induction C as [|o r p ops rs W Hc _ IH]; [split; [reflexivity|constructor]|].
  destruct IH as (-> & HF); [intros x Hx; eapply NT; right; exact Hx|].
  destruct r as [[]|x]; [|exfalso; eapply NT; left; reflexivity]. cbn [contributed] in Hc. subst p. split; [reflexivity|constructor; auto].
Qed.
Print Assumptions C51_ostringstream.
Example C51_example : exists s s' rs s'',
  oss_default small_env lnul lit (mkf 0 0 [] [] []) = Ok s /\
  orun (oss_step small_env lnul) [OWrite [1; 2; 3]; OFlush; OPut 4; OFormat [5; 6; 7; 8; 9]; OClear; OWrite [10]] s = Ok (s', rs) /\
  oss_str small_env lnul s' = Ok (s'', Val (map Some [1; 2; 3; 4; 5; 6; 7; 8; 9; 10])).
Proof. eexists _, _, _, _. split; [reflexivity|]. split; [vm_compute; reflexivity|]. vm_compute; reflexivity. Qed.

(** The claim fails for a stream created from a literal: [ostringstream os ("abc")]
    links its buffer to the read-only literal, and the first character written
    goes there. *)
Theorem C51_literal_refuted : exists e nul h v s,
  has_nul h nul /\ str_of_c nul h (Some (1%nat, 0)) = Ok (h, v) /\ oss_new e h v (mkf 0 0 [] [] []) = Ok s /\
  oss_step e nul (OPut 120) s = UB.
Proof.
  exists small_env, lnul, lit. eexists _, _. split; [exact lit_nul|]. split; [reflexivity|]. split; [reflexivity|]. vm_compute. reflexivity.
Qed.
Print Assumptions C51_literal_refuted.

(** And for a stream linked to the caller's memory: str() returns a copy, the
    stream keeps writing to the caller's memory, and the next str() does not
    show it. *)
Definition area : heap := lit ++ [mkblk (repeat (Some 46) 9) 64 Foreign].
Theorem C51_linked_refuted : exists e nul h s s1 s2 s3 l,
  has_nul h nul /\ oss_link h (Some (2%nat, 0)) 8 (mkf 0 0 [] [] []) = Ok s /\
  oss_step e nul (OWrite [1; 2]) s = Ok (s1, Val tt) /\ oss_str e nul s1 = Ok (s2, Val (map Some [1; 2])) /\
  oss_step e nul (OWrite [3; 4]) s2 = Ok (s3, Val tt) /\ (exists s4, oss_str e nul s3 = Ok (s4, Val l)) /\
  l <> map Some [1; 2; 3; 4].
Proof.
  exists small_env, lnul, area. eexists _, _, _, _, _. split; [exists O, 16; split; reflexivity|]. split; [reflexivity|].
  split; [vm_compute; reflexivity|]. split; [vm_compute; reflexivity|]. split; [vm_compute; reflexivity|].
  split; [eexists; vm_compute; reflexivity|]. discriminate.
Qed.
Print Assumptions C51_linked_refuted.

(** A stream over the caller's memory starts good, at its beginning; a seek
    beyond the memory leaves the position and marks the stream, without an exception. *)
Theorem C51_linked_new h p n f s : oss_link h p n f = Ok s ->
  s_heap s = h /\ s_vptr s = p /\ s_vsize s = n /\ s_pos s = 0 /\ s_good s = true /\ s_file s = f /\
  forall q, n < q -> exists s', s_seekp q s = Ok (s', Val tt) /\ s_pos s' = 0 /\ s_good s' = false /\ s_heap s' = h.
Proof.
  unfold oss_link. destruct (link p n) as [b| | |]; cbn [bind]; intros E; try discriminate E. injection E as <-.
  cbn [s_heap s_vptr s_vsize s_pos s_file]. unfold s_good. cbn [s_state].
  split; [reflexivity|]. split; [reflexivity|]. split; [reflexivity|]. split; [reflexivity|]. split; [reflexivity|]. split; [reflexivity|].
  intros q Hq. unfold s_seekp. cbn [s_vsize]. rewrite (proj2 (Z.ltb_lt n q) Hq). unfold s_overrun.
  cbv zeta. cbn [s_exc s_state]. change (Z.land 0 (overrun_bits n) =? 0) with true. cbn iota.
  eexists. split; [reflexivity|]. split; [reflexivity|]. split; [|reflexivity].
  cbn [sput_state s_state]. unfold overrun_bits. destruct (u32 n =? 0); reflexivity.
Qed.
Print Assumptions C51_linked_new.
Example C51_linked_new_example : exists s, oss_link area (Some (2%nat, 0)) 8 (mkf 0 0 [] [] []) = Ok s.
Proof. eexists. reflexivity. Qed.

(** ** C50: the bytes in the file followed by the bytes buffered are the bytes
    issued, for every schedule of the system's answers: short writes,
    interruptions, would-block, errors (with clear() after them). *)
Definition opened (e : env) (nul : ptr) (h : heap) (f : file) (s : ost) : Prop :=
  of_default e nul h f = Ok s \/ of_named e nul h f = Ok s.

Lemma opened_inv e nul h f s k : has_nul h nul -> malloc_ok e 4096 = true -> opened e nul h f s ->
  f_exc f = 0 -> enough k f -> FInv e nul (f_out f) k s [].
Proof.
  intros Hn M Ho Hx En. destruct Ho as [Ho|Ho].
  - destruct (of_default_ok e nul h f Hn M) as (s0 & E & I & F & C). rewrite Ho in E. injection E as <-.
    exists [], []. rewrite F, C. split; [reflexivity|]. split; [exact I|]. split; [symmetry; apply app_nil_r|]. split; [exact Hx|]. split; [lia|exact En].
  - unfold of_named in Ho. destruct (oss_default_ok e nul h f Hn) as (s0 & E & I & F & _ & C). rewrite Ho in E. injection E as <-.
    exists [], []. rewrite F, C. split; [reflexivity|]. split; [exact I|]. split; [symmetry; apply app_nil_r|]. split; [exact Hx|]. split; [lia|exact En].
Qed.

Lemma smore_opened e nul h f s v : opened e nul h f s -> opened e nul h (more v f) (smore v s).
Proof.
  unfold opened, of_named, of_default, oss_default, oss_new. intros [H|H]; [left|right].
  - destruct (str_of_c nul h nul) as [[h1 m]| | |]; cbn [bind] in *; try discriminate.
    destruct (str_copy e h1 m) as [[h2 b]| | |]; cbn [bind] in *; try discriminate.
    cbn [s_heap s_buf] in *. destruct (reserve e 1 h2 b 4095 false) as [[h3 b3]| | |]; cbn [bind] in *; try discriminate.
    injection H as <-. reflexivity.
  - destruct (str_of_c nul h nul) as [[h1 m]| | |]; cbn [bind] in *; try discriminate.
    destruct (str_copy e h1 m) as [[h2 b]| | |]; cbn [bind] in *; try discriminate.
    injection H as <-. reflexivity.
Qed.

Lemma errors_repeat n : errors (repeat SErr n) = Z.of_nat n.
Proof. induction n as [|n IH]; [reflexivity|]. cbn [repeat errors]. lia. Qed.

Lemma orun_app step a : forall b s, orun step (a ++ b) s =
  (' (s1, r1) <- orun step a s ;; ' (s2, r2) <- orun step b s1 ;; Ok (s2, r1 ++ r2)).
Proof.
  induction a as [|o a IH]; intros b s; cbn [app orun bind].
  - destruct (orun step b s) as [[s2 r2]| | |]; reflexivity.
  - destruct (step o s) as [[s1 r]| | |]; cbn [bind]; try reflexivity. rewrite IH.
    destruct (orun step a s1) as [[s2 r2]| | |]; cbn [bind]; try reflexivity.
    destruct (orun step b s2) as [[s3 r3]| | |]; reflexivity.
Qed.
Section C50.
  Variable e : env.
  Variable nul : ptr.
  Hypothesis Henv : good_env e.
  Hypothesis Hlim : forall n, malloc_ok e n = true -> n <= 2 ^ 30.
  Hypothesis Hmin : malloc_ok e 4096 = true.

  Lemma c50_run h f fuel ops s : has_nul h nul -> f_exc f = 0 -> f_state f = 0 -> opened e nul h f s ->
    Forall (fun o => Z.of_nat (length (bytes_of o)) < 2 ^ 30) ops -> (33 <= fuel)%nat ->
    errors (f_sched f) >= 1 + clears ops ->
    exists s' rs W, orun (of_step e nul fuel) ops s = Ok (s', rs) /\ contributions ops rs W /\ FInv e nul (f_out f) 0 s' W.
  Proof.
    intros Hn Hx Hs Ho HF Hfu He.
    assert (En : enough (0 + clears ops) f). { unfold enough, f_good. rewrite Hs. cbn [Z.eqb]. unfold clears in *. lia. }
    exact (of_run_ok e nul Henv Hlim (f_out f) fuel ops 0 s [] (opened_inv e nul h f s _ Hn Hmin Ho Hx En) ltac:(lia) HF ltac:(lia)).
  Qed.
End C50.

Theorem C50_ofstream_partial : forall e nul h f fuel ops s,
  good_env e -> malloc_ok e 4096 = true -> (forall n, malloc_ok e n = true -> n <= 2 ^ 30) ->
  has_nul h nul -> f_state f = 0 -> f_exc f = 0 -> opened e nul h f s ->
  Forall (fun o => Z.of_nat (length (bytes_of o)) < 2 ^ 30) ops -> (33 <= fuel)%nat ->
  orun (of_step e nul fuel) ops s <> UB /\
  forall s' rs, orun (of_step e nul fuel) ops s = Ok (s', rs) ->
    exists W buf, contributions ops rs W /\ buffered s' = Ok (map Some buf) /\
      f_out (s_file s') ++ buf = f_out f ++ W.
Proof.
  intros e nul h f fuel ops s Henv Hmin Hlim Hn Hs Hx Ho HF Hfu.
  set (v := repeat SErr (S (Z.to_nat (clears ops)))).
  assert (Hv : errors v = 1 + clears ops). { unfold v. rewrite errors_repeat. unfold clears. lia. }
  assert (He : errors (f_sched (more v f)) >= 1 + clears ops).
  { cbn [more f_sched]. rewrite errors_app, Hv. pose proof (errors_nonneg (f_sched f)). lia. }
  destruct (c50_run e nul Henv Hlim Hmin h (more v f) fuel ops (smore v s) Hn Hx Hs (smore_opened e nul h f s v Ho) HF Hfu He) as (s1 & rs1 & W & E & C & A & w & EW & I & Fo & _ & _ & _).
  pose proof (ext_of_run v e nul fuel ops s) as X. split.
  - intros Hub. rewrite Hub, E in X. discriminate.
  - intros s' rs R. rewrite R, E in X. injection X as -> ->.
    exists W, w. split; [exact C|]. split.
    + exact (OInv_load e nul Hlim _ _ I).
    + cbn [smore sput_file s_file more f_out] in Fo. rewrite Fo, EW, app_assoc. reflexivity.
Qed.
Print Assumptions C50_ofstream_partial.
(** The run ends if the system keeps answering: the model's bound on the
    rounds of flush is enough. *)
Theorem C50_completes : forall e nul h f fuel ops s,
  good_env e -> malloc_ok e 4096 = true -> (forall n, malloc_ok e n = true -> n <= 2 ^ 30) ->
  has_nul h nul -> f_state f = 0 -> f_exc f = 0 -> opened e nul h f s ->
  Forall (fun o => Z.of_nat (length (bytes_of o)) < 2 ^ 30) ops -> (33 <= fuel)%nat ->
  errors (f_sched f) >= 1 + clears ops ->
  exists s' rs, orun (of_step e nul fuel) ops s = Ok (s', rs).
Proof.
  intros e nul h f fuel ops s Henv Hmin Hlim Hn Hs Hx Ho HF Hfu He.
  destruct (c50_run e nul Henv Hlim Hmin h f fuel ops s Hn Hx Hs Ho HF Hfu He) as (s' & rs & _ & R & _). eauto.
Qed.
Print Assumptions C50_completes.
Example C50_example : exists s s' rs,
  opened small_env lnul lit (mkf 0 0 [] [] [SOk 2; SIntr; SOk 9; SOk 1; SAgain; SErr]) s /\
  orun (of_step small_env lnul 33) [OWrite [1; 2; 3]; OFlush; OPut 4; OFormat [5; 6]] s = Ok (s', rs) /\
  f_out (s_file s') = [1; 2; 3; 4] /\ buffered s' = Ok (map Some [5; 6]).
Proof. eexists _, _, _. split; [right; reflexivity|]. split; [vm_compute; reflexivity|]. split; vm_compute; reflexivity. Qed.

(** False when the stream throws on errors ([exceptions (failbit)]): the part of
    the data that the system accepted before the error stays in the buffer, and
    after clear() the next flush writes it a second time. *)
Theorem C50_exceptions_refuted : exists e nul h f s s' rs,
  good_env e /\ has_nul h nul /\ f_state f = 0 /\ f_exc f = failbit /\ opened e nul h f s /\
  orun (of_step e nul 33) [OWrite [1; 2; 3]; OFlush; OClear; OFlush] s = Ok (s', rs) /\
  rs = [Val tt; Thrown file_exception; Val tt; Val tt] /\ f_out f = [] /\
  f_out (s_file s') = [1; 2; 1; 2; 3] /\ buffered s' = Ok [].
Proof.
  exists small_env, lnul, lit, (mkf 0 failbit [] [] [SOk 2; SErr; SOk 9]). eexists _, _, _. split; [apply small_good|]. split; [exact lit_nul|]. split; [reflexivity|]. split; [reflexivity|].
  split; [right; reflexivity|]. split; [vm_compute; reflexivity|]. split; [reflexivity|]. split; [reflexivity|]. split; vm_compute; reflexivity.
Qed.
Print Assumptions C50_exceptions_refuted.

(** ** C72: flush() that returns has delivered everything; it never returns
    with bytes left behind. *)
Theorem C72_flush_delivers_partial : forall e nul h f fuel ops s s' rs,
  good_env e -> malloc_ok e 4096 = true -> (forall n, malloc_ok e n = true -> n <= 2 ^ 30) ->
  has_nul h nul -> f_state f = 0 -> f_exc f = 0 -> opened e nul h f s ->
  Forall (fun o => Z.of_nat (length (bytes_of o)) < 2 ^ 30) ops -> (33 <= fuel)%nat ->
  orun (of_step e nul fuel) (ops ++ [OFlush]) s = Ok (s', rs ++ [Val tt]) ->
  exists W, contributions ops rs W /\ f_out (s_file s') = f_out f ++ W.
Proof.
  intros e nul h f fuel ops s s' rs Henv Hmin Hlim Hn Hs Hx Ho HF Hfu R.
  set (v := repeat SErr (S (Z.to_nat (clears ops)))).
  assert (Hv : errors v = 1 + clears ops). { unfold v. rewrite errors_repeat. unfold clears. lia. }
  assert (He : errors (f_sched (more v f)) >= 1 + clears ops).
  { cbn [more f_sched]. rewrite errors_app, Hv. pose proof (errors_nonneg (f_sched f)). lia. }
  destruct (c50_run e nul Henv Hlim Hmin h (more v f) fuel ops (smore v s) Hn Hx Hs (smore_opened e nul h f s v Ho) HF Hfu He) as (s1 & rs1 & W & E & C & I).
  pose proof (ext_of_run v e nul fuel (ops ++ [OFlush]) s) as X. rewrite R in X.
  rewrite orun_app, E in X. cbn [bind orun] in X.
  destruct (of_step_ok e nul Henv Hlim (f_out (more v f)) 0 fuel OFlush s1 W I) as (s2 & r & E2 & Q & P0); [cbn; lia|lia|discriminate|].
  rewrite E2 in X. cbn [bind] in X. injection X as X1 X2. apply app_inj_tail in X2. destruct X2 as (-> & ->). specialize (P0 eq_refl eq_refl).
  exists W. split; [exact C|]. destruct Q as [(_ & Q)|(Q & _)]; [|discriminate].
  destruct Q as (A & w & EW & I2 & Fo & _). cbn [bytes_of] in EW. rewrite app_nil_r in EW.
  destruct I2 as (_ & Ps & _). assert (w = []) as -> by (destruct w; [reflexivity|cbn [length] in Ps; lia]).
  rewrite app_nil_r in EW. rewrite X1 in Fo. cbn [smore sput_file s_file more f_out] in Fo. rewrite Fo, EW. reflexivity.
Qed.
Print Assumptions C72_flush_delivers_partial.
Example C72_example : exists s s' rs,
  opened small_env lnul lit (mkf 0 0 [] [] [SOk 2; SIntr; SOk 9]) s /\ orun (of_step small_env lnul 33) ([OWrite [1; 2]; OPut 3] ++ [OFlush]) s = Ok (s', rs ++ [Val tt]) /\ f_out (s_file s') = [1; 2; 3].
Proof. eexists _, _, [Val tt; Val tt]. split; [right; reflexivity|]. split; [vm_compute; reflexivity|]. vm_compute; reflexivity. Qed.

(** False on a failing file: the error stays in the file object, the stream
    remains good, and flush() doubles the buffer until the memory is exhausted.
    The same happens when the file would block. *)
Theorem C72_error_refuted : exists e nul h f s s' rs,
  good_env e /\ has_nul h nul /\ f_state f = 0 /\ f_exc f = 0 /\ opened e nul h f s /\ f_sched f = [SErr] /\
  orun (of_step e nul 33) [OPut 97; OPut 98; OFlush] s = Ok (s', rs) /\
  rs = [Val tt; Val tt; Thrown bad_alloc] /\ s_state s' = 0 /\ mcap (s_buf s') = 4096.
Proof.
  exists small_env, lnul, lit, (mkf 0 0 [] [] [SErr]). eexists _, _, _. split; [apply small_good|]. split; [exact lit_nul|]. split; [reflexivity|].
  split; [reflexivity|]. split; [right; reflexivity|]. split; [reflexivity|]. split; [vm_compute; reflexivity|].
  split; [reflexivity|]. split; vm_compute; reflexivity.
Qed.
Print Assumptions C72_error_refuted.
Theorem C72_would_block_refuted : exists e nul h f s s' rs,
  good_env e /\ has_nul h nul /\ f_state f = 0 /\ f_exc f = 0 /\ opened e nul h f s /\ f_sched f = repeat SAgain 12 /\
  orun (of_step e nul 33) [OPut 97; OPut 98; OFlush] s = Ok (s', rs) /\
  rs = [Val tt; Val tt; Thrown bad_alloc] /\ s_state s' = 0 /\ f_state (s_file s') = 0 /\ mcap (s_buf s') = 4096.
Proof.
  exists small_env, lnul, lit, (mkf 0 0 [] [] (repeat SAgain 12)). eexists _, _, _. split; [apply small_good|]. split; [exact lit_nul|]. split; [reflexivity|].
  split; [reflexivity|]. split; [right; reflexivity|]. split; [reflexivity|]. split; [vm_compute; reflexivity|].
  split; [reflexivity|]. split; [vm_compute; reflexivity|]. split; vm_compute; reflexivity.
Qed.
Print Assumptions C72_would_block_refuted.
