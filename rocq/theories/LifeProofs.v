(** * LifeProofs: sessions of an ofstream. *)
From Verif Require Import Base UtilModel UtilProofs StoreModel StoreProofs VectorSpec MemModel MemSpec MemProofs StringModel StringFindModel StreamModel FileModel FileSpec FileProofs FdModel OStrModel OStrSpec OStrProofs OStrRun OStrFile OStrExt P_Text LifeModel LifeSpec.
From Coq Require Import ZArith ZifyBool ZifyNat Lia.
Local Open Scope Z_scope.

Section Life.
  Variable e : env.
  Variable nul : ptr.
  Hypothesis Henv : good_env e.
  Hypothesis Hlim : forall n, malloc_ok e n = true -> n <= 2 ^ 30.
  Variable fuel : nat.
  Hypothesis Hfuel : (33 <= fuel)%nat.

  Lemma lrun_app a : forall b l, lrun e nul fuel (a ++ b) l =
    (' (l1, r1) <- lrun e nul fuel a l ;; ' (l2, r2) <- lrun e nul fuel b l1 ;; Ok (l2, r1 ++ r2)).
  Proof.
    induction a as [|o a IH]; intros b l; cbn [app lrun bind].
    - destruct (lrun e nul fuel b l) as [[l2 r2]| | |]; reflexivity.
    - destruct (lstep e nul fuel o l) as [[l1 r]| | |]; cbn [bind]; try reflexivity. rewrite IH.
      destruct (lrun e nul fuel a l1) as [[l2 r2]| | |]; cbn [bind]; try reflexivity.
      destruct (lrun e nul fuel b l2) as [[l3 r3]| | |]; reflexivity.
  Qed.

  Lemma lrun_length ops : forall l l' rs, lrun e nul fuel ops l = Ok (l', rs) -> length rs = length ops.
  Proof.
    induction ops as [|o ops IH]; intros l l' rs H; cbn [lrun] in H.
    - injection H as _ <-. reflexivity.
    - destruct (lstep e nul fuel o l) as [[l1 r]| | |]; cbn [bind] in H; try discriminate.
      destruct (lrun e nul fuel ops l1) as [[l2 rs2]| | |] eqn:E; cbn [bind] in H; try discriminate.
      injection H as _ <-. cbn [length]. f_equal. eapply IH; exact E.
  Qed.

  (** With a file open the operations are those of the stream. *)
  Lemma lrun_ops fd done ops : forall s,
    match orun (of_step e nul fuel) ops s with
    | Ok (s', rs) => exists q, lrun e nul fuel (map LOp ops) (mkl s (Some fd) done) = Ok (mkl s' (Some fd) done, q) /\ map fst q = rs
    | UB => lrun e nul fuel (map LOp ops) (mkl s (Some fd) done) = UB
    | Exn x => lrun e nul fuel (map LOp ops) (mkl s (Some fd) done) = Exn x
    | NoFuel => lrun e nul fuel (map LOp ops) (mkl s (Some fd) done) = NoFuel
    end.
  Proof.
    induction ops as [|o ops IH]; intros s; cbn [orun map lrun].
    - exists []. auto.
    - cbn [lstep]. unfold on_stream at 1 2 3 4. unfold no_file. cbn [l_fd l_s l_done].
      destruct (of_step e nul fuel o s) as [[s1 r]| | |]; cbn [bind]; try reflexivity.
      specialize (IH s1). destruct (orun (of_step e nul fuel) ops s1) as [[s2 rs]| | |]; cbn [bind].
      + destruct IH as (q & E & M). rewrite E. cbn [bind]. eexists. split; [reflexivity|]. cbn [map fst]. now rewrite M.
      + rewrite IH. reflexivity.
      + rewrite IH. reflexivity.
      + rewrite IH. reflexivity.
  Qed.

  (** Between files: nothing pending. *)
  Definition Idle (l : life) : Prop :=
    l_fd l = None /\ OInv e nul (l_s l) [] /\ mcap (s_buf (l_s l)) <= 2 ^ 30 /\ f_exc (s_file (l_s l)) = 0 /\ f_out (s_file (l_s l)) = [].
  (** A file is open and nothing has been issued. *)
  Definition Ready (sched : list sysres) (s : ost) : Prop :=
    OInv e nul s [] /\ mcap (s_buf s) <= 2 ^ 30 /\
    f_state (s_file s) = 0 /\ f_exc (s_file s) = 0 /\ f_out (s_file s) = [] /\ f_sched (s_file s) = sched.

  Lemma l_open_idle l fd sched : Idle l ->
    exists s, l_open (Some (fd, sched)) [] l = Ok (mkl s (Some fd) (l_done l), Val tt) /\ Ready sched s /\ s_state s = 0.
  Proof.
    intros (F & I & C & X & O). unfold l_open, file_open. cbv zeta. unfold file_close. cbn [on_s l_fd]. rewrite F. cbn [bind].
    unfold on_stream, no_file. cbn [l_fd l_s l_done]. unfold of_clear. eexists. split; [reflexivity|].
    destruct I as (I1 & I2 & I3 & I4).
    split; [|reflexivity]. unfold Ready. split; [split; [exact I1|]; split; [exact I2|]; split; [reflexivity|exact I4]|]. split; [exact C|].
    cbn. auto.
  Qed.

  Lemma file_close_val answers fd s done : f_exc (s_file s) = 0 ->
    file_close answers (mkl s (Some fd) done) = NoFuel \/
    exists st, file_close answers (mkl s (Some fd) done) =
      Ok (mkl (sput_file (mkf st 0 [] [] []) s) None (done ++ [(fd, f_out (s_file s))]), Val tt).
  Proof.
    intros X. unfold file_close. cbn [l_fd]. induction answers as [|a t IH]; [left; reflexivity|]. cbn [l_fclose].
    destruct a as [|o|].
    - right. exists (f_state (s_file s)). unfold l_detach. cbn [l_s l_done]. rewrite X. reflexivity.
    - exact IH.
    - right. cbn [l_s on_s]. rewrite X. cbn [Z.land Z.eqb]. unfold l_detach, on_s, put_fstate. cbn [l_s l_done sput_file s_file f_exc f_out f_state].
      eexists. rewrite X. reflexivity.
  Qed.

  (** The operations and the close() of a session. *)
  Lemma session_body sched s fd done ops c : Ready sched s -> moderate ops ->
    let r := lrun e nul fuel (map LOp ops ++ [LClose c]) (mkl s (Some fd) done) in
    r <> UB /\
    forall l' rs, r = Ok (l', rs) -> closed_well rs ->
      exists W, contributions ops (map fst (firstn (length ops) rs)) W /\ l_done l' = done ++ [(fd, W)] /\ Idle l'.
  Proof.
    intros (I & Cb & Fs & Fx & Fo & Fsc) HF r.
    set (v := repeat SErr (S (S (Z.to_nat (clears ops))))).
    assert (Hcl : 0 <= clears ops) by (unfold clears; lia).
    assert (H0 : FInv e nul [] (1 + clears ops) (smore v s) []).
    { exists [], []. split; [reflexivity|]. split; [exact I|]. cbn [smore sput_file s_file more f_out f_exc s_buf app].
      split; [exact Fo|]. split; [exact Fx|]. split; [exact Cb|]. split; [lia|].
      unfold f_good. cbn [f_state f_sched more]. rewrite Fs. cbn [Z.eqb]. rewrite errors_app. pose proof (errors_nonneg (f_sched (s_file s))).
      assert (errors v = 2 + clears ops) by (unfold v; rewrite errors_repeat; lia). lia. }
    destruct (of_run_ok e nul Henv Hlim [] fuel ops 1 (smore v s) [] H0 ltac:(lia) HF ltac:(lia)) as (s1 & rs1 & W & E & Ct & F1).
    cbn [app] in F1. pose proof (ext_of_run v e nul fuel ops s) as X.
    pose proof (lrun_ops fd done ops s) as L. subst r. rewrite lrun_app.
    destruct (orun (of_step e nul fuel) ops s) as [[s0 rs0]| |x|] eqn:Er.
    2:{ exfalso. rewrite E in X. discriminate. }
    2:{ exfalso. rewrite E in X. discriminate. }
    2:{ rewrite L. cbn [bind]. split; [discriminate|]. intros ? ? Hq. discriminate Hq. }
    rewrite E in X. injection X as X1 X2. subst s1 rs1.
    destruct L as (q & L & M). rewrite L. cbn [bind]. cbn [lrun].
    cbn [lstep]. unfold l_close, on_stream, no_file. cbn [l_fd l_s l_done].
    unfold iobind, of_clear. cbn [bind].
    destruct (Z.eq_dec (f_state (s_file s0)) 0) as [Z0|NZ].
    - (* the file is good: the closing flush *)
      rewrite Z0.
      destruct F1 as (A & w & EW & I1 & Fo1 & Fx1 & Cb1 & En1).
      cbn [smore sput_file s_file more f_exc] in Fx1.
      match goal with |- context [of_flush e nul fuel ?X] => set (s1 := X) end.
      assert (F2 : FInv e nul [] 1 (smore v s1) W).
      { exists A, w. split; [exact EW|]. destruct I1 as (J1 & J2 & J3 & J4).
        split; [split; [exact J1|]; split; [exact J2|]; split; [reflexivity|exact J4]|].
        split; [exact Fo1|]. split; [exact Fx1|]. split; [exact Cb1|].
        unfold enough in *. unfold f_good in *. cbn [s1 smore sput_file s_file sput_state more f_state f_sched] in *. rewrite Z0 in En1. exact En1. }
      destruct (of_flush_ok e nul Henv Hlim [] 1 fuel (smore v s1) W F2) as (s2 & r2 & E2 & F3 & R2).
      { pose proof (Z.log2_nonneg (mcap (s_buf (smore v s1)))). lia. }
      pose proof (ext_of_flush v e nul fuel s1) as X.
      destruct (of_flush e nul fuel s1) as [[s3 r3]| |x|].
      2:{ exfalso. rewrite E2 in X. discriminate. }
      2:{ exfalso. rewrite E2 in X. discriminate. }
      2:{ cbn [bind]. split; [discriminate|intros ? ? Hq; discriminate Hq]. }
      rewrite E2 in X. injection X as X1 X2. subst s2 r3. cbn [bind].
      destruct R2 as [(-> & P0)| ->].
      2:{ split; [discriminate|]. cbn [bind lrun]. intros l' rs H (q0 & ->). injection H as _ H.
          apply app_inj_tail in H. destruct H as (_ & H). discriminate. }
      destruct F3 as (A3 & w3 & EW3 & I3 & Fo3 & Fx3 & Cb3 & En3).
      pose proof I3 as (J1 & J2 & J3 & J4). assert (w3 = []) as -> by (destruct w3; [reflexivity|cbn [length] in J2; lia]).
      rewrite app_nil_r in EW3. subst A3. cbn [smore sput_file s_file more f_exc f_out app] in Fx3, Fo3.
      destruct (file_close_val c fd s3 done Fx3) as [Ec|(st & Ec)]; rewrite Ec; cbn [bind].
      { split; [discriminate|intros ? ? Hq; discriminate Hq]. }
      split; [discriminate|]. intros l' rs H _. injection H as <- <-.
      exists W. split.
      { rewrite firstn_app. assert (Lq : length q = length ops).
        { transitivity (length rs0); [rewrite <- M; symmetry; apply map_length|]. clear -Ct. induction Ct; cbn [length]; congruence. }
        rewrite Lq, Nat.sub_diag. cbn [firstn]. rewrite app_nil_r, <- Lq, firstn_all, M. exact Ct. }
      cbn [l_done]. rewrite Fo3. split; [reflexivity|].
      unfold Idle. cbn [l_fd l_s sput_file s_file f_exc f_out s_buf]. split; [reflexivity|]. split; [exact I3|]. split; [exact Cb3|]. auto.
    - (* a failed file: the stream is not good afterwards *)
      destruct F1 as (A & w & EW & I1 & Fo1 & Fx1 & Cb1 & En1). cbn [smore sput_file s_file more f_exc] in Fx1.
      destruct fuel as [|fu]; [lia|]. cbn [of_flush]. unfold s_good. cbn [sput_state s_state].
      replace (f_state (s_file s0) =? 0) with false by lia. cbn [andb bind].
      match goal with |- context [file_close c (mkl ?X _ _)] => destruct (file_close_val c fd X done) as [Ec|(st & Ec)] end; [exact Fx1| |]; rewrite Ec; cbn [bind].
      { split; [discriminate|intros ? ? Hq; discriminate Hq]. }
      split; [discriminate|]. intros l' rs H (q0 & ->). injection H as _ H.
      apply app_inj_tail in H. destruct H as (_ & H). cbn [l_s sput_file sput_state s_state] in H. congruence.
  Qed.

  Lemma srun_ok : forall ss l, Idle l -> Forall (fun x => moderate (ss_ops x)) ss ->
    forall l' rss, srun e nul fuel ss l = Ok (l', rss) -> Forall closed_well rss ->
    exists Ws, Forall2 (fun xr W => issued (fst xr) (snd xr) W) (combine ss rss) Ws /\ length rss = length ss /\ length Ws = length ss /\
      l_done l' = l_done l ++ combine (map ss_fd ss) Ws /\ Idle l'.
  Proof.
    induction ss as [|x ss IH]; intros l HI HF l' rss H HC; cbn [srun] in H.
    - injection H as <- <-. exists []. cbn. rewrite app_nil_r. auto.
    - inversion HF as [|? ? Hx HF']; subst. unfold session_ops in H. cbn [lrun lstep] in H.
      destruct (l_open_idle l (ss_fd x) (ss_sched x) HI) as (s & E & R & St). rewrite E in H. cbn [bind] in H.
      pose proof (session_body (ss_sched x) s (ss_fd x) (l_done l) (ss_ops x) (ss_close x) R Hx) as B. cbv zeta in B. destruct B as (_ & B).
      destruct (lrun e nul fuel (map LOp (ss_ops x) ++ [LClose (ss_close x)]) (mkl s (Some (ss_fd x)) (l_done l))) as [[l1 rs]| | |] eqn:Eb; cbn [bind] in H; try discriminate.
      destruct (srun e nul fuel ss l1) as [[l2 rss2]| | |] eqn:E2; cbn [bind] in H; try discriminate.
      injection H as <- <-. inversion HC as [|? ? Hc HC']; subst.
      assert (Hc' : closed_well rs).
      { destruct Hc as (q & Hq). destruct q as [|a q]; cbn [app] in Hq.
        - injection Hq as _ ->. apply lrun_length in Eb. rewrite app_length in Eb. cbn [length] in Eb. lia.
        - injection Hq as _ ->. exists q. reflexivity. }
      destruct (B _ _ eq_refl Hc') as (W & C1 & D1 & I1).
      destruct (IH l1 I1 HF' l2 rss2 E2 HC') as (Ws & F2 & L1 & L2 & D2 & I2).
      exists (W :: Ws). cbn [combine map length]. split; [constructor; [exact C1|exact F2]|]. split; [lia|]. split; [lia|].
      split; [|exact I2]. rewrite D2, D1, <- app_assoc. reflexivity.
  Qed.
End Life.
