(** * LifeKeep: a file that accepts data goes on doing so; destroying a stream. *)
From Verif Require Import Base UtilModel UtilProofs StoreModel StoreProofs VectorSpec MemModel MemSpec MemProofs StringModel StringFindModel StreamModel FileModel FileSpec FileProofs FdModel OStrModel OStrSpec OStrProofs OStrRun OStrFile OStrExt P_Text LifeModel LifeSpec LifeProofs.
From Coq Require Import ZArith ZifyBool ZifyNat Lia.
Local Open Scope Z_scope.

Definition Fine (f : file) : Prop := f_state f = 0 /\ f_exc f = 0 /\ accepting (f_sched f).
Lemma fwrite_fine l f f' r : Fine f -> fwrite l f = Ok (f', r) -> Fine f' /\ r = Val (length l) /\ f_out f' = f_out f ++ l.
Proof.
  intros (S0 & X & A) H. unfold fwrite in H. apply fwrite_loop_spec in H. destruct H as (c & u & H1 & H2 & H3 & H4 & H5 & H6).
  unfold accepting in A. rewrite H5 in A. apply Forall_app in A. destruct A as (A1 & A2).
  destruct H6 as [(-> & -> & Hs & _)|(_ & v & x & -> & _ & N & _)].
  - rewrite firstn_all in H2. split; [|split; [reflexivity|exact H2]]. split; [congruence|]. split; [congruence|exact A2].
  - exfalso. apply Forall_app in A1. destruct A1 as (_ & A1). inversion A1; subst. contradiction.
Qed.
Definition Keep {A} (m : io ost A) : Prop := forall s s' r, Fine (s_file s) -> m s = Ok (s', r) -> Fine (s_file s').
Lemma keep_same {A} (m : io ost A) : (forall s s' r, m s = Ok (s', r) -> s_file s' = s_file s) -> Keep m.
Proof. intros H s s' r F E. rewrite (H _ _ _ E). exact F. Qed.
Lemma keep_ret {A} (a : A) : Keep (ret a).
Proof. apply keep_same. intros s s' r H. injection H as <- _. reflexivity. Qed.
Lemma keep_bind {A B} (m : io ost A) (k : A -> io ost B) : Keep m -> (forall a, Keep (k a)) -> Keep (iobind m k).
Proof.
  intros Hm Hk s s' r F E. unfold iobind in E. destruct (m s) as [[s1 [a|x]]| |x|] eqn:Em; cbn [bind] in E; try discriminate.
  - exact (Hk a s1 s' r (Hm _ _ _ F Em) E).
  - injection E as <- _. exact (Hm _ _ _ F Em).
Qed.
Lemma keep_on_buf f : Keep (on_buf f).
Proof.
  apply keep_same. intros s s' r H. unfold on_buf in H. destruct (f (s_heap s) (s_buf s)) as [[h b]| |x|]; try discriminate; injection H as <- _; reflexivity.
Qed.
Lemma keep_link_buf : Keep link_buf.
Proof. apply keep_same. intros s s' r H. injection H as <- _. reflexivity. Qed.
Lemma keep_overrun rm : Keep (s_overrun rm).
Proof. apply keep_same. intros s s' r H. unfold s_overrun in H. cbv zeta in H. destruct (_ =? 0); injection H as <- _; reflexivity. Qed.
Lemma keep_verify n : Keep (s_verify n).
Proof.
  intros s s' r F H. unfold s_verify in H. destruct (n <=? s_remaining s).
  - injection H as <- _. exact F.
  - exact (keep_bind _ (fun _ => ret false) (keep_overrun (s_remaining s)) (fun _ => keep_ret false) s s' r F H).
Qed.
Lemma keep_write l : Keep (s_write l).
Proof.
  unfold s_write. apply keep_bind; [apply keep_verify|]. intros []; [|apply keep_ret]. apply keep_same. intros s s' r H.
  destruct (store_n _ _ _); try discriminate. injection H as <- _. reflexivity.
Qed.
Lemma keep_vsnprintf t sp : Keep (vsnprintf t sp).
Proof.
  apply keep_same. intros s s' r H. unfold vsnprintf in H. destruct (sp <=? 0); [injection H as <- _; reflexivity|].
  destruct (store_n _ _ _); try discriminate. injection H as <- _. reflexivity.
Qed.
Section V.
  Variable ov : Z -> io ost Z.
  Hypothesis Hov : forall n, Keep (ov n).
  Lemma keep_put c : Keep (os_put ov c).
  Proof.
    intros s s' r F H. unfold os_put in H. destruct (1 <=? s_remaining s); [exact (keep_write [c] s s' r F H)|].
    refine (keep_bind (ov 1) (fun r => if 1 <=? r then s_write [c] else ret tt) (Hov 1) _ s s' r F H).
    intros a. destruct (1 <=? a); [apply keep_write|apply keep_ret].
  Qed.
  Lemma keep_write_loop : forall fuel l, Keep (os_write_loop ov fuel l).
  Proof.
    induction fuel as [|fuel IH]; intros l; [intros s s' r F H; discriminate|]. cbn [os_write_loop]. apply keep_bind.
    - intros s s' r F H. destruct (_ =? 0); [exact (Hov _ s s' r F H)|]. injection H as <- _. exact F.
    - intros r. cbv zeta. destruct (_ =? 0); [apply keep_ret|]. apply keep_bind; [apply keep_write|intros; apply IH].
  Qed.
  Lemma keep_format_loop : forall fuel t, Keep (os_format_loop ov fuel t).
  Proof.
    induction fuel as [|fuel IH]; intros t; [intros s s' r F H; discriminate|]. cbn [os_format_loop]. intros s s' r F H.
    refine (keep_bind (vsnprintf t (to_int (s_remaining s))) (fun _ => if Z.of_nat (length t) <? to_int (s_remaining s) then
         (fun s0 => Ok (sput_pos (s_pos s0 + Z.min (Z.of_nat (length t)) (to_int (s_remaining s))) s0, Val tt)) else
         r <~ ov (Z.of_nat (length t) + 1) ;; if Z.of_nat (length t) <? to_int r then os_format_loop ov fuel t else
           (fun s0 => Ok (sput_pos (s_pos s0 + Z.min (Z.of_nat (length t)) (to_int (s_remaining s))) s0, Val tt))) (keep_vsnprintf _ _) _ s s' r F H).
    assert (K : Keep (fun s0 => Ok (sput_pos (s_pos s0 + Z.min (Z.of_nat (length t)) (to_int (s_remaining s))) s0, Val tt)))
      by (apply keep_same; intros s1 s2 r1 E; injection E as <- _; reflexivity).
    intros _. destruct (_ <? _); [exact K|]. apply keep_bind; [apply Hov|]. intros r0. destruct (_ <? _); [apply IH|exact K].
  Qed.
End V.
Section WithEnv.
  Variable e : env.
  Variable nul : ptr.
  Lemma keep_oss_overflow n : Keep (oss_overflow e nul n).
  Proof.
    unfold oss_overflow. apply keep_bind.
    - intros s s' r F H. destruct (_ && _); [|injection H as <- _; exact F].
      refine (keep_bind _ _ (keep_on_buf _) (fun _ => keep_bind _ _ (keep_on_buf _) (fun _ => keep_bind _ _ keep_link_buf (fun _ => _))) s s' r F H).
      apply keep_same. intros s1 s2 r1 E. injection E as <- _. reflexivity.
    - intros _. apply keep_bind; [apply keep_verify|]. intros _. apply keep_same. intros s1 s2 r1 E. injection E as <- _. reflexivity.
  Qed.
  Lemma keep_of_overflow n : Keep (of_overflow e nul n).
  Proof.
    unfold of_overflow. apply keep_bind; [|intros; apply keep_oss_overflow]. intros s s' r F H.
    destruct (_ && _); [|injection H as <- _; exact F].
    destruct (l <- load_n (s_heap s) (s_vptr s) (s_pos s) ;; determined l) as [l| |x|]; try discriminate.
    destruct (fwrite l (s_file s)) as [[f [bw|x]]| |x|] eqn:Ew; try discriminate;
      destruct (fwrite_fine _ _ _ _ F Ew) as (F' & _ & _).
    - unfold s_erase_front in H. destruct (rotate _ _ _ _ _ _); try discriminate. injection H as <- _. exact F'.
    - injection H as <- _. exact F'.
  Qed.
  Lemma keep_of_flush : forall fuel, Keep (of_flush e nul fuel).
  Proof.
    induction fuel as [|fuel IH]; intros s s' r F H; [discriminate|]. cbn [of_flush] in H.
    destruct (_ && _); [|injection H as <- _; exact F].
    refine (keep_bind (of_overflow e nul (s_capacity s)) (fun r => if r =? 0 then ret tt else of_flush e nul fuel) (keep_of_overflow _) _ s s' r F H).
    intros r0. destruct (_ =? 0); [apply keep_ret|apply IH].
  Qed.
  Lemma keep_of_step fuel o : Keep (of_step e nul fuel o).
  Proof.
    destruct o; cbn [of_step]; [apply keep_write_loop|apply keep_put|apply keep_format_loop|apply keep_of_flush|]; try (intros; apply keep_of_overflow).
    intros s s' r (S0 & X & A) H. injection H as <- _. split; [reflexivity|]. split; assumption.
  Qed.
  Lemma keep_of_run fuel ops : forall s s' rs, Fine (s_file s) -> orun (of_step e nul fuel) ops s = Ok (s', rs) -> Fine (s_file s').
  Proof.
    induction ops as [|o ops IH]; intros s s' rs F H; cbn [orun] in H; [injection H as <- _; exact F|].
    destruct (of_step e nul fuel o s) as [[s1 r]| |x|] eqn:E; cbn [bind] in H; try discriminate.
    destruct (orun (of_step e nul fuel) ops s1) as [[s2 rs2]| |x|] eqn:E2; cbn [bind] in H; try discriminate.
    injection H as <- _. exact (IH s1 s2 rs2 (keep_of_step fuel o _ _ _ F E) E2).
  Qed.
End WithEnv.

Section Destroy.
  Variable e : env.
  Variable nul : ptr.
  Hypothesis Henv : good_env e.
  Hypothesis Hlim : forall n, malloc_ok e n = true -> n <= 2 ^ 30.
  Variable fuel : nat.
  Hypothesis Hfuel : (33 <= fuel)%nat.

  (** flush() on a file that accepts data delivers what is pending in one go,
      whether or not it then runs out of memory. *)
  Lemma flush_fine s w : OInv e nul s w -> mcap (s_buf s) <= 2 ^ 30 -> Fine (s_file s) ->
    of_flush e nul fuel s = NoFuel \/
    exists s' r, of_flush e nul fuel s = Ok (s', r) /\ f_out (s_file s') = f_out (s_file s) ++ w.
  Proof.
    intros I Cb F. destruct fuel as [|fu]; [lia|]. destruct fu as [|fu]; [lia|]. 
    assert (G : match of_flush e nul (S (S fu)) s with NoFuel => True | Ok (s', _) => f_out (s_file s') = f_out (s_file s) ++ w | _ => False end).
    2:{ destruct (of_flush e nul (S (S fu)) s) as [[s' r]| |x|]; [right; eauto|contradiction|contradiction|left; reflexivity]. }
    cbn [of_flush]. unfold s_good at 1.
    pose proof I as (_ & Ps & St & Bf). rewrite St. cbn [Z.eqb andb].
    pose proof (OInv_bounds e nul s w I) as (Q1 & Q2 & Q3 & Q4 & Q5).
    destruct (Z.eqb_spec (s_pos s) 0) as [P0|P0]; cbn [negb].
    { destruct w; [rewrite app_nil_r; reflexivity|cbn [length] in Ps; lia]. }
    assert (Hcap : 2 <= mcap (s_buf s) /\ s_capacity s = mcap (s_buf s) - 1).
    { unfold s_capacity in *. destruct Bf as [(_ & _ & _ & _ & ->)|(b & cells & _ & _ & _ & Cc & _)]; [cbn [length] in *; lia|].
      replace (mcap (s_buf s) =? 0) with false by lia. lia. }
    unfold of_overflow at 1. unfold iobind at 1 2. destruct F as (F0 & Fx & Fa). unfold f_good. rewrite F0. cbn [Z.eqb andb].
    replace (u64 (s_capacity s - s_pos s) <? s_capacity s) with true by (rewrite u64_small by lia; lia).
    rewrite (OInv_load e nul Hlim s w I). cbn [bind]. rewrite determined_ok.
    destruct (fwrite w (s_file s)) as [[f' rr]| |x|] eqn:Ew.
    2:{ exfalso. pose proof (fwrite_ext [SErr] w (s_file s)) as X. rewrite Ew in X.
        destruct (fwrite_enough 0 w (more [SErr] (s_file s))) as (? & ? & E1 & _); [|unfold f_good; cbn [more f_state]; rewrite F0; reflexivity|exact Fx|congruence].
        split; [lia|]. unfold f_good. cbn [more f_state f_sched]. rewrite F0, errors_app. pose proof (errors_nonneg (f_sched (s_file s))). cbn [errors Z.eqb]. lia. }
    2:{ exfalso. pose proof (fwrite_ext [SErr] w (s_file s)) as X. rewrite Ew in X.
        destruct (fwrite_enough 0 w (more [SErr] (s_file s))) as (? & ? & E1 & _); [|unfold f_good; cbn [more f_state]; rewrite F0; reflexivity|exact Fx|congruence].
        split; [lia|]. unfold f_good. cbn [more f_state f_sched]. rewrite F0, errors_app. pose proof (errors_nonneg (f_sched (s_file s))). cbn [errors Z.eqb]. lia. }
    2:{ exact Logic.I. }
    destruct (fwrite_fine w (s_file s) f' rr (conj F0 (conj Fx Fa)) Ew) as (Ff & -> & Fo).
    assert (I2 : OInv e nul (sput_file f' s) w) by exact I.
    destruct (s_erase_front_ok e nul Henv Hlim _ w (length w) I2 (le_n _)) as (s1 & E1 & I1 & F1 & X1 & B1 & V1).
    rewrite E1. cbn [bind]. rewrite skipn_all in I1. cbn [sput_file s_file s_buf] in F1, B1.
    destruct (oss_overflow_ok e nul s1 [] (s_capacity s) I1 ltac:(lia)) as (s2 & r & E2 & J2 & F2 & X2 & G2 & R2).
    { cbn [length]. lia. }
    rewrite E2. cbn [bind]. destruct R2 as [(-> & R2 & _)|(-> & _)].
    - replace (s_remaining s2 =? 0) with false by lia. unfold s_good.
      destruct J2 as (_ & P2 & S2 & _). rewrite S2, P2. cbn [length Z.of_nat Z.eqb negb andb].
      rewrite F2, F1, Fo. reflexivity.
    - rewrite F2, F1, Fo. reflexivity.
  Qed.

  Lemma destroy_body sched s fd ops c : Ready e nul sched s -> moderate ops -> accepting sched ->
    forall l' rs, lrun e nul fuel (map LOp ops) (mkl s (Some fd) []) = Ok (l', rs) ->
    exists W, contributions ops (map fst rs) W /\
      l_destroy e nul fuel c l' <> UB /\
      forall l'', l_destroy e nul fuel c l' = Ok l'' ->
        l_fd l'' = None /\
        ((2 < fd)%nat -> l_done l'' = [(fd, W)]) /\
        ((fd <= 2)%nat -> l_done l'' = [] /\ f_out (s_file (l_s l'')) = W).
  Proof.
    intros (I & Cb & Fs & Fx & Fo & Fsc) HF HA l' rs H.
    set (v := repeat SErr (S (S (Z.to_nat (clears ops))))).
    assert (Hcl : 0 <= clears ops) by (unfold clears; lia).
    assert (H0 : FInv e nul [] (1 + clears ops) (smore v s) []).
    { exists [], []. split; [reflexivity|]. split; [exact I|]. cbn [smore sput_file s_file more f_out f_exc s_buf app].
      split; [exact Fo|]. split; [exact Fx|]. split; [exact Cb|]. split; [lia|].
      unfold f_good. cbn [f_state f_sched more]. rewrite Fs. cbn [Z.eqb]. rewrite errors_app. pose proof (errors_nonneg (f_sched (s_file s))).
      assert (errors v = 2 + clears ops) by (unfold v; rewrite errors_repeat; lia). lia. }
    destruct (of_run_ok e nul Henv Hlim [] fuel ops 1 (smore v s) [] H0 ltac:(lia) HF ltac:(lia)) as (s1 & rs1 & W & E & Ct & F1).
    cbn [app] in F1. pose proof (ext_of_run v e nul fuel ops s) as X.
    pose proof (lrun_ops e nul fuel fd [] ops s) as L.
    destruct (orun (of_step e nul fuel) ops s) as [[s0 rs0]| |x|] eqn:Er; [|congruence|congruence|congruence].
    rewrite E in X. injection X as X1 X2. subst s1 rs1. destruct L as (q & L & M). rewrite L in H. injection H as <- <-.
    exists W. rewrite M. split; [exact Ct|].
    destruct F1 as (A & w & EW & I1 & Fo1 & Fx1 & Cb1 & En1). cbn [smore sput_file s_file more f_out s_buf app] in Fo1, Cb1.
    assert (Ff : Fine (s_file s0)).
    { eapply keep_of_run; [|exact Er]. split; [exact Fs|]. split; [exact Fx|]. rewrite Fsc. exact HA. }
    destruct (flush_fine s0 w I1 Cb1 Ff) as [Ef|(s2 & r2 & Ef & Fo2)]; unfold l_destroy, on_stream, no_file; cbn [l_fd l_s l_done]; rewrite Ef; cbn [bind].
    { split; [discriminate|intros ? Hq; discriminate Hq]. }
    rewrite Fo1, <- EW in Fo2. cbn [l_fd].
    destruct (Nat.leb_spec fd 2) as [Hfd|Hfd].
    - split; [discriminate|]. intros l'' H. injection H as <-. cbn [l_fd l_done l_s]. split; [reflexivity|]. split; [lia|]. auto.
    - match goal with |- context [l_fclose c fd ?l0] => set (l1 := l0) end.
      assert (Hc : l_fclose c fd l1 = NoFuel \/ exists st, l_fclose c fd l1 = Ok (mkl (sput_file (mkf st 0 [] [] []) (l_s l1)) None [(fd, W)], Val tt)).
      { pose proof (file_close_val c fd (l_s l1) [] eq_refl) as Q. unfold file_close in Q. cbn [l_fd] in Q.
        change (mkl (l_s l1) (Some fd) []) with l1 in Q. destruct Q as [Q|(st & Q)]; [left; exact Q|right].
        exists st. rewrite Q. cbn [l1 l_s on_s sput_file s_file f_out app]. rewrite Fo2. reflexivity. }
      destruct Hc as [Hc|(st & Hc)]; rewrite Hc; cbn [bind].
      + split; [discriminate|intros ? Hq; discriminate Hq].
      + split; [discriminate|]. intros l'' H. injection H as <-. cbn [l_fd l_done]. split; [reflexivity|]. split; [auto|lia].
  Qed.
End Destroy.
