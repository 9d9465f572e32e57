(** * PosOut: ofstream writes at the offset its seeks have left. *)
From Verif Require Import Base UtilModel UtilProofs StoreModel StoreProofs VectorSpec MemModel MemSpec MemProofs StringModel StringFindModel StreamModel FileModel FileSpec FileProofs OStrModel OStrSpec OStrProofs OStrRun OStrFile OStrExt PosModel PosSpec PosProofs.
From Coq Require Import ZArith ZifyBool ZifyNat Lia.
Local Open Scope Z_scope.

(** The operating system may interrupt and delay, but no write fails. *)
Definition unfailing (r : sysres) : Prop := r <> SErr /\ r <> SOk 0.
Definition Q (f : file) : Prop := f_state f = 0 /\ f_exc f = 0 /\ Forall unfailing (f_sched f).
Lemma fwrite_Q l f f' r : Q f -> fwrite l f = Ok (f', r) -> Q f'.
Proof.
  intros (S & X & F) H. apply fwrite_loop_spec in H. destruct H as (c & u & H1 & H2 & H3 & H4 & H5 & H6).
  rewrite H5 in F. apply Forall_app in F. destruct F as (Fu & F'). split; [|split; [congruence|exact F']].
  destruct H6 as [(_ & _ & E & _)|(_ & v & x & -> & _ & Nx & E & _)]; [congruence|].
  apply Forall_app in Fu. destruct Fu as (_ & Fx). inversion Fx as [|? ? (Ux & U0) _]; subst.
  rewrite E, S. destruct x as [k| | |]; cbn [progress stop_bits] in *; try reflexivity; try tauto.
  destruct k as [|k]; [congruence|]. exfalso. apply Nx. lia.
Qed.
Definition Pres {A} (m : io ost A) : Prop := forall s s' r, Q (s_file s) -> m s = Ok (s', r) -> Q (s_file s').
Lemma p_ret {A} (a : A) : Pres (ret a). Proof. intros s s' r H E. injection E as <- _. exact H. Qed.
Lemma p_bind {A B} (m : io ost A) (k : A -> io ost B) : Pres m -> (forall a, Pres (k a)) -> Pres (iobind m k).
Proof.
  intros Hm Hk s s' r H E. unfold iobind in E. destruct (m s) as [[s1 [a|x]]| | |] eqn:M; cbn [bind] in E; try discriminate.
  - eapply Hk; [|exact E]. eapply Hm; eauto.
  - injection E as <- _. eapply Hm; eauto.
Qed.
Lemma p_same {A} (m : io ost A) : (forall s s' r, m s = Ok (s', r) -> s_file s' = s_file s) -> Pres m.
Proof. intros H s s' r HQ E. rewrite (H _ _ _ E). exact HQ. Qed.
Lemma p_at {A} (m : ost -> io ost A) : (forall s, Pres (m s)) -> Pres (fun s => m s s).
Proof. intros H s s' r HQ E. exact (H s s s' r HQ E). Qed.
Lemma p_on_buf f : Pres (on_buf f).
Proof. apply p_same. intros s s' r. unfold on_buf. destruct (f _ _) as [[h b]| | |]; intros E; try discriminate; try (injection E as <- _; reflexivity). Qed.
Lemma p_overrun r : Pres (s_overrun r).
Proof. apply p_same. intros s s' x. unfold s_overrun. destruct (_ =? 0); intros E; injection E as <- _; reflexivity. Qed.
Lemma p_verify n : Pres (s_verify n).
Proof.
  unfold s_verify. intros s s' r H. destruct (n <=? s_remaining s); [apply p_ret, H|].
  apply (p_bind (s_overrun (s_remaining s)) (fun _ => ret false)); [apply p_overrun|intros; apply p_ret|exact H].
Qed.
Lemma p_write l : Pres (s_write l).
Proof.
  unfold s_write. apply p_bind; [apply p_verify|]. intros []; [|apply p_ret]. apply p_same. intros s s' r.
  destruct (store_n _ _ _); intros E; try discriminate. injection E as <- _. reflexivity.
Qed.
Lemma p_vsnprintf t sp : Pres (vsnprintf t sp).
Proof. apply p_same. intros s s' r. unfold vsnprintf. destruct (sp <=? 0); [intros E; injection E as <- _; reflexivity|]. destruct (store_n _ _ _); intros E; try discriminate. injection E as <- _. reflexivity. Qed.
Section V.
  Variable ov : Z -> io ost Z.
  Hypothesis Hov : forall n, Pres (ov n).
  Lemma p_put c : Pres (os_put ov c).
  Proof.
    unfold os_put. intros s s' r H. destruct (1 <=? s_remaining s); [apply p_write, H|].
    apply (p_bind (ov 1) (fun r => if 1 <=? r then s_write [c] else ret tt)); [apply Hov| |exact H]. intros a. destruct (1 <=? a); [apply p_write|apply p_ret].
  Qed.
  Lemma p_write_loop : forall fuel l, Pres (os_write_loop ov fuel l).
  Proof.
    induction fuel as [|fuel IH]; intros l; [intros s s' r _ E; discriminate|]. cbn [os_write_loop]. apply p_bind.
    - intros s s' r H. destruct (_ =? 0); [apply Hov, H|intros E; injection E as <- _; exact H].
    - intros r. cbv zeta. destruct (_ =? 0); [apply p_ret|]. apply p_bind; [apply p_write|intros; apply IH].
  Qed.
  Lemma p_format_loop : forall fuel t, Pres (os_format_loop ov fuel t).
  Proof.
    induction fuel as [|fuel IH]; intros t; [intros s s' r _ E; discriminate|]. cbn [os_format_loop]. intros s s' r H.
    assert (Fin : forall k, Pres (fun s0 => Ok (sput_pos (s_pos s0 + k) s0, Val tt))) by (intros k; apply p_same; intros s0 s1 x E; injection E as <- _; reflexivity).
    refine (p_bind _ _ (p_vsnprintf t _) _ s s' r H). intros _. destruct (_ <? _); [apply Fin|]. apply p_bind; [apply Hov|]. intros q. destruct (_ <? _); [apply IH|apply Fin].
  Qed.
End V.
Section E.
  Variable e : env.
  Variable nul : ptr.
  Lemma p_oss_overflow n : Pres (oss_overflow e nul n).
  Proof.
    unfold oss_overflow. apply p_bind.
    - intros s s' r H. destruct (_ && _); [|apply p_ret, H].
      refine (p_bind _ _ _ (fun _ => p_bind _ _ _ (fun _ => p_bind _ _ _ (fun _ => _))) s s' r H); [apply p_on_buf|apply p_on_buf| |].
      + apply p_same. intros s0 s1 x E. injection E as <- _. reflexivity.
      + apply p_same. intros s0 s1 x E. injection E as <- _. reflexivity.
    - intros _. apply p_bind; [apply p_verify|]. intros _. apply p_same. intros s0 s1 x E. injection E as <- _. reflexivity.
  Qed.
  Lemma p_of_overflow n : Pres (of_overflow e nul n).
  Proof.
    unfold of_overflow. apply p_bind; [|intros; apply p_oss_overflow]. intros s s' r H. destruct (_ && _); [|apply p_ret, H].
    destruct (l <- load_n (s_heap s) (s_vptr s) (s_pos s) ;; determined l) as [l| | |]; try discriminate.
    destruct (fwrite l (s_file s)) as [[f [bw|x]]| | |] eqn:E; try discriminate; pose proof (fwrite_Q l _ f _ H E) as HQ.
    - intros E1. unfold s_erase_front in E1. destruct (rotate _ _ _ _ _ _); try discriminate. injection E1 as <- _. exact HQ.
    - intros E1. injection E1 as <- _. exact HQ.
  Qed.
  Lemma p_of_flush : forall fuel, Pres (of_flush e nul fuel).
  Proof.
    induction fuel as [|fuel IH]; intros s s' r H; [discriminate|]. cbn [of_flush]. destruct (_ && _); [|apply p_ret, H].
    apply (p_bind (of_overflow e nul (s_capacity s)) (fun r => if r =? 0 then ret tt else of_flush e nul fuel)); [apply p_of_overflow| |exact H].
    intros q. destruct (_ =? 0); [apply p_ret|apply IH].
  Qed.
  Lemma p_of_step fuel o : Pres (of_step e nul fuel o).
  Proof.
    destruct o; cbn [of_step]; [apply p_write_loop|apply p_put|apply p_format_loop|apply p_of_flush|]; try (intros; apply p_of_overflow).
    intros s s' r (S & X & F) E. injection E as <- _. repeat split; cbn; assumption.
  Qed.

  (** ** Histories *)
  Hypothesis Henv : good_env e.
  Hypothesis Hlim : forall n, malloc_ok e n = true -> n <= 2 ^ 30.
  Definition pclears (ops : list pop) : Z := clears (concat (map (fun o => match o with PoIo o => [o] | _ => [] end) ops)).
  Lemma pclears_cons o ops : pclears (o :: ops) = (match o with PoIo OClear => 1 | _ => 0 end) + pclears ops.
  Proof. unfold pclears, clears. destruct o as [[]| |]; cbn [map concat app filter length]; lia. Qed.
  Lemma pclears_nonneg ops : 0 <= pclears ops. Proof. unfold pclears, clears. lia. Qed.

  (** [W] is what was issued since the last seek. *)
  Definition PI (v : list sysres) (k : Z) (p : pof) (W : list Z) : Prop :=
    0 <= po_pos p /\ Q (s_file (po_s p)) /\ FInv e nul [] k (smore v (po_s p)) W.
  Lemma PI_written v k p W : PI v k p W -> exists w, W = po_written p ++ w /\ OInv e nul (po_s p) w /\ s_pos (po_s p) = size w.
  Proof.
    intros (_ & _ & A & w & -> & I & Fo & _). exists w. cbn [smore sput_file s_file more f_out app] in Fo. unfold po_written. rewrite Fo.
    assert (I' : OInv e nul (po_s p) w) by exact I. split; [reflexivity|]. split; [exact I'|]. destruct I' as (_ & Hp & _). exact Hp.
  Qed.
  Definition logical (p : pof) (W : list Z) : list Z * Z := (put_at (po_data p) (po_pos p) W, po_pos p + size W).

  Lemma edits_cons x o r y ops rs z : edits x [o] [r] y -> edits y ops rs z -> edits x (o :: ops) (r :: rs) z.
  Proof.
    intros H1 H2. inversion H1 as [|d p o0 d' ? ? ? Ho Ht|d p n w ? ? ? Ht|d p ? ? ? Ht]; subst; inversion Ht; subst.
    - eapply ed_io; [exact Ho|exact H2].
    - apply ed_seek. exact H2.
    - apply ed_tell. exact H2.
  Qed.
  (** One call: it changes the file as the unbuffered one would, or throws. *)
  Lemma po_step_ok v fuel o k p W rest : Z.of_nat fuel >= 33 -> PI v (k + match o with PoIo OClear => 1 | _ => 0 end) p W -> 0 <= k ->
    match o with PoIo o => Z.of_nat (length (bytes_of o)) < 2 ^ 30 | _ => True end ->
    seeks_ok (size (fst (logical p W))) (snd (logical p W)) (o :: rest) ->
    match po_step e nul fuel o p with
    | Ok (p1, Val x) => exists W1, edits (logical p W) [o] [x] (logical p1 W1) /\ PI v k p1 W1 /\
        seeks_ok (size (fst (logical p1 W1))) (snd (logical p1 W1)) rest /\ (o = PoIo OFlush -> s_pos (po_s p1) = 0)
    | Ok (_, Thrown x) => x = bad_alloc
    | NoFuel => True
    | _ => False
    end.
  Proof.
    intros Hf HP Hk Ho HS. pose proof HP as (Hp & HQ & HI).
    destruct o as [o|n w|]; cbn [po_step seeks_ok] in *.
    - (* output *)
      unfold iobind, on_stream. pose proof (ext_of_step v e nul fuel o (po_s p)) as X.
      destruct (of_step_ok e nul Henv Hlim [] _ fuel o (smore v (po_s p)) W HI Ho Hf) as (s1' & r' & E' & Po & Pf).
      { intros ->. lia. }
      assert (Ek : (match o with OClear => k + (match o with OClear => 1 | _ => 0 end) - 1 | _ => k + (match o with OClear => 1 | _ => 0 end) end) = k) by (destruct o; lia).
      rewrite Ek in Po.
      destruct (of_step e nul fuel o (po_s p)) as [[s1 r]| | |] eqn:E; cbn [bind]; try exact I; try congruence.
      rewrite X in E'. injection E' as <- <-.
      destruct r as [[]|x]; cbn [bind ret].
      2:{ destruct Po as [(Bad & _)|(Bad & _)]; [discriminate|]. injection Bad as ->. reflexivity. }
      destruct Po as [(_ & I1)|(Bad & _)]; [|discriminate].
      destruct (put_at_ok (fst (logical p W)) (snd (logical p W)) (bytes_of o)) as (Sz & Bt). { unfold logical. cbn [snd]. pose proof (size_nonneg W). lia. }
      assert (El : logical (mkpo (po_data p) (po_pos p) s1) (W ++ bytes_of o) = (put_at (fst (logical p W)) (snd (logical p W)) (bytes_of o), snd (logical p W) + size (bytes_of o))).
      { unfold logical. cbn [po_data po_pos fst snd]. rewrite put_at_app by exact Hp. rewrite size_app. f_equal. lia. }
      exists (W ++ bytes_of o). split; [|split; [|split]].
      + rewrite El. unfold logical at 1. eapply ed_io; [|apply ed_nil]. split; assumption.
      + split; [exact Hp|]. split; [exact (p_of_step fuel o _ _ _ HQ E)|exact I1].
      + rewrite El. cbn [fst snd]. rewrite Sz. exact HS.
      + intros Eo. injection Eo as ->. exact (Pf eq_refl eq_refl).
    - (* seek *)
      destruct HS as (Ht & HS). unfold po_seekp. unfold iobind at 1 2. unfold on_stream at 1.
      pose proof (ext_of_flush v e nul fuel (po_s p)) as X.
      destruct (of_flush_ok e nul Henv Hlim [] _ fuel (smore v (po_s p)) W HI) as (s1' & r' & E' & I1 & Rr).
      { pose proof (Z.log2_nonneg (mcap (s_buf (smore v (po_s p))))). lia. }
      destruct (of_flush e nul fuel (po_s p)) as [[s1 r]| | |] eqn:E; cbn [bind]; try exact I; try congruence.
      rewrite X in E'. injection E' as <- <-.
      destruct Rr as [(-> & P0)| ->]; [|reflexivity]. cbn [bind].
      pose proof (p_of_flush fuel _ _ _ HQ E) as HQ1.
      set (p1 := mkpo (po_data p) (po_pos p) s1) in *.
      assert (HP1 : PI v (k + 0) p1 W) by (split; [exact Hp|split; [exact HQ1|exact I1]]).
      destruct (PI_written _ _ _ _ HP1) as (b & EW & Ib & Eb). cbn [p1 po_s] in Eb. change (s_pos (smore v s1)) with (s_pos s1) in P0. rewrite P0 in Eb. symmetry in Eb. apply size_nil in Eb. subst b. rewrite app_nil_r in EW.
      assert (Lg : logical p W = (po_file p1, po_offset p1)). { unfold logical, po_file, po_offset. rewrite <- EW. reflexivity. }
      rewrite Lg in *. cbn [fst snd] in *. unfold size in Ht, HS. fold (size (po_file p1)) in HS.
      unfold iobind at 1, po_lseek. rewrite target_to. replace (seek_to (po_offset p1) (Z.of_nat (length (po_file p1))) n w <? 0) with false by lia. cbn [bind].
      set (t := seek_to (po_offset p1) (Z.of_nat (length (po_file p1))) n w) in *.
      destruct HQ1 as (Q1 & Q2 & Q3). cbn [p1 po_s]. unfold on_stream, of_clear. cbn [po_s sput_file s_file f_state f_exc f_out f_in f_sched po_data po_pos bind ret]. rewrite Q1, Q2.
      match goal with |- exists W1, edits _ _ _ (logical ?q _) /\ _ => set (p2 := q) end.
      assert (El : logical p2 [] = (po_file p1, t)) by (unfold logical, p2; cbn [po_data po_pos put_at size length Z.of_nat]; f_equal; lia).
      exists []. split; [|split; [|split; [|discriminate]]].
      + rewrite El. apply (ed_seek (po_file p1) (po_offset p1) n w [] [] (po_file p1, t)). apply ed_nil.
      + split; [exact Ht|]. split; [split; [reflexivity|split; [reflexivity|exact Q3]]|].
        destruct I1 as (A & w1 & EW1 & I2 & Fo & Fx & Cb & En). rewrite EW in EW1.
        assert (w1 = []). { destruct I2 as (_ & Hq & _). change (s_pos (smore v s1)) with (s_pos s1) in Hq. rewrite P0 in Hq. apply size_nil. unfold size. lia. } subst w1.
        exists [], []. split; [reflexivity|]. split.
        { destruct I2 as (J1 & J2 & J3 & J4). split; [exact J1|]. split; [exact J2|]. split; [reflexivity|exact J4]. }
        split; [reflexivity|]. split; [reflexivity|]. split; [exact Cb|].
        cbn [smore sput_file sput_state s_file more p2 po_s]. unfold enough, f_good in *. cbn [smore sput_file s_file more f_state f_sched Z.eqb] in *. rewrite Q1 in En. cbn [Z.eqb] in En. lia.
      + rewrite El. cbn [fst snd]. exact HS.
    - (* tell *)
      unfold iobind, po_tellp. cbn [bind ret]. destruct (PI_written _ _ _ _ HP) as (b & EW & Ib & Eb). rewrite Z.add_0_r in HP.
      exists W. split; [|split; [exact HP|split; [exact HS|discriminate]]].
      unfold logical at 1. replace (po_offset p + s_pos (po_s p)) with (po_pos p + size W); [apply ed_tell; apply ed_nil|].
      rewrite Eb. unfold po_offset. rewrite EW, size_app. unfold size. lia.
  Qed.
  Lemma po_run_ok v fuel ops : forall k p W, Z.of_nat fuel >= 33 -> PI v (k + pclears ops) p W -> 0 <= k ->
    Forall (fun o => match o with PoIo o => Z.of_nat (length (bytes_of o)) < 2 ^ 30 | _ => True end) ops ->
    seeks_ok (size (fst (logical p W))) (snd (logical p W)) ops ->
    match po_run e nul fuel ops p with
    | Ok (p', Val xs) => exists W', edits (logical p W) ops xs (logical p' W') /\ PI v k p' W' /\ (forall os, ops = os ++ [PoIo OFlush] -> s_pos (po_s p') = 0)
    | Ok (_, Thrown x) => x = bad_alloc
    | NoFuel => True
    | _ => False
    end.
  Proof.
    induction ops as [|o ops IH]; intros k p W Hf HP Hk HF HS; cbn [po_run].
    { exists W. split; [constructor|]. unfold pclears in HP. cbn in HP. rewrite Z.add_0_r in HP. split; [exact HP|]. intros [|? ?]; discriminate. }
    inversion HF as [|? ? Ho HF']; subst. pose proof (pclears_nonneg ops) as Hcl. rewrite pclears_cons in HP.
    pose proof (po_step_ok v fuel o (k + pclears ops) p W ops Hf) as S. 
    replace (k + pclears ops + match o with PoIo OClear => 1 | _ => 0 end) with (k + (match o with PoIo OClear => 1 | _ => 0 end + pclears ops)) in S by lia.
    specialize (S HP ltac:(lia) Ho HS). unfold iobind at 1.
    destruct (po_step e nul fuel o p) as [[p1 [x|x]]| | |]; cbn [bind]; try exact S.
    destruct S as (W1 & Ed & HP1 & HS1 & Fl). unfold iobind. specialize (IH k p1 W1 Hf HP1 Hk HF' HS1).
    destruct (po_run e nul fuel ops p1) as [[p2 [xs|y]]| | |] eqn:R; cbn [bind ret]; try exact IH.
    destruct IH as (W2 & Ed2 & HP2 & Fl2). exists W2. split; [eapply edits_cons; eauto|]. split; [exact HP2|].
    intros os Eo. destruct os as [|o' os]; cbn [app] in Eo; injection Eo as -> Eo.
    - subst ops. cbn [po_run] in R. injection R as <- _. apply Fl. reflexivity.
    - apply (Fl2 os Eo).
  Qed.
End E.
