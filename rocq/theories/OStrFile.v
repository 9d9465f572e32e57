(** * OStrFile: ofstream hands its bytes to the file in order. *)
From Verif Require Import Base UtilModel UtilProofs StoreModel StoreProofs VectorSpec MemModel MemSpec MemProofs StringModel StringFindModel StreamModel FileModel FileSpec FileProofs OStrModel OStrSpec OStrProofs OStrRun.
From Coq Require Import ZArith ZifyBool ZifyNat Lia.
Local Open Scope Z_scope.

(** How many failures the operating system still has in store. *)
Fixpoint errors (l : list sysres) : Z :=
  match l with [] => 0 | SErr :: t => 1 + errors t | _ :: t => errors t end.
Lemma errors_app a b : errors (a ++ b) = errors a + errors b.
Proof. induction a as [|[] a IH]; cbn [app errors]; lia. Qed.
Lemma errors_nonneg a : 0 <= errors a.
Proof. induction a as [|[] a IH]; cbn [errors]; lia. Qed.
Lemma errors_progress a : Forall progress a -> errors a = 0.
Proof. induction 1 as [|[] a H F IH]; cbn [errors progress] in *; try contradiction; lia. Qed.
Lemma errors_in a : 1 <= errors a -> In SErr a.
Proof. induction a as [|[] a IH]; cbn [errors In]; intros; try (right; apply IH; lia); [lia|left; reflexivity]. Qed.

Definition enough (k : Z) (f : file) : Prop := 0 <= k /\ k + (if f_good f then 1 else 0) <= errors (f_sched f).

Lemma fwrite_loop_total : forall fuel l bw f, In SErr (f_sched f) -> (length (f_sched f) < fuel)%nat ->
  exists f' r, fwrite_loop fuel l bw f = Ok (f', r).
Proof.
  induction fuel as [|fuel IH]; intros l bw f Hin Hf; [lia|]. cbn [fwrite_loop]. destruct l as [|b l]; [eexists _, _; reflexivity|].
  unfold iobind at 1, sys_write. destruct f as [st ex out inp [|q sched]]; cbn [f_sched f_state f_exc f_out f_in] in *; [destruct Hin|].
  assert (Hff : forall b0 x g, exists f' r, (_ <~ f_fail b0 x ;; ret bw) g = Ok (f', r)).
  { intros b0 x g. unfold iobind, f_fail. destruct (_ =? 0); eexists _, _; reflexivity. }
  cbn [length] in Hf.
  destruct q as [k| | |]; cbn [bind].
  - destruct (Nat.min k (length (b :: l))); [apply Hff|]. apply IH; cbn [f_sched]; [|lia]. destruct Hin as [Hin|Hin]; [discriminate|exact Hin].
  - apply IH; cbn [f_sched]; [|lia]. destruct Hin as [Hin|Hin]; [discriminate|exact Hin].
  - eexists _, _; reflexivity.
  - apply Hff.
Qed.

Lemma fwrite_enough k l f : enough k f -> f_good f = true -> f_exc f = 0 ->
  exists f' c, fwrite l f = Ok (f', Val c) /\ (c <= length l)%nat /\ f_out f' = f_out f ++ firstn c l /\ f_exc f' = 0 /\ enough k f'.
Proof.
  intros (Hk & He) G X. rewrite G in He.
  destruct (fwrite_loop_total (S (length (f_sched f))) l 0 f) as (f' & r & E); [apply errors_in; lia|lia|].
  pose proof E as Q. apply fwrite_loop_spec in Q. destruct Q as (c & u & H1 & H2 & H3 & H4 & H5 & H6).
  exists f', c. unfold fwrite. rewrite E. unfold f_good in *.
  rewrite H5, errors_app in He.
  destruct H6 as [(-> & -> & Hs & HF)|(Hlt & v & x & -> & HF & Hx & Hs & Hr)].
  - split; [reflexivity|]. split; [exact H1|]. split; [exact H2|]. split; [congruence|]. split; [exact Hk|].
    rewrite (errors_progress u HF) in He. unfold f_good. rewrite Hs, G. lia.
  - rewrite X in Hr. cbn [Z.land Z.eqb] in Hr. rewrite Hr. split; [reflexivity|]. split; [exact H1|]. split; [exact H2|]. split; [congruence|].
    split; [exact Hk|]. rewrite errors_app, (errors_progress v HF) in He. unfold f_good. rewrite Hs.
    assert (Z0 : f_state f = 0) by lia. rewrite Z0. rewrite Z.lor_0_l.
    destruct x as [j| | |]; cbn [errors stop_bits] in *; cbn; lia.
Qed.

Lemma app_inj_tail_len (A w A' w' : list Z) : A ++ w = A' ++ w' -> length w = length w' -> A = A' /\ w = w'.
Proof.
  intros E L. assert (LA : length A = length A') by (apply (f_equal (@length _)) in E; rewrite !app_length in E; lia).
  revert A' LA E. induction A as [|a A IH]; intros [|b A'] LA E; cbn [length] in LA; try lia; cbn [app] in E.
  - auto.
  - injection E as -> E. destruct (IH A' ltac:(lia) E) as (-> & ->). auto.
Qed.

Section WithEnv.
  Variable e : env.
  Variable nul : ptr.
  Hypothesis Henv : good_env e.
  Hypothesis Hlim : forall n, malloc_ok e n = true -> n <= 2 ^ 30.

  Lemma determined_ok w : determined (map Some w) = Ok w.
  Proof. induction w as [|x w IH]; cbn [map determined]; [reflexivity|]. rewrite IH. reflexivity. Qed.

  Lemma OInv_load s w : OInv e nul s w -> load_n (s_heap s) (s_vptr s) (s_pos s) = Ok (map Some w).
  Proof.
    intros I. pose proof (OInv_bounds e nul s w I) as (B1 & B2 & B3 & B4 & B5). destruct I as (Hnul & P & St & B).
    rewrite P. destruct w as [|x w]; [reflexivity|].
    destruct B as [(C & Pm & Ms & V & Q)|(b & cells & Pm & Ho & C & Cb & F & V & Vp)]; [discriminate|].
    destruct Vp as [Vp|Vp]; [|cbn [length] in *; lia]. rewrite Vp. unfold Own in Ho.
    eapply (load_ok' (s_heap s) b _ 0 _ [] _ (skipn (length (x :: w)) cells) Ho); [reflexivity| |reflexivity|rewrite map_length; reflexivity].
    cbn [bcells app]. rewrite <- F. symmetry. apply firstn_skipn.
  Qed.

  Lemma s_erase_front_ok s w c : OInv e nul s w -> (c <= length w)%nat ->
    exists s', s_erase_front e (Z.of_nat c) s = Ok (s', Val tt) /\ OInv e nul s' (skipn c w) /\ s_file s' = s_file s /\
      s_exc s' = s_exc s /\ s_buf s' = s_buf s /\ s_vsize s' = s_vsize s.
  Proof.
    intros I Hc. pose proof (OInv_bounds e nul s w I) as (B1 & B2 & B3 & B4 & B5). pose proof I as (Hnul & P & St & B).
    unfold s_erase_front.
    assert (Hp : u64 (s_pos s - Z.of_nat c) = Z.of_nat (length (skipn c w))) by (rewrite skipn_length, u64_small; lia).
    destruct c as [|c0].
    - unfold rotate. cbn [Z.of_nat Z.eqb orb]. eexists. split; [reflexivity|]. cbn [skipn] in *.
      split; [|auto]. split; [exact Hnul|]. split; [exact Hp|]. split; [exact St|exact B].
    - set (c := S c0) in *. assert (1 <= c)%nat by lia.
      destruct B as [(C & Pm & Ms & V & ->)|(b & cells & Pm & Ho & C & Cb & F & V & Vp)]; [cbn [length] in *; lia|].
      destruct Vp as [Vp|Vp]; [|lia].
      set (X := firstn c cells). set (Y := firstn (Z.to_nat (s_vsize s) - c) (skipn c cells)). set (r := skipn (Z.to_nat (s_vsize s) - c) (skipn c cells)).
      assert (Hs : cells = [] ++ X ++ Y ++ r) by (unfold X, Y, r; cbn [app]; rewrite !firstn_skipn; reflexivity).
      assert (LX : length X = c) by (unfold X; rewrite firstn_length; lia).
      assert (LY : length Y = (Z.to_nat (s_vsize s) - c)%nat) by (unfold Y; rewrite firstn_length, skipn_length; lia).
      destruct (rotate_ok e Henv (s_heap s) (mkmb (Some (b, 0)) 0 (mcap (s_buf s))) [] X Y r) with (b := b) as (h' & E & W).
      { cbn [mcap]. lia. }
      { rewrite <- Hs. cbn [mcap]. lia. }
      { reflexivity. }
      { rewrite <- Hs. cbn [mcap]. rewrite C. exact Ho. }
      { right; right. unfold rot_good. cbn [length]. rewrite LX, LY. change (Z.of_nat 0) with 0. change (0 mod 4 =? 0) with true. rewrite orb_true_r, andb_true_r.
        assert (Z.of_nat (0 + c) mod 4 <= Z.of_nat (0 + c) - 0) by (rewrite Z.sub_0_r; apply Z.mod_le; lia). lia. }
      cbn [length mptr] in E. rewrite LX, LY in E. change (Z.of_nat 0) with 0 in E.
      replace (Z.of_nat (0 + c)) with (Z.of_nat c) in E by lia. replace (Z.of_nat (0 + c + (Z.to_nat (s_vsize s) - c))) with (s_vsize s) in E by lia.
      rewrite Vp, E. eexists. split; [reflexivity|]. split; [|auto].
      assert (Lc : length (Y ++ X ++ r) = length cells) by (rewrite Hs, !app_length; cbn [length]; lia).
      split; [eapply nul_set; [exact Hnul|exact Ho|reflexivity|exact W]|]. split; [exact Hp|]. split; [exact St|].
      right. exists b, (Y ++ X ++ r). cbn [sput_pos sput_mem s_buf s_heap s_vsize s_vptr].
      split; [exact Pm|]. split; [unfold Own; rewrite Lc, <- C; destruct W as (_ & W & _); exact W|]. split; [lia|]. split; [exact Cb|].
      split; [|split; [rewrite skipn_length; lia|left; exact Vp]].
      rewrite skipn_length. rewrite firstn_app. replace (length w - c - length Y)%nat with 0%nat by lia. cbn [firstn]. rewrite app_nil_r.
      unfold Y. rewrite firstn_firstn. replace (Nat.min (length w - c) (Z.to_nat (s_vsize s) - c)) with (length w - c)%nat by lia.
      rewrite <- skipn_map, <- F, firstn_skipn_comm. do 2 f_equal. lia.
  Qed.

  (** [W] is what was issued, [out0] what the file held before. *)
  Definition FInv (out0 : list Z) (k : Z) (s : ost) (W : list Z) : Prop :=
    exists A w, W = A ++ w /\ OInv e nul s w /\ f_out (s_file s) = out0 ++ A /\ f_exc (s_file s) = 0 /\
      mcap (s_buf s) <= 2 ^ 30 /\ enough k (s_file s).

  Lemma of_overflow_ok out0 k s W n : FInv out0 k s W -> 0 <= n <= 2 ^ 30 ->
    exists s' r, of_overflow e nul n s = Ok (s', r) /\ FInv out0 k s' W /\
      Grown e (mcap (s_buf s)) (mcap (s_buf s')) /\
      ((r = Val (s_remaining s') /\ n <= s_remaining s') \/ r = Thrown bad_alloc).
  Proof.
    intros (A & w & -> & I & Fo & Fx & Cb & En) Hn. unfold of_overflow. unfold iobind at 1.
    assert (Hpre : exists s1 w1 A1, (if f_good (s_file s) && (u64 (s_capacity s - s_pos s) <? n) then
              match (l <- load_n (s_heap s) (s_vptr s) (s_pos s) ;; determined l) with
              | Ok l =>
                  match fwrite l (s_file s) with
                  | Ok (f, Val bw) => s_erase_front e (Z.of_nat bw) (sput_file f s)
                  | Ok (f, Thrown x) => Ok (sput_file f s, Thrown x)
                  | UB => UB | Exn x => Exn x | NoFuel => NoFuel
                  end
              | _ => UB
              end
            else Ok (s, Val tt)) = Ok (s1, Val tt) /\ A ++ w = A1 ++ w1 /\ OInv e nul s1 w1 /\ f_out (s_file s1) = out0 ++ A1 /\
              f_exc (s_file s1) = 0 /\ s_buf s1 = s_buf s /\ enough k (s_file s1)).
    { destruct (f_good (s_file s) && (u64 (s_capacity s - s_pos s) <? n)) eqn:G.
      2:{ exists s, w, A. auto 10. }
      apply andb_prop in G. destruct G as (G & _). rewrite (OInv_load s w I). cbn [bind]. rewrite determined_ok.
      destruct (fwrite_enough k w (s_file s) En G Fx) as (f' & c & E & Hc & Ho & Hx & En').
      rewrite E. assert (I2 : OInv e nul (sput_file f' s) w) by exact I.
      destruct (s_erase_front_ok _ w c I2 Hc) as (s1 & E1 & I1 & F1 & X1 & B1 & V1).
      exists s1, (skipn c w), (A ++ firstn c w). split; [exact E1|]. rewrite F1. cbn [sput_file s_file].
      split; [rewrite <- app_assoc, firstn_skipn; reflexivity|]. split; [exact I1|]. split; [rewrite Ho, Fo, app_assoc; reflexivity|]. auto. }
    destruct Hpre as (s1 & w1 & A1 & E & EW & I1 & Fo1 & Fx1 & B1 & En1). rewrite E. cbn [bind].
    pose proof (OInv_bounds e nul s1 w1 I1) as (Q1 & Q2 & Q3 & Q4 & Q5). unfold s_capacity in Q5. rewrite B1 in Q5.
    destruct (oss_overflow_ok e nul s1 w1 n I1 ltac:(lia)) as (s2 & r & E2 & I2 & F2 & X2 & G2 & R2).
    { clear - Q1 Q2 Q3 Q4 Q5 Cb Hn. destruct (Z.eqb_spec (mcap (s_buf s)) 0) in Q5; [lia|]. lia. }
    exists s2, r. split; [exact E2|]. rewrite B1 in G2. split; [|split; [exact G2|]].
    - exists A1, w1. split; [exact EW|]. split; [exact I2|]. rewrite F2. split; [exact Fo1|]. split; [exact Fx1|].
      split; [|exact En1]. destruct G2 as [->|(_ & M & _)]; [exact Cb|]. apply Hlim. exact M.
    - destruct R2 as [(-> & R2 & _)|(-> & _)]; auto.
  Qed.

  Lemma FInv_log s out0 k W : FInv out0 k s W -> Z.log2 (mcap (s_buf s)) <= 30.
  Proof.
    intros (A & w & -> & I & Fo & Fx & Cb & En). pose proof (OInv_bounds e nul s w I) as (_ & _ & _ & Q4 & _).
    assert (Z.log2 (mcap (s_buf s)) <= Z.log2 (2 ^ 30)) by (apply Z.log2_le_mono; lia). rewrite Z.log2_pow2 in H by lia. exact H.
  Qed.

  Lemma of_flush_ok out0 k : forall fuel s W, FInv out0 k s W ->
    Z.of_nat fuel + Z.log2 (mcap (s_buf s)) >= 33 ->
    exists s' r, of_flush e nul fuel s = Ok (s', r) /\ FInv out0 k s' W /\
      ((r = Val tt /\ s_pos s' = 0) \/ r = Thrown bad_alloc).
  Proof.
    induction fuel as [|fuel IH]; intros s W H Hf.
    { pose proof (FInv_log s out0 k W H). lia. }
    pose proof (FInv_log s out0 k W H) as HL.
    pose proof H as (A & w & EW & I & Fo & Fx & Cb & En). cbn [of_flush]. unfold s_good.
    pose proof I as (_ & Ps & St & Bf). rewrite St. cbn [Z.eqb andb].
    destruct (Z.eqb_spec (s_pos s) 0) as [P0|P0]; cbn [negb].
    { exists s, (Val tt). split; [reflexivity|]. split; [exact H|]. left. auto. }
    pose proof (OInv_bounds e nul s w I) as (Q1 & Q2 & Q3 & Q4 & Q5).
    assert (Hcap : 2 <= mcap (s_buf s) /\ s_capacity s = mcap (s_buf s) - 1).
    { unfold s_capacity in *. destruct Bf as [(_ & _ & _ & _ & ->)|(b & cells & _ & _ & _ & Cc & _)]; [cbn [length] in *; lia|].
      replace (mcap (s_buf s) =? 0) with false by lia. lia. }
    destruct Hcap as (Hc2 & Hcap).
    unfold iobind. destruct (of_overflow_ok out0 k s W (s_capacity s) H ltac:(lia)) as (s1 & r & E & H1 & G & R). rewrite E. cbn [bind].
    destruct R as [(-> & R)| ->].
    2:{ exists s1, (Thrown bad_alloc). split; [reflexivity|]. split; [exact H1|]. auto. }
    replace (s_remaining s1 =? 0) with false by lia.
    pose proof H1 as (A1 & w1 & EW1 & I1 & Fo1 & Fx1 & Cb1 & En1). pose proof (OInv_bounds e nul s1 w1 I1) as (S1 & S2 & S3 & S4 & S5).
    pose proof I1 as (_ & Ps1 & St1 & Bf1).
    destruct (Z.eq_dec (s_pos s1) 0) as [P1|P1].
    - destruct fuel as [|fuel]; [lia|]. cbn [of_flush]. unfold s_good. rewrite St1, P1. cbn [Z.eqb negb andb].
      exists s1, (Val tt). split; [reflexivity|]. split; [exact H1|]. left. auto.
    - apply IH; [exact H1|]. destruct G as [G|(G & _ & j & Ej & Hj)].
      + exfalso. unfold s_capacity in S5. rewrite G in S5. replace (mcap (s_buf s) =? 0) with false in S5 by lia. lia.
      + rewrite Ej. rewrite Z.log2_pow2 by lia.
        assert (Z.log2 (mcap (s_buf s)) < j). { apply Z.log2_lt_pow2; lia. } lia.
  Qed.

  Definition of_B (W : list Z) (n : Z) : Prop := n <= 2 ^ 30.

  Lemma of_step_ok out0 k fuel o s W : FInv out0 k s W -> Z.of_nat (length (bytes_of o)) < 2 ^ 30 -> Z.of_nat fuel >= 33 ->
    (o = OClear -> 1 <= k) ->
    exists s' r, of_step e nul fuel o s = Ok (s', r) /\
      Post (FInv out0 (match o with OClear => k - 1 | _ => k end)) True s' r W (bytes_of o) /\
      (o = OFlush -> r = Val tt -> s_pos s' = 0).
  Proof.
    intros H Hb Hfuel Hk.
    assert (P_inv : forall s W, FInv out0 k s W -> exists A w, W = A ++ w /\ OInv e nul s w)
      by (intros s0 W0 (A & w & E & I & _); eauto).
    assert (P_write : forall s A w s' l, FInv out0 k s (A ++ w) -> OInv e nul s w -> OInv e nul s' (w ++ l) -> s_file s' = s_file s -> s_exc s' = s_exc s ->
      s_buf s' = s_buf s -> FInv out0 k s' ((A ++ w) ++ l)).
    { intros s0 A w s' l (A' & w' & E & I & Fo & Fx & Cb & En) I0 I1 F _ B.
      assert (L : length w = length w') by (eapply OInv_len; eauto).
      apply app_inj_tail_len in E; [|exact L]. destruct E as (<- & <-).
      exists A, (w ++ l). split; [rewrite app_assoc; reflexivity|]. split; [exact I1|]. rewrite F, B. auto. }
    assert (P_same : forall s W s', FInv out0 k s W -> (forall w, OInv e nul s w -> OInv e nul s' w) -> s_file s' = s_file s -> s_exc s' = s_exc s ->
      s_buf s' = s_buf s -> FInv out0 k s' W).
    { intros s0 W0 s' (A' & w' & E & I & Fo & Fx & Cb & En) HI F _ B. exists A', w'. rewrite F, B. auto 10. }
    assert (B_mono : forall W l n, of_B W (Z.of_nat (length l) + n) -> 0 <= n -> of_B (W ++ l) n)
      by (intros W0 l n; unfold of_B; lia).
    assert (B_len : forall W n, of_B W n -> n < 2 ^ 31) by (unfold of_B; intros; lia).
    assert (ov_ok : forall s W n, FInv out0 k s W -> 0 <= n -> of_B W n ->
      exists s' r, of_overflow e nul n s = Ok (s', r) /\ FInv out0 k s' W /\
        ((r = Val (s_remaining s') /\ n <= s_remaining s') \/ (r = Thrown bad_alloc /\ True))).
    { intros s0 W0 n H0 Hn Hbb. destruct (of_overflow_ok out0 k s0 W0 n H0) as (s' & r & E & I' & _ & R); [unfold of_B in Hbb; lia|].
      exists s', r. split; [exact E|]. split; [exact I'|]. destruct R as [R| ->]; auto. }
    destruct o as [l|c|t| |]; cbn [of_step bytes_of] in *.
    - destruct (os_write_ok e nul (of_overflow e nul) (FInv out0 k) of_B True P_inv P_write P_same B_mono B_len ov_ok s W l H) as (s' & r & E & Q); [unfold of_B; lia|]. exists s', r. split; [exact E|]. split; [exact Q|discriminate].
    - destruct (os_put_ok e nul (of_overflow e nul) (FInv out0 k) of_B True P_inv P_write P_same B_mono B_len ov_ok s W c H) as (s' & r & E & Q); [unfold of_B; lia|]. exists s', r. split; [exact E|]. split; [exact Q|discriminate].
    - destruct (os_format_ok e nul (of_overflow e nul) (FInv out0 k) of_B True P_inv P_write P_same B_mono B_len ov_ok s W t H) as (s' & r & E & Q); [unfold of_B; lia|]. exists s', r. split; [exact E|]. split; [exact Q|discriminate].
    - destruct (of_flush_ok out0 k fuel s W H) as (s' & r & E & H' & R).
      { pose proof (Z.log2_nonneg (mcap (s_buf s))). lia. }
      exists s', r. split; [exact E|]. destruct R as [(-> & R)| ->].
      + split; [left; rewrite app_nil_r; auto|auto].
      + split; [|discriminate]. right. split; [reflexivity|]. split; [exact I|]. exists [], []. split; [reflexivity|]. rewrite app_nil_r. exact H'.
    - eexists _, (Val tt). split; [reflexivity|]. split; [|discriminate]. left. rewrite app_nil_r. split; [reflexivity|].
      destruct H as (A & w & -> & I & Fo & Fx & Cb & (K0 & En)). exists A, w. split; [reflexivity|].
      split. { destruct I as (I1 & I2 & I3 & I4). split; [exact I1|]. split; [exact I2|]. split; [reflexivity|exact I4]. }
      cbn [sput_state sput_file s_file s_buf f_out f_exc]. split; [exact Fo|]. split; [exact Fx|]. split; [exact Cb|].
      specialize (Hk eq_refl). split; [lia|]. unfold f_good. cbn [f_state f_sched Z.eqb]. destruct (f_good (s_file s)); lia.
  Qed.

  Definition clears (ops : list oop) : Z := Z.of_nat (length (filter (fun o => match o with OClear => true | _ => false end) ops)).

  Lemma of_run_ok out0 fuel ops : forall k s W, FInv out0 (k + clears ops) s W -> 0 <= k ->
    Forall (fun o => Z.of_nat (length (bytes_of o)) < 2 ^ 30) ops -> Z.of_nat fuel >= 33 ->
    exists s' rs W', orun (of_step e nul fuel) ops s = Ok (s', rs) /\ contributions ops rs W' /\ FInv out0 k s' (W ++ W').
  Proof.
    induction ops as [|o ops IH]; intros k s W H Hk HF Hfuel.
    - exists s, [], []. split; [reflexivity|]. split; [constructor|]. rewrite app_nil_r. unfold clears in H. cbn in H. rewrite Z.add_0_r in H. exact H.
    - inversion HF as [|? ? Ho HF']; subst. cbn [orun].
      assert (Hcl : 0 <= clears ops) by (unfold clears; lia).
      destruct (of_step_ok out0 (k + clears (o :: ops)) fuel o s W H Ho Hfuel) as (s1 & r & E & Q & _).
      { intros ->. unfold clears. cbn [filter length]. lia. }
      replace (match o with OClear => k + clears (o :: ops) - 1 | _ => k + clears (o :: ops) end) with (k + clears ops) in Q
        by (unfold clears; destruct o; cbn [filter length]; lia).
      rewrite E. cbn [bind].
      destruct Q as [(-> & I1)|(-> & _ & p & q & Eq & I1)].
      + destruct (IH k s1 _ I1 Hk HF' Hfuel) as (s' & rs & W' & E' & C' & I').
        rewrite E'. cbn [bind]. exists s', (Val tt :: rs), (bytes_of o ++ W'). split; [reflexivity|].
        split; [constructor; [reflexivity|exact C']|]. rewrite app_assoc; exact I'.
      + destruct (IH k s1 _ I1 Hk HF' Hfuel) as (s' & rs & W' & E' & C' & I').
        rewrite E'. cbn [bind]. exists s', (Thrown bad_alloc :: rs), (p ++ W'). split; [reflexivity|].
        split; [constructor; [split; [reflexivity|exists q; exact Eq]|exact C']|]. rewrite app_assoc; exact I'.
  Qed.

  Lemma of_default_ok h f : has_nul h nul -> malloc_ok e 4096 = true ->
    exists s, of_default e nul h f = Ok s /\ OInv e nul s [] /\ s_file s = f /\ mcap (s_buf s) = 4096.
  Proof.
    intros Hn M. destruct (oss_default_ok e nul h f Hn) as (s & E & I & F & X & C). unfold of_default. rewrite E. cbn [bind].
    destruct I as (I1 & I2 & I3 & [(B1 & B2 & B3 & B4 & _)|(b & cells & B1 & B2 & B3 & B4 & _)]); [|lia].
    assert (Eb : s_buf s = mkmb nul 0 0) by (destruct (s_buf s); cbn in *; congruence).
    rewrite Eb. destruct (reserve_nul e nul (s_heap s) 4095 I1 ltac:(lia) ltac:(lia)) as [(M' & _)|(_ & h1 & b1 & c1 & R & O1 & L1 & N1)].
    { change (next_pow2 (4095 + 1)) with 4096 in M'. congruence. }
    change (next_pow2 (4095 + 1)) with 4096 in *. rewrite R. cbn [bind]. eexists. split; [reflexivity|].
    split; [|split; [exact F|reflexivity]]. split; [exact N1|]. split; [exact I2|]. split; [exact I3|]. right.
    exists b1, c1. cbn [sput_mem s_buf s_heap s_vsize s_vptr mptr mcap length map firstn].
    split; [reflexivity|]. split; [exact O1|]. split; [lia|]. split; [lia|]. split; [reflexivity|]. split; [lia|right; exact B4].
  Qed.
End WithEnv.
