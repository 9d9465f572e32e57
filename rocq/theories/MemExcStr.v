(** * MemExcStr: histories of strings with failing allocations. *)
From Verif Require Import Base UtilModel UtilProofs StoreModel StoreProofs VectorSpec MemModel MemSpec MemProofs MemRun
  StringModel StringSpec StringProofs StringRun MemExcModel MemExcSpec MemExcProofs.
From Coq Require Import ZArith ZifyBool ZifyNat.
Local Open Scope Z_scope.

(** As [xdoes], with the state an exception leaves given. *)
Definition xdoes2 (x : list bool -> outcome (mwstate * mend)) (r rf : outcome mstate) : Prop :=
  forall ans h' ms' hf msf, r = Ok (h', ms') -> rf = Ok (hf, msf) -> exists t,
    (x ans = Ok (mkmws h' ms' t, Returned) /\ refused ans = refused t) \/
    (x ans = Ok (mkmws hf msf t, NoMemory) /\ refused ans = S (refused t)).

Lemma xdoes_2 x s r : xdoes x s r -> xdoes2 x r (Ok s).
Proof. intros D ans h' ms' hf msf E F. injection F as ->. exact (D ans h' ms' E). Qed.

Lemma with_does2 h ms j (kx : list bool -> mb -> outcome (mwstate * mend)) k rf :
  (forall x, nth_error ms j = Some x -> xdoes2 (fun ans => kx ans x) (k x) rf) ->
  xdoes2 (fun ans => x_with (mkmws h ms ans) j (kx ans)) (with_str (h, ms) j k) rf.
Proof.
  intros D ans h' ms' hf msf E F. unfold with_str in E. unfold x_with. cbn [xms snd] in *.
  destruct (rd ms j) as [x| | |] eqn:R; try discriminate. cbn [bind] in *. apply rd_nth_error in R.
  exact (D x R ans h' ms' hf msf E F).
Qed.

Section StrRunX.
  Variable e : env.
  Hypothesis Henv : good_env e.
  Hypothesis Hmem : enough_memory e.
  Variable h0 : heap.
  Hypothesis Hc : callers h0.
  Variable nul : ptr.
  Hypothesis Hnul : NulBlk nul h0.

  Lemma clear_quiet h m h1 m1 ans : 0 <= mcap m -> str_clear e nul h m = Ok (h1, m1) ->
    t_clear e nul (mkmw h m ans) = Ok (mkmw h1 m1 ans, Returned).
  Proof.
    intros C E. unfold t_clear, t_resize, str_clear, str_resize in *. unfold mget. cbn [wh wm].
    change (0 =? 0) with true in *. cbn [andb] in *.
    destruct (Z.eqb_spec (mcap m) 0) as [Z0|Z0].
    - unfold mdo. cbn [bind wans]. injection E as <- <-. reflexivity.
    - unfold resize in E. unfold m_resize, mthen, mget, mdo. cbn [wh wm wans].
      change (u64 (0 + 1)) with 1 in *. destruct (Z.ltb_spec (mcap m) 1); [lia|].
      cbn [bind wh wm wans mptr mcap] in *. cbn [mptr] in E.
      destruct (store_n h (padd (mptr m) 0) [Some 0]); try discriminate. cbn [bind] in *. injection E as <- <-. reflexivity.
  Qed.

  Lemma assign_fill_does h ms i n c : (forall m, nth_error ms i = Some m -> 0 <= mcap m) ->
    xdoes2 (fun ans => x_on (mkmws h ms ans) i (t_assign_fill e nul n c))
      (on (h, ms) i (fun h m => str_assign_fill e nul h m n c)) (on (h, ms) i (str_clear e nul)).
  Proof.
    intros C ans h' ms' hf msf E F. unfold on in E, F. unfold x_on. cbn [xms xheap xans].
    destruct (rd ms i) as [m| | |] eqn:R; try discriminate. cbn [bind] in *. apply rd_nth_error in R.
    destruct (str_clear e nul h m) as [(h1, m1)| | |] eqn:Cl; try discriminate. cbn [bind] in F.
    unfold str_assign_fill in E. rewrite Cl in E. cbn [bind] in E.
    unfold t_assign_fill, mthen. rewrite (clear_quiet h m h1 m1 ans (C m R) Cl). cbn [bind].
    destruct (str_append_fill e nul h1 m1 n c) as [(h2, m2)| | |] eqn:Ap; try discriminate. cbn [bind] in E.
    destruct (d_t_append_fill e nul n c h1 m1 ans h2 m2 Ap) as (t & [(Ea & Q)|(Ea & Q)]); exists t; rewrite Ea; cbn [bind wm wh wans].
    - left. destruct (wr ms i m2); try discriminate. cbn [bind] in *. injection E as <- <-. split; [reflexivity|exact Q].
    - right. destruct (wr ms i m1); try discriminate. cbn [bind] in *. injection F as <- <-. split; [reflexivity|exact Q].
  Qed.

  (** A constructor that throws leaves what [string (nullptr)] leaves. *)
  Lemma renew_does a f h ms ss i : TInv e h0 h ms ss -> (i < length ss)%nat ->
    (forall h1, does a h1 mb_nil (f h1)) ->
    xdoes2 (fun ans => x_on (mkmws h ms ans) i (t_renew nul a)) (renew (h, ms) i f) (sstep e nul (h, ms) (SOfC i None)).
  Proof.
    intros T Hi D ans h' ms' hf msf E F.
    destruct (sstep_ok e Henv Hmem h0 Hc nul Hnul h ms ss (SOfC i None) T) as (hf' & msf' & F' & TF & _).
    { cbn [sop_pre]. split; [exact Hi|now left]. } { cbn. exact I. }
    rewrite F in F'. injection F' as <- <-. clear Henv Hmem.
    cbn [sstep] in F. unfold renew, on in E, F. unfold x_on. cbn [xms xheap xans].
    destruct (rd ms i) as [m| | |] eqn:R; try discriminate. cbn [bind] in *. apply rd_nth_error in R.
    assert (Hl : (i < length ms)%nat) by (apply nth_error_Some; congruence).
    destruct (deallocate h m) as [(h1, x)| | |] eqn:De; try discriminate. cbn [bind] in *.
    unfold str_of_c in F. destruct (strlen h1 nul) as [len| | |]; try discriminate. cbn [bind] in F.
    rewrite wr_put in F by exact Hl. cbn [bind] in F. injection F as <- <-.
    destruct (s_ok _ _ _ _ _ (t_sinv _ _ _ _ _ TF) i (mkmb nul len 0) (put_same _ _ _ Hl)) as (l & Il & Ag).
    assert (l = []) as ->.
    { cbn [sspec_step c_bytes] in Ag. rewrite (nth_error_nth _ _ [] (put_same ss i [] Hi) : get (put ss i []) i = []) in Ag. now inversion Ag. }
    destruct Il as ((Sz & _) & _). cbn [msize length] in Sz. change (Z.of_nat 0) with 0 in Sz. subst len.
    destruct (f h1) as [(h2, m2)| | |] eqn:Ef; try discriminate. cbn [bind] in E.
    unfold t_renew. cbn [wh wm wans]. rewrite De. cbn [bind].
    destruct (D h1 ans h2 m2 Ef) as (t & [(Ea & Q)|(Ea & Q)]); exists t; rewrite Ea; cbn [bind wm wh wans].
    - left. destruct (wr ms i m2); try discriminate. cbn [bind] in *. injection E as <- <-. split; [reflexivity|exact Q].
    - right. cbn [deallocate mb_nil mcap Z.eqb bind wm wh wans]. unfold deallocate. cbn [mcap mb_nil Z.eqb bind wm wh wans].
      rewrite wr_put by exact Hl. cbn [bind]. unfold str_nil. split; [reflexivity|exact Q].
  Qed.

  (** The state an operation leaves when it throws, as the result of another. *)
  Definition left_op (o : sop) : option sop :=
    match o with
    | SCopyOf i _ | SOfFill i _ _ | SSubstr i _ _ _ => Some (SOfC i None)
    | SAssignFill i _ _ => Some (SClear i)
    | _ => None
    end.
  Definition left_state (s : mstate) (o : sop) : outcome mstate :=
    match left_op o with Some o' => sstep e nul s o' | None => Ok s end.

  Lemma tinv_cap h ms ss i m : TInv e h0 h ms ss -> nth_error ms i = Some m -> 0 <= mcap m.
  Proof.
    intros T E. destruct (s_ok _ _ _ _ _ (t_sinv _ _ _ _ _ T) i m E) as (l & (_ & [(C & _)|(Hcc & _)]) & _); lia.
  Qed.

  Lemma xsstep_does h ms ss o : TInv e h0 h ms ss -> sop_pre h0 ss o ->
    xdoes2 (fun ans => xsstep e nul (mkmws h ms ans) o) (sstep e nul (h, ms) o) (left_state (h, ms) o).
  Proof.
    intros T P. unfold left_state. destruct o; cbn [xsstep sstep left_op]; cbn [sop_pre] in P.
    - apply (xdoes_2 _ (h, ms)). apply (x_pure_does (fun s => sstep e nul s (SOfC i p))).
    - apply with_does2. intros x _. apply (renew_does _ (fun h => str_copy e h x) h ms ss i T); [lia|]. intros; apply d_t_copy.
    - apply (xdoes_2 _ (h, ms)). apply (x_pure_does (fun s => sstep e nul s (SMoveOf i j))).
    - apply (renew_does _ (fun h => str_of_fill e h n c) h ms ss i T); [lia|]. intros; apply d_t_of_fill.
    - apply with_does2. intros x _. apply (renew_does _ (fun h => str_substr e nul h x o n) h ms ss i T); [lia|]. intros; apply d_t_assign_sub.
    - apply (xdoes_2 _ (h, ms)), (x_on_does _ (fun h m => str_assign e nul h m p len)). intros; apply d_t_assign.
    - apply (xdoes_2 _ (h, ms)), (x_on_does _ (fun h m => str_assign_c e nul h m p)). intros; apply d_t_assign_c.
    - apply with_does2. intros x _. apply (xdoes_2 _ (h, ms)), (x_on_does _ (fun h m => str_assign_str e nul h m x)). intros; apply d_t_assign.
    - apply with_does2. intros x _. apply (xdoes_2 _ (h, ms)), (x_on_does _ (fun h m => str_assign_sub e nul h m x o n)). intros; apply d_t_assign_sub.
    - apply assign_fill_does. intros m Em. eapply tinv_cap; eauto.
    - apply (xdoes_2 _ (h, ms)), (x_on_does _ (fun h m => str_append e nul h m p len)). intros; apply d_t_append.
    - apply (xdoes_2 _ (h, ms)), (x_on_does _ (fun h m => str_append_c e nul h m p)). intros; apply d_t_append_c.
    - apply with_does2. intros x _. apply (xdoes_2 _ (h, ms)), (x_on_does _ (fun h m => str_append_str e nul h m x)). intros; apply d_t_append.
    - apply (xdoes_2 _ (h, ms)), (x_on_does _ (fun h m => str_append_fill e nul h m n c)). intros; apply d_t_append_fill.
    - apply (xdoes_2 _ (h, ms)), (x_on_does _ (fun h m => str_push_back e nul h m c)). intros; apply d_t_push_back.
    - apply (xdoes_2 _ (h, ms)), (x_on_does _ (str_pop_back e nul)). intros; apply d_t_pop_back.
    - apply (xdoes_2 _ (h, ms)), (x_on_does _ (fun h m => str_resize e nul h m n)). intros; apply d_t_resize.
    - apply (xdoes_2 _ (h, ms)), (x_on_does _ (fun h m => str_resize_fill e nul h m n c)). intros; apply d_t_resize_fill.
    - apply (xdoes_2 _ (h, ms)), (x_on_does _ (str_clear e nul)). intros; apply d_t_resize.
    - apply (xdoes_2 _ (h, ms)), (x_on_does _ (fun h m => reserve e 1 h m n false)). intros; apply d_reserve.
    - apply (xdoes_2 _ (h, ms)), (x_on_does _ (fun h m => str_insert_fill e h m ip n c)). intros; apply d_t_insert_fill.
    - apply (xdoes_2 _ (h, ms)), (x_on_does _ (fun h m => str_insert e h m ip p len cnt)). intros; apply d_t_insert.
    - apply with_does2. intros x _. apply (xdoes_2 _ (h, ms)),
        (x_on_does _ (fun h m => str_insert e h m ip (padd (mptr x) (clamp x o)) (u64 (clamp x (u64 (o + n)) - clamp x o)) 1)). intros; apply d_t_insert.
    - apply (xdoes_2 _ (h, ms)), (x_on_does _ (fun h m => str_erase e h m ep n)). intros; apply d_t_erase.
    - apply (xdoes_2 _ (h, ms)), (x_on_does _ (fun h m => str_replace e h m rp (u64 (rp + n)) p len cnt)). intros; apply d_t_replace.
    - apply with_does2. intros x _. apply (xdoes_2 _ (h, ms)), (x_on_does _ (fun h m => str_replace e h m rp (u64 (rp + n)) (mptr x) (msize x) 1)). intros; apply d_t_replace.
    - apply (xdoes_2 _ (h, ms)), (x_on_does _ (fun h m => str_replace_fill e h m rp (u64 (rp + n)) cnt c)). intros; apply d_t_replace_fill.
    - apply (xdoes_2 _ (h, ms)), (x_on_does _ (fun h m => str_set h m pos c)). intros; apply (does_do (fun h m => str_set h m pos c)).
    - apply (xdoes_2 _ (h, ms)), (x_pure_does (fun s => swap_mb s i j)).
  Qed.

  Lemma left_ok h ms ss o : TInv e h0 h ms ss -> sop_pre h0 ss o ->
    exists hf msf, left_state (h, ms) o = Ok (hf, msf) /\ TInv e h0 hf msf (string_left ss o) /\ (NoLeak h ms -> NoLeak hf msf).
  Proof.
    intros T P. unfold left_state.
    assert (X : forall i, (i < length ss)%nat -> exists hf msf, sstep e nul (h, ms) (SOfC i None) = Ok (hf, msf) /\
      TInv e h0 hf msf (put ss i []) /\ (NoLeak h ms -> NoLeak hf msf)).
    { intros i Hi. apply (sstep_ok e Henv Hmem h0 Hc nul Hnul h ms ss (SOfC i None) T); [split; [exact Hi|now left]|exact I]. }
    destruct o; cbn [left_op string_left sop_pre] in *; try (exists h, ms; now auto); try (apply X; lia).
    apply (sstep_ok e Henv Hmem h0 Hc nul Hnul h ms ss (SClear i) T); [cbn; lia|exact I].
  Qed.

  Lemma xsrun_ok p : forall h ms ss ans, TInv e h0 h ms ss ->
    prog_pre (sop_pre h0) (sspec_step h0) string_left ss p ->
    careful_prog e nul h0 ss (mkmws h ms ans) p ->
    exists h' ms' t fs ss', xrun (xsstep e nul) (mkmws h ms ans) p = Ok (mkmws h' ms' t) /\
      ends (sspec_step h0) string_left ss p fs ss' /\ TInv e h0 h' ms' ss' /\
      refused ans = (refused fs + refused t)%nat /\ (NoLeak h ms -> NoLeak h' ms').
  Proof.
    induction p as [|o k IHk kt IHt]; intros h ms ss ans T P Ca; cbn [prog_pre xrun careful_prog xms] in *.
    - exists h, ms, ans, [], ss. split; [reflexivity|]. split; [constructor|]. split; [exact T|]. split; [reflexivity|auto].
    - destruct P as (Po & Pk & Pt). destruct Ca as (Co & Cn).
      destruct (sstep_ok e Henv Hmem h0 Hc nul Hnul h ms ss o T Po Co) as (h1 & ms1 & E1 & T1 & N1).
      destruct (left_ok h ms ss o T Po) as (hf & msf & Ef & Tf & Nf).
      destruct (xsstep_does h ms ss o T Po ans h1 ms1 hf msf E1 Ef) as (t & [(E & Q)|(E & Q)]); specialize (Cn _ _ E); rewrite E; cbn [bind].
      + destruct (IHk h1 ms1 _ t T1 Pk Cn) as (h2 & ms2 & t2 & fs & ss2 & E2 & En & I2 & R2 & N2).
        exists h2, ms2, t2, (true :: fs), ss2. split; [exact E2|]. split; [now constructor|]. split; [exact I2|].
        split; [rewrite Q, R2; reflexivity|auto].
      + destruct (IHt hf msf _ t Tf Pt Cn) as (h2 & ms2 & t2 & fs & ss2 & E2 & En & I2 & R2 & N2).
        exists h2, ms2, t2, (false :: fs), ss2. split; [exact E2|]. split; [now apply ends_threw|]. split; [exact I2|].
        split; [rewrite Q, R2; reflexivity|auto].
  Qed.
End StrRunX.
