(** * GrowProofs: operations that find enough room keep the storage. *)
From Coq Require Import ZArith Lia List.
From Verif Require Import Base UtilModel UtilProofs StoreModel VectorSpec VectorModel VectorProofs MemModel MemSpec MemProofs MemRun StringModel StringSpec StringProofs StringRun GrowModel GrowSpec.
Local Open Scope Z_scope.

(** One block keeps its storage. *)
Definition kept (m m' : mb) : Prop := mptr m' = mptr m /\ mcap m' = mcap m.
Lemma kept_refl m : kept m m. Proof. split; reflexivity. Qed.
Lemma kept_trans a b c : kept a b -> kept b c -> kept a c.
Proof. intros (A & B) (C & D). split; congruence. Qed.
Ltac bound E :=
  match type of E with bind ?q _ = _ => destruct q as [?r| | |] eqn:?; cbn [bind] in E; [|discriminate E ..] end.
Ltac ukept := intros ?E; injection E as <- <-; cbn [msize mptr mcap] in *.

Section Kept.
  Variable e : env.
  Variable mfc : Z.
  Hypothesis Hm : 0 <= mfc <= 1.

  Lemma u64_le x : 0 <= x -> u64 x <= x.
  Proof. intros H. unfold u64. apply Z.mod_le; [exact H|reflexivity]. Qed.
  Lemma u64_pos x : 0 <= u64 x.
  Proof. apply Z.mod_pos_bound. reflexivity. Qed.

  Lemma reserve_kept h m n x h' m' : 0 <= n -> n + mfc <= mcap m -> reserve e mfc h m n x = Ok (h', m') -> h' = h /\ m' = m.
  Proof.
    intros H0 H E. unfold reserve in E. pose proof (u64_le (n + mfc) ltac:(lia)).
    replace (u64 (n + mfc) <=? mcap m) with true in E by (symmetry; apply Z.leb_le; lia). injection E as <- <-. auto.
  Qed.
  Lemma resize_kept h m n x h' m' : 0 <= n -> n + mfc <= mcap m -> resize e mfc h m n x = Ok (h', m') ->
    h' = h /\ m' = mkmb (mptr m) n (mcap m).
  Proof.
    intros H0 H E. unfold resize in E. pose proof (u64_le (n + mfc) ltac:(lia)).
    replace (mcap m <? u64 (n + mfc)) with false in E by (symmetry; apply Z.ltb_ge; lia). injection E as <- <-. auto.
  Qed.
  Lemma insert_kept h m ip n h' m' : insert e mfc h m ip n = Ok (h', m') -> msize m' + mfc <= mcap m -> kept m m'.
  Proof.
    unfold insert. intros E. bound E. destruct r as [h1 m1]. bound E. revert E. ukept. intros L.
    assert (Q : 0 <= u64 (msize m + n)) by apply u64_pos.
    assert (S : msize m1 = u64 (msize m + n)).
    { unfold resize in Heqo. bound Heqo. destruct r0. now injection Heqo as _ <-. }
    destruct (resize_kept h m _ false h1 m1 Q ltac:(lia) Heqo) as (_ & ->). split; reflexivity.
  Qed.
  Lemma erase_kept h m ep n h' m' : 0 <= msize m -> msize m + mfc <= mcap m -> erase e mfc h m ep n = Ok (h', m') -> kept m m'.
  Proof.
    unfold erase. intros H0 H E. bound E. destruct r as [h1 m1]. bound E. revert E. ukept.
    destruct (reserve_kept _ _ _ _ _ _ H0 H Heqo) as (_ & ->). split; reflexivity.
  Qed.
  Lemma assign_kept h m p n h' m' : 0 <= n -> n + mfc <= mcap m -> assign e mfc h m p n = Ok (h', m') -> kept m m'.
  Proof.
    unfold assign. intros H0 H E. bound E. destruct r as [h1 m1]. bound E. revert E. ukept.
    destruct (resize_kept _ _ _ _ _ _ H0 H Heqo) as (_ & ->). split; reflexivity.
  Qed.
End Kept.

(** ** Memory blocks *)
Lemma on_target s i f h' ms' : on s i f = Ok (h', ms') ->
  exists m m', nth_error (snd s) i = Some m /\ f (fst s) m = Ok (h', m') /\ ms' = put (snd s) i m'.
Proof.
  destruct s as [h ms]. unfold on. intros E. unfold rd in E. destruct (nth_error ms i) as [m|] eqn:N; [|discriminate].
  cbn [bind] in E. bound E. destruct r as [h1 m1]. rewrite wr_put in E by (apply nth_error_Some; congruence).
  injection E as <- <-. exists m, m1. auto.
Qed.
Lemma on_kept h ms i j f h' ms' m : nth_error ms i = Some m ->
  (j = i -> forall m1, f h m = Ok (h', m1) -> kept m m1) ->
  on (h, ms) j f = Ok (h', ms') -> exists m', nth_error ms' i = Some m' /\ kept m m'.
Proof.
  intros Em K E. apply on_target in E. cbn [fst snd] in E. destruct E as (m1 & m2 & E1 & E2 & ->).
  assert (L : (j < length ms)%nat) by (apply nth_error_Some; congruence).
  destruct (Nat.eq_dec j i) as [-> |N].
  - exists m2. rewrite put_same by exact L. split; [reflexivity|]. replace m1 with m in E2 by congruence. exact (K eq_refl _ E2).
  - exists m. rewrite put_other by (auto; lia). split; [exact Em|apply kept_refl].
Qed.

Section Mem.
  Variable e : env.
  Hypothesis Henv : good_env e.
  Hypothesis Hmem : enough_memory e.
  Variable h0 : heap.
  Hypothesis Hc : callers h0.

  Lemma blk_facts h ms ss i m : SInv e h0 h ms ss -> nth_error ms i = Some m -> 0 < mcap m ->
    msize m = len ss i /\ 0 <= msize m <= mcap m /\ mcap m <= 2 ^ 31.
  Proof.
    intros I Em Hp. destruct (s_ok _ _ _ _ _ I i m Em) as (l & (S & B) & A).
    unfold len. rewrite (agrees_length _ _ A). destruct S as (S & L).
    destruct B as [(Z0 & _)|((_ & Hb) & b & r & _ & _ & Ll)]; [lia|]. rewrite app_length in Ll. lia.
  Qed.
  Lemma swap_other h ms a b h' ms' i m : nth_error ms i = Some m -> a <> i -> b <> i ->
    swap_mb (h, ms) a b = Ok (h', ms') -> nth_error ms' i = Some m.
  Proof.
    intros Em Na Nb E. unfold swap_mb in E. unfold rd in E.
    destruct (nth_error ms a) as [x|] eqn:Ea; [|discriminate]. cbn [bind] in E.
    destruct (nth_error ms b) as [y|] eqn:Eb; [|discriminate]. cbn [bind] in E.
    rewrite wr_put in E by (apply nth_error_Some; congruence). cbn [bind] in E.
    rewrite wr_put in E by (rewrite put_length; apply nth_error_Some; congruence). cbn [bind] in E. injection E as _ <-.
    rewrite put_other; [|rewrite put_length; apply nth_error_Some; congruence|auto].
    rewrite put_other; [exact Em|apply nth_error_Some; congruence|auto].
  Qed.

  Lemma mstep_kept h ms ss o h' ms' i m : SInv e h0 h ms ss -> mop_pre h0 ss o -> mstep e (h, ms) o = Ok (h', ms') ->
    nth_error ms i = Some m -> 0 < mcap m -> ~ m_replaces i o -> (forall n x, o = MReserve i n x -> n <= mcap m) ->
    len (mspec_step h0 ss o) i <= mcap m ->
    exists m', nth_error ms' i = Some m' /\ kept m m'.
  Proof.
    intros I P E Em Hp NR Rs L. destruct (blk_facts _ _ _ _ _ I Em Hp) as (Sz & Rg & Bd).
    assert (SL : length ms = length ss) by exact (s_len _ _ _ _ _ I).
    destruct o; cbn [mop_pre] in P; cbn [mstep snd] in E; cbn [m_replaces] in NR; cbn [mspec_step] in L.
    - (* assign *) eapply on_kept; [exact Em| |exact E]. intros -> m1. cbv beta. apply assign_kept; [lia|lia|].
      rewrite len_put in L by lia. rewrite Nat.eqb_refl, bytes_at_len in L by tauto. lia.
    - (* copy *) destruct P as (Pi & Pj).
      destruct (nth_error ms j) as [b|] eqn:Eb; [|apply nth_error_None in Eb; lia].
      unfold rd in E. rewrite Eb in E. cbn [bind] in E.
      destruct (s_ok _ _ _ _ _ I j b Eb) as (lb & (Sb & _) & Ab).
      eapply on_kept; [exact Em| |exact E]. intros -> m1. cbv beta. apply assign_kept; [lia|lia|].
      rewrite len_put in L by lia. rewrite Nat.eqb_refl, (agrees_length _ _ Ab) in L. lia.
    - exists m. split; [|apply kept_refl]. eapply swap_other; [exact Em| | |exact E]; intros ->; tauto.
    - exists m. split; [|apply kept_refl]. eapply swap_other; [exact Em| | |exact E]; intros ->; tauto.
    - eapply on_kept; [exact Em| |exact E]. intros ->. tauto.
    - eapply on_kept; [exact Em| |exact E]. intros ->. tauto.
    - eapply on_kept; [exact Em| |exact E]. intros ->. tauto.
    - (* reserve *) eapply on_kept; [exact Em| |exact E]. intros -> m1 R. cbv beta in R.
      pose proof (Rs _ _ eq_refl). unfold len in P.
      destruct (reserve_kept e 0 ltac:(lia) h m n exact h' m1) as (_ & ->); [unfold len in P; lia|lia|exact R|apply kept_refl].
    - (* resize *) eapply on_kept; [exact Em| |exact E]. intros -> m1 R. cbv beta in R.
      rewrite len_put in L by lia. rewrite Nat.eqb_refl in L. unfold seq_resize in L.
      rewrite app_length, firstn_length, repeat_length in L.
      destruct (resize_kept e 0 ltac:(lia) h m n exact h' m1) as (_ & ->); [lia|lia|exact R|split; reflexivity].
    - (* copy_link *) eapply on_kept; [exact Em| |exact E]. intros -> m1 R. unfold copy_link in R.
      destruct (reserve_kept e 0 ltac:(lia) h m (msize m) false h' m1) as (_ & ->); [lia|lia|exact R|apply kept_refl].
    - eapply on_kept; [exact Em| |exact E]. intros ->. tauto.
    - (* insert *) eapply on_kept; [exact Em| |exact E]. intros -> m1 R. cbv beta in R.
      apply (insert_kept e 0 ltac:(lia) _ _ _ _ _ _ R).
      assert (Sm : msize m1 = u64 (msize m + n)).
      { unfold insert in R. bound R. destruct r as [h1 m2]. bound R. injection R as _ <-.
        unfold resize in Heqo. bound Heqo. destruct r0. now injection Heqo as _ <-. }
      rewrite len_put in L by lia. rewrite Nat.eqb_refl in L. unfold seq_insert in L.
      rewrite !app_length, firstn_length, repeat_length, skipn_length in L.
      unfold len in *. pose proof (u64_le (msize m + n)). lia.
    - (* erase *) eapply on_kept; [exact Em| |exact E]. intros -> m1 R. cbv beta in R.
      eapply (erase_kept e 0); [lia| | |exact R]; lia.
    - (* clear *) eapply on_kept; [exact Em| |exact E]. intros -> m1 R. unfold clear in R.
      destruct (resize_kept e 0 ltac:(lia) h m 0 true h' m1) as (_ & ->); [lia|lia|exact R|split; reflexivity].
    - (* write *) eapply on_kept; [exact Em| |exact E]. intros -> m1 R. unfold write_at, copy_link in R.
      bound R. destruct r as [h1 m2]. destruct ((0 <=? pos) && (pos <? msize m2)); [|discriminate]. bound R. injection R as _ <-.
      destruct (reserve_kept e 0 ltac:(lia) h m (msize m) false h1 m2) as (_ & ->); [lia|lia|exact Heqo|apply kept_refl].
  Qed.

  Lemma mrun_kept ops : forall h ms ss i m, SInv e h0 h ms ss -> mops_pre h0 ss ops ->
    nth_error ms i = Some m -> 0 < mcap m -> m_within h0 (mcap m) i ss ops ->
    exists h' ms' m', mrun e (h, ms) ops = Ok (h', ms') /\ SInv e h0 h' ms' (mspec_run h0 ss ops) /\
      nth_error ms' i = Some m' /\ kept m m'.
  Proof.
    induction ops as [|o t IH]; intros h ms ss i m I P Em Hp W.
    { exists h, ms, m. split; [reflexivity|]. split; [exact I|]. split; [exact Em|apply kept_refl]. }
    cbn [mops_pre m_within] in *. destruct P as (P1 & P2). destruct W as (W1 & W2 & W3 & W4).
    destruct (mstep_ok e Henv Hmem h0 Hc h ms ss o I P1) as (h1 & ms1 & E1 & I1 & _).
    destruct (mstep_kept _ _ _ _ _ _ _ _ I P1 E1 Em Hp W1 W2 W3) as (m1 & Em1 & K1).
    cbn [mrun mspec_run]. rewrite E1. cbn [bind].
    destruct (IH h1 ms1 _ i m1 I1 P2 Em1) as (h2 & ms2 & m2 & E2 & I2 & Em2 & K2).
    { destruct K1 as (_ & ->). exact Hp. }
    { destruct K1 as (_ & ->). exact W4. }
    exists h2, ms2, m2. split; [exact E2|]. split; [exact I2|]. split; [exact Em2|]. eapply kept_trans; eauto.
  Qed.
End Mem.

(** ** Strings *)
Section Str.
  Variable e : env.
  Variable nul : ptr.

  Lemma store_keeps h (m : mb) p x h' m' : (h1 <- store_n h p x ;; Ok (h1, m)) = Ok (h', m') -> m' = m.
  Proof. intros E. bound E. now injection E as _ <-. Qed.
  Lemma str_resize_kept h m n h' m' : 0 < mcap m -> 0 <= n -> n + 1 <= mcap m -> str_resize e nul h m n = Ok (h', m') ->
    m' = mkmb (mptr m) n (mcap m).
  Proof.
    intros Hp H0 H E. unfold str_resize in E.
    replace (mcap m =? 0) with false in E by (symmetry; apply Z.eqb_neq; lia). rewrite andb_false_r in E.
    bound E. destruct r as [h1 m1]. apply store_keeps in E. subst m'.
    destruct (resize_kept e 1 ltac:(lia) _ _ _ _ _ _ H0 H Heqo) as (_ & ->). reflexivity.
  Qed.
  Lemma str_resize_size h m n h' m' : str_resize e nul h m n = Ok (h', m') -> msize m' = n.
  Proof.
    unfold str_resize. destruct ((n =? 0) && (mcap m =? 0)) eqn:Z0; intros E.
    - injection E as _ <-. apply andb_true_iff in Z0. destruct Z0 as (Z0 & _). apply Z.eqb_eq in Z0. cbn [msize]. lia.
    - bound E. destruct r as [h1 m1]. apply store_keeps in E. subst m'. unfold resize in Heqo. bound Heqo. destruct r. now injection Heqo as _ <-.
  Qed.
  Lemma str_resize_kept' h m n h' m' : 0 < mcap m -> 0 <= n -> str_resize e nul h m n = Ok (h', m') -> msize m' + 1 <= mcap m ->
    kept m m' /\ msize m' = n.
  Proof.
    intros Hp H0 E L. pose proof (str_resize_size _ _ _ _ _ E) as S. rewrite S in L.
    rewrite (str_resize_kept _ _ _ _ _ Hp H0 L E). split; [split; reflexivity|reflexivity].
  Qed.
  (** [goal]: if it comes back with a size that fits, the storage is the same. *)
  Definition keeps (f : heap -> mb -> outcome (heap * mb)) : Prop :=
    forall h m h' m', 0 < mcap m -> 0 <= msize m -> msize m + 1 <= mcap m <= 2 ^ 31 -> f h m = Ok (h', m') -> msize m' + 1 <= mcap m -> kept m m'.

  Lemma k_resize n : 0 <= n -> keeps (fun h m => str_resize e nul h m n).
  Proof. intros Hn h m h' m' Hp H0 H E L. exact (proj1 (str_resize_kept' _ _ _ _ _ Hp Hn E L)). Qed.
  Lemma k_resize_fill n c : 0 <= n -> keeps (fun h m => str_resize_fill e nul h m n c).
  Proof.
    intros Hn h m h' m' Hp H0 H E L. unfold str_resize_fill in E. cbv zeta in E. bound E. destruct r as [h1 m1].
    bound E. injection E as _ <-. exact (proj1 (str_resize_kept' _ _ _ _ _ Hp Hn Heqo L)).
  Qed.
  Lemma k_assign p n : 0 <= n -> keeps (fun h m => str_assign e nul h m p n).
  Proof.
    intros Hn h m h' m' Hp H0 H E L. unfold str_assign in E. bound E. destruct r as [h1 m1].
    bound E. injection E as _ <-. exact (proj1 (str_resize_kept' _ _ _ _ _ Hp Hn Heqo L)).
  Qed.
  Lemma cstrlen_pos cells n : cstrlen cells = Ok n -> 0 <= n.
  Proof.
    revert n. induction cells as [|[c|] t IH]; intros n E; cbn [cstrlen] in E; try discriminate.
    destruct (c =? 0); [injection E as <-; lia|]. bound E. injection E as <-. specialize (IH _ eq_refl). lia.
  Qed.
  Lemma strlen_pos h p n : strlen h p = Ok n -> 0 <= n.
  Proof.
    unfold strlen. intros E. destruct p as [[b o]|]; [|discriminate]. bound E.
    destruct (readable (bkind r) && in_range o 0 (bcells r)); [eapply cstrlen_pos; eauto|discriminate].
  Qed.
  Lemma k_assign_c p : keeps (fun h m => str_assign_c e nul h m p).
  Proof.
    intros h m h' m' Hp H0 H E L. unfold str_assign_c in E. cbv zeta in E. bound E.
    exact (k_assign _ _ (strlen_pos _ _ _ Heqo) h m h' m' Hp H0 H E L).
  Qed.
  Lemma k_append p n : keeps (fun h m => str_append e nul h m p n).
  Proof.
    intros h m h' m' Hp H0 H E L. unfold str_append in E. bound E. destruct r as [h1 m1].
    bound E. injection E as _ <-. exact (proj1 (str_resize_kept' _ _ _ _ _ Hp (u64_pos _) Heqo L)).
  Qed.
  Lemma k_append_c p : keeps (fun h m => str_append_c e nul h m p).
  Proof.
    intros h m h' m' Hp H0 H E L. unfold str_append_c in E. cbv zeta in E. bound E.
    exact (k_append _ _ h m h' m' Hp H0 H E L).
  Qed.
  Lemma k_append_fill n c : keeps (fun h m => str_append_fill e nul h m n c).
  Proof.
    intros h m h' m' Hp H0 H E L. unfold str_append_fill in E. bound E. destruct r as [h1 m1].
    bound E. injection E as _ <-. exact (proj1 (str_resize_kept' _ _ _ _ _ Hp (u64_pos _) Heqo L)).
  Qed.
  Lemma k_clear : keeps (fun h m => str_clear e nul h m).
  Proof. unfold str_clear. apply k_resize. lia. Qed.
  Lemma k_assign_fill n c : keeps (fun h m => str_assign_fill e nul h m n c).
  Proof.
    intros h m h' m' Hp H0 H E L. unfold str_assign_fill in E. bound E. destruct r as [h1 m1].
    unfold str_clear in Heqo. pose proof (str_resize_kept _ _ _ _ _ Hp (Z.le_refl 0) ltac:(lia) Heqo) as ->.
    apply (k_append_fill n c h1 _ h' m') in E; cbn [msize mcap mptr] in *; try lia. destruct E as (A & B). split; [exact A|exact B].
  Qed.
  Lemma k_push_back c : keeps (fun h m => str_push_back e nul h m c).
  Proof.
    intros h m h' m' Hp H0 H E L. unfold str_push_back in E. bound E. destruct r as [h1 m1].
    apply store_keeps in E. subst m'. exact (proj1 (str_resize_kept' _ _ _ _ _ Hp (u64_pos _) Heqo L)).
  Qed.
  Lemma k_pop_back : keeps (fun h m => str_pop_back e nul h m).
  Proof.
    intros h m h' m' Hp H0 H E L. unfold str_pop_back in E. exact (proj1 (str_resize_kept' _ _ _ _ _ Hp (u64_pos _) E L)).
  Qed.
  Lemma k_insert_fill ip n c : keeps (fun h m => str_insert_fill e h m ip n c).
  Proof.
    intros h m h' m' Hp H0 H E L. unfold str_insert_fill in E. cbv zeta in E. bound E. destruct r as [h1 m1].
    bound E. apply store_keeps in E. subst m'. eapply (insert_kept e 1); [lia|exact Heqo|exact L].
  Qed.
  Lemma k_insert ip p len cnt : keeps (fun h m => str_insert e h m ip p len cnt).
  Proof.
    intros h m h' m' Hp H0 H E L. unfold str_insert in E. cbv zeta in E. bound E. destruct r as [h1 m1].
    bound E. apply store_keeps in E. subst m'. eapply (insert_kept e 1); [lia|exact Heqo|exact L].
  Qed.
  Lemma k_erase ep n : keeps (fun h m => str_erase e h m ep n).
  Proof.
    intros h m h' m' Hp H0 H E L. unfold str_erase, str_erase_at in E. bound E. destruct r as [h1 m1].
    apply store_keeps in E. subst m'. eapply (erase_kept e 1); [lia| | |exact Heqo]; lia.
  Qed.
  Lemma k_replace f l p len cnt : keeps (fun h m => str_replace e h m f l p len cnt).
  Proof.
    intros h m h' m' Hp H0 H E L. unfold str_replace in E. cbv zeta in E. bound E. destruct r as [h1 m1].
    bound E. apply store_keeps in E. subst m'.
    destruct (_ <? _) in Heqo; [eapply (erase_kept e 1); [lia| | |exact Heqo]; lia|].
    destruct (_ <? _) in Heqo; [eapply (insert_kept e 1); [lia|exact Heqo|exact L]|]. injection Heqo as _ <-. apply kept_refl.
  Qed.
  Lemma k_replace_fill f l cnt c : keeps (fun h m => str_replace_fill e h m f l cnt c).
  Proof.
    intros h m h' m' Hp H0 H E L. unfold str_replace_fill in E. cbv zeta in E. bound E. destruct r as [h1 m1].
    bound E. apply store_keeps in E. subst m'.
    destruct (_ <? _) in Heqo; [eapply (erase_kept e 1); [lia| | |exact Heqo]; lia|].
    destruct (_ <? _) in Heqo; [eapply (insert_kept e 1); [lia|exact Heqo|exact L]|]. injection Heqo as _ <-. apply kept_refl.
  Qed.
  Lemma k_set pos c : keeps (fun h m => str_set h m pos c).
  Proof. intros h m h' m' Hp H0 H E L. unfold str_set in E. apply store_keeps in E. subst m'. apply kept_refl. Qed.

  Lemma on_keeps h ms i j f h' ms' m : keeps f -> nth_error ms i = Some m -> 0 < mcap m -> 0 <= msize m ->
    msize m + 1 <= mcap m <= 2 ^ 31 -> on (h, ms) j f = Ok (h', ms') ->
    (forall m', nth_error ms' i = Some m' -> msize m' + 1 <= mcap m) ->
    exists m', nth_error ms' i = Some m' /\ kept m m'.
  Proof.
    intros K Em Hp H0 H E L. pose proof E as E'. apply on_target in E'. cbn [fst snd] in E'. destruct E' as (x & y & Ex & Ef & ->).
    assert (Lj : (j < length ms)%nat) by (apply nth_error_Some; congruence).
    destruct (Nat.eq_dec j i) as [-> |N].
    - exists y. rewrite put_same in * by exact Lj. split; [reflexivity|]. replace x with m in Ef by congruence.
      exact (K _ _ _ _ Hp H0 H Ef (L y eq_refl)).
    - exists m. rewrite put_other by (auto; lia). split; [exact Em|apply kept_refl].
  Qed.
  Lemma renew_other h ms i j f h' ms' m : nth_error ms i = Some m -> j <> i -> renew (h, ms) j f = Ok (h', ms') -> nth_error ms' i = Some m.
  Proof.
    intros Em N E. unfold renew in E. apply on_target in E. cbn [fst snd] in E. destruct E as (x & y & Ex & _ & ->).
    rewrite put_other; [exact Em|apply nth_error_Some; congruence|auto].
  Qed.

  Hypothesis Henv : good_env e.
  Hypothesis Hmem : enough_memory e.
  Variable h0 : heap.
  Hypothesis Hc : callers h0.
  Hypothesis Hnul : NulBlk nul h0.

  Lemma str_facts h ms ss i m : TInv e h0 h ms ss -> nth_error ms i = Some m -> 0 < mcap m ->
    msize m = len ss i /\ 0 <= msize m /\ msize m + 1 <= mcap m <= 2 ^ 31.
  Proof.
    intros T Em Hp. pose proof (t_sinv _ _ _ _ _ T) as I. destruct (blk_facts e h0 _ _ _ _ _ I Em Hp) as (A & B & C).
    destruct (s_ok _ _ _ _ _ I i m Em) as (l & Im & _). pose proof (nul_cap e h m l Im (t_nul _ _ _ _ _ T i m Em) Hp) as D.
    destruct Im as ((S & _) & _). lia.
  Qed.

  Lemma sstep_kept h ms ss o h' ms' i m : TInv e h0 h ms ss -> sop_pre h0 ss o -> sstep e nul (h, ms) o = Ok (h', ms') ->
    TInv e h0 h' ms' (sspec_step h0 ss o) ->
    nth_error ms i = Some m -> 0 < mcap m -> ~ s_replaces i o -> (forall n, o = SReserve i n -> n < mcap m) ->
    len (sspec_step h0 ss o) i < mcap m ->
    exists m', nth_error ms' i = Some m' /\ kept m m'.
  Proof.
    intros T P E T' Em Hp NR Rs L. destruct (str_facts _ _ _ _ _ T Em Hp) as (Sz & S0 & Rg).
    assert (G : forall m', nth_error ms' i = Some m' -> msize m' + 1 <= mcap m).
    { intros m' Em'. pose proof (t_sinv _ _ _ _ _ T') as I'. destruct (s_ok _ _ _ _ _ I' i m' Em') as (l & ((S & _) & _) & A).
      rewrite S. unfold len in L. rewrite (agrees_length _ _ A) in L. lia. }
    clear L T'. pose proof (t_sinv _ _ _ _ _ T) as I. pose proof (s_len _ _ _ _ _ I) as SL.
    assert (WS : forall j k, with_str (h, ms) j k = Ok (h', ms') -> exists x, nth_error ms j = Some x /\ k x = Ok (h', ms')).
    { intros j k W. unfold with_str in W. cbn [snd] in W. unfold rd in W. destruct (nth_error ms j) as [x|]; [exists x; auto|discriminate]. }
    assert (SZ : forall j x, nth_error ms j = Some x -> 0 <= msize x).
    { intros j x Ex. destruct (s_ok _ _ _ _ _ I j x Ex) as (l & ((S & _) & _) & _). lia. }
    assert (OK : forall j f, keeps f -> on (h, ms) j f = Ok (h', ms') -> exists m', nth_error ms' i = Some m' /\ kept m m').
    { intros j f K R. eapply on_keeps; eauto. }
    destruct o; cbn [sop_pre] in P; cbv zeta in P; cbn [sstep] in E; cbn [s_replaces] in NR;
      try (exists m; split; [|apply kept_refl]; eapply renew_other; [exact Em| |exact E]; intros ->; tauto);
      try (apply WS in E; destruct E as (x & Ex & E);
           exists m; split; [|apply kept_refl]; eapply renew_other; [exact Em| |exact E]; intros ->; tauto).
    - (* move *) apply WS in E. destruct E as (x & Ex & E). bound E. destruct r as [h1 ms1].
      assert (Em1 : nth_error ms1 i = Some m) by (eapply renew_other; [exact Em| |exact Heqo]; intros ->; tauto).
      exists m. split; [|apply kept_refl]. apply on_target in E. cbn [fst snd] in E. destruct E as (y & z & Ey & _ & ->).
      rewrite put_other; [exact Em1|apply nth_error_Some; congruence|intros ->; tauto].
    - eapply OK; [|exact E]. apply k_assign. unfold fits in P. lia.
    - eapply OK; [|exact E]. apply k_assign_c.
    - apply WS in E. destruct E as (x & Ex & E). eapply OK; [|exact E]. unfold str_assign_str. apply k_assign. eapply SZ; eauto.
    - apply WS in E. destruct E as (x & Ex & E). eapply OK; [|exact E]. unfold str_assign_sub. cbv zeta. apply k_assign, u64_pos.
    - eapply OK; [|exact E]. apply k_assign_fill.
    - eapply OK; [|exact E]. apply k_append.
    - eapply OK; [|exact E]. apply k_append_c.
    - apply WS in E. destruct E as (x & Ex & E). eapply OK; [|exact E]. unfold str_append_str. apply k_append.
    - eapply OK; [|exact E]. apply k_append_fill.
    - eapply OK; [|exact E]. apply k_push_back.
    - eapply OK; [|exact E]. apply k_pop_back.
    - eapply OK; [|exact E]. apply k_resize. unfold fits in P. lia.
    - eapply OK; [|exact E]. apply k_resize_fill. unfold fits in P. lia.
    - eapply OK; [|exact E]. apply k_clear.
    - (* reserve *) eapply on_kept; [exact Em| |exact E]. intros -> m1 R. cbv beta in R.
      pose proof (Rs _ eq_refl) as Q. destruct (reserve_kept e 1 ltac:(lia) h m n false h' m1) as (_ & ->); [unfold fits in P; lia|lia|exact R|apply kept_refl].
    - eapply OK; [|exact E]. apply k_insert_fill.
    - eapply OK; [|exact E]. apply k_insert.
    - apply WS in E. destruct E as (x & Ex & E). eapply OK; [|exact E]. apply k_insert.
    - eapply OK; [|exact E]. apply k_erase.
    - eapply OK; [|exact E]. apply k_replace.
    - apply WS in E. destruct E as (x & Ex & E). eapply OK; [|exact E]. apply k_replace.
    - eapply OK; [|exact E]. apply k_replace_fill.
    - eapply OK; [|exact E]. apply k_set.
    - exists m. split; [|apply kept_refl]. eapply swap_other; [exact Em| | |exact E]; intros ->; tauto.
  Qed.

  Lemma srun_kept ops : forall h ms ss i m, TInv e h0 h ms ss -> sops_pre h0 ss ops -> careful e nul h0 ss (h, ms) ops ->
    nth_error ms i = Some m -> 0 < mcap m -> s_within h0 (mcap m) i ss ops ->
    exists h' ms' m', srun e nul (h, ms) ops = Ok (h', ms') /\ TInv e h0 h' ms' (sspec_run h0 ss ops) /\
      nth_error ms' i = Some m' /\ kept m m'.
  Proof.
    induction ops as [|o t IH]; intros h ms ss i m T P Ca Em Hp W.
    { exists h, ms, m. split; [reflexivity|]. split; [exact T|]. split; [exact Em|apply kept_refl]. }
    cbn [sops_pre s_within careful snd] in *. destruct P as (P1 & P2). destruct Ca as (C1 & C2). destruct W as (W1 & W2 & W3 & W4).
    destruct (sstep_ok e Henv Hmem h0 Hc nul Hnul h ms ss o T P1 C1) as (h1 & ms1 & E1 & T1 & _).
    destruct (sstep_kept _ _ _ _ _ _ _ _ T P1 E1 T1 Em Hp W1 W2 W3) as (m1 & Em1 & K1).
    cbn [srun sspec_run]. rewrite E1. cbn [bind].
    destruct (IH h1 ms1 _ i m1 T1 P2 (C2 _ E1) Em1) as (h2 & ms2 & m2 & E2 & T2 & Em2 & K2).
    { destruct K1 as (_ & ->). exact Hp. }
    { destruct K1 as (_ & ->). exact W4. }
    exists h2, ms2, m2. split; [exact E2|]. split; [exact T2|]. split; [exact Em2|]. eapply kept_trans; eauto.
  Qed.
End Str.

(** ** Vectors *)
Section Vec.
  Context {T : Type}.
  Variable e : env.
  Variable es : Z.
  Variable dflt : T.
  Hypothesis Hes : 0 < es.
  Hypothesis Henv : good_env e.
  Hypothesis Hmem : enough_memory e.

  Lemma vres_kept (v : vec T) n x v' b : n <= vcap v -> vreserve_bytes e es v n x = Ok (v', b) -> v' = v.
  Proof.
    intros H E. unfold vreserve_bytes in E. replace (n <=? vcap v) with true in E by (symmetry; apply Z.leb_le; exact H).
    now injection E as <- _.
  Qed.
  Lemma vres_size (v : vec T) n x v' b : vreserve_bytes e es v n x = Ok (v', b) -> vsize v' = vsize v.
  Proof.
    unfold vreserve_bytes. destruct (n <=? vcap v); [intros E; now injection E as <- _|].
    cbv zeta. destruct (malloc_ok e _); [|discriminate]. intros E. now injection E as <- _.
  Qed.
  Lemma hole_kept (v : vec T) ip n v' b : es * Z.of_nat (vsize v + n) <= vcap v -> insert_hole e es v ip n = Ok (v', b) -> vcap v' = vcap v.
  Proof.
    intros H E. unfold insert_hole in E. destruct (_ <? _)%nat; [discriminate|]. bound E. destruct r as [v1 b1].
    bound E. destruct r as [v2 b2]. bound E. injection E as <- _. cbn [vcap]. unfold vreserve, bytes in *.
    rewrite (vres_kept _ _ _ _ _ H Heqo) in Heqo0. now rewrite (vres_kept _ _ _ _ _ H Heqo0).
  Qed.
  Lemma ins_kept (v : vec T) ip l v' : es * Z.of_nat (vsize v + length l) <= vcap v -> insert_list e es v ip l = Ok v' -> vcap v' = vcap v.
  Proof.
    intros H E. unfold insert_list in E. bound E. destruct r as [v1 b1]. bound E. injection E as <-. cbn [vcap].
    eapply hole_kept; eauto.
  Qed.
  Lemma rsz_kept (v : vec T) n x v' : es * Z.of_nat n <= vcap v -> resize_with e es v n x = Ok v' -> vcap v' = vcap v.
  Proof.
    intros H E. unfold resize_with in E. bound E. destruct r as [v1 b1]. bound E. injection E as <-. cbn [vcap].
    unfold bytes in Heqo. now rewrite (vres_kept _ _ _ _ _ H Heqo).
  Qed.

  Lemma vstep_kept (v : vec T) (l : list T) o v' : Vinv es v l -> op_pre es dflt l o -> vstep e es dflt v o = Ok v' ->
    o <> OpShrink -> o <> OpDeallocate -> (forall n x, o = OpReserve n x -> es * Z.of_nat n <= vcap v) ->
    es * Z.of_nat (length (seq_step dflt l o)) <= vcap v -> vcap v' = vcap v.
  Proof.
    intros I P E N1 N2 Rs L. pose proof (Vinv_cap es Hes v l I) as C. pose proof I as (_ & S & _).
    destruct o; cbn [vstep] in E; cbn [op_pre] in P; cbn [seq_step] in L.
    - unfold push_back, append_hole in E. bound E. destruct r as ((v1 & hp) & b1). bound E. injection E as <-. cbn [vcap].
      destruct (vreserve_bytes e es v (bytes es (vsize v + 1)) false) as [[v2 b2]| | |] eqn:Q; cbn [bind] in Heqo; try discriminate Heqo.
      injection Heqo as <- _ _. cbn [vcap]. unfold bytes in Q. rewrite app_length in L. cbn [length] in L.
      now rewrite (vres_kept v (es * Z.of_nat (vsize v + 1)) false v2 b2 ltac:(rewrite S; exact L) Q).
    - unfold pop_back in E. destruct (vsize v); [discriminate|]. bound E. injection E as <-. reflexivity.
    - unfold insert1 in E. eapply ins_kept; [|exact E]. unfold seq_insert in L. rewrite !app_length, firstn_length, skipn_length in L.
      cbn [length] in *. rewrite S. eapply Z.le_trans; [|exact L]. apply Z.mul_le_mono_nonneg_l; lia.
    - unfold insert_n in E. eapply ins_kept; [|exact E]. unfold seq_insert in L. rewrite !app_length, firstn_length, skipn_length in L.
      rewrite S. eapply Z.le_trans; [|exact L]. apply Z.mul_le_mono_nonneg_l; lia.
    - eapply ins_kept; [|exact E]. unfold seq_insert in L. rewrite !app_length, firstn_length, skipn_length in L.
      rewrite S. eapply Z.le_trans; [|exact L]. apply Z.mul_le_mono_nonneg_l; lia.
    - unfold VectorModel.erase in E. cbv zeta in E. bound E. cbn [vsize] in E. destruct (_ <? _)%nat; [discriminate|]. bound E. destruct r0 as (v1 & b1). bound E. injection E as <-.
      cbn [vcap]. unfold bytes in Heqo0. cbn [vsize] in Heqo0. apply vres_kept in Heqo0; [now rewrite Heqo0|cbn [vcap]; rewrite S; exact C].
    - unfold VectorModel.resize in E. eapply rsz_kept; [|exact E]. unfold seq_resize in L. rewrite app_length, firstn_length, repeat_length in L.
      eapply Z.le_trans; [|exact L]. apply Z.mul_le_mono_nonneg_l; lia.
    - eapply rsz_kept; [|exact E]. unfold seq_resize in L. rewrite app_length, firstn_length, repeat_length in L.
      eapply Z.le_trans; [|exact L]. apply Z.mul_le_mono_nonneg_l; lia.
    - unfold VectorModel.assign, VectorModel.resize in E. bound E. bound E. injection E as <-. cbn [vcap]. eapply rsz_kept; [|exact Heqo]. exact L.
    - unfold assign_n, VectorModel.assign, VectorModel.resize in E. bound E. bound E. injection E as <-. cbn [vcap]. eapply rsz_kept; [|exact Heqo]. exact L.
    - unfold VectorModel.clear, destroy_all in E. bound E. injection E as <-. cbn [vcap]. destruct (vcap v =? 0); [now injection Heqo as <-|].
      bound Heqo. now injection Heqo as <-.
    - bound E. destruct r as (v1 & b1). injection E as <-. unfold vreserve, bytes in Heqo.
      now rewrite (vres_kept _ _ _ _ _ (Rs _ _ eq_refl) Heqo).
    - congruence.
    - congruence.
  Qed.
  Lemma vrun_kept ops : forall (v : vec T) (l : list T), Vinv es v l -> ops_pre es dflt l ops -> ops_moves_ok es dflt l ops = true ->
    v_within dflt es (vcap v) l ops ->
    exists v', vrun e es dflt v ops = Ok v' /\ Vinv es v' (seq_run dflt l ops) /\ vcap v' = vcap v.
  Proof.
    induction ops as [|o t IH]; intros v l I P M W; [exists v; auto|].
    destruct P as (P1 & P2). cbn [ops_moves_ok] in M. apply andb_true_iff in M. destruct M as (M1 & M2).
    cbn [v_within] in W. destruct W as (W1 & W2 & W3 & W4 & W5).
    destruct (vstep_ok e es dflt Hes Henv Hmem v l o I P1 M1) as (v1 & E1 & I1).
    pose proof (vstep_kept _ _ _ _ I P1 E1 W1 W2 W3 W4) as K. cbn [vrun seq_run]. rewrite E1. cbn [bind].
    destruct (IH v1 _ I1 P2 M2) as (v2 & E2 & I2 & K2); [rewrite K; exact W5|]. exists v2. split; [exact E2|]. split; [exact I2|congruence].
  Qed.
End Vec.

(** ** Counting allocations *)
Definition lens (h : heap) : list Z := map (fun k => Z.of_nat (length (bcells k))) h.
Lemma lens_wr h b k k' h' : nth_error h b = Some k -> length (bcells k') = length (bcells k) -> wr h b k' = Ok h' -> lens h' = lens h.
Proof.
  intros N L. unfold wr. revert b h' N. induction h as [|y t IH]; intros [|b] h' N E; cbn [nth_error] in N; try discriminate.
  - injection N as ->. cbn [upd] in E. injection E as <-. cbn [lens map]. now rewrite L.
  - cbn [upd] in E. destruct (upd t b k') as [t'|] eqn:U; [|discriminate]. injection E as <-.
    cbn [lens map]. f_equal. apply (IH b t' N). now rewrite U.
Qed.
Lemma lens_free h p h' : free h p = Ok h' -> lens h' = lens h.
Proof.
  destruct p as [[b o]|]; cbn [free]; intros E; [|now injection E as <-].
  unfold rd in E. destruct (nth_error h b) as [k|] eqn:N; [|discriminate]. cbn [bind] in E.
  destruct (bkind k); try discriminate. destruct (o =? 0); [|discriminate]. eapply lens_wr; [exact N| |exact E]. reflexivity.
Qed.
Lemma lens_store h p x h' : store_n h p x = Ok h' -> lens h' = lens h.
Proof.
  unfold store_n. destruct x as [|y x]; intros E; [now injection E as <-|]. destruct p as [[b o]|]; [|discriminate].
  unfold rd in E. destruct (nth_error h b) as [k|] eqn:N; [|discriminate]. cbn [bind] in E.
  destruct (writable (bkind k) && in_range o (Z.of_nat (length (y :: x))) (bcells k)) eqn:W; [|discriminate].
  eapply lens_wr; [exact N| |exact E]. cbn [bcells]. apply andb_true_iff in W. destruct W as (_ & W). unfold in_range in W.
  rewrite !andb_true_iff, !Z.leb_le in W. rewrite !app_length, firstn_length, skipn_length. lia.
Qed.
Lemma lens_app a b : lens (a ++ b) = lens a ++ lens b. Proof. apply map_app. Qed.
Lemma lens_push e h c : lens (fst (push_blk e h c)) = lens h ++ [Z.of_nat (length c)].
Proof. unfold push_blk. cbn [fst]. now rewrite lens_app. Qed.
Lemma realloc_cells_length {A} (c : list (option A)) n : length (realloc_cells c n) = n.
Proof. unfold realloc_cells. rewrite app_length, firstn_length, repeat_length. lia. Qed.
Lemma lens_realloc e h p n h' p' : 0 < n -> realloc e h p n = Ok (h', p') -> lens h' = lens h ++ [n].
Proof.
  intros Hn. unfold realloc. destruct p as [[b o]|].
  - intros E. bound E. replace (n =? 0) with false in E by (symmetry; apply Z.eqb_neq; lia).
    destruct (malloc_ok e n); [|discriminate]. bound E. injection E as E1 _. rewrite <- E1.
    transitivity (lens (fst (push_blk e r0 (realloc_cells (bcells r) (Z.to_nat n))))); [reflexivity|].
    rewrite lens_push, realloc_cells_length, (lens_free _ _ _ Heqo1), Z2Nat.id by lia. reflexivity.
  - destruct (malloc_ok e n); [|discriminate]. intros E. injection E as <- _.
    transitivity (lens (fst (push_blk e h (repeat None (Z.to_nat n))))); [reflexivity|].
    now rewrite lens_push, repeat_length, Z2Nat.id by lia.
Qed.
Lemma lens_reserve e mfc h m n x h' m' : 0 <= mfc <= 1 -> 0 <= n -> n + mfc <= 2 ^ 31 -> 0 <= mcap m -> mcap m < n + mfc ->
  reserve e mfc h m n x = Ok (h', m') ->
  mcap m' = (if x then n + mfc else next_pow2 (n + mfc)) /\ lens h' = lens h ++ [mcap m'].
Proof.
  intros Hm Hn Hb Hc Hlt E. unfold reserve in E. cbv zeta in E. rewrite u64_small in E by lia.
  replace (n + mfc <=? mcap m) with false in E by (symmetry; apply Z.leb_gt; lia).
  bound E. destruct r as [h1 nb]. bound E. bound E. injection E as <- <-. cbn [mcap]. split; [reflexivity|].
  assert (lens r = lens h1).
  { destruct (if is_linked m then None else mptr m); [now injection Heqo0 as <-|].
    destruct (mptr m); [|now injection Heqo0 as <-]. unfold copy_n in Heqo0. bound Heqo0. eapply lens_store; eauto. }
  rewrite H. eapply lens_realloc; [|exact Heqo].
  destruct x; [lia|]. destruct (Z.le_gt_cases 2 (n + mfc)) as [L2|L2].
  - rewrite next_pow2_val by lia. apply Z.pow_pos_nonneg; [lia|]. pose proof (Z.log2_nonneg (n + mfc - 1)). lia.
  - replace (n + mfc) with 1 by lia. rewrite next_pow2_1. lia.
Qed.
Definition total (ks : list Z) : Z := fold_right Z.add 0 ks.
Lemma total_app a b : total (a ++ b) = total a + total b.
Proof. unfold total. induction a as [|x t IH]; cbn [fold_right app]; lia. Qed.
Lemma allocated_lens bs : allocated bs = total (lens bs).
Proof. unfold allocated, total, lens. induction bs as [|k t IH]; cbn [fold_right map]; [reflexivity|]. now rewrite IH. Qed.
Lemma new_lens h h' ks : lens h' = lens h ++ ks -> lens (new_blocks h h') = ks.
Proof.
  intros E. unfold new_blocks. assert (L : length h = length (lens h)) by (unfold lens; now rewrite map_length).
  unfold lens in *. rewrite <- skipn_map, E. rewrite map_length in L. rewrite skipn_app, map_length, Nat.sub_diag.
  rewrite skipn_all2 by (rewrite map_length; lia). reflexivity.
Qed.

Section Push.
  Variable e : env.
  Hypothesis Hmem : enough_memory e.

  Lemma hv_push_ok es h m l x : 0 < es -> Z.of_nat (length x) = es -> Minv e h m l -> Z.of_nat (length l) + es <= 2 ^ 31 ->
    exists h' m', hv_push_back e es h m x = Ok (h', m') /\ Minv e h' m' (l ++ x) /\
      ((Z.of_nat (length l) + es <= mcap m /\ mcap m' = mcap m /\ lens h' = lens h) \/
       (mcap m < Z.of_nat (length l) + es /\ mcap m' = next_pow2 (Z.of_nat (length l) + es) /\ lens h' = lens h ++ [mcap m'])).
  Proof.
    intros Hes Lx I Hb. pose proof I as ((Sz & Sb) & IC).
    assert (C0 : 0 <= mcap m) by (destruct IC as [(H & _)|(H & _)]; lia).
    set (n := Z.of_nat (length l) + es) in *.
    destruct (reserve_ok e Hmem 0 h m l n false ltac:(lia) ltac:(unfold n; lia) ltac:(lia) I) as (h1 & m1 & E1 & _ & I1 & Cp).
    pose proof I1 as ((Sz1 & _) & _).
    destruct (resize_ok e Hmem 0 h1 m1 l n true ltac:(lia) ltac:(unfold n; lia) ltac:(lia) I1) as (h2 & m2 & l2 & E2 & _ & I2 & _ & L2 & F2 & Hh).
    assert (h2 = h1) by (apply Hh; lia). subst h2. clear Hh.
    destruct (resize_kept e 0 ltac:(lia) h1 m1 n true h1 m2 ltac:(unfold n; lia) Cp E2) as (_ & ->).
    replace (Nat.min (Z.to_nat n) (length l)) with (length l) in F2 by (unfold n; lia). rewrite firstn_all in F2.
    assert (L3 : l2 = l ++ skipn (length l) l2) by (rewrite <- F2 at 1; now rewrite firstn_skipn).
    assert (L4 : length (skipn (length l) l2) = length x) by (rewrite skipn_length, L2; unfold n; lia).
    rewrite L3 in I2.
    destruct (store_in e h1 (mkmb (mptr m1) n (mcap m1)) l (skipn (length l) l2) [] x) as (h3 & E3 & _ & I3).
    { rewrite app_nil_r. exact I2. }
    { intros _. cbn [mcap]. unfold n in Cp. lia. }
    { exact L4. }
    cbn [mptr] in E3. rewrite app_nil_r in I3.
    exists h3, (mkmb (mptr m1) n (mcap m1)). unfold hv_push_back. cbv zeta.
    replace (u64 (msize m + es)) with n by (rewrite Sz, u64_small; unfold n; lia).
    rewrite E1. cbn [bind]. rewrite Sz1, E3. cbn [bind]. split; [reflexivity|]. split; [exact I3|]. cbn [mcap].
    destruct (Z.le_gt_cases n (mcap m)) as [A|A].
    - left. destruct (reserve_kept e 0 ltac:(lia) h m n false h1 m1 ltac:(unfold n; lia) ltac:(lia) E1) as (-> & ->).
      split; [exact A|]. split; [reflexivity|]. eapply lens_store; eauto.
    - right. destruct (lens_reserve e 0 h m n false h1 m1 ltac:(lia) ltac:(unfold n; lia) ltac:(lia) C0 ltac:(lia) E1) as (Q1 & Q2).
      rewrite Z.add_0_r in Q1. split; [exact A|]. split; [exact Q1|]. rewrite <- Q2. eapply lens_store; eauto.
  Qed.

  Definition Grown (ks : list Z) (cap size : Z) : Prop :=
    (cap = 0 /\ ks = []) \/
    exists k, 1 <= k /\ cap = 2 ^ k /\ total ks <= 2 * cap - 1 /\ Z.of_nat (length ks) <= k /\ cap <= 2 * size.
  Lemma grown_next ks cap s size : Grown ks cap s ->
    cap < size -> 1 <= size <= 2 ^ 31 -> Grown (ks ++ [next_pow2 size]) (next_pow2 size) size.
  Proof.
    intros G Lt Hs. right.
    assert (K : exists k, 1 <= k /\ next_pow2 size = 2 ^ k /\ size <= 2 ^ k <= 2 * size).
    { destruct (Z.le_gt_cases 2 size) as [L2|L2].
      - exists (1 + Z.log2 (size - 1)). pose proof (Z.log2_nonneg (size - 1)). split; [lia|]. split; [apply next_pow2_val; lia|].
        pose proof (Z.log2_spec (size - 1) ltac:(lia)) as (A & B). rewrite Z.pow_add_r by lia. unfold Z.succ in B. rewrite Z.pow_add_r in B by lia. lia.
      - exists 1. replace size with 1 by lia. rewrite next_pow2_1. lia. }
    destruct K as (k & K1 & K2 & K3). exists k. rewrite K2, total_app, app_length. cbn [total fold_right length].
    split; [exact K1|]. split; [reflexivity|]. destruct G as [(-> & ->)|(k0 & A & B & C & D & _)].
    - cbn [total fold_right length]. lia.
    - assert (k0 < k) by (apply (Z.pow_lt_mono_r_iff 2); lia).
      assert (2 ^ (k0 + 1) <= 2 ^ k) by (apply Z.pow_le_mono_r; lia). rewrite Z.pow_add_r in H0 by lia. change (2 ^ 1) with 2 in H0. lia.
  Qed.
  Lemma hv_pushes_ok es xs : forall h m l ks hs, 0 < es -> Forall (fun x => Z.of_nat (length x) = es) xs -> Minv e h m l ->
    Z.of_nat (length l) + es * Z.of_nat (length xs) <= 2 ^ 31 -> lens h = lens hs ++ ks ->
    Grown ks (mcap m) (Z.of_nat (length l)) ->
    exists h' m' ks', hv_pushes e es h m xs = Ok (h', m') /\ Minv e h' m' (l ++ concat xs) /\ lens h' = lens hs ++ ks' /\
      Grown ks' (mcap m') (Z.of_nat (length l) + es * Z.of_nat (length xs)).
  Proof.
    induction xs as [|x t IH]; intros h m l ks hs Hes F I Hb Lh G.
    - exists h, m, ks. cbn [concat]. rewrite app_nil_r. split; [reflexivity|]. split; [exact I|]. split; [exact Lh|].
      cbn [length]. now rewrite Z.mul_0_r, Z.add_0_r.
    - inversion F as [|? ? Fx Ft]; subst. cbn [length] in Hb.
      assert (Hm : Z.of_nat (length x) * Z.of_nat (S (length t)) = Z.of_nat (length x) + Z.of_nat (length x) * Z.of_nat (length t)) by lia.
      destruct (hv_push_ok (Z.of_nat (length x)) h m l x Hes eq_refl I ltac:(nia)) as (h1 & m1 & E1 & I1 & C).
      assert (Ll : Z.of_nat (length (l ++ x)) = Z.of_nat (length l) + Z.of_nat (length x)) by (rewrite app_length; lia).
      assert (G1 : exists ks1, lens h1 = lens hs ++ ks1 /\ Grown ks1 (mcap m1) (Z.of_nat (length (l ++ x)))).
      { destruct C as [(A & B & D)|(A & B & D)].
        - exists ks. rewrite D, B. split; [exact Lh|]. destruct G as [G|(k & G1 & G2 & G3 & G4 & G5)]; [left; exact G|].
          right. exists k. rewrite Ll. repeat split; auto; lia.
        - exists (ks ++ [mcap m1]). rewrite D, Lh, app_assoc. split; [reflexivity|]. rewrite Ll, B. apply (grown_next ks (mcap m) _ _ G); [lia|nia]. }
      destruct G1 as (ks1 & Lh1 & G1).
      destruct (IH h1 m1 (l ++ x) ks1 hs Hes Ft I1) as (h2 & m2 & ks2 & E2 & I2 & Lh2 & G2); [rewrite Ll; nia|exact Lh1|exact G1|].
      exists h2, m2, ks2. cbn [hv_pushes]. rewrite E1. cbn [bind]. split; [exact E2|]. cbn [concat]. rewrite app_assoc.
      split; [exact I2|]. split; [exact Lh2|]. rewrite Ll in G2. cbn [length]. rewrite Hm. now rewrite Z.add_assoc.
  Qed.

  Variable nul : ptr.
  (** Every character allocates a new block of exactly the new size. *)
  Fixpoint steps_from (a : Z) (n : nat) : list Z := match n with O => [] | S k => a :: steps_from (a + 1) k end.
  Lemma total_steps n a : 2 * total (steps_from a n) = Z.of_nat n * (2 * a + Z.of_nat n - 1).
  Proof.
    revert a. induction n as [|n IH]; intros a; [reflexivity|]. cbn [steps_from total fold_right].
    change (fold_right Z.add 0 (steps_from (a + 1) n)) with (total (steps_from (a + 1) n)). specialize (IH (a + 1)). nia.
  Qed.
  Lemma steps_length n a : length (steps_from a n) = n.
  Proof. revert a. induction n as [|n IH]; intros a; cbn [steps_from length]; auto. Qed.

  Lemma str_push_lens h m l c h' m' : Minv e h m l -> Z.of_nat (length l) + 1 < 2 ^ 31 -> mcap m < Z.of_nat (length l) + 2 ->
    str_push_back e nul h m c = Ok (h', m') -> mcap m' = Z.of_nat (length l) + 2 /\ lens h' = lens h ++ [mcap m'].
  Proof.
    intros ((Sz & _) & IC) Hb Hc E. assert (C0 : 0 <= mcap m) by (destruct IC as [(H & _)|(H & _)]; lia).
    unfold str_push_back in E. rewrite Sz, u64_small in E by lia. bound E. destruct r as [h1 m1]. bound E. injection E as <- <-.
    rewrite (lens_store _ _ _ _ Heqo0). clear Heqo0. unfold str_resize in Heqo.
    replace (Z.of_nat (length l) + 1 =? 0) with false in Heqo by (symmetry; apply Z.eqb_neq; lia). cbn [andb] in Heqo.
    bound Heqo. destruct r0 as [h2 m2]. bound Heqo. injection Heqo as <- <-. rewrite (lens_store _ _ _ _ Heqo1). clear Heqo1.
    unfold resize in Heqo0. rewrite u64_small in Heqo0 by lia.
    replace (mcap m <? Z.of_nat (length l) + 1 + 1) with true in Heqo0 by (symmetry; apply Z.ltb_lt; lia).
    destruct (reserve e 1 h m (Z.of_nat (length l) + 1) true) as [[h3 m3]| | |] eqn:R; cbn [bind] in Heqo0; try discriminate Heqo0.
    injection Heqo0 as <- <-. cbn [mcap].
    destruct (lens_reserve e 1 h m (Z.of_nat (length l) + 1) true h3 m3 ltac:(lia) ltac:(lia) ltac:(lia) C0 ltac:(lia) R) as (A & B).
    split; [rewrite A; lia|exact B].
  Qed.
  Lemma str_pushes_ok h0 cs : callers h0 -> NulBlk nul h0 -> forall h m l, Minv e h m l -> NulBlk nul h -> (length h0 <= length h)%nat ->
    (forall b, (b < length h0)%nat -> nth_error h b = nth_error h0 b) ->
    Z.of_nat (length l) + Z.of_nat (length cs) + 1 <= 2 ^ 31 -> mcap m < Z.of_nat (length l) + 2 ->
    exists h' m', str_pushes e nul h m cs = Ok (h', m') /\ Minv e h' m' (l ++ map Some cs) /\
      lens h' = lens h ++ steps_from (Z.of_nat (length l) + 2) (length cs).
  Proof.
    intros Hc Hn. induction cs as [|c t IH]; intros h m l I B Lh Fr Hb Hcap.
    - exists h, m. cbn [map steps_from length]. rewrite !app_nil_r. auto.
    - cbn [length] in Hb. destruct (str_push_back_ok e Hmem nul h m l c I B ltac:(lia)) as (h1 & m1 & E1 & St & I1 & _).
      destruct (str_push_lens h m l c h1 m1 I ltac:(lia) Hcap E1) as (Q1 & Q2).
      assert (Fr1 : forall b, (b < length h0)%nat -> nth_error h1 b = nth_error h0 b).
      { intros b Hlt. destruct St as (_ & F & _). rewrite F; [now apply Fr|lia|].
        intros Eo. destruct (Minv_owned e h m l b I Eo) as ((k & N & K) & _). rewrite Fr in N by exact Hlt.
        unfold callers in Hc. rewrite Forall_forall in Hc. destruct (Hc k (nth_error_In _ _ N)); congruence. }
      assert (B1 : NulBlk nul h1).
      { destruct Hn as (b & base & En & N). exists b, base. split; [exact En|]. rewrite Fr1; [exact N|apply nth_error_Some; congruence]. }
      destruct (IH h1 m1 (l ++ [Some c]) I1 B1) as (h2 & m2 & E2 & I2 & L2).
      { destruct St as (G & _). lia. }
      { exact Fr1. }
      { rewrite app_length. cbn [length]. lia. }
      { rewrite app_length. cbn [length]. lia. }
      exists h2, m2. cbn [str_pushes]. rewrite E1. cbn [bind]. split; [exact E2|]. cbn [map]. rewrite <- app_assoc in I2. split; [exact I2|].
      rewrite L2, Q2, Q1. cbn [steps_from length]. rewrite app_length. cbn [length]. rewrite <- app_assoc. cbn [app].
      do 3 f_equal. lia.
  Qed.
  (** With room nothing is allocated. *)
  Lemma str_push_room h m l c h' m' : Minv e h m l -> Z.of_nat (length l) + 2 <= mcap m -> mcap m <= 2 ^ 31 ->
    str_push_back e nul h m c = Ok (h', m') -> lens h' = lens h.
  Proof.
    intros ((Sz & _) & _) Hc Hb E.
    unfold str_push_back in E. rewrite Sz, u64_small in E by lia. bound E. destruct r as [h1 m1]. bound E. injection E as <- <-.
    rewrite (lens_store _ _ _ _ Heqo0). clear Heqo0. unfold str_resize in Heqo.
    replace (Z.of_nat (length l) + 1 =? 0) with false in Heqo by (symmetry; apply Z.eqb_neq; lia). cbn [andb] in Heqo.
    bound Heqo. destruct r0 as [h2 m2]. bound Heqo. injection Heqo as <- <-. rewrite (lens_store _ _ _ _ Heqo1). clear Heqo1.
    destruct (resize_kept e 1 ltac:(lia) h m (Z.of_nat (length l) + 1) true h2 m2 ltac:(lia) ltac:(lia) Heqo0) as (-> & _). reflexivity.
  Qed.
  Lemma str_pushes_room h0 cs : callers h0 -> NulBlk nul h0 -> forall h m l, Minv e h m l -> NulBlk nul h -> (length h0 <= length h)%nat ->
    (forall b, (b < length h0)%nat -> nth_error h b = nth_error h0 b) ->
    Z.of_nat (length l) + Z.of_nat (length cs) + 1 <= mcap m -> mcap m <= 2 ^ 31 -> 0 < mcap m ->
    exists h' m', str_pushes e nul h m cs = Ok (h', m') /\ Minv e h' m' (l ++ map Some cs) /\ kept m m' /\ lens h' = lens h.
  Proof.
    intros Hc Hn. induction cs as [|c t IH]; intros h m l I B Lh Fr Hb Hcap Hp.
    - exists h, m. cbn [map length]. rewrite !app_nil_r. split; [reflexivity|]. split; [exact I|]. split; [apply kept_refl|reflexivity].
    - cbn [length] in Hb. destruct (str_push_back_ok e Hmem nul h m l c I B ltac:(lia)) as (h1 & m1 & E1 & St & I1 & _).
      pose proof (str_push_room h m l c h1 m1 I ltac:(lia) Hcap E1) as Q2.
      assert (K : kept m m1).
      { apply (k_push_back e nul c h m h1 m1 Hp); [destruct I as ((Sz & _) & _); lia|destruct I as ((Sz & _) & _); lia|exact E1|].
        destruct I1 as ((Sz & _) & _). rewrite Sz, app_length. cbn [length]. lia. }
      assert (Fr1 : forall b, (b < length h0)%nat -> nth_error h1 b = nth_error h0 b).
      { intros b Hlt. destruct St as (_ & F & _). rewrite F; [now apply Fr|lia|].
        intros Eo. destruct (Minv_owned e h m l b I Eo) as ((k & N & KK) & _). rewrite Fr in N by exact Hlt.
        unfold callers in Hc. rewrite Forall_forall in Hc. destruct (Hc k (nth_error_In _ _ N)); congruence. }
      assert (B1 : NulBlk nul h1).
      { destruct Hn as (b & base & En & N). exists b, base. split; [exact En|]. rewrite Fr1; [exact N|apply nth_error_Some; congruence]. }
      pose proof K as (K1 & K2).
      destruct (IH h1 m1 (l ++ [Some c]) I1 B1) as (h2 & m2 & E2 & I2 & Kt & L2).
      { destruct St as (G & _). lia. }
      { exact Fr1. }
      { rewrite app_length. cbn [length]. lia. }
      { lia. }
      { lia. }
      exists h2, m2. cbn [str_pushes]. rewrite E1. cbn [bind]. split; [exact E2|]. cbn [map]. rewrite <- app_assoc in I2. split; [exact I2|].
      split; [eapply kept_trans; eauto|]. congruence.
  Qed.
End Push.
