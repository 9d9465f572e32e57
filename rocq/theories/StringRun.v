(** * StringRun: histories over several strings refine their specification. *)
From Verif Require Import Base UtilModel UtilProofs StoreModel StoreProofs VectorSpec MemModel MemSpec MemProofs MemRun StringModel StringSpec StringProofs.
From Coq Require Import ZArith ZifyBool ZifyNat.
Local Open Scope Z_scope.

Lemma upto_agrees n s l : agrees s l -> agrees (upto n s) (upto n l).
Proof. intros A. unfold upto. rewrite (agrees_length _ _ A). now apply agrees_firstn. Qed.
Lemma from_agrees n s l : agrees s l -> agrees (from n s) (from n l).
Proof. intros A. unfold from. rewrite (agrees_length _ _ A). now apply agrees_skipn. Qed.
Lemma resize_agrees s l n c : agrees s l -> agrees (seq_resize s n c) (seq_resize l n c).
Proof. intros A. unfold seq_resize. rewrite (agrees_length _ _ A). apply agrees_app; [now apply agrees_firstn|apply agrees_refl]. Qed.
Lemma removelast_agrees s l : agrees s l -> agrees (removelast s) (removelast l).
Proof. intros A. rewrite !removelast_firstn_len, (agrees_length _ _ A). now apply agrees_firstn. Qed.

Section Run.
  Variable e : env.
  Hypothesis Henv : good_env e.
  Hypothesis Hmem : enough_memory e.
  Variable h0 : heap.
  Hypothesis Hc : callers h0.
  Variable nul : ptr.
  Hypothesis Hnul : NulBlk nul h0.

  Record TInv (h : heap) (ms : list mb) (ss : list (list (option Z))) : Prop := mkTInv {
    t_sinv : SInv e h0 h ms ss;
    t_nul : forall i m, nth_error ms i = Some m -> Nul h m;
    t_size : forall i, len ss i < 2 ^ 31
  }.

  Lemma Nul_frame h m h' m' mj lj l : Step0 h m h' m' -> Minv e h m l -> Minv e h mj lj ->
    (forall b, owner m = Some b -> owner mj <> Some b) -> Nul h mj -> Nul h' mj.
  Proof.
    intros (_ & F & _) I (S & Ij) D [Z0|Z0]; [left; exact Z0|right]. rewrite <- Z0.
    destruct (mptr mj) as [[b o]|] eqn:P; [|reflexivity]. cbn [padd]. unfold load_n, rd. rewrite F; [reflexivity| |].
    - unfold load_n, rd in Z0. cbn [padd Z.eqb] in Z0. destruct (nth_error h b) eqn:N; [|discriminate]. apply nth_error_Some. congruence.
    - intros Eo. destruct Ij as [(C & [(P' & _)|(b' & k & pre & post & P' & N & Kd & _)])|O].
      + congruence.
      + rewrite P in P'. injection P' as <- _. destruct (Minv_owned e h m l b I Eo) as ((k' & N' & K') & _).
        rewrite N in N'. injection N' as <-. destruct Kd; congruence.
      + destruct (Owning_owner e h mj lj O) as (b' & Ob & P' & _). rewrite P in P'. injection P' as <- _. exact (D b Eo Ob).
  Qed.
  Lemma tinv_nulblk h ms ss : TInv h ms ss -> NulBlk nul h.
  Proof.
    intros T. destruct Hnul as (b & base & En & N). exists b, base. split; [exact En|].
    rewrite (s_frame _ _ _ _ _ (t_sinv _ _ _ T)); [exact N|apply nth_error_Some; congruence].
  Qed.
  Lemma len_put (ss : list (list (option Z))) i x j : (i < length ss)%nat -> len (put ss i x) j = if Nat.eqb j i then Z.of_nat (length x) else len ss j.
  Proof.
    intros Hi. unfold len, get. destruct (Nat.eqb_spec j i) as [-> |N].
    - rewrite (nth_error_nth _ _ [] (put_same ss i x Hi)). reflexivity.
    - destruct (Nat.lt_ge_cases j (length ss)) as [L|L].
      + destruct (nth_error ss j) as [y|] eqn:Ej; [|apply nth_error_None in Ej; lia].
        rewrite (nth_error_nth _ _ [] Ej). rewrite (nth_error_nth (put ss i x) j [] (x := y)); [reflexivity|].
        rewrite put_other by lia. exact Ej.
      + rewrite !nth_overflow; [reflexivity|lia|rewrite put_length; lia].
  Qed.

  Lemma tinv_set h ms ss i m l h' m' l' s' : TInv h ms ss -> nth_error ms i = Some m -> Minv e h m l -> Step0 h m h' m' ->
    Minv e h' m' l' -> Nul h' m' -> agrees s' l' -> Z.of_nat (length s') < 2 ^ 31 -> TInv h' (put ms i m') (put ss i s').
  Proof.
    intros T Em Im St Im' Z' A Lb. pose proof (t_sinv _ _ _ T) as I. pose proof (s_len _ _ _ _ _ I) as SL.
    assert (Hi : (i < length ms)%nat) by (apply nth_error_Some; congruence).
    constructor.
    - eapply sinv_set; eauto.
    - intros j mj. destruct (Nat.eq_dec j i) as [-> |N].
      + rewrite put_same by exact Hi. intros E. injection E as <-. exact Z'.
      + rewrite put_other by auto. intros Ej. destruct (s_ok _ _ _ _ _ I j mj Ej) as (lj & Ij & _).
        eapply Nul_frame; eauto; [|exact (t_nul _ _ _ T j mj Ej)].
        intros b Eo. eapply (s_dist _ _ _ _ _ I i j); eauto.
    - intros j. rewrite len_put by lia. destruct (Nat.eqb j i); [exact Lb|apply (t_size _ _ _ T)].
  Qed.

  (** The result of one operation on string [i]. *)
  Definition done (f : outcome (heap * mb)) (h : heap) (m : mb) (s' : list (option Z)) : Prop :=
    exists h' m' l', f = Ok (h', m') /\ Step h m h' m' /\ Minv e h' m' l' /\ Nul h' m' /\ agrees s' l' /\ Z.of_nat (length s') < 2 ^ 31.
  Lemma done_intro f h m s' l' : (exists h' m', f = Ok (h', m') /\ Step h m h' m' /\ Minv e h' m' l' /\ Nul h' m') ->
    agrees s' l' -> Z.of_nat (length s') < 2 ^ 31 -> done f h m s'.
  Proof. intros (h' & m' & E & St & I & Z) A L. exists h', m', l'. auto 10. Qed.

  Lemma on_str h ms ss i f s' : TInv h ms ss -> (i < length ss)%nat ->
    (forall m l, nth_error ms i = Some m -> Minv e h m l -> Nul h m -> agrees (get ss i) l -> len ss i = Z.of_nat (length l) ->
       Z.of_nat (length l) < 2 ^ 31 -> NulBlk nul h -> done (f h m) h m s') ->
    exists h' ms', on (h, ms) i f = Ok (h', ms') /\ TInv h' ms' (put ss i s') /\ (NoLeak h ms -> NoLeak h' ms').
  Proof.
    intros T Hi H. pose proof (t_sinv _ _ _ T) as I. pose proof (s_len _ _ _ _ _ I) as SL.
    destruct (nth_error ms i) as [m|] eqn:Em; [|apply nth_error_None in Em; lia].
    destruct (s_ok _ _ _ _ _ I i m Em) as (l & Im & A).
    assert (Ll : len ss i = Z.of_nat (length l)) by (unfold len; now rewrite (agrees_length _ _ A)).
    destruct (H m l eq_refl Im (t_nul _ _ _ T i m Em) A Ll) as (h' & m' & l' & E & St & Im' & Z' & A' & L').
    { rewrite <- Ll. apply (t_size _ _ _ T). }
    { exact (tinv_nulblk _ _ _ T). }
    unfold on, rd. rewrite Em. cbn [bind]. rewrite E. cbn [bind]. rewrite wr_put by lia. cbn [bind].
    exists h', (put ms i m'). split; [reflexivity|]. split; [eapply tinv_set; eauto; exact (Step_Step0 _ _ _ _ St)|].
    apply noleak_set with (m := m); [lia|exact Em|exact St].
  Qed.

  (** Constructors: the old string is destroyed first. *)
  Lemma renew_ok h ms ss i f s' : TInv h ms ss -> (i < length ss)%nat ->
    (forall h1, (forall m l, nth_error ms i = Some m -> Minv e h m l -> Step h m h1 mb_nil) ->
       TInv h1 (put ms i mb_nil) (put ss i []) -> NulBlk nul h1 -> done (f h1) h1 mb_nil s') ->
    exists h' ms', renew (h, ms) i f = Ok (h', ms') /\ TInv h' ms' (put ss i s') /\ (NoLeak h ms -> NoLeak h' ms').
  Proof.
    intros T Hi H. unfold renew. apply (on_str h ms ss i _ s' T Hi). intros m l Em Im Zm A Ll Lb B.
    destruct (dealloc_ok e h m l Im) as (h1 & E1 & St1 & I1). rewrite E1. cbn [bind].
    assert (T1 : TInv h1 (put ms i mb_nil) (put ss i [])).
    { eapply tinv_set; eauto; [exact (Step_Step0 _ _ _ _ St1)|left; reflexivity|constructor|cbn [length]; lia]. }
    destruct (H h1) as (h2 & m2 & l2 & E2 & St2 & I2 & Z2 & A2 & L2); [|exact T1|exact (tinv_nulblk _ _ _ T1)|].
    { intros m' l' Em' _. rewrite Em in Em'. injection Em' as <-. exact St1. }
    exists h2, m2, l2. split; [exact E2|]. split; [exact (Step_trans _ _ _ _ _ _ St1 St2)|]. auto.
  Qed.

  Lemma read_h0 h ms ss m l p n : TInv h ms ss -> Minv e h m l -> can_read h0 p n ->
    load_n h p n = Ok (bytes_at h0 p n) /\ Outside h m p n.
  Proof.
    intros T Im R. pose proof (t_sinv _ _ _ T) as I. split; [apply (load_h0 e h0 h ms ss p n I R)|eapply outside_h0; eauto].
  Qed.
  Lemma bytes_at_len p n : 0 <= n -> can_read h0 p n -> length (bytes_at h0 p n) = Z.to_nat n.
  Proof. intros Hn (l & E). unfold bytes_at. rewrite E. eapply load_length; eauto. Qed.

  Lemma cstr_h0 h ms ss p : TInv h ms ss -> can_read_c h0 p -> Cstr nul h p (c_bytes h0 p).
  Proof.
    intros T R. pose proof (t_sinv _ _ _ T) as I. unfold Cstr. destruct R as [-> |(b & k & pre & l & post & -> & N & Ec & Fa & Hl)].
    - destruct (tinv_nulblk _ _ _ T) as (b & base & -> & N). exists b, (mkblk [Some 0] base Literal), [], [].
      split; [reflexivity|]. split; [exact N|]. split; [right; reflexivity|]. split; [reflexivity|].
      split; [unfold strlen, rd; rewrite N; reflexivity|cbn; lia].
    - assert (N' : nth_error h b = Some k).
      { rewrite (s_frame _ _ _ _ _ I); [exact N|apply nth_error_Some; congruence]. }
      assert (K : bkind k = Foreign \/ bkind k = Literal).
      { unfold callers in Hc. rewrite Forall_forall in Hc. apply Hc. eapply nth_error_In; eauto. }
      destruct (cstrlen_ok l post Fa) as (A & B).
      assert (Sk : skipn (Z.to_nat (Z.of_nat (length pre))) (bcells k) = map Some l ++ Some 0 :: post).
      { rewrite Nat2Z.id, Ec, skipn_app, Nat.sub_diag, skipn_all. reflexivity. }
      assert (Cb : c_bytes h0 (Some (b, Z.of_nat (length pre))) = map Some l) by (unfold c_bytes; rewrite N, Sk; exact B).
      rewrite Cb. exists b, k, pre, post. split; [reflexivity|]. split; [exact N'|]. split; [exact K|]. split; [exact Ec|].
      rewrite map_length. split; [|exact Hl]. unfold strlen, rd. rewrite N'. cbn [bind].
      replace (readable (bkind k)) with true by (destruct K as [-> | ->]; reflexivity). cbn [andb].
      unfold in_range. replace ((0 <=? Z.of_nat (length pre)) && (0 <=? 0) && (Z.of_nat (length pre) + 0 <=? Z.of_nat (length (bcells k)))) with true
        by (rewrite Ec, !app_length; lia).
      rewrite Sk. exact A.
  Qed.
  Lemma c_bytes_len p : can_read_c h0 p -> Z.of_nat (length (c_bytes h0 p)) < 2 ^ 31.
  Proof.
    intros [-> |(b & k & pre & l & post & -> & N & Ec & Fa & Hl)]; [cbn; lia|].
    unfold c_bytes. rewrite N, Nat2Z.id, Ec, skipn_app, Nat.sub_diag, skipn_all. cbn [app skipn].
    destruct (cstrlen_ok l post Fa) as (_ & ->). now rewrite map_length.
  Qed.

  (** Another string as a source. *)
  Lemma other h ms ss i j m x lm : TInv h ms ss -> i <> j -> nth_error ms i = Some m -> nth_error ms j = Some x -> Minv e h m lm ->
    exists lx, Minv e h x lx /\ Nul h x /\ agrees (get ss j) lx /\ len ss j = Z.of_nat (length lx) /\ Z.of_nat (length lx) < 2 ^ 31 /\
      Outside h m (mptr x) (msize x).
  Proof.
    intros T N Ei Ej Im. pose proof (t_sinv _ _ _ T) as I. destruct (s_ok _ _ _ _ _ I j x Ej) as (lx & Ix & Ax). exists lx.
    assert (Ll : len ss j = Z.of_nat (length lx)) by (unfold len; now rewrite (agrees_length _ _ Ax)).
    split; [exact Ix|]. split; [exact (t_nul _ _ _ T j x Ej)|]. split; [exact Ax|]. split; [exact Ll|].
    split; [rewrite <- Ll; apply (t_size _ _ _ T)|]. eapply (copy_other e h0 h ms ss i j); eauto.
  Qed.
  Lemma with_ok h ms ss j k : TInv h ms ss -> (j < length ss)%nat -> exists x, nth_error ms j = Some x /\ with_str (h, ms) j k = k x.
  Proof.
    intros T Hj. pose proof (s_len _ _ _ _ _ (t_sinv _ _ _ T)) as SL.
    destruct (nth_error ms j) as [x|] eqn:Ej; [|apply nth_error_None in Ej; lia]. exists x. split; [reflexivity|].
    unfold with_str, rd. cbn [snd]. rewrite Ej. reflexivity.
  Qed.
  Lemma get_put_other {A} (ss : list (list A)) i j x : (i < length ss)%nat -> j <> i -> get (put ss i x) j = get ss j.
  Proof.
    intros Hi N. unfold get. destruct (Nat.lt_ge_cases j (length ss)) as [L|L].
    - erewrite nth_error_nth; [reflexivity|]. rewrite put_other by auto. now apply get_nth.
    - rewrite !nth_overflow; [reflexivity|lia|rewrite put_length; lia].
  Qed.

  Lemma assign_self_str h m l : Minv e h m l -> Nul h m -> Z.of_nat (length l) < 2 ^ 31 -> NulBlk nul h ->
    exists h' m', str_assign_str e nul h m m = Ok (h', m') /\ Step h m h' m' /\ Minv e h' m' l /\ Nul h' m'.
  Proof.
    intros I Z0 Hb B. pose proof I as ((S & _) & [L|O]); unfold str_assign_str.
    - eapply (str_assign_ok e Hmem nul h m l); eauto; [lia| |eapply Minv_load; eauto].
      destruct (Z.eq_dec (msize m) 0) as [E0|NZ]; [left; exact E0|right].
      pose proof (Linked_owner _ _ _ L) as Lo. rewrite Lo.
      destruct L as (C & [(P & ->)|(b & k & pre & post & P & Nb & K & Ec & _)]); [cbn in S; lia|].
      exists b, (Z.of_nat (length pre)). split; [exact P|]. split; [discriminate|apply nth_error_Some; congruence].
    - assert (Cm : 0 < mcap m) by (destruct O as (Hcc & _); lia). pose proof (nul_cap e h m l I Z0 Cm) as Cp.
      unfold str_assign, str_resize. replace ((msize m =? 0) && (mcap m =? 0)) with false by lia.
      unfold resize. rewrite u64_small by lia. replace (mcap m <? msize m + 1) with false by lia. cbn [bind mptr mcap].
      replace (mkmb (mptr m) (msize m) (mcap m)) with m by (now destruct m).
      destruct (term_ok e h m l I ltac:(lia)) as (h1 & E1 & St1 & I1 & Z1). rewrite S, E1. cbn [bind].
      destruct (copy_in e h1 m [] l [] (mptr m) (msize m) l) as (h2 & E2 & St2 & I2 & Z2).
      { cbn [app]. now rewrite app_nil_r. }
      { intros _; lia. }
      { eapply Minv_load; eauto. }
      { reflexivity. }
      cbn [length Z.of_nat app] in E2, I2. rewrite padd_0, S in E2. rewrite app_nil_r in I2. rewrite E2. cbn [bind].
      exists h2, m. split; [reflexivity|]. split; [exact (Step_trans _ _ _ _ _ _ St1 St2)|]. auto.
  Qed.

  Lemma upto_len {X} n (l : list X) : (length (upto n l) <= length l)%nat.
  Proof. unfold upto. rewrite firstn_length. lia. Qed.
  Lemma from_len {X} n (l : list X) : (length (from n l) <= length l)%nat.
  Proof. unfold from. rewrite skipn_length. lia. Qed.

  Lemma newlen_put (ss : list (list (option Z))) i x : (i < length ss)%nat -> len (put ss i x) i = Z.of_nat (length x).
  Proof. intros Hi. rewrite len_put by exact Hi. now rewrite Nat.eqb_refl. Qed.
  Lemma alen a b : agrees a b -> Z.of_nat (length a) = Z.of_nat (length b).
  Proof. intros A. now rewrite (agrees_length _ _ A). Qed.
  Lemma owning_of m : is_linked m = false -> forall h l, Minv e h m l -> 0 < mcap m.
  Proof. unfold is_linked. intros N h l (_ & [(C & _)|(C & _)]); lia. Qed.

  (** A new string [i] built from string [j]. *)
  Lemma renew_from h ms ss i j x f s' : TInv h ms ss -> (i < length ss)%nat -> (j < length ss)%nat -> i <> j -> nth_error ms j = Some x ->
    (forall h1 lx, Minv e h1 x lx -> Nul h1 x -> agrees (get ss j) lx -> Z.of_nat (length lx) < 2 ^ 31 -> NulBlk nul h1 ->
       Outside h1 mb_nil (mptr x) (msize x) -> done (f h1) h1 mb_nil s') ->
    exists h' ms', renew (h, ms) i f = Ok (h', ms') /\ TInv h' ms' (put ss i s') /\ (NoLeak h ms -> NoLeak h' ms').
  Proof.
    intros T Hi Hj N Ej H. apply (renew_ok h ms ss i f s' T Hi). intros h1 _ T1 B1.
    pose proof (s_len _ _ _ _ _ (t_sinv _ _ _ T)) as SL.
    assert (E1 : nth_error (put ms i mb_nil) i = Some mb_nil) by (apply put_same; lia).
    assert (E2 : nth_error (put ms i mb_nil) j = Some x) by (rewrite put_other by lia; exact Ej).
    destruct (other h1 _ _ i j mb_nil x [] T1 N E1 E2 (nil_minv e h1)) as (lx & Ix & Zx & Ax & Lx & Bx & Ox).
    rewrite get_put_other in Ax by auto. eapply H; eauto.
  Qed.

  Lemma sstep_ok h ms ss o : TInv h ms ss -> sop_pre h0 ss o -> careful_op h0 ss ms o ->
    exists h' ms', sstep e nul (h, ms) o = Ok (h', ms') /\ TInv h' ms' (sspec_step h0 ss o) /\ (NoLeak h ms -> NoLeak h' ms').
  Proof.
    intros T P Ca. pose proof (s_len _ _ _ _ _ (t_sinv _ _ _ T)) as SL.
    destruct o; cbn [sop_pre] in P; cbn [sstep]; unfold fits, is_pos in P.
    - (* string (p) *)
      destruct P as (Hi & R). cbn [sspec_step]. apply (renew_ok h ms ss i _ _ T Hi). intros h1 _ T1 B1.
      pose proof (cstr_h0 _ _ _ _ T1 R) as C.
      destruct (str_of_c_ok e nul h1 p _ C) as (m' & E & St & I' & Z').
      exists h1, m', (c_bytes h0 p). split; [exact E|]. split; [exact St|]. split; [exact I'|]. split; [exact Z'|].
      split; [apply agrees_refl|now apply c_bytes_len].
    - (* copy constructor *)
      destruct P as (Hi & Hj & N). cbn [sspec_step]. destruct (with_ok h ms ss j (fun x => renew (h, ms) i (fun h => str_copy e h x)) T Hj) as (x & Ej & ->).
      apply (renew_from h ms ss i j x _ _ T Hi Hj N Ej). intros h1 lx Ix Zx Ax Lx B1 Ox.
      eapply done_intro; [eapply str_copy_ok; eauto|exact Ax|rewrite (alen _ _ Ax); exact Lx].
    - (* move constructor *)
      destruct P as (Hi & Hj & N). cbn [sspec_step].
      destruct (with_ok h ms ss j (fun x => s <- renew (h, ms) i (fun h => Ok (h, x)) ;; on s j (fun h _ => Ok (h, mb_nil))) T Hj) as (x & Ej & ->).
      destruct (nth_error ms i) as [m|] eqn:Em; [|apply nth_error_None in Em; lia].
      pose proof (t_sinv _ _ _ T) as I. destruct (s_ok _ _ _ _ _ I i m Em) as (l & Im & A).
      destruct (dealloc_ok e h m l Im) as (h1 & E1 & St1 & I1).
      assert (T1 : TInv h1 (put ms i mb_nil) (put ss i [])).
      { eapply tinv_set; eauto; [exact (Step_Step0 _ _ _ _ St1)|left; reflexivity|constructor|cbn [length]; lia]. }
      unfold renew, on at 1, rd. rewrite Em. cbn [bind]. rewrite E1. cbn [bind]. rewrite wr_put by lia. cbn [bind].
      unfold on, rd. rewrite put_other by lia. rewrite Ej. cbn [bind]. rewrite wr_put by (rewrite put_length; lia). cbn [bind].
      destruct (swap_ok e h0 h1 (put ms i mb_nil) (put ss i []) i j (t_sinv _ _ _ T1)) as (ms2 & E2 & I2 & Pm).
      { rewrite put_length; lia. }
      { rewrite put_length; lia. }
      assert (Ems : ms2 = put (put ms i x) j mb_nil).
      { unfold swap_mb, rd in E2. rewrite put_same in E2 by lia. rewrite put_other in E2 by lia. rewrite Ej in E2. cbn [bind] in E2.
        rewrite wr_put in E2 by (rewrite put_length; lia). cbn [bind] in E2. rewrite wr_put in E2 by (rewrite !put_length; try rewrite put_length; lia).
        cbn [bind] in E2. injection E2 as <-. now rewrite put_put_same by lia. }
      subst ms2. exists h1, (put (put ms i x) j mb_nil). split; [reflexivity|].
      assert (Ess : put (put (put ss i []) i (get (put ss i []) j)) j (get (put ss i []) i) = put (put ss i (get ss j)) j []).
      { rewrite get_put_other by auto. rewrite put_put_same by lia. f_equal. unfold get. apply nth_error_nth. apply put_same. lia. }
      rewrite Ess in I2. split.
      + constructor; [exact I2| |].
        * intros k mk. destruct (Nat.eq_dec k j) as [-> |Nk].
          { rewrite put_same by (rewrite put_length; lia). intros Ek. injection Ek as <-. left. reflexivity. }
          rewrite put_other by (try rewrite put_length; lia). destruct (Nat.eq_dec k i) as [-> |Ni].
          { rewrite put_same by lia. intros Ek. injection Ek as <-. apply (t_nul _ _ _ T1 j x). rewrite put_other by lia. exact Ej. }
          rewrite put_other by lia. intros Ek. apply (t_nul _ _ _ T1 k mk). rewrite put_other by lia. exact Ek.
        * intros k. rewrite len_put by (rewrite put_length; lia). destruct (Nat.eqb k j); [cbn; lia|].
          rewrite len_put by lia. destruct (Nat.eqb k i); [exact (t_size _ _ _ T j)|apply (t_size _ _ _ T)].
      + intros NL b Ob. pose proof (noleak_set h ms i m h1 mb_nil ltac:(lia) Em St1 NL) as NL1.
        destruct (NL1 b Ob) as (k & mk & Ek & Eo). destruct (Pm k) as (k' & Pk). exists k', mk. split; [congruence|exact Eo].
    - (* string (n, c) *)
      destruct P as (Hi & Hn). cbn [sspec_step]. apply (renew_ok h ms ss i _ _ T Hi). intros h1 _ T1 B1.
      eapply done_intro; [eapply str_of_fill_ok; eauto|apply agrees_refl|rewrite repeat_length; lia].
    - (* substring *)
      destruct P as ((Hi & Hj & N) & Ho & Hn). cbn [sspec_step]. destruct (with_ok h ms ss j (fun x => renew (h, ms) i (fun h => str_substr e nul h x o n)) T Hj) as (x & Ej & ->).
      apply (renew_from h ms ss i j x _ _ T Hi Hj N Ej). intros h1 lx Ix Zx Ax Lx B1 Ox.
      destruct (sub_source e h1 mb_nil x lx o n Ix Lx Ox Ho Hn) as (O1 & L1 & K1 & R1).
      eapply done_intro; [|exact (upto_agrees n _ _ (from_agrees o _ _ Ax))|].
      + unfold str_substr, str_assign_sub. eapply (str_assign_ok e Hmem nul h1 mb_nil []); eauto using nil_minv.
      + rewrite (alen _ _ (upto_agrees n _ _ (from_agrees o _ _ Ax))). pose proof (upto_len n (from o lx)). pose proof (from_len o lx). lia.
    - (* assign (p, n) *)
      destruct P as (Hi & Hn & R). cbn [sspec_step]. apply (on_str h ms ss i _ _ T Hi). intros m l Em Im Zm A Ll Lb B.
      destruct (read_h0 _ _ _ m l _ _ T Im R) as (Ld & Ou).
      eapply done_intro; [eapply str_assign_ok; eauto|apply agrees_refl|rewrite bytes_at_len by (auto; lia); lia].
    - (* assign (p) *)
      destruct P as (Hi & R). cbn [sspec_step]. apply (on_str h ms ss i _ _ T Hi). intros m l Em Im Zm A Ll Lb B.
      eapply done_intro; [eapply str_assign_c_ok; eauto using cstr_h0|apply agrees_refl|now apply c_bytes_len].
    - (* assign (s) *)
      destruct P as (Hi & Hj). cbn [sspec_step]. destruct (with_ok h ms ss j (fun x => on (h, ms) i (fun h m => str_assign_str e nul h m x)) T Hj) as (x & Ej & ->).
      apply (on_str h ms ss i _ _ T Hi). intros m l Em Im Zm A Ll Lb B. destruct (Nat.eq_dec i j) as [-> |N].
      + rewrite Em in Ej. injection Ej as ->. eapply done_intro; [eapply assign_self_str; eauto|exact A|rewrite (alen _ _ A); exact Lb].
      + destruct (other h ms ss i j m x l T N Em Ej Im) as (lx & Ix & Zx & Ax & Lx & Bx & Ox). pose proof Ix as ((Sx & _) & _).
        eapply done_intro; [|exact Ax|rewrite (alen _ _ Ax); exact Bx].
        unfold str_assign_str. eapply str_assign_ok; eauto; [lia|eapply Minv_load; eauto].
    - (* assign (s, o, n) *)
      destruct P as ((Hi & Hj & N) & Ho & Hn). cbn [sspec_step]. destruct (with_ok h ms ss j (fun x => on (h, ms) i (fun h m => str_assign_sub e nul h m x o n)) T Hj) as (x & Ej & ->).
      apply (on_str h ms ss i _ _ T Hi). intros m l Em Im Zm A Ll Lb B.
      destruct (other h ms ss i j m x l T N Em Ej Im) as (lx & Ix & Zx & Ax & Lx & Bx & Ox).
      destruct (sub_source e h m x lx o n Ix Bx Ox Ho Hn) as (O1 & L1 & K1 & R1).
      eapply done_intro; [|exact (upto_agrees n _ _ (from_agrees o _ _ Ax))|].
      + unfold str_assign_sub. eapply str_assign_ok; eauto.
      + rewrite (alen _ _ (upto_agrees n _ _ (from_agrees o _ _ Ax))). pose proof (upto_len n (from o lx)). pose proof (from_len o lx). lia.
    - (* assign (n, c) *)
      destruct P as (Hi & Hn). cbn [sspec_step]. apply (on_str h ms ss i _ _ T Hi). intros m l Em Im Zm A Ll Lb B.
      eapply done_intro; [eapply str_assign_fill_ok; eauto|apply agrees_refl|rewrite repeat_length; lia].
    - (* append (p, n) *)
      destruct P as (Hi & Hn & R & Hb). cbn [sspec_step] in *. rewrite newlen_put in Hb by exact Hi.
      apply (on_str h ms ss i _ _ T Hi). intros m l Em Im Zm A Ll Lb B.
      destruct (read_h0 _ _ _ m l _ _ T Im R) as (Ld & Ou).
      eapply done_intro; [|apply agrees_app; [exact A|apply agrees_refl]|lia].
      rewrite app_length, (agrees_length _ _ A), bytes_at_len in Hb by (auto; lia). eapply str_append_ok; eauto. lia.
    - (* append (p) *)
      destruct P as (Hi & R & Hb). cbn [sspec_step] in *. rewrite newlen_put in Hb by exact Hi.
      apply (on_str h ms ss i _ _ T Hi). intros m l Em Im Zm A Ll Lb B.
      eapply done_intro; [|apply agrees_app; [exact A|apply agrees_refl]|lia].
      rewrite app_length, (agrees_length _ _ A) in Hb. eapply str_append_c_ok; eauto using cstr_h0. lia.
    - (* append (s) *)
      destruct P as ((Hi & Hj & N) & Hb). cbn [sspec_step] in *. rewrite newlen_put in Hb by exact Hi.
      destruct (with_ok h ms ss j (fun x => on (h, ms) i (fun h m => str_append_str e nul h m x)) T Hj) as (x & Ej & ->).
      apply (on_str h ms ss i _ _ T Hi). intros m l Em Im Zm A Ll Lb B.
      destruct (other h ms ss i j m x l T N Em Ej Im) as (lx & Ix & Zx & Ax & Lx & Bx & Ox). pose proof Ix as ((Sx & _) & _).
      eapply done_intro; [|exact (agrees_app _ _ _ _ A Ax)|lia].
      rewrite app_length, (agrees_length _ _ A), (agrees_length _ _ Ax) in Hb.
      unfold str_append_str. eapply str_append_ok; eauto; [lia|lia|eapply Minv_load; eauto].
    - (* append (n, c) *)
      destruct P as (Hi & Hn & Hb). cbn [sspec_step] in *. rewrite newlen_put in Hb by exact Hi.
      apply (on_str h ms ss i _ _ T Hi). intros m l Em Im Zm A Ll Lb B.
      eapply done_intro; [|apply agrees_app; [exact A|apply agrees_refl]|lia].
      rewrite app_length, (agrees_length _ _ A), repeat_length in Hb. eapply str_append_fill_ok; eauto. lia.
    - (* push_back *)
      destruct P as (Hi & Hb). cbn [sspec_step] in *. rewrite newlen_put in Hb by exact Hi.
      apply (on_str h ms ss i _ _ T Hi). intros m l Em Im Zm A Ll Lb B.
      eapply done_intro; [|apply agrees_app; [exact A|apply agrees_refl]|lia].
      rewrite app_length, (agrees_length _ _ A) in Hb. cbn [length] in Hb. eapply str_push_back_ok; eauto. lia.
    - (* pop_back *)
      destruct P as (Hi & Hne). cbn [sspec_step].
      apply (on_str h ms ss i _ _ T Hi). intros m l Em Im Zm A Ll Lb B.
      pose proof Im as ((S & _) & _). assert (Hl : l <> []) by (intros ->; inversion A; congruence).
      assert (0 < length l)%nat by (destruct l; [congruence|cbn; lia]).
      unfold str_pop_back. rewrite S, u64_small by lia.
      destruct (str_resize_ok e Hmem nul h m l (Z.of_nat (length l) - 1) Im B ltac:(lia)) as (h1 & m1 & l1 & E & St & I1 & Z1 & L1 & F1 & _).
      exists h1, m1, l1. split; [exact E|]. split; [exact St|]. split; [exact I1|]. split; [exact Z1|].
      assert (El : l1 = removelast l).
      { rewrite removelast_firstn_len. replace (Nat.min (Z.to_nat (Z.of_nat (length l) - 1)) (length l)) with (pred (length l)) in F1 by lia.
        rewrite <- F1. symmetry. apply firstn_all2. lia. }
      subst l1. pose proof (removelast_agrees _ _ A) as A'. split; [exact A'|]. rewrite (alen _ _ A'). lia.
    - (* resize *)
      destruct P as (Hi & Hn). cbn [sspec_step].
      apply (on_str h ms ss i _ _ T Hi). intros m l Em Im Zm A Ll Lb B.
      destruct (str_resize_ok e Hmem nul h m l n Im B Hn) as (h1 & m1 & l1 & E & St & I1 & Z1 & L1 & F1 & _).
      exists h1, m1, l1. split; [exact E|]. split; [exact St|]. split; [exact I1|]. split; [exact Z1|].
      pose proof (agrees_resize _ _ _ _ A L1 F1) as A'. split; [exact A'|]. rewrite (alen _ _ A'). lia.
    - (* resize (n, c) *)
      destruct P as (Hi & Hn). cbn [sspec_step].
      apply (on_str h ms ss i _ _ T Hi). intros m l Em Im Zm A Ll Lb B.
      eapply done_intro; [eapply str_resize_fill_ok; eauto|now apply resize_agrees|].
      unfold seq_resize. rewrite app_length, firstn_length, repeat_length. lia.
    - (* clear *)
      cbn [sspec_step]. apply (on_str h ms ss i _ _ T P). intros m l Em Im Zm A Ll Lb B. unfold str_clear.
      destruct (str_resize_ok e Hmem nul h m l 0 Im B ltac:(lia)) as (h1 & m1 & l1 & E & St & I1 & Z1 & L1 & F1 & _).
      exists h1, m1, l1. split; [exact E|]. split; [exact St|]. split; [exact I1|]. split; [exact Z1|].
      destruct l1; [|cbn in L1; lia]. split; [constructor|cbn; lia].
    - (* reserve *)
      destruct P as (Hi & Hl & Hn). cbn [sspec_step careful_op] in *. rewrite <- (put_get ss i Hi).
      apply (on_str h ms ss i _ _ T Hi). intros m l Em Im Zm A Ll Lb B.
      eapply done_intro; [eapply str_reserve_ok; eauto; lia|exact A|rewrite (alen _ _ A); exact Lb].
    - (* insert (ip, n, c) *)
      destruct P as (Hi & Hip & Hn & Hb & G). cbn [sspec_step] in *. rewrite newlen_put in Hb by exact Hi.
      apply (on_str h ms ss i _ _ T Hi). intros m l Em Im Zm A Ll Lb B. rewrite Ll in G.
      eapply done_intro; [|apply agrees_app; [exact (upto_agrees ip _ _ A)|apply agrees_app; [apply agrees_refl|exact (from_agrees ip _ _ A)]]|lia].
      rewrite !app_length, repeat_length in Hb. pose proof (upto_from_len ip (get ss i) ltac:(lia)) as Q. rewrite (agrees_length _ _ A) in Q.
      eapply str_insert_fill_ok; eauto; lia.
    - (* insert (ip, p, n, cnt) *)
      destruct P as (Hi & Hip & Hn & Hcn & R & Hb & G). cbn [sspec_step] in *. rewrite newlen_put in Hb by exact Hi.
      apply (on_str h ms ss i _ _ T Hi). intros m l Em Im Zm A Ll Lb B. rewrite Ll in G.
      destruct (read_h0 _ _ _ m l _ _ T Im R) as (Ld & Ou).
      eapply done_intro; [|apply agrees_app; [exact (upto_agrees ip _ _ A)|apply agrees_app; [apply agrees_refl|exact (from_agrees ip _ _ A)]]|lia].
      rewrite !app_length in Hb. pose proof (upto_from_len ip (get ss i) ltac:(lia)) as Q. rewrite (agrees_length _ _ A) in Q.
      pose proof (times_lengthZ (bytes_at h0 p len) cnt ltac:(lia)) as Tl. rewrite bytes_at_len, Z2Nat.id in Tl by (auto; lia).
      eapply str_insert_ok; eauto; lia.
    - (* insert (ip, s, o, n) *)
      destruct P as ((Hi & Hj & N) & Hip & Ho & Hn & Hb & G). cbn [sspec_step] in *. rewrite newlen_put in Hb by exact Hi.
      destruct (with_ok h ms ss j (fun x => on (h, ms) i (fun h m =>
          str_insert e h m ip (padd (mptr x) (clamp x o)) (u64 (clamp x (u64 (o + n)) - clamp x o)) 1)) T Hj) as (x & Ej & ->).
      apply (on_str h ms ss i _ _ T Hi). intros m l Em Im Zm A Ll Lb B. rewrite Ll in G.
      destruct (other h ms ss i j m x l T N Em Ej Im) as (lx & Ix & Zx & Ax & Lx & Bx & Ox).
      destruct (sub_source e h m x lx o n Ix Bx Ox Ho Hn) as (O1 & L1 & K1 & R1).
      pose proof (upto_agrees n _ _ (from_agrees o _ _ Ax)) as Ay. rewrite (alen _ _ Ay) in G.
      eapply done_intro; [|apply agrees_app; [exact (upto_agrees ip _ _ A)|apply agrees_app; [exact Ay|exact (from_agrees ip _ _ A)]]|lia].
      rewrite !app_length in Hb. pose proof (upto_from_len ip (get ss i) ltac:(lia)) as Q. rewrite (agrees_length _ _ A) in Q. rewrite (agrees_length _ _ Ay) in Hb.
      assert (E1 : times (upto n (from o lx)) 1 = upto n (from o lx)) by (unfold times; cbn [Z.to_nat Pos.to_nat Pos.iter_op repeat concat]; apply app_nil_r).
      rewrite <- E1. eapply str_insert_ok; eauto; try lia. rewrite Z.mul_1_r, K1. exact G.
    - (* erase *)
      destruct P as (Hi & Hep & Hn & G). cbn [sspec_step] in *.
      apply (on_str h ms ss i _ _ T Hi). intros m l Em Im Zm A Ll Lb B. rewrite Ll in *.
      pose proof (agrees_app _ _ _ _ (upto_agrees ep _ _ A) (from_agrees (ep + n) _ _ A)) as A'.
      eapply done_intro; [eapply str_erase_ok; eauto; lia|exact A'|].
      rewrite (alen _ _ A'), app_length. unfold upto, from. rewrite firstn_length, skipn_length. lia.
    - (* replace (rp, n, p, len, cnt) *)
      destruct P as (Hi & Hrp & Hn & Hl & Hcn & R & Hb & G). cbn [sspec_step careful_op writes_in_place] in *.
      rewrite newlen_put in * by exact Hi.
      apply (on_str h ms ss i _ _ T Hi). intros m l Em Im Zm A Ll Lb B. rewrite Ll in *.
      destruct (read_h0 _ _ _ m l _ _ T Im R) as (Ld & Ou).
      assert (A' : agrees (upto rp (get ss i) ++ times (bytes_at h0 p len) cnt ++ from (rp + n) (get ss i)) (upto rp l ++ times (bytes_at h0 p len) cnt ++ from (rp + n) l)).
      { apply agrees_app; [exact (upto_agrees rp _ _ A)|apply agrees_app; [apply agrees_refl|exact (from_agrees _ _ _ A)]]. }
      eapply done_intro; [|exact A'|lia].
      rewrite (alen _ _ A') in *.
      pose proof (times_lengthZ (bytes_at h0 p len) cnt ltac:(lia)) as Tl. rewrite bytes_at_len, Z2Nat.id in Tl by (auto; lia).
      eapply str_replace_ok; eauto; try lia.
      + rewrite !app_length in Hb. lia.
      + intros Eq. rewrite Eq, Z.eqb_refl in Ca. exact (owning_of m (Ca m Em) h l Im).
    - (* replace (rp, n, s) *)
      destruct P as ((Hi & Hj & N) & Hrp & Hn & Hb & G). cbn [sspec_step careful_op writes_in_place] in *.
      rewrite newlen_put in * by exact Hi.
      destruct (with_ok h ms ss j (fun x => on (h, ms) i (fun h m => str_replace e h m rp (u64 (rp + n)) (mptr x) (msize x) 1)) T Hj) as (x & Ej & ->).
      apply (on_str h ms ss i _ _ T Hi). intros m l Em Im Zm A Ll Lb B. rewrite Ll in *.
      destruct (other h ms ss i j m x l T N Em Ej Im) as (lx & Ix & Zx & Ax & Lx & Bx & Ox). pose proof Ix as ((Sx & _) & _).
      assert (E1 : times lx 1 = lx) by (unfold times; cbn [Z.to_nat Pos.to_nat Pos.iter_op repeat concat]; apply app_nil_r).
      assert (A' : agrees (upto rp (get ss i) ++ get ss j ++ from (rp + n) (get ss i)) (upto rp l ++ times lx 1 ++ from (rp + n) l)).
      { rewrite E1. apply agrees_app; [exact (upto_agrees rp _ _ A)|apply agrees_app; [exact Ax|exact (from_agrees _ _ _ A)]]. }
      eapply done_intro; [|exact A'|lia].
      rewrite (alen _ _ A') in *.
      eapply str_replace_ok; eauto; try lia.
      + eapply Minv_load; eauto.
      + rewrite Z.mul_1_r, Sx, <- Lx. exact G.
      + intros Eq. rewrite Eq, Z.eqb_refl in Ca. exact (owning_of m (Ca m Em) h l Im).
    - (* replace (rp, n, cnt, c) *)
      destruct P as (Hi & Hrp & Hn & Hcn & Hb & G). cbn [sspec_step careful_op writes_in_place] in *.
      rewrite newlen_put in * by exact Hi.
      apply (on_str h ms ss i _ _ T Hi). intros m l Em Im Zm A Ll Lb B. rewrite Ll in *.
      assert (A' : agrees (upto rp (get ss i) ++ repeat (Some c) (Z.to_nat cnt) ++ from (rp + n) (get ss i)) (upto rp l ++ repeat (Some c) (Z.to_nat cnt) ++ from (rp + n) l)).
      { apply agrees_app; [exact (upto_agrees rp _ _ A)|apply agrees_app; [apply agrees_refl|exact (from_agrees _ _ _ A)]]. }
      eapply done_intro; [|exact A'|lia].
      rewrite (alen _ _ A') in *.
      eapply str_replace_fill_ok; eauto; try lia.
      intros Eq. rewrite Eq, Z.eqb_refl in Ca. exact (owning_of m (Ca m Em) h l Im).
    - (* at (pos) = c *)
      destruct P as (Hi & Hpos). cbn [sspec_step careful_op writes_in_place] in *.
      apply (on_str h ms ss i _ _ T Hi). intros m l Em Im Zm A Ll Lb B. rewrite Ll in *.
      destruct (nth_error l (Z.to_nat pos)) as [y|] eqn:Ey; [|apply nth_error_None in Ey; lia].
      apply nth_error_split in Ey. destruct Ey as (pre & post & El & Lp).
      assert (Ep : put l (Z.to_nat pos) (Some c) = pre ++ [Some c] ++ post).
      { rewrite El. unfold put. rewrite <- Lp, firstn_app, Nat.sub_diag, firstn_all. cbn [firstn]. rewrite app_nil_r. cbn [app]. do 2 f_equal.
        change (pre ++ y :: post) with (pre ++ [y] ++ post). rewrite app_assoc.
        replace (Datatypes.S (length pre)) with (length (pre ++ [y])) by (rewrite app_length; cbn; lia).
        rewrite skipn_app, Nat.sub_diag, skipn_all. reflexivity. }
      pose proof (agrees_put _ _ (Z.to_nat pos) (Some c) (Some c) A eq_refl) as A'. rewrite Ep in A'.
      rewrite El in Im. destruct (put_in e h m pre [y] post [Some c] Im) as (h2 & E2 & St2 & I2 & Z2).
      { intros _. exact (owning_of m (Ca m Em) h _ Im). }
      { reflexivity. }
      unfold str_set. replace (Z.of_nat (length pre)) with pos in E2 by lia. rewrite E2. cbn [bind].
      exists h2, m, (pre ++ [Some c] ++ post). split; [reflexivity|]. split; [exact St2|]. split; [exact I2|]. split; [auto|].
      split; [exact A'|]. rewrite (alen _ _ A'). rewrite El in Lb. rewrite !app_length in *. cbn [length] in *. lia.
    - (* swap *)
      destruct P as (Hi & Hj). cbn [sspec_step]. destruct (swap_ok e h0 h ms ss i j (t_sinv _ _ _ T) Hi Hj) as (ms' & E & I' & Pm).
      exists h, ms'. split; [exact E|]. split.
      + constructor; [exact I'| |].
        * intros k mk Ek. unfold swap_mb, rd in E. 
          destruct (nth_error ms i) as [mi|] eqn:Ei; [|discriminate]. destruct (nth_error ms j) as [mj|] eqn:Ej; [|discriminate]. cbn [bind] in E.
          rewrite wr_put in E by lia. cbn [bind] in E. rewrite wr_put in E by (rewrite put_length; lia). cbn [bind] in E. injection E as <-.
          destruct (Nat.eq_dec k j) as [-> |Nk].
          { rewrite put_same in Ek by (rewrite put_length; lia). injection Ek as <-. exact (t_nul _ _ _ T i mi Ei). }
          rewrite put_other in Ek by (try rewrite put_length; lia). destruct (Nat.eq_dec k i) as [-> |Ni].
          { rewrite put_same in Ek by lia. injection Ek as <-. exact (t_nul _ _ _ T j mj Ej). }
          rewrite put_other in Ek by lia. exact (t_nul _ _ _ T k mk Ek).
        * intros k. rewrite len_put by (rewrite put_length; lia). destruct (Nat.eqb k j); [exact (t_size _ _ _ T i)|].
          rewrite len_put by lia. destruct (Nat.eqb k i); [exact (t_size _ _ _ T j)|apply (t_size _ _ _ T)].
      + intros NL b Ob. destruct (NL b Ob) as (k & m & Ek & Eo). destruct (Pm k) as (k' & Pk). exists k', m. split; [congruence|exact Eo].
  Qed.

  Lemma srun_tinv ops : forall h ms ss, TInv h ms ss -> sops_pre h0 ss ops -> careful e nul h0 ss (h, ms) ops ->
    exists h' ms', srun e nul (h, ms) ops = Ok (h', ms') /\ TInv h' ms' (sspec_run h0 ss ops) /\ (NoLeak h ms -> NoLeak h' ms').
  Proof.
    induction ops as [|o t IH]; intros h ms ss T P Ca; [exists h, ms; split; [reflexivity|]; split; auto|].
    cbn [sops_pre careful snd] in *. destruct P as (P1 & P2). destruct Ca as (C1 & C2).
    destruct (sstep_ok h ms ss o T P1 C1) as (h1 & ms1 & E1 & T1 & N1).
    cbn [srun sspec_run]. rewrite E1. cbn [bind].
    destruct (IH h1 ms1 _ T1 P2 (C2 _ E1)) as (h2 & ms2 & E2 & T2 & N2). exists h2, ms2. split; [exact E2|]. split; [exact T2|auto].
  Qed.

  Lemma tinv_init k : TInv h0 (repeat (str_nil nul) k) (repeat [] k).
  Proof.
    assert (G : forall i, get (repeat (@nil (option Z)) k) i = []).
    { intros i. unfold get. destruct (nth_in_or_default i (repeat (@nil (option Z)) k) []) as [H| ->]; [|reflexivity].
      now apply repeat_spec in H. }
    destruct (nulstr_ok e nul h0 Hnul) as (I0 & Z0). constructor.
    - constructor.
      + now rewrite !repeat_length.
      + lia.
      + auto.
      + intros i m E. apply nth_error_In, repeat_spec in E. subst m. exists []. split; [exact I0|]. rewrite G. constructor.
      + intros i j mi mj b _ E _ O. apply nth_error_In, repeat_spec in E. subst mi. discriminate.
    - intros i m E. apply nth_error_In, repeat_spec in E. subst m. exact Z0.
    - intros i. unfold len. rewrite G. cbn. lia.
  Qed.
  Lemma noleak_init_str k : NoLeak h0 (repeat (str_nil nul) k).
  Proof.
    intros b (x & Hx & K). apply nth_error_In in Hx. unfold callers in Hc. rewrite Forall_forall in Hc.
    destruct (Hc _ Hx); congruence.
  Qed.

  Lemma tinv_result h ms ss : TInv h ms ss -> Forall2 (sresult h) ms ss.
  Proof.
    intros T. pose proof (t_sinv _ _ _ T) as I.
    assert (G : forall i m, nth_error ms i = Some m -> sresult h m (get ss i)).
    { intros i m E. destruct (s_ok _ _ _ _ _ I i m E) as (l & Im & A). pose proof (t_nul _ _ _ T i m E) as Z0.
      split; [eapply minv_result; eauto|]. split.
      - destruct (mptr m) as [q|] eqn:P.
        + right. destruct Z0 as [Z0|Z0]; [congruence|exact Z0].
        + left. split; [reflexivity|]. destruct Im as (_ & [(_ & [(_ & ->)|(b & k & pre & post & P' & _)])|(_ & b & r & P' & _)]); [inversion A; reflexivity|congruence|congruence].
      - unfold is_linked. intros Lk. pose proof (nul_cap e h m l Im Z0 (owning_of m Lk h l Im)). destruct Im as ((S & _) & _). lia. }
    pose proof (s_len _ _ _ _ _ I) as L. clear I T. revert ss L G. induction ms as [|m t IH]; intros [|x u] L G; cbn in L; try lia; [constructor|].
    constructor; [exact (G 0%nat m eq_refl)|]. apply IH; [lia|]. intros i mm E. exact (G (S i) mm E).
  Qed.

  Lemma srun_correct k ops : sops_pre h0 (repeat [] k) ops -> careful e nul h0 (repeat [] k) (h0, repeat (str_nil nul) k) ops ->
    exists h ms, srun e nul (h0, repeat (str_nil nul) k) ops = Ok (h, ms) /\
      Forall2 (sresult h) ms (sspec_run h0 (repeat [] k) ops) /\ firstn (length h0) h = h0 /\
      (forall b x, nth_error h b = Some x -> bkind x = Owned -> exists m o, In m ms /\ is_linked m = false /\ mptr m = Some (b, o)).
  Proof.
    intros P Ca. destruct (srun_tinv ops _ _ _ (tinv_init k) P Ca) as (h & ms & E & T & NL). exists h, ms.
    split; [exact E|]. split; [now apply tinv_result|]. split; [eapply sinv_foreign; eauto using t_sinv|].
    intros b x Hx K. destruct (NL (noleak_init_str k) b) as (i & m & Ei & Eo); [exists x; auto|].
    unfold owner in Eo. unfold is_linked. destruct (mcap m =? 0) eqn:Cm; [discriminate|].
    destruct (mptr m) as [[c o]|] eqn:Pm; [|discriminate]. injection Eo as ->. exists m, o.
    split; [eapply nth_error_In; eauto|]. auto.
  Qed.
End Run.
