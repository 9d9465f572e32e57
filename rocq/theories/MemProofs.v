(** * MemProofs: memory blocks keep their bytes and touch nobody else's. *)
From Verif Require Import Base UtilModel UtilProofs StoreModel StoreProofs VectorSpec MemModel.
From Coq Require Import ZArith ZifyBool ZifyNat.
Local Open Scope Z_scope.

(** [h'] is [h] with block [b] replaced. *)
Definition hset (h : heap) (b : nat) (k : blk) (h' : heap) : Prop :=
  length h' = length h /\ nth_error h' b = Some k /\ forall c, c <> b -> nth_error h' c = nth_error h c.

Lemma wr_hset (h : heap) b k0 k : nth_error h b = Some k0 -> exists h', wr h b k = Ok h' /\ hset h b k h'.
Proof.
  intros H. assert (L : (b < length h)%nat) by (apply nth_error_Some; congruence).
  destruct (upd_lt h b k L) as (h' & E). exists h'. unfold wr. rewrite E. split; [reflexivity|].
  split; [eapply upd_length; eauto|]. split.
  - rewrite (upd_nth_error _ _ _ _ b E), Nat.eqb_refl. reflexivity.
  - intros c Hc. rewrite (upd_nth_error _ _ _ _ c E). apply Nat.eqb_neq in Hc. now rewrite Hc.
Qed.

Lemma in_range_ok (pre l post : list (option Z)) : in_range (Z.of_nat (length pre)) (Z.of_nat (length l)) (pre ++ l ++ post) = true.
Proof. unfold in_range. rewrite !app_length. lia. Qed.

Lemma load_ok h b k pre l post : nth_error h b = Some k -> readable (bkind k) = true ->
  bcells k = pre ++ l ++ post ->
  load_n h (Some (b, Z.of_nat (length pre))) (Z.of_nat (length l)) = Ok l.
Proof.
  intros H R E. unfold load_n. destruct (Z.eqb_spec (Z.of_nat (length l)) 0) as [Z0|_].
  { destruct l; [reflexivity|cbn in Z0; lia]. }
  unfold rd. rewrite H. cbn [bind]. rewrite R, E, in_range_ok. cbn [andb].
  rewrite Nat2Z.id. replace (Z.to_nat (Z.of_nat (length pre) + Z.of_nat (length l))) with (length pre + length l)%nat by lia.
  now rewrite slice_app.
Qed.
Lemma load_ok' h b k o n pre l post : nth_error h b = Some k -> readable (bkind k) = true ->
  bcells k = pre ++ l ++ post -> o = Z.of_nat (length pre) -> n = Z.of_nat (length l) ->
  load_n h (Some (b, o)) n = Ok l.
Proof. intros H R E -> ->. eapply load_ok; eauto. Qed.

Lemma store_ok h b k o pre old post l : nth_error h b = Some k -> writable (bkind k) = true ->
  bcells k = pre ++ old ++ post -> length old = length l -> o = Z.of_nat (length pre) ->
  exists h', store_n h (Some (b, o)) l = Ok h' /\
    hset h b (mkblk (pre ++ l ++ post) (bbase k) (bkind k)) h'.
Proof.
  intros H R E L ->. unfold store_n. destruct l as [|x l].
  - destruct old; [|discriminate]. exists h. split; [reflexivity|]. split; [reflexivity|]. split; [|auto].
    rewrite <- E, H. now destruct k.
  - unfold rd. rewrite H. cbn [bind]. rewrite R, E. rewrite <- L, in_range_ok. cbn [andb].
    rewrite Nat2Z.id.
    assert (F : firstn (length pre) (pre ++ old ++ post) = pre)
      by (rewrite firstn_app, Nat.sub_diag, firstn_all; cbn [firstn]; apply app_nil_r).
    assert (S : skipn (length pre + length old) (pre ++ old ++ post) = post).
    { rewrite Nat.add_comm, <- skipn_skipn. rewrite skipn_app, Nat.sub_diag, skipn_all. cbn [skipn app].
      rewrite skipn_app, Nat.sub_diag, skipn_all. reflexivity. }
    rewrite F, S. eapply wr_hset; eauto.
Qed.

Lemma free_ok h b cells base : nth_error h b = Some (mkblk cells base Owned) ->
  exists h', free h (Some (b, 0)) = Ok h' /\ hset h b (mkblk cells base Freed) h'.
Proof.
  intros H. unfold free, rd. rewrite H. cbn [bind bkind]. rewrite Z.eqb_refl. cbn [bcells bbase]. eapply wr_hset; eauto.
Qed.

Section WithEnv.
  Variable e : env.
  Hypothesis Henv : good_env e.
  Hypothesis Hmem : enough_memory e.

  Definition owner (m : mb) : option nat :=
    if mcap m =? 0 then None else match mptr m with Some (b, _) => Some b | None => None end.
  Definition owned_at (h : heap) (b : nat) : Prop := exists k, nth_error h b = Some k /\ bkind k = Owned.

  Definition Linked (h : heap) (m : mb) (l : list (option Z)) : Prop :=
    mcap m = 0 /\
    ((mptr m = None /\ l = []) \/
     exists b k pre post, mptr m = Some (b, Z.of_nat (length pre)) /\ nth_error h b = Some k /\
       (bkind k = Foreign \/ bkind k = Literal) /\ bcells k = pre ++ l ++ post /\ post <> []).
  Definition Owning (h : heap) (m : mb) (l : list (option Z)) : Prop :=
    0 < mcap m <= 2 ^ 31 /\
    exists b r, mptr m = Some (b, 0) /\ nth_error h b = Some (mkblk (l ++ r) (malloc_at e (mcap m)) Owned) /\
      Z.of_nat (length (l ++ r)) = mcap m.
  Definition Minv (h : heap) (m : mb) (l : list (option Z)) : Prop :=
    (msize m = Z.of_nat (length l) /\ Z.of_nat (length l) <= 2 ^ 31) /\ (Linked h m l \/ Owning h m l).

  (** What an operation on one block does to the rest of the world. *)
  Definition Step (h : heap) (m : mb) (h' : heap) (m' : mb) : Prop :=
    (length h <= length h')%nat /\
    (forall b, (b < length h)%nat -> owner m <> Some b -> nth_error h' b = nth_error h b) /\
    (forall b, owner m' = Some b -> (b < length h)%nat -> owner m = Some b) /\
    (forall b, owned_at h' b -> owner m' <> Some b -> (b < length h)%nat /\ owner m <> Some b).
  (** The same without the promise not to leak. *)
  Definition Step0 (h : heap) (m : mb) (h' : heap) (m' : mb) : Prop :=
    (length h <= length h')%nat /\
    (forall b, (b < length h)%nat -> owner m <> Some b -> nth_error h' b = nth_error h b) /\
    (forall b, owner m' = Some b -> (b < length h)%nat -> owner m = Some b).
  Lemma Step_Step0 h m h' m' : Step h m h' m' -> Step0 h m h' m'.
  Proof. intros (A & B & C & _). split; [exact A|]. split; assumption. Qed.

  Lemma Step_refl h m : Step h m h m.
  Proof.
    split; [lia|]. split; [auto|]. split; [auto|]. intros b (k & H & _) N. split; [|exact N].
    apply nth_error_Some. congruence.
  Qed.
  Lemma Step_same h m m' : owner m' = owner m -> Step h m h m'.
  Proof.
    intros E. split; [lia|]. split; [auto|]. split; [intros; congruence|]. intros b (k & H & _) N. split; [|congruence].
    apply nth_error_Some. congruence.
  Qed.
  Lemma Step_trans h m h1 m1 h2 m2 : Step h m h1 m1 -> Step h1 m1 h2 m2 -> Step h m h2 m2.
  Proof.
    intros (A1 & B1 & C1 & D1) (A2 & B2 & C2 & D2). split; [lia|]. split; [|split].
    - intros b Hb N. rewrite B2; [apply B1; auto|lia|]. intros E. apply N. apply C1; auto.
    - intros b E Hb. apply C1; [|exact Hb]. apply C2; [exact E|lia].
    - intros b (k & Hk & Ok_) N. destruct (D2 b) as [L N1]; [exists k; auto|exact N|].
      apply D1; [|exact N1]. exists k. split; [|exact Ok_]. rewrite <- B2; auto.
  Qed.

  Lemma Owning_owner h m l : Owning h m l -> exists b, owner m = Some b /\ mptr m = Some (b, 0) /\ owned_at h b.
  Proof.
    intros (Hc & b & r & P & N & _). exists b. split; [|split; [exact P|]].
    - unfold owner. replace (mcap m =? 0) with false by lia. now rewrite P.
    - eexists; split; [exact N|reflexivity].
  Qed.
  Lemma Linked_owner h m l : Linked h m l -> owner m = None.
  Proof. intros (H & _). unfold owner. now rewrite H. Qed.

  Lemma hset_step h m b k h' m' : owner m = Some b -> owner m' = Some b -> hset h b k h' -> Step h m h' m'.
  Proof.
    intros O1 O2 (L & Hb & Ho). split; [lia|]. split; [|split].
    - intros c Hc N. apply Ho. congruence.
    - intros c E _. congruence.
    - intros c (k' & Hk & _) N. split; [|congruence]. rewrite <- L. apply nth_error_Some. congruence.
  Qed.
  Lemma u64_small x : 0 <= x < 2 ^ 64 -> u64 x = x.
  Proof. intros H. unfold u64. apply Z.mod_small. unfold two64. exact H. Qed.

  (** Bytes of a readable block. *)
  Lemma Minv_load h m l : Minv h m l -> load_n h (mptr m) (msize m) = Ok l.
  Proof.
    intros ((S & _) & [(C & [(P & ->)|(b & k & pre & post & P & N & K & E & _)])|(C & b & r & P & N & L)]).
    - rewrite S. reflexivity.
    - rewrite P. eapply load_ok'; eauto. destruct K as [-> | ->]; reflexivity.
    - rewrite P. eapply (load_ok' h b _ 0 _ [] l r N); eauto.
  Qed.
  Lemma Minv_load_prefix h m l n : Minv h m l -> 0 <= n <= Z.of_nat (length l) ->
    load_n h (mptr m) n = Ok (firstn (Z.to_nat n) l).
  Proof.
    intros ((S & _) & [(C & [(P & ->)|(b & k & pre & post & P & N & K & E & _)])|(C & b & r & P & N & L)]) Hn.
    - cbn in Hn. replace n with 0 by lia. reflexivity.
    - rewrite P. eapply (load_ok' h b k _ _ pre _ (skipn (Z.to_nat n) l ++ post)); eauto.
      + destruct K as [-> | ->]; reflexivity.
      + rewrite (app_assoc (firstn _ l)), firstn_skipn. exact E.
      + rewrite firstn_length. lia.
    - rewrite P. eapply (load_ok' h b _ 0 _ [] _ (skipn (Z.to_nat n) l ++ r) N); eauto.
      + cbn [app bcells]. rewrite (app_assoc (firstn _ l)), firstn_skipn. reflexivity.
      + rewrite firstn_length. lia.
  Qed.

  Lemma push_nth h cells : nth_error (fst (push_blk e h cells)) (length h) =
    Some (mkblk cells (malloc_at e (Z.of_nat (length cells))) Owned).
  Proof. unfold push_blk. cbn [fst]. rewrite nth_error_app2, Nat.sub_diag by lia. reflexivity. Qed.
  Lemma push_old h cells b : (b < length h)%nat -> nth_error (fst (push_blk e h cells)) b = nth_error h b.
  Proof. intros H. unfold push_blk. cbn [fst]. now rewrite nth_error_app1 by lia. Qed.

  (** A fresh block becomes the owner. *)
  Lemma fresh_step h m h0 cells m' :
    (length h = length h0) ->
    (forall b, (b < length h)%nat -> owner m <> Some b -> nth_error h0 b = nth_error h b) ->
    (forall b, owned_at h0 b -> owner m <> Some b) ->
    owner m' = Some (length h) -> Step h m (h0 ++ [cells]) m'.
  Proof.
    intros L F D O. split; [rewrite app_length; lia|]. split; [|split].
    - intros b Hb N. rewrite nth_error_app1 by lia. auto.
    - intros b E Hb. rewrite O in E. injection E as <-. lia.
    - intros b (k & Hk & K) N.
      assert (b < length h)%nat.
      { assert (b < length (h0 ++ [cells]))%nat by (apply nth_error_Some; congruence).
        rewrite app_length in H. cbn [length] in H. assert (b <> length h) by congruence. lia. }
      split; [exact H|]. apply D. exists k. split; [|exact K]. now rewrite nth_error_app1 in Hk by lia.
  Qed.

  (** What reserve does. *)
  Lemma reserve_gen mfc h m l n exact : 0 <= mfc <= 1 -> 0 <= n -> n + mfc <= 2 ^ 31 -> Minv h m l ->
    exists h' m', reserve e mfc h m n exact = Ok (h', m') /\ Step h m h' m' /\ msize m' = msize m /\ n + mfc <= mcap m' /\
     ((n + mfc <= mcap m /\ h' = h /\ m' = m) \/
      (exists b c, mcap m < mcap m' <= 2 ^ 31 /\ mptr m' = Some (b, 0) /\ nth_error h' b = Some (mkblk c (malloc_at e (mcap m')) Owned) /\
        Z.of_nat (length c) = mcap m' /\
        firstn (Nat.min (length l) (length c)) c = firstn (Nat.min (length l) (length c)) l /\
        ((Owning h m l -> length l <= length c)%nat /\
         (forall x, load_n h (padd (mptr m) (msize m)) 1 = Ok [x] -> (length l < length c)%nat -> nth_error c (length l) = Some x)))).
  Proof.
    intros Hmfc Hn Hb I. unfold reserve. rewrite u64_small by lia.
    destruct (Z.leb_spec (n + mfc) (mcap m)) as [L|L].
    { exists h, m. split; [reflexivity|]. split; [apply Step_refl|]. split; [reflexivity|]. split; [exact L|]. left. auto. }
    assert (Hns : exists ns, (if exact then n + mfc else next_pow2 (n + mfc)) = ns /\ n + mfc <= ns <= 2 ^ 31 /\ 0 < ns).
    { eexists; split; [reflexivity|]. assert (0 <= mcap m) by (destruct I as (_ & [(H & _)|(H & _)]); lia).
      destruct exact; [lia|]. assert (G := next_pow2_ge (n + mfc) ltac:(lia)).
      destruct (Z.le_gt_cases 2 (n + mfc)) as [L2|L2].
      - rewrite (next_pow2_val (n + mfc)) in * by lia. assert (Z.log2 (n + mfc - 1) <= 30).
        { assert (Z.log2 (n + mfc - 1) < 31); [|lia]. apply Z.log2_lt_pow2; lia. }
        assert (2 ^ (1 + Z.log2 (n + mfc - 1)) <= 2 ^ 31) by (apply Z.pow_le_mono_r; lia). lia.
      - replace (n + mfc) with 1 in * by lia. rewrite next_pow2_1 in *. lia. }
    destruct Hns as (ns & -> & Hns & Hp).
    destruct I as ((S & Sb) & [(C & K)|O]).
    - (* linked *)
      unfold is_linked. rewrite C, Z.eqb_refl. unfold realloc. rewrite Hmem by lia. unfold push_blk. cbn [bind].
      set (h1 := h ++ [mkblk (repeat None (Z.to_nat ns)) (malloc_at e (Z.of_nat (length (repeat (@None Z) (Z.to_nat ns))))) Owned]).
      assert (N1 : nth_error h1 (length h) = Some (mkblk (repeat None (Z.to_nat ns)) (malloc_at e (Z.of_nat (length (repeat (@None Z) (Z.to_nat ns))))) Owned)).
      { unfold h1. rewrite nth_error_app2, Nat.sub_diag by lia. reflexivity. }
      assert (OM : owner m = None) by (unfold owner; now rewrite C).
      assert (ST : Step h m h1 (mkmb (Some (length h, 0)) (msize m) ns)).
      { apply fresh_step; auto.
        - intros b _. rewrite OM. discriminate.
        - unfold owner. cbn [mcap mptr]. now replace (ns =? 0) with false by lia. }
      destruct K as [(P & ->)|(b & k & pre & post & P & N & Kd & E & Q)].
      + rewrite P. cbn [bind link mptr msize]. exists h1, (mkmb (Some (length h, 0)) (msize m) ns).
        split; [reflexivity|]. split; [exact ST|]. split; [reflexivity|]. cbn [mcap mptr].
        split; [lia|]. right. exists (length h), (repeat None (Z.to_nat ns)).
        split; [lia|]. split; [reflexivity|].
        split; [rewrite N1; rewrite repeat_length, Z2Nat.id by lia; reflexivity|].
        split; [rewrite repeat_length; lia|]. split; [reflexivity|]. split; [cbn; lia|]. intros x Hx. discriminate Hx.
      + assert (Nb : nth_error h1 b = Some k).
        { unfold h1. rewrite nth_error_app1; [exact N|]. apply nth_error_Some. congruence. }
        assert (Hb2 : b <> length h) by (intros ->; assert (length h < length h)%nat by (apply nth_error_Some; congruence); lia).
        set (cnt := Z.min (u64 (msize m + 1)) ns).
        assert (Hcnt : 0 <= cnt <= ns /\ cnt <= Z.of_nat (length (l ++ post)) /\ Z.min (Z.of_nat (length l)) ns <= cnt).
        { unfold cnt. rewrite S. rewrite app_length. assert (1 <= length post)%nat by (destruct post; [congruence|cbn; lia]).
          rewrite u64_small by lia. lia. }
        destruct Hcnt as (Hc1 & Hc2 & Hc3).
        rewrite P. unfold copy_n.
        assert (LD : load_n h1 (Some (b, Z.of_nat (length pre))) cnt = Ok (firstn (Z.to_nat cnt) (l ++ post))).
        { eapply (load_ok' h1 b k _ _ pre _ (skipn (Z.to_nat cnt) (l ++ post))); eauto.
          - destruct Kd as [-> | ->]; reflexivity.
          - rewrite firstn_skipn. exact E.
          - rewrite firstn_length. lia. }
        rewrite LD. cbn [bind].
        destruct (store_ok h1 (length h) _ 0 [] (repeat None (Z.to_nat cnt)) (repeat None (Z.to_nat ns - Z.to_nat cnt))
          (firstn (Z.to_nat cnt) (l ++ post)) N1 eq_refl) as (h2 & E2 & W2).
        { cbn [bcells app]. rewrite <- repeat_app. f_equal. lia. }
        { rewrite repeat_length, firstn_length. lia. }
        { reflexivity. }
        rewrite E2. cbn [bind link mptr msize]. exists h2, (mkmb (Some (length h, 0)) (msize m) ns).
        split; [reflexivity|]. split.
        { eapply Step_trans; [exact ST|]. eapply hset_step; [| |exact W2];
          unfold owner; cbn [mcap mptr]; now replace (ns =? 0) with false by lia. }
        split; [reflexivity|]. cbn [mcap mptr]. split; [lia|]. right.
        destruct W2 as (_ & W2 & _). cbn [app bbase bkind] in W2. rewrite repeat_length, Z2Nat.id in W2 by lia.
        eexists _, _. split; [lia|]. split; [reflexivity|]. split; [exact W2|].
        assert (LC : length (firstn (Z.to_nat cnt) (l ++ post) ++ repeat None (Z.to_nat ns - Z.to_nat cnt)) = Z.to_nat ns)
          by (rewrite app_length, firstn_length, repeat_length; lia).
        split; [lia|]. split; [|split; [intros (B & _); lia|]].
        2:{ intros x Hx Hlt. rewrite S in Hx. cbn [padd] in Hx.
            destruct post as [|y post]; [congruence|].
            rewrite (load_ok' h b k _ 1 (pre ++ l) [y] post) in Hx;
              [|exact N|destruct Kd as [-> | ->]; reflexivity|rewrite <- app_assoc; exact E|rewrite app_length; lia|reflexivity].
            injection Hx as <-. rewrite LC in Hlt. assert (Z.to_nat cnt = length l + 1)%nat as ->.
            { unfold cnt. rewrite S, u64_small by lia. lia. }
            rewrite nth_error_app1 by (rewrite firstn_length, app_length; cbn [length]; lia).
            rewrite firstn_app, firstn_all2 by lia. rewrite nth_error_app2 by lia. rewrite Nat.sub_diag.
            replace (length l + 1 - length l)%nat with 1%nat by lia. reflexivity. }
        rewrite LC. rewrite firstn_app, firstn_firstn, firstn_length.
          replace (Nat.min (Nat.min (length l) (Z.to_nat ns)) (Z.to_nat cnt)) with (Nat.min (length l) (Z.to_nat ns)) by lia.
          replace (Nat.min (length l) (Z.to_nat ns) - Nat.min (Z.to_nat cnt) (length (l ++ post)))%nat with 0%nat by lia.
          cbn [firstn]. rewrite app_nil_r, firstn_app.
          replace (Nat.min (length l) (Z.to_nat ns) - length l)%nat with 0%nat by lia. cbn [firstn]. apply app_nil_r.
    - (* owned *)
      pose proof O as (Hc & b & r & P & N & Lc).
      unfold is_linked. replace (mcap m =? 0) with false by lia. rewrite P. unfold realloc, rd. rewrite N. cbn [bind].
      replace (ns =? 0) with false by lia. rewrite Hmem by lia.
      destruct (free_ok h b _ _ N) as (h1 & E1 & W1). rewrite E1. unfold push_blk. cbn [bind link mptr msize bcells].
      set (c := realloc_cells (l ++ r) (Z.to_nat ns)).
      assert (Lcc : length c = Z.to_nat ns).
      { unfold c, realloc_cells. rewrite app_length, firstn_length, repeat_length. lia. }
      assert (L1 : length h1 = length h) by apply W1.
      exists (h1 ++ [mkblk c (malloc_at e (Z.of_nat (length c))) Owned]), (mkmb (Some (length h1, 0)) (msize m) ns).
      split; [reflexivity|]. split; [|split; [reflexivity|]].
      { destruct (Owning_owner h m l O) as (b' & OB & P' & _). rewrite P in P'. injection P' as <-.
        apply fresh_step; [auto| | |].
        - intros x Hx Nx. destruct W1 as (_ & _ & W1). apply W1. congruence.
        - intros x (k & Hk & Kx) E. rewrite OB in E. injection E as <-.
          destruct W1 as (_ & W1 & _). rewrite W1 in Hk. injection Hk as <-. discriminate.
        - unfold owner. cbn [mcap mptr]. replace (ns =? 0) with false by lia. now rewrite L1. }
      cbn [mcap mptr]. split; [lia|]. right. exists (length h1), c. split; [lia|]. split; [reflexivity|].
      split. { rewrite nth_error_app2, Nat.sub_diag by lia. cbn [nth_error]. rewrite Lcc, Z2Nat.id by lia. reflexivity. }
      split; [lia|]. rewrite Lcc. split; [|split; [intros _; rewrite app_length in Lc; lia|]].
      2:{ intros x Hx Hlt. rewrite S in Hx. cbn [padd] in Hx. rewrite Z.add_0_l in Hx.
          destruct r as [|y r].
          { rewrite app_nil_r in *. unfold load_n in Hx. cbn [Z.eqb] in Hx. unfold rd in Hx. rewrite N in Hx. cbn [bind bkind readable bcells andb] in Hx.
            unfold in_range in Hx. replace ((0 <=? Z.of_nat (length l)) && (0 <=? 1) && (Z.of_nat (length l) + 1 <=? Z.of_nat (length l))) with false in Hx by lia. discriminate. }
          rewrite (load_ok' h b _ _ 1 l [y] r N) in Hx; [|reflexivity|reflexivity|reflexivity|reflexivity].
          injection Hx as <-. unfold c, realloc_cells. rewrite app_length in *. cbn [length] in *.
          rewrite nth_error_app1 by (rewrite firstn_length, app_length; cbn [length]; lia).
          rewrite firstn_all2 by (rewrite app_length; cbn [length]; lia).
          rewrite nth_error_app2, Nat.sub_diag by lia. reflexivity. }
      rewrite app_length in Lc.
      replace (Nat.min (length l) (Z.to_nat ns)) with (length l) by lia.
      rewrite firstn_all. unfold c, realloc_cells.
      rewrite (firstn_all2 (n := Z.to_nat ns) (l ++ r)) by (rewrite app_length; lia). rewrite <- app_assoc, firstn_app, Nat.sub_diag, firstn_all.
      cbn [firstn]. apply app_nil_r.
  Qed.

  Lemma Owning_intro h m l b c : mptr m = Some (b, 0) -> nth_error h b = Some (mkblk c (malloc_at e (mcap m)) Owned) ->
    Z.of_nat (length c) = mcap m -> 0 < mcap m <= 2 ^ 31 -> (length l <= length c)%nat -> firstn (length l) c = l ->
    Owning h m l.
  Proof.
    intros P N L C Hl F. split; [exact C|]. exists b, (skipn (length l) c).
    assert (E : l ++ skipn (length l) c = c) by (rewrite <- F at 1; apply firstn_skipn).
    rewrite E. auto.
  Qed.

  Lemma reserve_ok mfc h m l n exact : 0 <= mfc <= 1 -> Z.of_nat (length l) <= n -> n + mfc <= 2 ^ 31 -> Minv h m l ->
    exists h' m', reserve e mfc h m n exact = Ok (h', m') /\ Step h m h' m' /\ Minv h' m' l /\ n + mfc <= mcap m'.
  Proof.
    intros Hm Hn Hb I.
    destruct (reserve_gen mfc h m l n exact Hm ltac:(lia) Hb I) as (h' & m' & E & St & Sz & Cp & [(_ & -> & ->)|R]).
    - exists h, m. auto.
    - exists h', m'. split; [exact E|]. split; [exact St|]. split; [|exact Cp].
      destruct R as (b & c & HC & P & N & L & F & _). destruct I as ((S & Sb) & I).
      assert (Hlc : (length l <= length c)%nat) by lia.
      replace (Nat.min (length l) (length c)) with (length l) in F by lia. rewrite firstn_all in F.
      assert (0 <= mcap m) by (destruct I as [(H & _)|(H & _)]; lia).
      split; [rewrite Sz; auto|]. right. eapply Owning_intro; eauto. lia.
  Qed.

  Lemma resize_ok mfc h m l n exact : 0 <= mfc <= 1 -> 0 <= n -> n + mfc <= 2 ^ 31 -> Minv h m l ->
    exists h' m' l', resize e mfc h m n exact = Ok (h', m') /\ Step h m h' m' /\ Minv h' m' l' /\ n + mfc <= mcap m' /\ length l' = Z.to_nat n /\ firstn (Nat.min (Z.to_nat n) (length l)) l' = firstn (Nat.min (Z.to_nat n) (length l)) l /\ (n + mfc <= mcap m -> h' = h).
  Proof.
    intros Hm Hn Hb I. unfold resize. rewrite u64_small by lia.
    assert (C0 : 0 <= mcap m) by (destruct I as (_ & [(H & _)|(H & _)]); lia).
    destruct (Z.ltb_spec (mcap m) (n + mfc)) as [L|L].
    - destruct (reserve_gen mfc h m l n exact Hm Hn Hb I) as (h' & m' & E & St & Sz & Cp & [(? & _)|R]); [lia|].
      rewrite E. cbn [bind]. destruct R as (b & c & HC & P & N & Lc & F & Ow).
      exists h', (mkmb (mptr m') n (mcap m')), (firstn (Z.to_nat n) c).
      split; [reflexivity|]. split.
      { eapply Step_trans; [exact St|]. apply Step_same. reflexivity. }
      assert (Hnc : (Z.to_nat n <= length c)%nat) by lia.
      assert (Lf : length (firstn (Z.to_nat n) c) = Z.to_nat n) by (rewrite firstn_length; lia).
      split.
      { split; [rewrite Lf; cbn [msize]; lia|]. right.
        eapply (Owning_intro h' (mkmb (mptr m') n (mcap m')) _ b c); cbn [mptr mcap]; eauto; [lia|lia|rewrite Lf; reflexivity]. }
      cbn [mcap]. split; [exact Cp|]. split; [exact Lf|]. split; [|lia].
      rewrite firstn_firstn.
      replace (Nat.min (Nat.min (Z.to_nat n) (length l)) (Z.to_nat n)) with (Nat.min (Z.to_nat n) (length l)) by lia.
      apply (f_equal (firstn (Nat.min (Z.to_nat n) (length l)))) in F. rewrite !firstn_firstn in F.
      replace (Nat.min (Nat.min (Z.to_nat n) (length l)) (Nat.min (length l) (length c))) with (Nat.min (Z.to_nat n) (length l)) in F by lia.
      exact F.
    - cbn [bind]. destruct I as ((S & Sb) & [(C & K)|(Hc & b & r & P & N & Lr)]).
      + assert (n = 0) as -> by lia. exists h, (mkmb (mptr m) 0 (mcap m)), [].
        split; [reflexivity|]. split; [apply Step_same; reflexivity|]. split.
        { split; [cbn [msize length]; lia|]. left. split; [exact C|].
          destruct K as [(P & ->)|(b & k & pre & post & P & N & Kd & E & Q)]; [left; cbn [mptr]; auto|].
          right. exists b, k, pre, (l ++ post). cbn [mptr app]. split; [exact P|]. split; [exact N|]. split; [exact Kd|]. split; [exact E|].
          destruct post; [congruence|]. destruct l; discriminate. }
        cbn [mcap]. split; [lia|]. auto.
      + exists h, (mkmb (mptr m) n (mcap m)), (firstn (Z.to_nat n) (l ++ r)).
        split; [reflexivity|]. split; [apply Step_same; reflexivity|].
        assert (Hnc : (Z.to_nat n <= length (l ++ r))%nat) by lia.
        assert (Lf : length (firstn (Z.to_nat n) (l ++ r)) = Z.to_nat n) by (rewrite firstn_length; lia).
        split.
        { split; [rewrite Lf; cbn [msize]; lia|]. right.
          eapply (Owning_intro h (mkmb (mptr m) n (mcap m)) _ b (l ++ r)); cbn [mptr mcap]; eauto; try lia; rewrite Lf; reflexivity. }
        cbn [mcap]. split; [exact L|]. split; [exact Lf|]. split; [|auto].
        rewrite firstn_firstn, firstn_app.
        replace (Nat.min (Nat.min (Z.to_nat n) (length l)) (Z.to_nat n)) with (Nat.min (Z.to_nat n) (length l)) by lia.
        replace (Nat.min (Z.to_nat n) (length l) - length l)%nat with 0%nat by lia. cbn [firstn]. apply app_nil_r.
  Qed.

  (** Reading through a pointer into memory [m] does not own. *)
  Definition Outside (h : heap) (m : mb) (p : ptr) (n : Z) : Prop :=
    n = 0 \/ exists b o, p = Some (b, o) /\ owner m <> Some b /\ (b < length h)%nat.
  Lemma load_frame h m h' m' p n : Step0 h m h' m' -> Outside h m p n -> load_n h' p n = load_n h p n.
  Proof.
    intros (_ & F & _) [-> | (b & o & -> & N & L)]; [reflexivity|]. unfold load_n, rd. rewrite F by auto. reflexivity.
  Qed.

  (** Writing inside the owned storage. *)
  Lemma store_own h m l i x : Owning h m l -> 0 <= i -> i + Z.of_nat (length x) <= mcap m -> msize m = Z.of_nat (length l) ->
    exists h' c, store_n h (padd (mptr m) i) x = Ok h' /\ Step h m h' m /\ (forall b, mptr m = Some (b, 0) -> nth_error h' b = Some (mkblk c (malloc_at e (mcap m)) Owned)) /\ (exists r, (forall b, mptr m = Some (b, 0) -> nth_error h b = Some (mkblk (l ++ r) (malloc_at e (mcap m)) Owned)) /\ Z.of_nat (length (l ++ r)) = mcap m /\ c = firstn (Z.to_nat i) (l ++ r) ++ x ++ skipn (Z.to_nat i + length x) (l ++ r)).
  Proof.
    intros O Hi Hx S. pose proof O as (Hc & b & r & P & N & L). rewrite P. cbn [padd]. rewrite Z.add_0_l.
    destruct (slice_split (l ++ r) (Z.to_nat i) (Z.to_nat i + length x)) as (pre & mid & post & E & L1 & L2 & _); [lia|lia|].
    assert (Lm : length mid = length x) by lia.
    destruct (store_ok h b _ i pre mid post x N eq_refl E Lm ltac:(lia)) as (h' & E' & W).
    exists h', (pre ++ x ++ post). split; [exact E'|].
    destruct (Owning_owner h m l O) as (b' & OB & P' & _). rewrite P in P'. injection P' as <-.
    split; [eapply hset_step; eauto|]. split.
    - intros b' Eb. injection Eb as <-. destruct W as (_ & W & _). exact W.
    - exists r. split; [intros b' Eb; injection Eb as <-; exact N|]. split; [exact L|]. rewrite E, <- L1, <- Lm.
      assert (F : firstn (length pre) (pre ++ mid ++ post) = pre)
        by (rewrite firstn_app, Nat.sub_diag, firstn_all; cbn [firstn]; apply app_nil_r).
      assert (Q : skipn (length pre + length mid) (pre ++ mid ++ post) = post).
      { rewrite Nat.add_comm, <- skipn_skipn. rewrite skipn_app, Nat.sub_diag, skipn_all. cbn [skipn app].
        rewrite skipn_app, Nat.sub_diag, skipn_all. reflexivity. }
      rewrite F, Q. reflexivity.
  Qed.
  (** ... below the size: the content changes as expected. *)
  Lemma store_in h m pre old post x : Minv h m (pre ++ old ++ post) -> (old <> [] -> 0 < mcap m) -> length old = length x ->
    exists h', store_n h (padd (mptr m) (Z.of_nat (length pre))) x = Ok h' /\ Step h m h' m /\ Minv h' m (pre ++ x ++ post).
  Proof.
    intros I Hc Lx. destruct x as [|y x].
    { destruct old; [|discriminate]. exists h. split; [reflexivity|]. split; [apply Step_refl|exact I]. }
    assert (mcap m > 0) by (destruct old; [discriminate|]; specialize (Hc ltac:(discriminate)); lia).
    destruct I as ((S & Sb) & [(C & _)|O]); [lia|].
    pose proof O as (Hcap & b & r & P & N & L).
    rewrite <- !app_assoc in N. 
    destruct (store_ok h b _ (Z.of_nat (length pre)) pre old (post ++ r) (y :: x) N eq_refl eq_refl Lx eq_refl) as (h' & E' & W).
    exists h'. rewrite P. cbn [padd]. rewrite Z.add_0_l. split; [exact E'|].
    destruct (Owning_owner h m _ O) as (b' & OB & P' & _). rewrite P in P'. injection P' as <-.
    split; [eapply hset_step; eauto|].
    assert (LL : length (pre ++ (y :: x) ++ post) = length (pre ++ old ++ post)) by (rewrite !app_length; lia).
    split; [rewrite LL; auto|]. right. split; [exact Hcap|]. exists b, r. split; [exact P|].
    destruct W as (_ & W & _). rewrite <- !app_assoc. split; [exact W|].
    rewrite <- L, !app_length. rewrite !app_length in LL. lia.
  Qed.

  Lemma rotate_ok h m A B C r : 0 < mcap m <= 2 ^ 31 ->
    Z.of_nat (length (A ++ B ++ C ++ r)) = mcap m ->
    forall b, mptr m = Some (b, 0) -> nth_error h b = Some (mkblk (A ++ B ++ C ++ r) (malloc_at e (mcap m)) Owned) ->
    (B = [] \/ C = [] \/ rot_good (Z.of_nat (length A)) (Z.of_nat (length A + length B)) (Z.of_nat (length A + length B + length C)) = true) ->
    exists h', rotate e h (mptr m) (Z.of_nat (length A)) (Z.of_nat (length A + length B)) (Z.of_nat (length A + length B + length C)) = Ok h' /\ hset h b (mkblk (A ++ C ++ B ++ r) (malloc_at e (mcap m)) Owned) h'.
  Proof.
    intros Hc L b P N G. unfold rotate.
    destruct (Z.eqb_spec (Z.of_nat (length A + length B)) (Z.of_nat (length A))) as [EB|NB].
    { destruct B; [|cbn [length] in EB; lia]. exists h. split; [reflexivity|]. split; [reflexivity|]. split; [exact N|auto]. }
    destruct (Z.eqb_spec (Z.of_nat (length A + length B + length C)) (Z.of_nat (length A + length B))) as [EC|NC].
    { destruct C; [|cbn [length] in EC; lia]. exists h. split; [reflexivity|]. split; [reflexivity|]. split; [exact N|auto]. }
    cbn [orb]. rewrite P. unfold rd. rewrite N. cbn [bind bkind writable bcells bbase]. rewrite !Z.add_0_l.
    rewrite !app_length in L.
    replace (true && (0 <=? Z.of_nat (length A)) && (Z.of_nat (length A) <=? Z.of_nat (length A + length B)) &&
      (Z.of_nat (length A + length B) <=? Z.of_nat (length A + length B + length C)) &&
      (Z.of_nat (length A + length B + length C) <=? Z.of_nat (length (A ++ B ++ C ++ r)))) with true
      by (rewrite !app_length; lia).
    rewrite !Nat2Z.id. destruct (Henv (mcap m) ltac:(lia)) as (E1 & E2 & E3 & E4).
    rewrite (rotate_cells_ok e 1 (malloc_at e (mcap m)) A B C r); [| lia|exact E1|exact E2| | |].
    - cbn [bind]. eapply wr_hset; eauto.
    - rewrite !app_length. lia.
    - rewrite !app_length. lia.
    - rewrite !Z.mul_1_l. destruct G as [-> |[-> |G]]; [cbn [length] in NB; lia|cbn [length] in NC; lia|exact G].
  Qed.

  Lemma seq_parts {X} (l : list X) i : (i <= length l)%nat -> l = firstn i l ++ skipn i l /\ length (firstn i l) = i.
  Proof. intros H. split; [symmetry; apply firstn_skipn|rewrite firstn_length; lia]. Qed.

  Lemma insert_ok mfc h m l ip n : 0 <= mfc <= 1 -> 0 <= n -> Z.of_nat (length l) + n + mfc <= 2 ^ 31 -> Minv h m l ->
    0 <= ip <= Z.of_nat (length l) ->
    (n = 0 \/ ip = Z.of_nat (length l) \/ rot_good ip (Z.of_nat (length l)) (Z.of_nat (length l) + n) = true) ->
    exists h' m' x, insert e mfc h m ip n = Ok (h', m') /\ Step h m h' m' /\ Minv h' m' (seq_insert l (Z.to_nat ip) x) /\ length x = Z.to_nat n /\ Z.of_nat (length l) + n + mfc <= mcap m'.
  Proof.
    intros Hm Hn Hb I Hip G. unfold insert. pose proof I as ((S & Sb) & _). rewrite S, u64_small by lia.
    destruct (resize_ok mfc h m l (Z.of_nat (length l) + n) false Hm ltac:(lia) Hb I) as (h1 & m1 & l1 & E & St & I1 & C1 & L1 & F1 & _).
    rewrite E. cbn [bind]. replace (Nat.min (Z.to_nat (Z.of_nat (length l) + n)) (length l)) with (length l) in F1 by lia.
    rewrite firstn_all in F1. pose proof I1 as ((S1 & _) & I1').
    assert (El : l1 = l ++ skipn (length l) l1) by (rewrite <- F1 at 1; symmetry; apply firstn_skipn).
    remember (skipn (length l) l1) as x eqn:Ex. assert (Lx : length x = Z.to_nat n) by (rewrite Ex, skipn_length; lia).
    destruct (seq_parts l (Z.to_nat ip) ltac:(lia)) as (Es & LA).
    remember (firstn (Z.to_nat ip) l) as A eqn:EA. remember (skipn (Z.to_nat ip) l) as B eqn:EB.
    assert (LB : length l = (length A + length B)%nat) by (rewrite Es, app_length; reflexivity).
    rewrite S1, L1. rewrite El, Es, <- app_assoc in I1'.
    destruct I1' as [(Cz & K)|O].
    - (* nothing owned: everything is empty *)
      assert ((length l = 0)%nat /\ n = 0) as (Hl0 & ->) by lia.
      destruct A; [|cbn [length] in *; lia]. destruct B; [|cbn [length] in *; lia]. destruct x; [|cbn [length] in *; lia].
      assert (l = []) as -> by (destruct l; [reflexivity|cbn in Hl0; lia]). assert (ip = 0) as -> by lia.
      cbn [length Z.of_nat Z.add Z.to_nat]. unfold rotate. cbn [Z.sub Z.opp Z.add Z.eqb orb bind].
      exists h1, m1, []. split; [reflexivity|]. split; [exact St|]. cbn [length app Z.of_nat Z.add Z.to_nat] in *.
      split; [|split; [reflexivity|lia]]. split; [cbn; lia|]. left. split; [exact Cz|exact K].
    - pose proof O as (Hc & b & r & P & N & Lr). rewrite <- !app_assoc in N, Lr.
      destruct (rotate_ok h1 m1 A B x r Hc Lr b P N) as (h2 & E2 & W2).
      { destruct G as [-> |[G|G]].
        - right; left. destruct x; [reflexivity|cbn in Lx; lia].
        - left. destruct B; [reflexivity|cbn [length] in *; lia].
        - right; right. rewrite <- G. f_equal; lia. }
      replace ip with (Z.of_nat (length A)) by lia.
      replace (Z.of_nat (Z.to_nat (Z.of_nat (length l) + n)) - n) with (Z.of_nat (length A + length B)) by lia.
      replace (Z.of_nat (Z.to_nat (Z.of_nat (length l) + n))) with (Z.of_nat (length A + length B + length x)) by lia.
      rewrite E2. cbn [bind]. exists h2, m1, x. split; [reflexivity|].
      destruct (Owning_owner h1 m1 _ O) as (b' & OB & P' & _). rewrite P in P'. injection P' as <-.
      split; [eapply Step_trans; [exact St|]; eapply hset_step; eauto|].
      unfold seq_insert. replace (Z.to_nat (Z.of_nat (length A))) with (Z.to_nat ip) by lia. rewrite <- EA, <- EB.
      split; [|split; [exact Lx|lia]].
      assert (LL : length (A ++ x ++ B) = length l1) by (rewrite El, Es, !app_length; lia).
      split; [rewrite LL; lia|]. right. split; [exact Hc|]. exists b, r. split; [exact P|].
      destruct W2 as (_ & W2 & _). rewrite <- !app_assoc. split; [exact W2|].
      rewrite <- Lr, !app_length. lia.
  Qed.

  Lemma erase_ok mfc h m l ep n : 0 <= mfc <= 1 -> 0 <= n -> Z.of_nat (length l) + mfc <= 2 ^ 31 -> Minv h m l ->
    0 <= ep -> ep + n <= Z.of_nat (length l) ->
    (n = 0 \/ ep + n = Z.of_nat (length l) \/ rot_good ep (ep + n) (Z.of_nat (length l)) = true) ->
    exists h' m', erase e mfc h m ep n = Ok (h', m') /\ Step h m h' m' /\ Minv h' m' (seq_erase l (Z.to_nat ep) (Z.to_nat n)) /\ Z.of_nat (length l) + mfc <= mcap m'.
  Proof.
    intros Hm Hn Hb I Hep Hen G. unfold erase. pose proof I as ((S & Sb) & _). rewrite S.
    destruct (reserve_ok mfc h m l (Z.of_nat (length l)) false Hm ltac:(lia) Hb I) as (h1 & m1 & E & St & I1 & C1).
    rewrite E. cbn [bind]. pose proof I1 as ((S1 & _) & I1'). rewrite S1.
    destruct (seq_parts l (Z.to_nat ep) ltac:(lia)) as (Es & LA).
    remember (firstn (Z.to_nat ep) l) as A eqn:EA.
    assert (LS : length (skipn (Z.to_nat ep) l) = (length l - Z.to_nat ep)%nat) by apply skipn_length.
    destruct (seq_parts (skipn (Z.to_nat ep) l) (Z.to_nat n) ltac:(lia)) as (Es2 & LB).
    remember (firstn (Z.to_nat n) (skipn (Z.to_nat ep) l)) as B eqn:EB.
    rewrite skipn_skipn in Es2. remember (skipn (Z.to_nat n + Z.to_nat ep) l) as C eqn:EC.
    rewrite Es2 in Es. assert (LL : length l = (length A + length B + length C)%nat) by (rewrite Es, !app_length; lia).
    assert (SE : seq_erase l (Z.to_nat ep) (Z.to_nat n) = A ++ C).
    { unfold seq_erase. rewrite <- EA. rewrite (Nat.add_comm (Z.to_nat ep)), <- EC. reflexivity. }
    rewrite SE. destruct I1' as [(Cz & K)|O].
    - assert (length l = 0)%nat by lia. assert (n = 0 /\ ep = 0) as (-> & ->) by lia.
      destruct A; [|cbn [length] in *; lia]. destruct B; [|cbn [length] in *; lia]. destruct C; [|cbn [length] in *; lia].
      unfold rotate. cbn [Z.add Z.eqb orb bind]. exists h1, (mkmb (mptr m1) (msize m1 - 0) (mcap m1)).
      split; [rewrite S1; reflexivity|].
      rewrite Z.sub_0_r. split; [eapply Step_trans; [exact St|apply Step_same; reflexivity]|]. cbn [app] in *.
      rewrite Es in I1. split; [|cbn [mcap]; lia]. destruct I1 as (X & Y). split; [exact X|exact Y].
    - pose proof O as (Hc & b & r & P & N & Lr). rewrite Es, <- !app_assoc in N, Lr.
      destruct (rotate_ok h1 m1 A B C r Hc Lr b P N) as (h2 & E2 & W2).
      { destruct G as [-> |[G|G]].
        - left. destruct B; [reflexivity|cbn in LB; lia].
        - right; left. destruct C; [reflexivity|cbn [length] in *; lia].
        - right; right. rewrite <- G. f_equal; lia. }
      replace ep with (Z.of_nat (length A)) by lia.
      replace (Z.of_nat (length A) + n) with (Z.of_nat (length A + length B)) by lia.
      replace (Z.of_nat (length l)) with (Z.of_nat (length A + length B + length C)) by lia.
      rewrite E2. cbn [bind]. eexists h2, _. split; [reflexivity|].
      destruct (Owning_owner h1 m1 _ O) as (b' & OB & P' & _). rewrite P in P'. injection P' as <-.
      assert (O2 : owner (mkmb (mptr m1) (Z.of_nat (length A + length B + length C) - n) (mcap m1)) = Some b) by exact OB.
      split; [eapply Step_trans; [exact St|]; eapply hset_step; eauto|].
      split; [|cbn [mcap]; lia].
      split; [cbn [msize]; rewrite app_length; lia|]. right. split; [exact Hc|]. exists b, (B ++ r). split; [exact P|].
      destruct W2 as (_ & W2 & _). rewrite <- !app_assoc. split; [exact W2|].
      cbn [mcap]. rewrite <- Lr, !app_length. lia.
  Qed.

  Lemma assign_ok mfc h m l p n src : 0 <= mfc <= 1 -> 0 <= n -> n + mfc <= 2 ^ 31 -> Minv h m l ->
    Outside h m p n -> load_n h p n = Ok src -> length src = Z.to_nat n ->
    exists h' m', assign e mfc h m p n = Ok (h', m') /\ Step h m h' m' /\ Minv h' m' src /\ n + mfc <= mcap m'.
  Proof.
    intros Hm Hn Hb I Ho Hl Ls. unfold assign.
    destruct (resize_ok mfc h m l n true Hm Hn Hb I) as (h1 & m1 & l1 & E & St & I1 & C1 & L1 & _ & _).
    rewrite E. cbn [bind]. unfold copy_n. rewrite (load_frame h m h1 m1 p n (Step_Step0 _ _ _ _ St) Ho), Hl. cbn [bind].
    pose proof (store_in h1 m1 [] l1 [] src) as SI. cbn [app length Z.of_nat] in SI. rewrite app_nil_r in SI.
    destruct (SI I1) as (h2 & E2 & St2 & I2); [|lia|].
    { intros Hne. destruct l1; [congruence|]. cbn [length] in L1. lia. }
    assert (PZ : padd (mptr m1) 0 = mptr m1) by (destruct (mptr m1) as [[b o]|]; cbn [padd]; [now rewrite Z.add_0_r|reflexivity]).
    rewrite PZ in E2. rewrite E2. cbn [bind]. exists h2, m1. split; [reflexivity|].
    split; [eapply Step_trans; eauto|]. rewrite app_nil_r in I2. auto.
  Qed.
  Lemma load_length h p n l : 0 <= n -> load_n h p n = Ok l -> length l = Z.to_nat n.
  Proof.
    intros Hn. unfold load_n. destruct (Z.eqb_spec n 0) as [-> |N]; [intros H; injection H as <-; reflexivity|].
    destruct p as [[b o]|]; [|discriminate]. destruct (rd h b) as [k| | |]; try discriminate. cbn [bind].
    destruct (readable (bkind k) && in_range o n (bcells k)) eqn:E; [|discriminate].
    apply andb_prop in E. destruct E as (_ & R). unfold in_range in R.
    intros H. injection H as <-. unfold slice. rewrite firstn_length, skipn_length. lia.
  Qed.

  Lemma dealloc_ok h m l : Minv h m l -> exists h', deallocate h m = Ok (h', mb_nil) /\ Step h m h' mb_nil /\ Minv h' mb_nil [].
  Proof.
    intros (S & I). unfold deallocate.
    assert (N : forall x, Minv x mb_nil []) by (intros x; split; [cbn; lia|left; split; [reflexivity|left; auto]]).
    destruct I as [(C & _)|O].
    - rewrite C. cbn [Z.eqb]. exists h. split; [reflexivity|]. split; [apply Step_same; unfold owner; now rewrite C|apply N].
    - pose proof O as (Hc & b & r & P & Nb & L). replace (mcap m =? 0) with false by lia. rewrite P.
      destruct (free_ok h b _ _ Nb) as (h' & E & W). rewrite E. cbn [bind]. exists h'. split; [reflexivity|]. split; [|apply N].
      destruct (Owning_owner h m _ O) as (b' & OB & P' & _). rewrite P in P'. injection P' as <-.
      destruct W as (Lh & Wb & Wo). split; [lia|]. split; [|split].
      + intros c Hcc Nc. apply Wo. congruence.
      + intros c Ec. discriminate.
      + intros c (k & Hk & K) _. assert (c <> b) by (intros ->; rewrite Wb in Hk; injection Hk as <-; discriminate).
        split; [|congruence]. rewrite <- Lh. apply nth_error_Some. congruence.
  Qed.

  Lemma shrink_ok h m l : Minv h m l -> exists h' m', shrink_to_fit e h m = Ok (h', m') /\ Step h m h' m' /\ Minv h' m' l.
  Proof.
    intros I. pose proof I as ((S & Sb) & I'). unfold shrink_to_fit, is_linked. destruct I' as [(C & _)|O].
    - rewrite C. cbn [Z.eqb]. exists h, m. split; [reflexivity|]. split; [apply Step_refl|exact I].
    - pose proof O as (Hc & b & r & P & Nb & L). replace (mcap m =? 0) with false by lia. rewrite P.
      unfold realloc, rd. rewrite Nb. cbn [bind]. destruct (free_ok h b _ _ Nb) as (h1 & E1 & W1).
      destruct (Owning_owner h m _ O) as (b' & OB & P' & _). rewrite P in P'. injection P' as <-.
      rewrite S. destruct (Z.eqb_spec (Z.of_nat (length l)) 0) as [Z0|NZ].
      + rewrite E1. cbn [bind]. rewrite Z0. exists h1, (mkmb None 0 0). split; [reflexivity|].
        assert (l = []) as -> by (destruct l; [reflexivity|cbn in Z0; lia]).
        split; [|split; [cbn; lia|left; split; [reflexivity|left; auto]]].
        destruct W1 as (Lh & Wb & Wo). split; [lia|]. split; [|split].
        * intros c Hcc Nc. apply Wo. congruence.
        * intros c Ec. discriminate.
        * intros c (k & Hk & K) _. assert (c <> b) by (intros ->; rewrite Wb in Hk; injection Hk as <-; discriminate).
          split; [|congruence]. rewrite <- Lh. apply nth_error_Some. congruence.
      + rewrite Hmem, E1 by lia. unfold push_blk. cbn [bind bcells].
        rewrite Nat2Z.id. assert (RC : realloc_cells (l ++ r) (length l) = l).
        { unfold realloc_cells. rewrite app_length in L. rewrite firstn_app, Nat.sub_diag, firstn_all, app_length.
          replace (length l - (length l + length r))%nat with 0%nat by lia. cbn. now rewrite !app_nil_r. }
        rewrite RC. eexists _, _. split; [reflexivity|]. split.
        { apply fresh_step; [destruct W1 as (Lh & _); congruence| | |].
          - intros x Hx Nx. destruct W1 as (_ & _ & W1). apply W1. congruence.
          - intros x (k & Hk & Kx) Ex. rewrite OB in Ex. injection Ex as <-.
            destruct W1 as (_ & W1 & _). rewrite W1 in Hk. injection Hk as <-. discriminate.
          - unfold owner. cbn [mcap mptr]. replace (Z.of_nat (length l) =? 0) with false by lia.
            destruct W1 as (Lh & _). now rewrite Lh. }
        split; [cbn [msize]; lia|]. right. split; [cbn [mcap]; lia|]. exists (length h1), []. cbn [mptr mcap].
        split; [reflexivity|]. rewrite app_nil_r. split; [|reflexivity].
        rewrite nth_error_app2, Nat.sub_diag by lia. reflexivity.
  Qed.
End WithEnv.
