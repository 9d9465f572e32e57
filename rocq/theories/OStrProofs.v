(** * OStrProofs: text output streams keep what is written to them. *)
From Verif Require Import Base UtilModel UtilProofs StoreModel StoreProofs VectorSpec MemModel MemSpec MemProofs StringModel StringFindModel StreamModel FileModel FileSpec FileProofs OStrModel OStrSpec.
From Coq Require Import ZArith ZifyBool ZifyNat Lia.
Local Open Scope Z_scope.

Lemma map_Some_firstn (l : list Z) n : map Some (firstn n l) = firstn n (map Some l).
Proof. symmetry. apply firstn_map. Qed.

Section WithEnv.
  Variable e : env.
  Variable nul : ptr.

  (** The block [b] holds [cells] and is the stream's. *)
  Definition Own (h : heap) (b : nat) (cells : list (option Z)) : Prop :=
    nth_error h b = Some (mkblk cells (malloc_at e (Z.of_nat (length cells))) Owned).

  Lemma nul_set h b k k' h' : has_nul h nul -> nth_error h b = Some k -> bkind k = Owned -> hset h b k' h' -> has_nul h' nul.
  Proof.
    intros (c & base & -> & N) Hb K (_ & _ & W). exists c, base. split; [reflexivity|]. rewrite W; [exact N|].
    intros ->. rewrite N in Hb. injection Hb as <-. discriminate.
  Qed.
  Lemma nul_push h k : has_nul h nul -> has_nul (h ++ [k]) nul.
  Proof.
    intros (c & base & -> & N). exists c, base. split; [reflexivity|]. rewrite nth_error_app1; [exact N|].
    apply nth_error_Some. congruence.
  Qed.

  Lemma pow2_facts N : 0 <= N -> N + 1 <= 2 ^ 31 ->
    exists k, next_pow2 (N + 1) = 2 ^ k /\ N + 1 <= 2 ^ k <= 2 ^ 31 /\ 2 <= 2 ^ k /\ 0 <= k.
  Proof.
    intros H0 H1. destruct (Z.le_gt_cases 2 (N + 1)) as [L|L].
    - destruct (next_pow2_ok (N + 1) ltac:(lia)) as (k & Hk & E & A & B). exists k. split; [exact E|].
      assert (k <= 31). { destruct (Z.le_gt_cases k 31); [assumption|]. assert (2 ^ 31 <= 2 ^ (k - 1)) by (apply Z.pow_le_mono_r; lia). lia. }
      assert (2 ^ k <= 2 ^ 31) by (apply Z.pow_le_mono_r; lia). lia.
    - assert (N = 0) as -> by lia. exists 1. rewrite Z.add_0_l, next_pow2_1. change (2 ^ 1) with 2. lia.
  Qed.

  Lemma reserve_nul h N : has_nul h nul -> 0 <= N -> N + 1 <= 2 ^ 31 ->
    let ns := next_pow2 (N + 1) in
    (malloc_ok e ns = false /\ reserve e 1 h (mkmb nul 0 0) N false = Exn bad_alloc) \/
    (malloc_ok e ns = true /\ exists h' b cells, reserve e 1 h (mkmb nul 0 0) N false = Ok (h', mkmb (Some (b, 0)) 0 ns) /\
       Own h' b cells /\ Z.of_nat (length cells) = ns /\ has_nul h' nul).
  Proof.
    intros Hn H0 H1 ns. destruct (pow2_facts N H0 H1) as (k & E & A & B & _).
    unfold reserve. rewrite u64_small by lia. cbn [mcap mptr msize is_linked Z.eqb].
    replace (N + 1 <=? 0) with false by lia. fold ns. unfold is_linked. cbn [mcap Z.eqb]. unfold realloc.
    destruct (malloc_ok e ns) eqn:M; [right|left; split; reflexivity]. split; [reflexivity|].
    assert (Hns : 2 <= ns) by (unfold ns; lia).
    cbn [push_blk bind]. pose proof Hn as (c & base & En & Nc). rewrite En. unfold copy_n.
    rewrite u64_small by lia. replace (Z.min (0 + 1) ns) with 1 by lia.
    set (cells := repeat None (Z.to_nat ns)). set (h1 := h ++ _).
    assert (Nc1 : nth_error h1 c = Some (mkblk [Some 0] base Literal)).
    { unfold h1. rewrite nth_error_app1; [exact Nc|]. apply nth_error_Some. congruence. }
    rewrite (load_ok' h1 c _ 0 1 [] [Some 0] [] Nc1); [|reflexivity..]. cbn [bind].
    assert (Nb : nth_error h1 (length h) = Some (mkblk cells (malloc_at e (Z.of_nat (length cells))) Owned)).
    { unfold h1. rewrite nth_error_app2, Nat.sub_diag by lia. reflexivity. }
    assert (Ec : cells = None :: repeat None (Z.to_nat ns - 1)).
    { unfold cells. destruct (Z.to_nat ns) eqn:Q; [lia|]. cbn [repeat]. f_equal. f_equal. lia. }
    destruct (store_ok h1 (length h) _ 0 [] [None] (repeat None (Z.to_nat ns - 1)) [Some 0] Nb eq_refl Ec eq_refl eq_refl) as (h2 & E2 & W).
    rewrite E2. cbn [bind link mptr msize]. exists h2, (length h), (Some 0 :: repeat None (Z.to_nat ns - 1)).
    split; [reflexivity|]. assert (Lc : Z.of_nat (length (Some 0 :: repeat (@None Z) (Z.to_nat ns - 1))) = ns).
    { cbn [length]. rewrite repeat_length. lia. }
    split; [|split; [exact Lc|]].
    - destruct W as (_ & W & _). unfold Own. rewrite W. cbn [app bbase bkind]. do 3 f_equal. rewrite Lc. unfold cells. rewrite repeat_length. lia.
    - rewrite <- En. eapply nul_set; [|exact Nb|reflexivity|exact W]. apply nul_push. exact Hn.
  Qed.

  Lemma reserve_own h b cells ms N : has_nul h nul -> Own h b cells -> 0 < Z.of_nat (length cells) -> 0 <= N -> N + 1 <= 2 ^ 31 ->
    let cap := Z.of_nat (length cells) in
    let ns := next_pow2 (N + 1) in
    (N + 1 <= cap /\ reserve e 1 h (mkmb (Some (b, 0)) ms cap) N false = Ok (h, mkmb (Some (b, 0)) ms cap)) \/
    (cap < N + 1 /\ malloc_ok e ns = false /\ reserve e 1 h (mkmb (Some (b, 0)) ms cap) N false = Exn bad_alloc) \/
    (cap < N + 1 /\ malloc_ok e ns = true /\ exists h' b' cells', reserve e 1 h (mkmb (Some (b, 0)) ms cap) N false = Ok (h', mkmb (Some (b', 0)) ms ns) /\
       Own h' b' cells' /\ Z.of_nat (length cells') = ns /\ has_nul h' nul /\ firstn (length cells) cells' = cells).
  Proof.
    intros Hn Ho Hc H0 H1 cap ns. destruct (pow2_facts N H0 H1) as (k & E & A & B & _).
    unfold reserve. rewrite u64_small by lia. cbn [mcap mptr msize].
    destruct (Z.leb_spec (N + 1) cap) as [L|L]; [left; split; [exact L|reflexivity]|right].
    unfold is_linked. cbn [mcap]. replace (cap =? 0) with false by (unfold cap; lia). unfold realloc, rd.
    unfold Own in Ho. rewrite Ho. cbn [bind]. fold ns. replace (ns =? 0) with false by (unfold ns; lia).
    destruct (malloc_ok e ns) eqn:M; [right|left; auto]. split; [exact L|]. split; [reflexivity|].
    destruct (free_ok h b _ _ Ho) as (h1 & E1 & W1). rewrite E1. cbn [bind push_blk bcells link mptr msize].
    set (c := realloc_cells cells (Z.to_nat ns)).
    assert (Lc : Z.of_nat (length c) = ns).
    { unfold c, realloc_cells. rewrite app_length, firstn_length, repeat_length. unfold cap, ns in *. lia. }
    exists (h1 ++ [mkblk c (malloc_at e (Z.of_nat (length c))) Owned]), (length h1), c.
    split; [reflexivity|]. split; [unfold Own; rewrite nth_error_app2, Nat.sub_diag by lia; reflexivity|].
    split; [exact Lc|]. split.
    - apply nul_push. eapply nul_set; [exact Hn|exact Ho|reflexivity|exact W1].
    - unfold c, realloc_cells. rewrite (firstn_all2 (n := Z.to_nat ns)) by (unfold cap, ns in *; lia).
      rewrite firstn_app, Nat.sub_diag, firstn_all. cbn [firstn]. apply app_nil_r.
  Qed.

  Lemma str_resize_own h b cells ms n : has_nul h nul -> Own h b cells -> 0 <= n -> n + 1 <= Z.of_nat (length cells) -> Z.of_nat (length cells) <= 2 ^ 31 ->
    let cap := Z.of_nat (length cells) in
    exists h' cells', str_resize e nul h (mkmb (Some (b, 0)) ms cap) n = Ok (h', mkmb (Some (b, 0)) n cap) /\
      Own h' b cells' /\ length cells' = length cells /\ has_nul h' nul /\ firstn (Z.to_nat n) cells' = firstn (Z.to_nat n) cells.
  Proof.
    intros Hn Ho H0 H1 H2 cap. unfold str_resize. cbn [mcap]. replace ((n =? 0) && (cap =? 0)) with false by (unfold cap; lia).
    unfold resize. rewrite u64_small by lia. cbn [mcap]. replace (cap <? n + 1) with false by (unfold cap; lia). cbn [bind mptr padd].
    rewrite Z.add_0_l.
    assert (Hs : exists x, cells = firstn (Z.to_nat n) cells ++ [x] ++ skipn (Z.to_nat n + 1) cells).
    { pose proof (firstn_skipn (Z.to_nat n) cells) as F. destruct (skipn (Z.to_nat n) cells) as [|x r] eqn:Q.
      - apply (f_equal (@length _)) in Q. rewrite skipn_length in Q. cbn [length] in Q. lia.
      - exists x. rewrite <- F at 1. do 2 f_equal. rewrite Nat.add_comm, <- skipn_skipn, Q. reflexivity. }
    destruct Hs as (x & Hs).
    destruct (store_ok h b _ n (firstn (Z.to_nat n) cells) [x] (skipn (Z.to_nat n + 1) cells) [Some 0] Ho eq_refl Hs eq_refl) as (h2 & E2 & W).
    { rewrite firstn_length. lia. }
    rewrite E2. cbn [bind]. exists h2, (firstn (Z.to_nat n) cells ++ [Some 0] ++ skipn (Z.to_nat n + 1) cells).
    assert (L : length (firstn (Z.to_nat n) cells ++ [Some 0] ++ skipn (Z.to_nat n + 1) cells) = length cells).
    { rewrite Hs at 3. rewrite !app_length. reflexivity. }
    split; [reflexivity|]. split; [|split; [exact L|split]].
    - unfold Own. rewrite L. destruct W as (_ & W & _). exact W.
    - eapply nul_set; [exact Hn|exact Ho|reflexivity|exact W].
    - rewrite firstn_app, firstn_firstn, Nat.min_id, firstn_length. replace (Z.to_nat n - Nat.min (Z.to_nat n) (length cells))%nat with 0%nat by lia.
      cbn [firstn]. apply app_nil_r.
  Qed.

  (** The stream is good and [w] is what it has buffered. *)
  Definition Buf (s : ost) (w : list Z) : Prop :=
    (mcap (s_buf s) = 0 /\ mptr (s_buf s) = nul /\ msize (s_buf s) = 0 /\ s_vsize s = 0 /\ w = []) \/
    exists b cells, mptr (s_buf s) = Some (b, 0) /\ Own (s_heap s) b cells /\ mcap (s_buf s) = Z.of_nat (length cells) /\
      2 <= mcap (s_buf s) <= 2 ^ 31 /\ firstn (length w) cells = map Some w /\
      Z.of_nat (length w) <= s_vsize s < mcap (s_buf s) /\ (s_vptr s = Some (b, 0) \/ s_vsize s = 0).
  Definition OInv (s : ost) (w : list Z) : Prop :=
    has_nul (s_heap s) nul /\ s_pos s = Z.of_nat (length w) /\ s_state s = 0 /\ Buf s w.

  Lemma OInv_bounds s w : OInv s w -> Z.of_nat (length w) <= s_vsize s /\ 0 <= s_vsize s < 2 ^ 31 /\ s_vsize s - s_pos s = s_remaining s /\
    0 <= mcap (s_buf s) <= 2 ^ 31 /\ s_vsize s <= s_capacity s.
  Proof.
    intros (_ & P & _ & B). unfold s_remaining, s_capacity.
    destruct B as [(C & _ & _ & V & ->)|(b & cells & _ & _ & _ & C & _ & V & _)].
    - rewrite P, V, C. cbn. lia.
    - rewrite u64_small by lia. replace (mcap (s_buf s) =? 0) with false by lia. lia.
  Qed.

  (** How the capacity moves. *)
  Definition Grown (c c' : Z) : Prop := c' = c \/ (c < c' /\ malloc_ok e c' = true /\ exists k, c' = 2 ^ k /\ 0 <= k).

  Lemma oss_overflow_ok s w n : OInv s w -> 0 <= n -> Z.of_nat (length w) + n + 1 <= 2 ^ 31 ->
    exists s' r, oss_overflow e nul n s = Ok (s', r) /\ OInv s' w /\ s_file s' = s_file s /\ s_exc s' = s_exc s /\
      Grown (mcap (s_buf s)) (mcap (s_buf s')) /\
      ((r = Val (s_remaining s') /\ n <= s_remaining s' /\
        (s_capacity s' - s_pos s' < n -> False)) \/
       (r = Thrown bad_alloc /\ s' = s /\ exists k, 0 <= k <= 2 ^ 31 /\ malloc_ok e k = false)).
  Proof.
    intros I Hn Hb. pose proof (OInv_bounds s w I) as (B1 & B2 & B3 & B4 & B5).
    unfold oss_overflow. unfold iobind at 1.
    assert (Hv : forall s', n <= s_remaining s' ->
       (_ <~ s_verify n ;; (fun s0 => Ok (s0, Val (s_remaining s0)))) s' = Ok (s', Val (s_remaining s'))).
    { intros s' H. unfold iobind, s_verify. replace (n <=? s_remaining s') with true by lia. reflexivity. }
    destruct (Z.ltb_spec (s_remaining s) n) as [L|L]; cbn [andb].
    2:{ cbn [bind]. rewrite Hv by lia. exists s, (Val (s_remaining s)). split; [reflexivity|]. split; [exact I|].
        split; [reflexivity|]. split; [reflexivity|]. split; [left; reflexivity|]. left. split; [reflexivity|]. split; [lia|]. lia. }
    destruct I as (Hnul & P & St & B). unfold s_good. rewrite St. cbn [Z.eqb orb].
    unfold iobind, on_buf, link_buf. rewrite P. rewrite u64_small by lia.
    set (N := Z.of_nat (length w) + n) in *.
    assert (Hcase : (exists k, 0 <= k <= 2 ^ 31 /\ malloc_ok e k = false /\
              reserve e 1 (s_heap s) (s_buf s) N false = Exn bad_alloc) \/
            (exists h1 b1 cells1, reserve e 1 (s_heap s) (s_buf s) N false = Ok (h1, mkmb (Some (b1, 0)) (msize (s_buf s)) (Z.of_nat (length cells1))) /\
              Own h1 b1 cells1 /\ N + 1 <= Z.of_nat (length cells1) <= 2 ^ 31 /\ 2 <= Z.of_nat (length cells1) /\ has_nul h1 nul /\
              firstn (length w) cells1 = map Some w /\ Grown (mcap (s_buf s)) (Z.of_nat (length cells1)))).
    { destruct (pow2_facts N ltac:(lia) ltac:(lia)) as (k & Ek & A1 & A2 & A3).
      destruct B as [(C & Pm & Ms & V & ->)|(b & cells & Pm & Ho & C & Cb & F & V & Vp)].
      - assert (Eb : s_buf s = mkmb nul 0 0) by (destruct (s_buf s); cbn in *; congruence).
        rewrite Eb. destruct (reserve_nul (s_heap s) N Hnul ltac:(lia) ltac:(lia)) as [(M & R)|(M & h1 & b1 & c1 & R & O1 & L1 & N1)].
        + left. exists (next_pow2 (N + 1)). split; [lia|]. auto.
        + right. exists h1, b1, c1. rewrite L1. split; [exact R|]. split; [exact O1|]. split; [lia|]. split; [lia|]. split; [exact N1|].
          split; [reflexivity|]. right. cbn [mcap]. split; [lia|]. split; [exact M|]. exists k. auto.
      - assert (Eb : s_buf s = mkmb (Some (b, 0)) (msize (s_buf s)) (Z.of_nat (length cells))) by (destruct (s_buf s); cbn in *; congruence).
        assert (Lw : (length w <= length cells)%nat) by lia.
        rewrite Eb. cbn [msize].
        destruct (reserve_own (s_heap s) b cells (msize (s_buf s)) N Hnul Ho ltac:(lia) ltac:(lia) ltac:(lia)) as [(Q & R)|[(Q & M & R)|(Q & M & h1 & b1 & c1 & R & O1 & L1 & N1 & F1)]].
        + right. exists (s_heap s), b, cells. split; [exact R|]. split; [exact Ho|]. split; [lia|]. split; [lia|]. split; [exact Hnul|].
          split; [exact F|]. left. reflexivity.
        + left. exists (next_pow2 (N + 1)). split; [lia|]. auto.
        + right. exists h1, b1, c1. rewrite L1. split; [exact R|]. split; [exact O1|]. split; [lia|]. split; [lia|]. split; [exact N1|].
          split.
          { rewrite <- F. rewrite <- F1 at 1. rewrite firstn_firstn. f_equal. lia. }
          right. cbn [mcap]. split; [lia|]. split; [exact M|]. exists k. auto. }
    destruct Hcase as [(k & Hk & M & R)|(h1 & b1 & c1 & R & O1 & L1 & L2 & N1 & F1 & G1)]; rewrite R; cbn [bind].
    - exists s, (Thrown bad_alloc). split; [reflexivity|]. split; [split; [exact Hnul|]; split; [exact P|]; split; [exact St|exact B]|].
      split; [reflexivity|]. split; [reflexivity|]. split; [left; reflexivity|]. right. split; [reflexivity|]. split; [reflexivity|]. eauto.
    - cbn [sput_mem s_heap s_buf].
      destruct (str_resize_own h1 b1 c1 (msize (s_buf s)) N N1 O1 ltac:(lia) ltac:(lia) ltac:(lia)) as (h2 & c2 & R2 & O2 & L3 & N2 & F2).
      rewrite R2. cbn [bind].
      match goal with |- context [sput_pos ?x ?y] => set (s2 := sput_pos x y) end.
      assert (P2 : s_pos s2 = Z.of_nat (length w)) by (unfold s2; cbn [sput_mem sput_view sput_pos s_heap s_buf s_pos s_file s_state s_exc s_vptr s_vsize mptr msize mcap]; apply u64_small; lia).
      assert (R3 : s_remaining s2 = n).
      { unfold s_remaining. rewrite P2. unfold s2. cbn [sput_mem sput_view sput_pos s_heap s_buf s_pos s_file s_state s_exc s_vptr s_vsize mptr msize mcap]. rewrite u64_small by lia. lia. }
      assert (Hv2 : n <= s_remaining s2) by lia. pose proof (Hv s2 Hv2) as Ev. exists s2, (Val (s_remaining s2)).
      assert (Cc : s_capacity s2 = Z.of_nat (length c1) - 1).
      { unfold s_capacity, s2. cbn [sput_mem sput_view sput_pos s_heap s_buf s_pos s_file s_state s_exc s_vptr s_vsize mptr msize mcap]. replace (Z.of_nat (length c1) =? 0) with false by lia. reflexivity. }
      split; [exact Ev|]. split; [|split; [reflexivity|]; split; [reflexivity|]; split; [exact G1|]; left; split; [reflexivity|]; split; [lia|]; rewrite Cc, P2; lia].
      split; [exact N2|]. split; [exact P2|]. split; [exact St|]. right. exists b1, c2. unfold s2. cbn [sput_mem sput_view sput_pos s_heap s_buf s_pos s_file s_state s_exc s_vptr s_vsize mptr msize mcap].
      split; [reflexivity|]. split; [exact O2|]. split; [lia|]. split; [lia|]. split; [|split; [lia|left; reflexivity]].
      rewrite <- F1. assert (E : firstn (length w) (firstn (Z.to_nat N) c2) = firstn (length w) (firstn (Z.to_nat N) c1)) by now rewrite F2.
      rewrite !firstn_firstn in E. replace (Nat.min (length w) (Z.to_nat N)) with (length w) in E by lia. exact E.
  Qed.

  Lemma s_write_ok s w l : OInv s w -> Z.of_nat (length l) <= s_remaining s ->
    exists s', s_write l s = Ok (s', Val tt) /\ OInv s' (w ++ l) /\ s_file s' = s_file s /\ s_exc s' = s_exc s /\
      s_buf s' = s_buf s /\ s_remaining s' = s_remaining s - Z.of_nat (length l).
  Proof.
    intros I Hl. pose proof (OInv_bounds s w I) as (B1 & B2 & B3 & B4 & B5).
    destruct I as (Hnul & P & St & B). unfold s_write, iobind, s_verify.
    replace (Z.of_nat (length l) <=? s_remaining s) with true by lia. cbn [bind].
    assert (Hrem : u64 (s_pos s + Z.of_nat (length l)) = Z.of_nat (length (w ++ l))) by (rewrite app_length, u64_small; lia).
    destruct l as [|c l].
    - cbn [map store_n]. eexists. split; [reflexivity|]. rewrite app_nil_r in *.
      split; [|split; [reflexivity|]; split; [reflexivity|]; split; [reflexivity|]].
      + split; [exact Hnul|]. split; [exact Hrem|]. split; [exact St|exact B].
      + unfold s_remaining in *. cbn [sput_pos sput_mem s_vsize s_pos]. rewrite Hrem, <- P. cbn [length]. lia.
    - set (L := c :: l) in *. assert (1 <= Z.of_nat (length L)) by (cbn; lia).
      destruct B as [(C & Pm & Ms & V & ->)|(b & cells & Pm & Ho & C & Cb & F & V & Vp)].
      { cbn [length] in *. lia. }
      destruct Vp as [Vp|Vp]; [|lia]. rewrite Vp. cbn [padd]. rewrite Z.add_0_l.
      assert (Hsp : cells = firstn (length w) cells ++ firstn (length L) (skipn (length w) cells) ++ skipn (length L) (skipn (length w) cells))
        by (rewrite !firstn_skipn; reflexivity).
      destruct (store_ok (s_heap s) b _ (s_pos s) _ _ _ (map Some L) Ho eq_refl Hsp) as (h2 & E2 & W).
      { rewrite firstn_length, skipn_length, map_length. lia. }
      { rewrite firstn_length. lia. }
      rewrite E2. eexists. split; [reflexivity|]. split; [|split; [reflexivity|]; split; [reflexivity|]; split; [reflexivity|]].
      + split; [eapply nul_set; [exact Hnul|exact Ho|reflexivity|exact W]|]. split; [exact Hrem|]. split; [exact St|].
        right. cbn [sput_pos sput_mem s_buf s_heap s_vsize s_vptr].
        exists b, (firstn (length w) cells ++ map Some L ++ skipn (length L) (skipn (length w) cells)).
        assert (Lc : length (firstn (length w) cells ++ map Some L ++ skipn (length L) (skipn (length w) cells)) = length cells).
        { rewrite !app_length, map_length, !skipn_length, firstn_length. lia. }
        split; [exact Pm|]. split; [unfold Own; rewrite Lc; destruct W as (_ & W & _); exact W|].
        split; [lia|]. split; [exact Cb|]. split; [|split; [rewrite app_length; lia|left; exact Vp]].
        rewrite F, map_app, app_assoc. rewrite firstn_app. rewrite app_length, <- (map_length Some w), <- (map_length Some L), <- app_length.
        rewrite Nat.sub_diag, firstn_all. cbn [firstn]. apply app_nil_r.
      + unfold s_remaining in *. cbn [sput_pos sput_mem s_vsize s_pos]. rewrite Hrem, app_length, u64_small by lia. lia.
  Qed.

  (** ** The operations over any overflow() that keeps an invariant *)
  Section Generic.
    Variable ov : Z -> io ost Z.
    Variable P : ost -> list Z -> Prop.
    Variable B : list Z -> Z -> Prop.
    Variable OOM : Prop.
    Hypothesis P_inv : forall s W, P s W -> exists A w, W = A ++ w /\ OInv s w.
    Hypothesis P_write : forall s A w s' l, P s (A ++ w) -> OInv s w -> OInv s' (w ++ l) -> s_file s' = s_file s -> s_exc s' = s_exc s ->
      s_buf s' = s_buf s -> P s' ((A ++ w) ++ l).
    Hypothesis P_same : forall s W s', P s W -> (forall w, OInv s w -> OInv s' w) -> s_file s' = s_file s -> s_exc s' = s_exc s ->
      s_buf s' = s_buf s -> P s' W.
    Hypothesis B_mono : forall W l n, B W (Z.of_nat (length l) + n) -> 0 <= n -> B (W ++ l) n.
    Hypothesis B_len : forall W n, B W n -> n < 2 ^ 31.
    Hypothesis ov_ok : forall s W n, P s W -> 0 <= n -> B W n ->
      exists s' r, ov n s = Ok (s', r) /\ P s' W /\
        ((r = Val (s_remaining s') /\ n <= s_remaining s') \/ (r = Thrown bad_alloc /\ OOM)).

    Lemma P_remaining s W : P s W -> 0 <= s_remaining s < 2 ^ 31.
    Proof. intros H. destruct (P_inv s W H) as (A & w & -> & I). pose proof (OInv_bounds s w I). destruct I as (_ & Q & _). lia. Qed.

    Lemma s_write_P s W l : P s W -> Z.of_nat (length l) <= s_remaining s ->
      exists s', s_write l s = Ok (s', Val tt) /\ P s' (W ++ l) /\ s_remaining s' = s_remaining s - Z.of_nat (length l).
    Proof.
      intros H Hl. destruct (P_inv s W H) as (A & w & -> & I).
      destruct (s_write_ok s w l I Hl) as (s' & E & I' & F & X & Bf & R). exists s'. split; [exact E|]. split; [|exact R].
      eapply P_write; eauto.
    Qed.

    Definition Post (s' : ost) (r : res unit) (W l : list Z) : Prop :=
      (r = Val tt /\ P s' (W ++ l)) \/ (r = Thrown bad_alloc /\ OOM /\ exists p q, l = p ++ q /\ P s' (W ++ p)).

    Lemma os_put_ok s W c : P s W -> B W 1 -> exists s' r, os_put ov c s = Ok (s', r) /\ Post s' r W [c].
    Proof.
      intros H Hb. unfold os_put. destruct (Z.leb_spec 1 (s_remaining s)) as [L|L].
      - destruct (s_write_P s W [c] H L) as (s' & E & H' & _). exists s', (Val tt). split; [exact E|]. left. auto.
      - unfold iobind at 1. destruct (ov_ok s W 1 H ltac:(lia) Hb) as (s1 & r & E & H1 & [(-> & R)|(-> & Oom)]); rewrite E; cbn [bind].
        + replace (1 <=? s_remaining s1) with true by lia.
          destruct (s_write_P s1 W [c] H1 ltac:(cbn; lia)) as (s' & E' & H' & _). exists s', (Val tt). split; [exact E'|]. left. auto.
        + exists s1, (Thrown bad_alloc). split; [reflexivity|]. right. split; [reflexivity|]. split; [exact Oom|]. exists [], [c]. rewrite app_nil_r. auto.
    Qed.

    Lemma os_write_loop_ok : forall fuel l s W, (length l < fuel)%nat -> P s W -> B W (Z.of_nat (length l)) ->
      exists s' r, os_write_loop ov fuel l s = Ok (s', r) /\ Post s' r W l.
    Proof.
      induction fuel as [|fuel IH]; intros l s W Hf H Hb; [lia|]. cbn [os_write_loop]. unfold iobind at 1.
      set (m := if s_remaining s =? 0 then ov (Z.of_nat (length l)) s else Ok (s, Val (s_remaining s))).
      assert (Hm : exists s1 r, m = Ok (s1, r) /\ P s1 W /\
        ((r = Val (s_remaining s1) /\ (0 < s_remaining s1 \/ Z.of_nat (length l) <= s_remaining s1)) \/ (r = Thrown bad_alloc /\ OOM))).
      { pose proof (P_remaining s W H) as R0. unfold m. destruct (Z.eqb_spec (s_remaining s) 0) as [Z0|Z0].
        - destruct (ov_ok s W (Z.of_nat (length l)) H ltac:(lia) Hb) as (s1 & r & E & H1 & [(-> & R)|(-> & Oom)]); rewrite E; eauto 10.
        - exists s, (Val (s_remaining s)). split; [reflexivity|]. split; [exact H|]. left. split; [reflexivity|]. left. lia. }
      destruct Hm as (s1 & r & E & H1 & [(-> & R)|(-> & Oom)]); rewrite E; cbn [bind].
      2:{ exists s1, (Thrown bad_alloc). split; [reflexivity|]. right. split; [reflexivity|]. split; [exact Oom|]. exists [], l. rewrite app_nil_r. auto. }
      destruct (Z.eqb_spec (Z.min (Z.of_nat (length l)) (s_remaining s1)) 0) as [Z0|Z0].
      { assert (l = []) as -> by (destruct l; [reflexivity|cbn [length] in *; lia]).
        exists s1, (Val tt). split; [reflexivity|]. left. rewrite app_nil_r. auto. }
      set (bw := Z.to_nat (Z.min (Z.of_nat (length l)) (s_remaining s1))).
      pose proof (P_remaining s1 W H1) as R1.
      assert (Hbw : Z.of_nat bw = Z.min (Z.of_nat (length l)) (s_remaining s1)) by (unfold bw; lia).
      destruct (s_write_P s1 W (firstn bw l) H1) as (s2 & E2 & H2 & _).
      { rewrite firstn_length. lia. }
      unfold iobind at 1. rewrite E2. cbn [bind].
      assert (Lf : (length (firstn bw l) = bw)%nat) by (rewrite firstn_length; lia).
      destruct (IH (skipn bw l) s2 (W ++ firstn bw l)) as (s' & r & E3 & H3).
      { rewrite skipn_length. lia. }
      { exact H2. }
      { apply B_mono; [|lia]. rewrite Lf, skipn_length. replace (Z.of_nat bw + Z.of_nat (length l - bw)) with (Z.of_nat (length l)) by lia. exact Hb. }
      exists s', r. split; [exact E3|]. destruct H3 as [(-> & H3)|(-> & Oom & p & q & Eq & H3)].
      - left. split; [reflexivity|]. rewrite <- app_assoc, firstn_skipn in H3. exact H3.
      - right. split; [reflexivity|]. split; [exact Oom|]. exists (firstn bw l ++ p), q. rewrite <- app_assoc, <- Eq, firstn_skipn. split; [reflexivity|].
        rewrite app_assoc. exact H3.
    Qed.
    Lemma os_write_ok s W l : P s W -> B W (Z.of_nat (length l)) -> exists s' r, os_write ov l s = Ok (s', r) /\ Post s' r W l.
    Proof. apply os_write_loop_ok. lia. Qed.

    (** vsnprintf leaves the written part alone. *)
    Lemma vsnprintf_ok s W t space : P s W -> space = s_remaining s ->
      exists s', vsnprintf t space s = Ok (s', Val tt) /\ P s' W /\ s_remaining s' = s_remaining s /\ s_pos s' = s_pos s /\
        (Z.of_nat (length t) < space -> forall s2, s2 = sput_pos (s_pos s' + Z.of_nat (length t)) s' -> P s2 (W ++ t)).
    Proof.
      intros H ->. unfold vsnprintf. pose proof (P_remaining s W H) as R0.
      destruct (Z.leb_spec (s_remaining s) 0) as [L|L].
      { exists s. split; [reflexivity|]. split; [exact H|]. split; [reflexivity|]. split; [reflexivity|]. lia. }
      destruct (P_inv s W H) as (A & w & -> & I). pose proof (OInv_bounds s w I) as (B1 & B2 & B3 & B4 & B5).
      pose proof I as (Hnul & Ps & St & Bf).
      destruct Bf as [(C & Pm & Ms & V & ->)|(b & cells & Pm & Ho & C & Cb & F & V & Vp)]; [cbn [length] in *; lia|].
      destruct Vp as [Vp|Vp]; [|lia]. rewrite Vp. cbn [padd]. rewrite Z.add_0_l.
      set (x := map Some (firstn (Z.to_nat (s_remaining s - 1)) t) ++ [Some 0]).
      assert (Lx : Z.of_nat (length x) <= s_remaining s) by (unfold x; rewrite app_length, map_length, firstn_length; cbn [length]; lia).
      assert (Hsp : cells = firstn (length w) cells ++ firstn (length x) (skipn (length w) cells) ++ skipn (length x) (skipn (length w) cells))
        by (rewrite !firstn_skipn; reflexivity).
      destruct (store_ok (s_heap s) b _ (s_pos s) _ _ _ x Ho eq_refl Hsp) as (h2 & E2 & Wr).
      { rewrite firstn_length, skipn_length. lia. }
      { rewrite firstn_length. lia. }
      rewrite E2. exists (sput_mem h2 (s_buf s) s). split; [reflexivity|].
      set (cells2 := firstn (length w) cells ++ x ++ skipn (length x) (skipn (length w) cells)) in *.
      assert (Lc : length cells2 = length cells).
      { unfold cells2. rewrite !app_length, !skipn_length, firstn_length. lia. }
      assert (O2 : Own h2 b cells2) by (unfold Own; rewrite Lc; destruct Wr as (_ & Wr & _); exact Wr).
      assert (N2 : has_nul h2 nul) by (eapply nul_set; [exact Hnul|exact Ho|reflexivity|exact Wr]).
      assert (Lfw : length (firstn (length w) cells) = length w) by (rewrite firstn_length; lia).
      assert (Hinv : forall w', length w' = length w -> firstn (length w) cells = map Some w' -> OInv (sput_mem h2 (s_buf s) s) w').
      { intros w' L1 F1. split; [exact N2|]. split; [cbn [sput_mem s_pos]; lia|]. split; [exact St|]. right. exists b, cells2.
        cbn [sput_mem s_buf s_heap s_vsize s_vptr]. split; [exact Pm|]. split; [exact O2|]. split; [lia|]. split; [exact Cb|].
        split; [|split; [lia|left; exact Vp]]. unfold cells2. rewrite firstn_app, L1, Lfw, Nat.sub_diag, firstn_firstn, Nat.min_id. cbn [firstn]. rewrite app_nil_r. exact F1. }
      split.
      { eapply P_same; [exact H| |reflexivity|reflexivity|reflexivity]. intros w' I'. apply Hinv.
        - destruct I' as (_ & Ps' & _). lia.
        - destruct I' as (_ & Ps' & _ & [(C' & _)|(b' & cells' & Pm' & Ho' & _ & _ & F' & _)]); [lia|].
          rewrite Pm in Pm'. injection Pm' as <-. unfold Own in *. rewrite Ho in Ho'. injection Ho' as <-.
          rewrite <- F'. f_equal. lia. }
      split; [reflexivity|]. split; [reflexivity|]. intros Lt s2 ->. apply (P_write s A w); [exact H|exact I| |reflexivity|reflexivity|reflexivity].
      assert (Et : firstn (Z.to_nat (s_remaining s - 1)) t = t) by (apply firstn_all2; lia).
      split; [exact N2|]. split; [cbn [sput_pos sput_mem s_pos]; rewrite app_length, u64_small by lia; lia|]. split; [exact St|].
      right. exists b, cells2. cbn [sput_pos sput_mem s_buf s_heap s_vsize s_vptr]. split; [exact Pm|]. split; [exact O2|]. split; [lia|]. split; [exact Cb|].
      split; [|split; [rewrite app_length; lia|left; exact Vp]].
      unfold cells2, x. rewrite Et, F, map_app, <- !app_assoc, app_assoc. rewrite firstn_app.
      rewrite app_length, <- (map_length Some w), <- (map_length Some t), <- app_length, Nat.sub_diag, firstn_all. cbn [firstn]. apply app_nil_r.
    Qed.

    Lemma to_int_small x : 0 <= x < 2 ^ 31 -> to_int x = x.
    Proof. intros H. unfold to_int, u32. rewrite Z.mod_small by (unfold two32; lia). now replace (x <? 2 ^ 31) with true by lia. Qed.

    Lemma os_format_ok s W t : P s W -> B W (Z.of_nat (length t) + 1) ->
      exists s' r, os_format ov t s = Ok (s', r) /\ Post s' r W t.
    Proof.
      intros H Hb. pose proof (B_len _ _ Hb) as Hlen. unfold os_format.
      assert (Hdone : forall s fuel, P s W -> Z.of_nat (length t) < s_remaining s ->
        exists s' r, os_format_loop ov (S fuel) t s = Ok (s', r) /\ Post s' r W t).
      { clear s H. intros s fuel H L. pose proof (P_remaining s W H) as R0. cbn [os_format_loop]. rewrite to_int_small by lia.
        destruct (vsnprintf_ok s W t _ H eq_refl) as (s1 & E & H1 & R1 & P1 & F1). unfold iobind at 1. rewrite E. cbn [bind].
        replace (Z.of_nat (length t) <? s_remaining s) with true by lia. eexists _, (Val tt).
        split; [reflexivity|]. left. split; [reflexivity|]. apply F1; [exact L|]. f_equal. lia. }
      destruct (Z.lt_ge_cases (Z.of_nat (length t)) (s_remaining s)) as [L|L]; [apply Hdone; assumption|].
      change 2%nat with (S 1). remember 1%nat as f1. cbn [os_format_loop]. pose proof (P_remaining s W H) as R0. rewrite to_int_small by lia.
      destruct (vsnprintf_ok s W t _ H eq_refl) as (s1 & E & H1 & R1 & P1 & F1). unfold iobind at 1. rewrite E. cbn [bind].
      replace (Z.of_nat (length t) <? s_remaining s) with false by lia. unfold iobind at 1.
      destruct (ov_ok s1 W (Z.of_nat (length t) + 1) H1 ltac:(lia) Hb) as (s2 & r & E2 & H2 & [(-> & R)|(-> & Oom)]); rewrite E2; cbn [bind].
      - pose proof (P_remaining s2 W H2) as R2. rewrite to_int_small by lia.
        replace (Z.of_nat (length t) <? s_remaining s2) with true by lia. subst f1. apply Hdone; [exact H2|lia].
      - exists s2, (Thrown bad_alloc). split; [reflexivity|]. right. split; [reflexivity|]. split; [exact Oom|]. exists [], t. rewrite app_nil_r. auto.
    Qed.
  End Generic.
End WithEnv.
