(** * HeapProofs: correctness of the heap algorithms of uheap.h. *)
From Verif Require Import Base Order ArrayModel ArrayProofs SortProofs HeapModel HeapSpec.

Section SetNth.
  Context {A : Type}.
  Implicit Types l m p q r pre post : list A.
  Definition setn (l : list A) (i : nat) (v : A) : list A := firstn i l ++ v :: skipn (S i) l.

  Lemma set_app p x q v i : i = length p -> setn (p ++ x :: q) i v = p ++ v :: q.
  Proof.
    intros ->. unfold setn. rewrite firstn_app, firstn_all, Nat.sub_diag. cbn [firstn].
    rewrite app_nil_r. f_equal. f_equal.
    rewrite skipn_app. rewrite skipn_all2 by lia.
    replace (S (length p) - length p) with 1 by lia. reflexivity.
  Qed.
  Lemma split_nth l i : i < length l -> exists p x q, l = p ++ x :: q /\ length p = i.
  Proof.
    intros H. destruct (nth_error l i) eqn:E; [|apply nth_error_None in E; lia].
    destruct (split_at _ _ _ E) as (p & q & -> & Hl). eauto.
  Qed.
  Lemma set_length l i v : i < length l -> length (setn l i v) = length l.
  Proof. intros H. destruct (split_nth l i H) as (p & x & q & -> & Hl). rewrite set_app by auto. len. Qed.
  Lemma wr_set pre l post i v : i < length l ->
    wr (pre ++ l ++ post) (length pre + i) v = Ok (pre ++ setn l i v ++ post).
  Proof.
    intros H. destruct (split_nth l i H) as (p & x & q & -> & Hl). rewrite set_app by auto.
    replace (pre ++ (p ++ x :: q) ++ post) with ((pre ++ p) ++ x :: q ++ post) by (napp; auto).
    rewrite wr_app' by len. napp. auto.
  Qed.
  Lemma rd_nth pre l post i d : i < length l ->
    rd (pre ++ l ++ post) (length pre + i) = Ok (nth i l d).
  Proof.
    intros H. destruct (split_nth l i H) as (p & x & q & -> & Hl).
    replace (pre ++ (p ++ x :: q) ++ post) with ((pre ++ p) ++ x :: q ++ post) by (napp; auto).
    rewrite rd_app' by len. rewrite app_nth2 by lia. now rewrite Hl, Nat.sub_diag.
  Qed.
  Lemma nth_set l i v d j : i < length l -> nth j (setn l i v) d = if Nat.eqb j i then v else nth j l d.
  Proof.
    intros H. destruct (split_nth l i H) as (p & x & q & -> & Hl). rewrite set_app by auto.
    destruct (Nat.eqb_spec j i) as [->|Hne].
    - rewrite app_nth2 by lia. now rewrite Hl, Nat.sub_diag.
    - destruct (Nat.lt_ge_cases j (length p)).
      + now rewrite !app_nth1 by auto.
      + rewrite !app_nth2 by auto. destruct (j - length p) as [|k] eqn:E; [lia|auto].
  Qed.
  Lemma list_ext l m d : length l = length m -> (forall i, i < length l -> nth i l d = nth i m d) -> l = m.
  Proof. intros. now apply (nth_ext l m d d). Qed.

  Lemma swap_set_perm' l i j d : i < j -> j < length l ->
    Permutation (setn (setn l i (nth j l d)) j (nth i l d)) l.
  Proof.
    intros Hij Hj. destruct (split_nth l i) as (p & x & q & -> & Hl); [lia|].
    destruct (split_nth q (j - i - 1)) as (m & y & r & -> & Hm).
    { rewrite app_length in Hj. simpl in Hj. lia. }
    rewrite (app_nth2 p) by lia.
    replace (nth (j - length p) (x :: m ++ y :: r) d) with y.
    2:{ replace (j - length p) with (S (length m)) by lia. cbn [nth]. now rewrite nth_middle. }
    rewrite (app_nth2 p) by lia. rewrite Hl, Nat.sub_diag. cbn [nth].
    rewrite set_app by auto.
    replace (p ++ y :: m ++ y :: r) with ((p ++ y :: m) ++ y :: r) by (napp; auto).
    rewrite set_app by (len; lia). napp. apply Permutation_app_head. apply swap_perm.
  Qed.
  Lemma set_comm l i j x y : i <> j -> i < length l -> j < length l ->
    setn (setn l i x) j y = setn (setn l j y) i x.
  Proof.
    intros. apply (nth_ext _ _ x x).
    - now rewrite !set_length by (rewrite ?set_length; auto).
    - intros n Hn. rewrite !nth_set by (rewrite ?set_length; auto).
      destruct (Nat.eqb_spec n j), (Nat.eqb_spec n i); auto; lia.
  Qed.
  Lemma swap_set_perm l i j d : i <> j -> i < length l -> j < length l ->
    Permutation (setn (setn l i (nth j l d)) j (nth i l d)) l.
  Proof.
    intros Hne Hi Hj. destruct (Nat.lt_ge_cases i j).
    - now apply swap_set_perm'.
    - rewrite set_comm by auto. apply swap_set_perm'; lia.
  Qed.
  Lemma set_set l i x y : i < length l -> setn (setn l i x) i y = setn l i y.
  Proof.
    intros. apply (nth_ext _ _ x x).
    - now rewrite !set_length by (rewrite ?set_length; auto).
    - intros n Hn. rewrite !nth_set by (rewrite ?set_length; auto).
      destruct (Nat.eqb_spec n i); auto.
  Qed.
  Lemma set_same l i d : i < length l -> setn l i (nth i l d) = l.
  Proof.
    intros. apply (nth_ext _ _ d d).
    - now apply set_length.
    - intros n Hn. rewrite nth_set by auto. destruct (Nat.eqb_spec n i); subst; auto.
  Qed.
End SetNth.

Definition kid (i c : nat) : Prop := c = 2 * i + 1 \/ c = 2 * i + 2.

Section HeapP.
  Context {A : Type} (lt : A -> A -> bool) (W : StrictWeak lt).

  Lemma Heap_nth d l :
    Heap lt l <-> forall i c, kid i c -> c < length l -> lt (nth i l d) (nth c l d) = false.
  Proof.
    split.
    - intros H i c Hk Hc. unfold kid in Hk.
      apply (H i c); auto; apply nth_error_nth'; lia.
    - intros H i c x y Hk Hx Hy.
      rewrite <- (nth_error_nth _ _ d Hx), <- (nth_error_nth _ _ d Hy). apply H; [exact Hk|].
      apply nth_error_Some. congruence.
  Qed.

  (** ** trickle_down_heap *)
  (** Edges from [m] on hold, except those out of [h]; [h]'s parent dominates
      [h]'s children. *)
  Definition tinv (d : A) (m h : nat) (b : list A) : Prop :=
    (forall i c, m <= i -> i <> h -> kid i c -> c < length b -> lt (nth i b d) (nth c b d) = false) /\
    (forall p c, m <= p -> kid p h -> kid h c -> c < length b -> lt (nth p b d) (nth c b d) = false).
  Definition HeapFrom (d : A) (m : nat) (b : list A) : Prop :=
    forall i c, m <= i -> kid i c -> c < length b -> lt (nth i b d) (nth c b d) = false.

  Lemma trickle_loop_spec fuel d pre a post h m v :
    m <= h -> h < length a -> length a <= fuel + h -> tinv d m h (setn a h v) ->
    exists r, trickle_loop fuel lt (pre ++ a ++ post) (length pre) h (length a) v
              = Ok (pre ++ r ++ post) /\
              Permutation r (setn a h v) /\ HeapFrom d m r.
  Proof.
    revert a h. induction fuel as [|fuel IH]; intros a h Hm Hh Hf (I1 & I2).
    { lia. }
    cbn [trickle_loop].
    destruct (Nat.ltb_spec (2 * h + 1) (length a)) as [Hc|Hc].
    - set (c0 := 2 * h + 1) in *.
      assert (Hsel : exists c, (if Nat.ltb (c0 + 1) (length a)
              then x <- rd (pre ++ a ++ post) (length pre + c0) ;;
                   y <- rd (pre ++ a ++ post) (length pre + (c0 + 1)) ;;
                   Ok (if lt x y then c0 + 1 else c0)
              else Ok c0) = Ok c /\ kid h c /\ c < length a /\
              (forall c', kid h c' -> c' < length a -> lt (nth c a d) (nth c' a d) = false)).
      { destruct (Nat.ltb_spec (c0 + 1) (length a)) as [H1|H1].
        - rewrite !(rd_nth _ _ _ _ d) by auto. cbn [bind].
          destruct (lt (nth c0 a d) (nth (c0 + 1) a d)) eqn:E.
          + exists (c0 + 1). split; [auto|]. split; [unfold kid; lia|]. split; [auto|].
            intros c' [->| ->] _; fold c0.
            * now apply sw_asym.
            * replace (2 * h + 2) with (c0 + 1) by lia. now apply sw_irrefl.
          + exists c0. split; [auto|]. split; [unfold kid; lia|]. split; [auto|].
            intros c' [->| ->] _; fold c0.
            * now apply sw_irrefl.
            * replace (2 * h + 2) with (c0 + 1) by lia. auto.
        - exists c0. split; [auto|]. split; [unfold kid; lia|]. split; [auto|].
          intros c' [->| ->] ?; fold c0; [now apply sw_irrefl|lia]. }
      destruct Hsel as (c & -> & Kc & Lc & Hmax). cbn [bind].
      assert (Hch : c <> h) by (unfold kid in Kc; lia).
      rewrite (rd_nth _ _ _ _ d) by auto. cbn [bind].
      set (z := nth c a d) in *.
      destruct (lt v z) eqn:E.
      + rewrite wr_set by auto. cbn [bind].
        assert (La : length (setn a h z) = length a) by (now apply set_length).
        destruct (IH (setn a h z) c) as (r & Er & Pr & Hr).
        * unfold kid in Kc; lia.
        * rewrite La; auto.
        * rewrite La. unfold kid in Kc; lia.
        * split.
          -- intros i c' Hi Hne Hk Hl. rewrite !set_length in Hl by (rewrite ?La; auto).
             rewrite !nth_set by (rewrite ?La; auto).
             destruct (Nat.eqb_spec i c) as [->|_]; [congruence|].
             destruct (Nat.eqb_spec i h) as [->|Hih].
             ++ destruct (Nat.eqb_spec c' c) as [->|]; [now apply sw_asym|].
                destruct (Nat.eqb_spec c' h) as [->|]; [unfold kid in Hk; lia|].
                apply Hmax; auto.
             ++ destruct (Nat.eqb_spec c' c) as [->|].
                ** unfold kid in Hk, Kc. lia.
                ** destruct (Nat.eqb_spec c' h) as [->|].
                   --- specialize (I2 i c Hi Hk Kc).
                       rewrite !set_length, !nth_set in I2 by auto.
                       destruct (Nat.eqb_spec i h); [lia|]. destruct (Nat.eqb_spec c h); [lia|]. auto.
                   --- specialize (I1 i c' Hi Hih Hk).
                       rewrite !set_length, !nth_set in I1 by auto.
                       destruct (Nat.eqb_spec i h); [lia|]. destruct (Nat.eqb_spec c' h); [lia|]. auto.
          -- intros p c' Hp Hk1 Hk2 Hl. rewrite !set_length in Hl by (rewrite ?La; auto).
             assert (p = h) by (unfold kid in Hk1, Kc; lia). subst p.
             rewrite !nth_set by (rewrite ?La; auto). rewrite Nat.eqb_refl.
             destruct (Nat.eqb_spec h c); [lia|].
             destruct (Nat.eqb_spec c' c); [unfold kid in Hk2; lia|].
             destruct (Nat.eqb_spec c' h); [unfold kid in *; lia|].
             assert (Hmc : m <= c) by (unfold kid in Kc; lia).
             specialize (I1 c c' Hmc Hch Hk2). rewrite !set_length, !nth_set in I1 by auto.
             destruct (Nat.eqb_spec c h); [lia|]. destruct (Nat.eqb_spec c' h); [lia|]. auto.
        * rewrite La in Er. exists r. split; [exact Er|]. split; [|auto].
          rewrite Pr.
          assert (Hsw : Permutation (setn (setn (setn a h v) h
                    (nth c (setn a h v) d)) c (nth h (setn a h v) d)) (setn a h v)).
          { apply swap_set_perm; rewrite ?set_length; auto. }
          rewrite !nth_set in Hsw by auto. rewrite Nat.eqb_refl in Hsw.
          destruct (Nat.eqb_spec c h); [lia|]. rewrite set_set in Hsw by auto. exact Hsw.
      + rewrite wr_set by auto. exists (setn a h v). split; [auto|]. split; [auto|].
        intros i c' Hi Hk Hl. destruct (Nat.eq_dec i h) as [->|]; [|now apply I1].
        rewrite set_length in Hl by auto. rewrite !nth_set by auto. rewrite Nat.eqb_refl.
        destruct (Nat.eqb_spec c' h); [unfold kid in Hk; lia|].
        eapply sw_le_trans; [auto|apply Hmax; eauto|exact E].
    - rewrite wr_set by auto. exists (setn a h v). split; [auto|]. split; [auto|].
      intros i c' Hi Hk Hl. destruct (Nat.eq_dec i h) as [->|]; [|now apply I1].
      rewrite set_length in Hl by auto. unfold kid in Hk. lia.
  Qed.

  Lemma trickle_spec d pre a post h :
    h < length a -> HeapFrom d (S h) a ->
    exists r, trickle_down_heap lt (pre ++ a ++ post) (length pre) h (length a)
              = Ok (pre ++ r ++ post) /\ Permutation r a /\ HeapFrom d h r.
  Proof.
    intros Hh H. unfold trickle_down_heap. rewrite (rd_nth _ _ _ _ d) by auto. cbn [bind].
    destruct (trickle_loop_spec (length a) d pre a post h h (nth h a d)) as (r & E & P & Hr); auto.
    - lia.
    - rewrite set_same by auto. split.
      + intros i c Hi Hne. apply H. lia.
      + intros p c Hp Hk. unfold kid in Hk. lia.
    - exists r. rewrite set_same in P by auto. auto.
  Qed.

  Lemma make_heap_loop_spec d k pre a post :
    k <= length a -> HeapFrom d k a ->
    exists r, make_heap_loop k lt (pre ++ a ++ post) (length pre) (length a)
              = Ok (pre ++ r ++ post) /\ Permutation r a /\ HeapFrom d 0 r.
  Proof.
    revert a. induction k as [|k IH]; intros a Hk H; cbn [make_heap_loop].
    - exists a. auto.
    - destruct (trickle_spec d pre a post k) as (r & -> & P & Hr); [lia|auto|]. cbn [bind].
      assert (L : length r = length a) by now apply Permutation_length.
      destruct (IH r) as (r' & E & P' & Hr'); [lia|auto|]. rewrite L in E.
      exists r'. split; [auto|]. split; [now rewrite P'|auto].
  Qed.
  Lemma HeapFrom0 d l : HeapFrom d 0 l -> Heap lt l.
  Proof. intros H. apply (Heap_nth d). intros i c Hk Hl. apply H; auto. lia. Qed.
  Lemma make_heap_spec pre a post :
    exists r, make_heap lt (pre ++ a ++ post) (length pre) (length pre + length a)
              = Ok (pre ++ r ++ post) /\ Permutation r a /\ Heap lt r.
  Proof.
    unfold make_heap. destruct (Nat.leb_spec (length pre + length a) (length pre)) as [H|H].
    - exists a. split; [auto|]. split; [auto|]. destruct a; [|simpl in H; lia].
      intros i c x y _ Hx. destruct i; discriminate.
    - replace (length pre + length a - length pre) with (length a) by lia.
      destruct a as [|x t] eqn:Ea; [simpl in H; lia|]. rewrite <- Ea in *.
      assert (Hd : 2 * ((length a - 1) / 2) <= length a - 1) by (apply Nat.mul_div_le; lia).
      assert (Hd2 : length a - 1 < 2 * ((length a - 1) / 2) + 2).
      { pose proof (Nat.mul_succ_div_gt (length a - 1) 2). lia. }
      destruct (make_heap_loop_spec x ((length a - 1) / 2 + 1) pre a post) as (r & E & P & Hr).
      + lia.
      + intros i c Hi Hk Hl. unfold kid in Hk. lia.
      + exists r. split; [auto|]. split; [auto|]. now apply (HeapFrom0 x).
  Qed.

  (** ** push_heap *)
  Lemma half_kid i : 0 < i -> kid ((i - 1) / 2) i.
  Proof.
    intros H. pose proof (Nat.div_mod (i - 1) 2). pose proof (Nat.mod_upper_bound (i - 1) 2).
    unfold kid. lia.
  Qed.
  Lemma kid_inj p q c : kid p c -> kid q c -> p = q.
  Proof. unfold kid. lia. Qed.

  Definition pinv (d : A) (h : nat) (b : list A) : Prop :=
    (forall i c, c <> h -> kid i c -> c < length b -> lt (nth i b d) (nth c b d) = false) /\
    (forall p c, kid p h -> kid h c -> c < length b -> lt (nth p b d) (nth c b d) = false).

  Lemma push_loop_spec fuel d pre a post h v :
    h < length a -> h <= fuel -> pinv d h (setn a h v) ->
    exists r, push_loop fuel lt (pre ++ a ++ post) (length pre) h v
              = Ok (pre ++ r ++ post) /\ Permutation r (setn a h v) /\ Heap lt r.
  Proof.
    revert a h. induction fuel as [|fuel IH]; intros a h Hh Hf (I1 & I2); cbn [push_loop].
    - replace h with 0 in * by lia. cbn [Nat.ltb Nat.leb]. rewrite wr_set by auto.
      exists (setn a 0 v). split; [auto|]. split; [auto|]. apply (Heap_nth d).
      intros i c Hk Hl. apply I1; auto. unfold kid in Hk. lia.
    - destruct (Nat.ltb_spec 0 h) as [H0|H0].
      + pose proof (half_kid h H0) as Kp. set (p := (h - 1) / 2) in *.
        assert (Hp : p < h) by (unfold kid in Kp; lia).
        rewrite (rd_nth _ _ _ _ d) by lia. cbn [bind].
        destruct (lt v (nth p a d)) eqn:E.
        * rewrite wr_set by auto.
          exists (setn a h v). split; [auto|]. split; [auto|]. apply (Heap_nth d).
          intros i c Hk Hl. destruct (Nat.eq_dec c h) as [->|]; [|now apply I1].
          rewrite !nth_set by auto. rewrite Nat.eqb_refl.
          assert (i = p) by (eapply kid_inj; eauto). subst i.
          destruct (Nat.eqb_spec p h); [lia|]. now apply sw_asym.
        * rewrite wr_set by auto. cbn [bind].
          assert (La : length (setn a h (nth p a d)) = length a) by (now apply set_length).
          destruct (IH (setn a h (nth p a d)) p) as (r & Er & Pr & Hr); [lia|lia| |].
          -- split.
             ++ intros i c Hne Hk Hl. rewrite !set_length in Hl by (rewrite ?La; lia).
                rewrite !nth_set by (rewrite ?La; lia).
                destruct (Nat.eqb_spec c p); [lia|].
                destruct (Nat.eqb_spec c h) as [->|Hch].
                ** assert (i = p) by (eapply kid_inj; eauto). subst i. rewrite Nat.eqb_refl. auto.
                ** destruct (Nat.eqb_spec i p) as [->|Hip].
                   --- specialize (I1 p c Hch Hk). rewrite !set_length, !nth_set in I1 by lia.
                       destruct (Nat.eqb_spec p h); [lia|]. destruct (Nat.eqb_spec c h); [lia|].
                       eapply sw_le_trans; [auto| |exact E]. auto.
                   --- destruct (Nat.eqb_spec i h) as [->|Hih].
                       +++ specialize (I2 p c Kp Hk). rewrite !set_length, !nth_set in I2 by lia.
                           destruct (Nat.eqb_spec p h); [lia|]. destruct (Nat.eqb_spec c h); [lia|]. auto.
                       +++ specialize (I1 i c Hch Hk). rewrite !set_length, !nth_set in I1 by lia.
                           destruct (Nat.eqb_spec i h); [lia|]. destruct (Nat.eqb_spec c h); [lia|]. auto.
             ++ intros q c Hk1 Hk2 Hl. rewrite !set_length in Hl by (rewrite ?La; lia).
                rewrite !nth_set by (rewrite ?La; lia).
                assert (q < p) by (unfold kid in Hk1; lia).
                destruct (Nat.eqb_spec q p); [lia|]. destruct (Nat.eqb_spec q h); [lia|].
                destruct (Nat.eqb_spec c p); [unfold kid in Hk2; lia|].
                assert (Hqp : lt (nth q a d) (nth p a d) = false).
                { assert (Hph : p <> h) by lia.
                  specialize (I1 q p Hph Hk1). rewrite !set_length, !nth_set in I1 by lia.
                  destruct (Nat.eqb_spec q h); [lia|]. destruct (Nat.eqb_spec p h); [lia|]. apply I1; lia. }
                destruct (Nat.eqb_spec c h) as [->|Hch]; [auto|].
                eapply sw_le_trans; [auto| |exact Hqp].
                specialize (I1 p c Hch Hk2). rewrite !set_length, !nth_set in I1 by lia.
                destruct (Nat.eqb_spec p h); [lia|]. destruct (Nat.eqb_spec c h); [lia|]. auto.
          -- exists r. split; [exact Er|]. split; [|auto]. rewrite Pr.
             assert (Hsw : Permutation (setn (setn (setn a h v) h
                    (nth p (setn a h v) d)) p (nth h (setn a h v) d)) (setn a h v)).
             { apply swap_set_perm; rewrite ?set_length; lia. }
             rewrite !nth_set in Hsw by auto. rewrite Nat.eqb_refl in Hsw.
             destruct (Nat.eqb_spec p h); [lia|]. rewrite set_set in Hsw by auto. exact Hsw.
      + rewrite wr_set by auto. exists (setn a h v). split; [auto|]. split; [auto|].
        apply (Heap_nth d). intros i c Hk Hl. apply I1; auto. unfold kid in Hk. lia.
  Qed.

  Lemma push_heap_spec pre a x post :
    Heap lt a ->
    exists r, push_heap lt (pre ++ (a ++ [x]) ++ post) (length pre) (length pre + length (a ++ [x]))
              = Ok (pre ++ r ++ post) /\ Permutation r (a ++ [x]) /\ Heap lt r.
  Proof.
    intros H. unfold push_heap.
    assert (La : length (a ++ [x]) = S (length a)) by len.
    destruct (Nat.leb_spec (length pre + length (a ++ [x])) (length pre)) as [?|_]; [lia|].
    replace (length pre + length (a ++ [x]) - 1) with (length pre + length a) by lia.
    rewrite (rd_nth _ _ _ _ x) by lia. cbn [bind].
    rewrite nth_middle.
    replace (length pre + length a - length pre) with (length a) by lia.
    destruct (push_loop_spec (length pre + length (a ++ [x]) - length pre) x pre (a ++ [x]) post (length a) x)
      as (r & E & P & Hr).
    - lia.
    - lia.
    - rewrite set_app by auto. split.
      + intros i c Hne Hk Hl. assert (c < length a) by lia.
        rewrite !app_nth1 by (unfold kid in Hk; lia). rewrite (Heap_nth x) in H. apply H; auto.
      + intros p c _ Hk Hl. unfold kid in Hk. lia.
    - exists r. rewrite set_app in P by auto. auto.
  Qed.

  (** ** pop_heap, sort_heap *)
  Lemma heap_root d l i : Heap lt l -> i < length l -> lt (nth 0 l d) (nth i l d) = false.
  Proof.
    intros H. rewrite (Heap_nth d) in H. induction i as [i IH] using (well_founded_induction lt_wf).
    intros Hi. destruct (Nat.eq_dec i 0) as [->|Hn]; [now apply sw_irrefl|].
    assert (Hk : kid ((i - 1) / 2) i) by (apply half_kid; lia).
    eapply sw_le_trans; [auto|apply H; eauto|]. apply IH; unfold kid in Hk; lia.
  Qed.
  Lemma heap_largest x t : Heap lt (x :: t) -> Largest lt x (x :: t).
  Proof.
    intros H. split; [left; auto|]. intros y Hy. apply (In_nth _ _ x) in Hy.
    destruct Hy as (n & Hn & <-). exact (heap_root x (x :: t) n H Hn).
  Qed.
  Lemma heap_prefix l m : Heap lt (l ++ m) -> Heap lt l.
  Proof.
    intros H i c x y Hk Hx Hy. apply (H i c); auto.
    - rewrite nth_error_app1; auto. apply nth_error_Some. congruence.
    - rewrite nth_error_app1; auto. apply nth_error_Some. congruence.
  Qed.

  Lemma pop_heap_spec pre x t post :
    Heap lt (x :: t) ->
    exists r, pop_heap lt (pre ++ (x :: t) ++ post) (length pre) (length pre + length (x :: t))
              = Ok (pre ++ (r ++ [x]) ++ post) /\ Permutation r t /\ Heap lt r.
  Proof.
    intros H. unfold pop_heap.
    destruct (Nat.leb_spec (length pre + length (x :: t)) (length pre + 1)) as [Hl|Hl].
    - destruct t as [|y t]; [|simpl in Hl; lia]. exists []. split; [auto|]. split; [auto|].
      intros i c u v _ Hx. destruct i; discriminate.
    - destruct (snoc_case t) as [->|(u & y & ->)]; [simpl in Hl; lia|].
      replace (pre ++ (x :: u ++ [y]) ++ post) with (pre ++ x :: u ++ y :: post) by (napp; auto).
      rewrite iter_swap_far; [|auto|len]. cbn [bind].
      replace (pre ++ y :: u ++ x :: post) with (pre ++ (y :: u) ++ (x :: post)) by (napp; auto).
      replace (length pre + length (x :: u ++ [y]) - 1 - length pre) with (length (y :: u)) by len.
      destruct (trickle_spec x pre (y :: u) (x :: post) 0) as (r & E & P & Hr).
      + simpl; lia.
      + intros i c Hi Hk Hc. rewrite (Heap_nth x) in H.
        replace (x :: u ++ [y]) with ((x :: u) ++ [y]) in H by auto.
        destruct i as [|i]; [lia|]. destruct c as [|c]; [unfold kid in Hk; lia|].
        specialize (H (S i) (S c) Hk). rewrite app_length in H. simpl length in *.
        rewrite !app_nth1 in H by (simpl; unfold kid in Hk; lia). simpl nth in *. apply H; lia.
      + exists r. split; [rewrite E; napp; auto|]. split.
        * rewrite P. apply Permutation_cons_append.
        * now apply (HeapFrom0 x).
  Qed.

  Lemma sort_heap_loop_spec pre l post k :
    k = length l -> Heap lt l ->
    exists r, sort_heap_loop k lt (pre ++ l ++ post) (length pre) = Ok (pre ++ r ++ post) /\
              Permutation r l /\ Ascending lt r.
  Proof.
    revert l post. induction k as [|k IH]; intros l post Hk H; cbn [sort_heap_loop].
    - destruct l; [|discriminate]. exists []. split; [auto|]. split; [auto|constructor].
    - destruct l as [|x t]; [discriminate|].
      destruct (pop_heap_spec pre x t post H) as (r & E & P & Hr).
      replace (length pre + S k) with (length pre + length (x :: t)) by (rewrite Hk; auto).
      rewrite E. cbn [bind].
      replace (pre ++ (r ++ [x]) ++ post) with (pre ++ r ++ ([x] ++ post)) by (napp; auto).
      assert (Lr : length r = length t) by now apply Permutation_length.
      destruct (IH r ([x] ++ post)) as (s & Es & Ps & Hs); [simpl in Hk; lia|auto|].
      exists (s ++ [x]). split; [rewrite Es; napp; auto|]. split.
      + rewrite Ps, P. symmetry. apply Permutation_cons_append.
      + apply StronglySorted_app_iff. split; [auto|]. split; [repeat constructor|].
        intros a b Ha [<-|[]].
        destruct (heap_largest x t H) as [_ HL]. apply HL. right.
        eapply Permutation_in; [exact P|]. eapply Permutation_in; [exact Ps|auto].
  Qed.
  Lemma sort_heap_spec pre l post :
    Heap lt l ->
    exists r, sort_heap lt (pre ++ l ++ post) (length pre) (length pre + length l)
              = Ok (pre ++ r ++ post) /\ Permutation r l /\ Ascending lt r.
  Proof. intros H. apply sort_heap_loop_spec; auto. lia. Qed.

  (** ** is_heap *)
  Lemma is_heap_loop_spec fuel d pre l post i :
    length l <= fuel + 2 * i + 1 ->
    exists b, is_heap_loop fuel lt (pre ++ l ++ post) (length pre + i) (length pre + 2 * i)
                        (length pre + length l) = Ok b /\
              (b = true <-> HeapFrom d i l).
  Proof.
    revert i. induction fuel as [|fuel IH]; intros i Hf; cbn [is_heap_loop].
    - destruct (Nat.ltb_spec (length pre + 2 * i + 1) (length pre + length l)); [lia|].
      exists true. split; [auto|]. split; [|auto]. intros _ j c Hj Hk Hl. unfold kid in Hk. lia.
    - destruct (Nat.ltb_spec (length pre + 2 * i + 1) (length pre + length l)) as [H1|H1].
      2:{ exists true. split; [auto|]. split; [|auto]. intros _ j c Hj Hk Hl. unfold kid in Hk. lia. }
      rewrite (rd_nth _ _ _ _ d) by lia. cbn [bind].
      replace (length pre + 2 * i + 1) with (length pre + (2 * i + 1)) by lia.
      rewrite (rd_nth _ _ _ _ d) by lia. cbn [bind].
      destruct (lt (nth i l d) (nth (2 * i + 1) l d)) eqn:E.
      { exists false. split; [auto|]. split; [discriminate|]. intros H.
        rewrite (H i (2 * i + 1)) in E; [discriminate|lia|unfold kid; lia|lia]. }
      destruct (IH (S i)) as (b & Eb & Hb); [lia|].
      replace (length pre + i + 1) with (length pre + S i) by lia.
      replace (length pre + 2 * i + 2) with (length pre + 2 * S i) by lia.
      destruct (Nat.ltb_spec (length pre + 2 * S i) (length pre + length l)) as [H2|H2].
      + rewrite (rd_nth _ _ _ _ d) by lia. cbn [bind].
        destruct (lt (nth i l d) (nth (2 * S i) l d)) eqn:E2.
        * exists false. split; [auto|]. split; [discriminate|]. intros H.
          rewrite (H i (2 * S i)) in E2; [discriminate|lia|unfold kid; lia|lia].
        * exists b. split; [auto|]. rewrite Hb. split; intros H j c Hj Hk Hl.
          -- destruct (Nat.eq_dec j i) as [->|]; [|apply H; auto; lia].
             destruct Hk as [->| ->]; [auto|]. replace (2 * i + 2) with (2 * S i) by lia. auto.
          -- apply H; auto; lia.
      + exists b. split; [auto|]. rewrite Hb. split; intros H j c Hj Hk Hl.
        * destruct (Nat.eq_dec j i) as [->|]; [|apply H; auto; lia].
          destruct Hk as [->| ->]; [auto|]. lia.
        * apply H; auto; lia.
  Qed.
  Lemma is_heap_spec pre l post :
    exists b, is_heap lt (pre ++ l ++ post) (length pre) (length pre + length l) = Ok b /\
              (b = true <-> Heap lt l).
  Proof.
    unfold is_heap. destruct l as [|x t].
    - exists true. split.
      + cbn [length]. rewrite Nat.add_0_r, Nat.sub_diag. cbn [is_heap_loop].
        destruct (Nat.ltb_spec (length pre + 1) (length pre)); [lia|auto].
      + split; [|auto]. intros _ i c u v _ Hx. destruct i; discriminate.
    - destruct (is_heap_loop_spec (length pre + length (x :: t) - length pre) x pre (x :: t) post 0) as (b & E & Hb); [lia|].
      rewrite !Nat.add_0_r in E. exists b. split; [exact E|]. rewrite Hb. split; intros H.
      + now apply (HeapFrom0 x).
      + rewrite (Heap_nth x) in H. intros i c _ Hk Hl. now apply H.
  Qed.
End HeapP.
