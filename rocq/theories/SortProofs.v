From Verif Require Import Base Order RangeSpec RangeModel RangeProofs ArrayModel ArrayProofs
     SetAlgoProofs.

Section Sort.
  Context {A : Type} (lt : A -> A -> bool) (W : StrictWeak lt).

  Definition last_not_gt (x : A) (u : list A) : Prop :=
    u = [] \/ exists u' y, u = u' ++ [y] /\ lt x y = false.

  Lemma ss_inner_spec fuel pre s1 s2 x post :
    length s1 <= fuel ->
    exists u w,
      s1 = u ++ w /\ (forall y, In y w -> lt x y = true) /\ last_not_gt x u /\
      ss_inner fuel lt (pre ++ (s1 ++ s2) ++ x :: post) (length pre)
               (length pre + length (s1 ++ s2)) (length pre + length s1)
      = Ok (length pre + length u).
  Proof.
    revert s1 s2. induction fuel as [|fuel IH]; intros s1 s2 Hf; cbn [ss_inner].
    - destruct s1; simpl in Hf; [|lia]. exists [], [].
      split; [auto|]. split; [intros y []|]. split; [left; auto|].
      simpl. now rewrite !Nat.add_0_r, Nat.ltb_irrefl.
    - destruct (snoc_case s1) as [->|(s & y & ->)].
      + exists [], []. split; [auto|]. split; [intros y []|]. split; [left; auto|].
        simpl. now rewrite !Nat.add_0_r, Nat.ltb_irrefl.
      + destruct (Nat.ltb_spec (length pre) (length pre + length (s ++ [y]))) as [_|Hge];
          [|rewrite app_length in Hge; simpl in Hge; lia].
        replace (pre ++ ((s ++ [y]) ++ s2) ++ x :: post)
          with ((pre ++ (s ++ [y]) ++ s2) ++ x :: post) by (napp; auto).
        rewrite rd_app' by len. cbn [bind].
        replace ((pre ++ (s ++ [y]) ++ s2) ++ x :: post)
          with ((pre ++ s) ++ y :: s2 ++ x :: post) by (napp; auto).
        rewrite rd_app' by len. cbn [bind].
        destruct (lt x y) eqn:E.
        * destruct (IH s (y :: s2)) as (u & w & -> & Hw & Hu & Eq).
          { rewrite app_length in Hf. simpl in Hf. lia. }
          exists u, (w ++ [y]). split; [now rewrite <- app_assoc|]. split; [|split; [auto|]].
          -- intros z Hz. apply in_app_or in Hz. destruct Hz as [Hz|[<-|[]]]; auto.
          -- rewrite <- Eq. f_equal; [napp; auto|len|len].
        * exists (s ++ [y]), []. split; [now rewrite app_nil_r|].
          split; [intros z []|]. split; [right; eauto|auto].
  Qed.

  Lemma insert_sorted u x w :
    Ascending lt (u ++ w) -> last_not_gt x u -> (forall y, In y w -> lt x y = true) ->
    Ascending lt (u ++ x :: w).
  Proof.
    intros Hs Hu Hw. apply StronglySorted_app_iff in Hs. destruct Hs as (H1 & H2 & H3).
    apply StronglySorted_app_iff. split; [auto|]. split.
    - constructor; [auto|]. rewrite Forall_forall. intros y Hy. apply sw_asym; auto.
    - intros a b Ha [<-|Hb]; [|auto].
      destruct Hu as [->|(u' & y & -> & Hy)]; [contradiction|].
      apply StronglySorted_app_iff in H1. destruct H1 as (_ & _ & H1).
      apply in_app_or in Ha. destruct Ha as [Ha|[<-|[]]]; [|auto].
      assert (lt y a = false) by (apply H1; [auto|left; auto]).
      eapply sw_le_trans; eauto.
  Qed.

  Lemma filter_none (p : A -> bool) l : (forall y, In y l -> p y = false) -> filter p l = [].
  Proof.
    induction l as [|a l IH]; intros H; simpl; [auto|].
    rewrite (H a) by (left; auto). apply IH. intros; apply H; right; auto.
  Qed.
  Lemma insert_stable v u x w :
    (forall y, In y w -> lt x y = true) ->
    filter (equiv lt v) (u ++ x :: w) = filter (equiv lt v) ((u ++ w) ++ [x]).
  Proof.
    intros Hw. rewrite !filter_app. simpl. rewrite <- app_assoc. f_equal.
    destruct (equiv lt v x) eqn:E; [|now rewrite app_nil_r].
    rewrite (filter_none (equiv lt v) w); [auto|].
    intros y Hy. pose proof (equiv_lt lt W v x y E (Hw y Hy)) as Hlt.
    unfold equiv. now rewrite Hlt.
  Qed.

  Lemma stable_sort_loop_spec fuel pre s rest post first i last :
    length rest <= fuel -> s <> [] ->
    first = length pre -> i + 1 = length pre + length s -> last = length pre + length s + length rest ->
    Ascending lt s ->
    exists r, stable_sort_loop fuel lt (pre ++ s ++ rest ++ post) first i last
              = Ok (pre ++ r ++ post) /\
              Ascending lt r /\ Permutation r (s ++ rest) /\
              (forall v, filter (equiv lt v) r = filter (equiv lt v) (s ++ rest)).
  Proof.
    revert s rest i. induction fuel as [|fuel IH]; intros s rest i Hf Hne -> Hi -> Hs;
      cbn [stable_sort_loop].
    - destruct rest; simpl in Hf; [|lia].
      destruct (Nat.ltb_spec (i + 1) (length pre + length s + length (@nil A))); [simpl in *; lia|].
      exists s. rewrite app_nil_r. auto.
    - destruct rest as [|x rest].
      + destruct (Nat.ltb_spec (i + 1) (length pre + length s + length (@nil A))); [simpl in *; lia|].
        exists s. rewrite app_nil_r. auto.
      + destruct (Nat.ltb_spec (i + 1) (length pre + length s + length (x :: rest))) as [_|H];
          [|simpl in *; lia].
        destruct (ss_inner_spec (i + 1) pre s [] x (rest ++ post)) as (u & w & -> & Hw & Hu & Eq).
        { lia. }
        rewrite app_nil_r in Eq. rewrite <- Hi in Eq. cbn [app]. rewrite Eq. cbn [bind].
        assert (Hins : Ascending lt (u ++ x :: w)) by (apply insert_sorted; auto).
        assert (Hne' : u ++ x :: w <> []) by (destruct u; discriminate).
        assert (Hres : exists r,
          stable_sort_loop fuel lt (pre ++ (u ++ x :: w) ++ rest ++ post) (length pre) (i + 1)
            (length pre + length (u ++ w) + length (x :: rest)) = Ok (pre ++ r ++ post) /\
          Ascending lt r /\ Permutation r ((u ++ x :: w) ++ rest) /\
          (forall v, filter (equiv lt v) r = filter (equiv lt v) ((u ++ x :: w) ++ rest))).
        { apply IH; auto.
          - simpl in Hf. lia.
          - rewrite !app_length in *. simpl. lia.
          - len. }
        destruct Hres as (r & Er & Ha & Hp & Hst).
        exists r. split; [|split; [auto|split]].
        * destruct (Nat.eqb_spec (length pre + length u) (i + 1)) as [Ej|Ej]; cbn [negb].
          -- (* already in place: w = [] *)
             destruct w as [|y w]; [|rewrite app_length in Hi; simpl in Hi; lia].
             rewrite <- Er. f_equal. napp. auto.
          -- replace (pre ++ (u ++ w) ++ x :: rest ++ post)
               with ((pre ++ u) ++ w ++ [x] ++ rest ++ post) by (napp; auto).
             destruct (rotate_spec' (pre ++ u) w [x] (rest ++ post)
                         (length pre + length u) (i + 1) (i + 1 + 1)) as (it & ->).
             ++ len.
             ++ rewrite app_length in *. lia.
             ++ rewrite app_length in *. simpl. lia.
             ++ cbn [bind]. rewrite <- Er. f_equal. napp. auto.
        * rewrite Hp. napp. apply Permutation_app_head. cbn [app].
          apply Permutation_middle.
        * intros v. rewrite Hst. rewrite (filter_app _ (u ++ x :: w) rest).
          rewrite insert_stable by auto. rewrite <- filter_app. f_equal. napp. auto.
  Qed.

  Lemma stable_sort_spec pre l post :
    exists r, stable_sort lt (pre ++ l ++ post) (length pre) (length pre + length l)
              = Ok (pre ++ r ++ post) /\
              Ascending lt r /\ Permutation r l /\
              (forall v, filter (equiv lt v) r = filter (equiv lt v) l).
  Proof.
    unfold stable_sort. destruct l as [|x t].
    - exists []. split; [|split; [constructor|auto]].
      rewrite Nat.add_0_r, Nat.sub_diag. cbn [stable_sort_loop].
      destruct (Nat.ltb_spec (length pre + 1) (length pre)); [lia|auto].
    - destruct (stable_sort_loop_spec (length pre + length (x :: t) - length pre) pre [x] t post
                  (length pre) (length pre) (length pre + length (x :: t)))
        as (r & E & Ha & Hp & Hst);
        [cbn [length]; lia|discriminate|auto|cbn [length]; lia|cbn [length]; lia| |].
      + repeat constructor.
      + exists r. auto.
  Qed.

  (** ** inplace_merge *)
  Lemma im_skip_spec fuel pre u w m post first middle :
    length u <= fuel ->
    first = length pre -> middle = length pre + length u + length w ->
    (forall x, In x u -> lt x m = true) ->
    (w = [] \/ exists y w', w = y :: w' /\ lt y m = false) ->
    im_skip fuel lt (pre ++ u ++ w ++ m :: post) first middle = Ok (length pre + length u).
  Proof.
    revert pre u first. induction fuel as [|fuel IH]; intros pre u first Hf -> -> Hu Hw;
      cbn [im_skip].
    - destruct u; simpl in Hf; [|lia].
      replace (pre ++ [] ++ w ++ m :: post) with ((pre ++ w) ++ m :: post) by (napp; auto).
      rewrite (rd_app' (pre ++ w) post m (length pre + length (@nil A) + length w))
          by (rewrite app_length; simpl; lia).
      destruct Hw as [->|(y & w' & -> & Hy)].
      + rewrite app_nil_r, rd_app. cbn [bind]. rewrite (sw_irrefl lt W). f_equal. simpl. lia.
      + replace ((pre ++ y :: w') ++ m :: post) with (pre ++ y :: w' ++ m :: post) by (napp; auto).
        rewrite rd_app. cbn [bind]. rewrite Hy. f_equal. simpl. lia.
    - destruct u as [|x u].
      + replace (pre ++ [] ++ w ++ m :: post) with ((pre ++ w) ++ m :: post) by (napp; auto).
        rewrite (rd_app' (pre ++ w) post m (length pre + length (@nil A) + length w))
          by (rewrite app_length; simpl; lia).
        destruct Hw as [->|(y & w' & -> & Hy)].
        * rewrite app_nil_r, rd_app. cbn [bind]. rewrite (sw_irrefl lt W). f_equal. simpl. lia.
        * replace ((pre ++ y :: w') ++ m :: post) with (pre ++ y :: w' ++ m :: post) by (napp; auto).
          rewrite rd_app. cbn [bind]. rewrite Hy. f_equal. simpl. lia.
      + replace (pre ++ (x :: u) ++ w ++ m :: post) with ((pre ++ (x :: u) ++ w) ++ m :: post)
          by (napp; auto).
        rewrite (rd_app' (pre ++ (x :: u) ++ w) post m (length pre + length (x :: u) + length w)) by len.
        replace ((pre ++ (x :: u) ++ w) ++ m :: post) with (pre ++ x :: u ++ w ++ m :: post)
          by (napp; auto).
        rewrite rd_app. cbn [bind]. rewrite Hu by (left; auto).
        replace (pre ++ x :: u ++ w ++ m :: post) with ((pre ++ [x]) ++ u ++ w ++ m :: post)
          by (napp; auto).
        rewrite IH; auto.
        * f_equal. len.
        * simpl in Hf. lia.
        * len.
        * len.
        * intros y Hy. apply Hu. right; auto.
  Qed.

  Lemma split_lt m l : Ascending lt l ->
    exists u w, l = u ++ w /\ (forall x, In x u -> lt x m = true) /\
                (forall x, In x w -> lt x m = false).
  Proof.
    intros H. induction H as [|x l Hs IH Hf].
    - exists [], []. repeat split; auto; intros x [].
    - destruct (lt x m) eqn:E.
      + destruct IH as (u & w & -> & H1 & H2). exists (x :: u), w. repeat split; auto.
        intros y [<-|Hy]; auto.
      + exists [], (x :: l). repeat split; [intros y []|].
        intros y [<-|Hy]; [auto|]. rewrite Forall_forall in Hf.
        eapply sw_le_trans; eauto.
  Qed.

  Lemma inplace_merge_loop_spec fuel pre done l1 l2 post first middle last :
    length l2 <= fuel ->
    first = length pre + length done -> middle = first + length l1 -> last = middle + length l2 ->
    Ascending lt (done ++ l1) -> Ascending lt (done ++ l2) ->
    exists r,
      inplace_merge_loop fuel lt (pre ++ done ++ l1 ++ l2 ++ post) first middle last
      = Ok (pre ++ r ++ post) /\
      Permutation r (done ++ l1 ++ l2) /\ Ascending lt r.
  Proof.
    revert done l1 l2 first middle last.
    induction fuel as [|fuel IH]; intros done l1 l2 f m la Hf -> -> -> H1 H2;
      cbn [inplace_merge_loop].
    - destruct l2; simpl in Hf; [|lia]. rewrite Nat.add_0_r, Nat.eqb_refl.
      exists (done ++ l1). rewrite app_nil_r. split; [f_equal; napp; auto|]. auto.
    - destruct l2 as [|x t].
      { rewrite Nat.add_0_r, Nat.eqb_refl.
        exists (done ++ l1). rewrite app_nil_r. split; [f_equal; napp; auto|]. auto. }
      destruct (Nat.eqb_spec (length pre + length done + length l1)
                  (length pre + length done + length l1 + length (x :: t))) as [E|_];
        [simpl in E; lia|].
      pose proof H1 as H1'. apply StronglySorted_app_iff in H1'. destruct H1' as (D1 & L1 & DL1).
      pose proof H2 as H2'. apply StronglySorted_app_iff in H2'. destruct H2' as (_ & L2 & DL2).
      destruct (split_lt x l1 L1) as (u & w & -> & Hu & Hw).
      replace (pre ++ done ++ (u ++ w) ++ (x :: t) ++ post)
        with ((pre ++ done) ++ u ++ w ++ x :: t ++ post) by (napp; auto).
      rewrite im_skip_spec; try (len; fail); auto.
      2:{ destruct w as [|y w']; [auto|]. right. exists y, w'. split; [auto|]. apply Hw. left; auto. }
      cbn [bind].
      replace ((pre ++ done) ++ u ++ w ++ x :: t ++ post)
        with ((pre ++ done ++ u) ++ w ++ (x :: t ++ post)) by (napp; auto).
      rewrite reverse_spec' by len. cbn [bind].
      replace ((pre ++ done ++ u) ++ rev w ++ (x :: t ++ post))
        with ((pre ++ done ++ u) ++ (rev w ++ [x]) ++ (t ++ post)) by (napp; auto).
      rewrite reverse_spec' by len. cbn [bind].
      rewrite rev_app_distr, rev_involutive. cbn [rev app].
      destruct (IH (done ++ u ++ [x]) w t
                  (length (pre ++ done) + length u + 1)
                  (length pre + length done + length (u ++ w) + 1)
                  (length pre + length done + length (u ++ w) + length (x :: t)))
        as (r & E & Hp & Ha); try (len; simpl in *; lia).
      + replace ((done ++ u ++ [x]) ++ w) with ((done ++ u) ++ x :: w) by (napp; auto).
        apply StronglySorted_app_iff. split; [|split].
        * apply StronglySorted_app_iff. apply StronglySorted_app_iff in L1.
          split; [auto|]. split; [apply L1|]. intros a b Ha Hb. apply DL1; [auto|apply in_or_app; auto].
        * apply StronglySorted_app_iff in L1. constructor; [apply L1|].
          rewrite Forall_forall. auto.
        * intros a b Ha Hb. apply in_app_or in Ha.
          destruct Ha as [Ha|Ha], Hb as [<-|Hb].
          -- apply DL2; [auto|left; auto].
          -- apply DL1; [auto|apply in_or_app; auto].
          -- apply sw_asym; auto.
          -- apply StronglySorted_app_iff in L1. apply L1; auto.
      + replace ((done ++ u ++ [x]) ++ t) with ((done ++ u) ++ x :: t) by (napp; auto).
        apply StronglySorted_app_iff. split; [|split].
        * apply StronglySorted_app_iff. apply StronglySorted_app_iff in L1.
          split; [auto|]. split; [apply L1|]. intros a b Ha Hb. apply DL1; [auto|apply in_or_app; auto].
        * auto.
        * intros a b Ha Hb. apply in_app_or in Ha. destruct Ha as [Ha|Ha]; [apply DL2; auto|].
          destruct Hb as [<-|Hb]; [apply sw_asym; auto|].
          assert (lt b x = false) by (eapply asc_head; eauto).
          apply sw_asym; auto. eapply sw_lt_le_trans; eauto.
      + exists r. split; [|split; [|auto]].
        * rewrite <- E. f_equal. napp. auto.
        * rewrite Hp. napp. apply Permutation_app_head. apply Permutation_app_head. cbn [app].
          apply Permutation_middle.
  Qed.

  Lemma inplace_merge_spec pre l1 l2 post :
    Ascending lt l1 -> Ascending lt l2 ->
    exists r,
      inplace_merge lt (pre ++ l1 ++ l2 ++ post) (length pre) (length pre + length l1)
                    (length pre + length l1 + length l2) = Ok (pre ++ r ++ post) /\
      Permutation r (l1 ++ l2) /\ Ascending lt r.
  Proof.
    intros H1 H2. unfold inplace_merge.
    apply (inplace_merge_loop_spec _ pre [] l1 l2 post); simpl; auto; lia.
  Qed.
End Sort.

Section Part.
  Context {A : Type} (pred : A -> bool).

  Lemma stable_partition_spec' fuel pre l post :
    length l < fuel ->
    stable_partition_f fuel pred (pre ++ l ++ post) (length pre) (length pre + length l)
    = Ok (pre ++ (filter pred l ++ filter (fun x => negb (pred x)) l) ++ post,
          length pre + length (filter pred l)).
  Proof.
    revert pre l post. induction fuel as [|fuel IH]; intros pre l post Hf; [lia|].
    cbn [stable_partition_f].
    destruct (Nat.eqb_spec (length pre) (length pre + length l)) as [E|E].
    { destruct l; simpl in E; [|lia]. simpl. now rewrite Nat.add_0_r. }
    replace (length pre + length l - length pre) with (length l) by lia.
    destruct (Nat.eqb_spec (length pre) (length pre + length l / 2)) as [E2|E2].
    - assert (Hl : length l = 1).
      { destruct l as [|a [|b t]]; [simpl in E; lia|auto|].
        exfalso. assert (1 <= length (a :: b :: t) / 2).
        { change 1 with (2 / 2) at 1. apply Nat.div_le_mono; simpl; lia. }
        lia. }
      destruct l as [|x [|? ?]]; simpl in Hl; try lia.
      cbn [app]. rewrite rd_app. cbn [bind filter length].
      destruct (pred x); simpl; repeat f_equal; lia.
    - assert (Hdiv : length l / 2 < length l).
      { apply Nat.div_lt; [destruct l; simpl in *; lia|lia]. }
      set (h := length l / 2) in *.
      rewrite <- (firstn_skipn h l).
      set (u := firstn h l). set (w := skipn h l).
      assert (Hu : length u = h) by (unfold u; rewrite firstn_length; lia).
      assert (Hw : length u + length w = length l).
      { unfold u, w. rewrite firstn_length, skipn_length. lia. }
      rewrite <- Hu at 1.
      replace (pre ++ (u ++ w) ++ post) with (pre ++ u ++ (w ++ post)) by (napp; auto).
      rewrite IH by lia. cbn [bind].
      set (ut := filter pred u). set (uf := filter (fun x => negb (pred x)) u).
      assert (Hlu : length ut + length uf = length u).
      { unfold ut, uf. clear. induction u as [|x t IH]; simpl; [auto|].
        destruct (pred x); simpl; lia. }
      replace (pre ++ (ut ++ uf) ++ w ++ post) with ((pre ++ ut ++ uf) ++ w ++ post) by (napp; auto).
      replace (length pre + h) with (length (pre ++ ut ++ uf)) by len.
      replace (length pre + length (u ++ w)) with (length (pre ++ ut ++ uf) + length w) by len.
      rewrite IH by lia. cbn [bind].
      set (wt := filter pred w). set (wf := filter (fun x => negb (pred x)) w).
      replace ((pre ++ ut ++ uf) ++ (wt ++ wf) ++ post)
        with ((pre ++ ut) ++ uf ++ wt ++ (wf ++ post)) by (napp; auto).
      destruct (rotate_spec' (pre ++ ut) uf wt (wf ++ post) (length pre + length ut)
                  (length (pre ++ ut ++ uf)) (length (pre ++ ut ++ uf) + length wt)) as (it & ->);
        try (len; fail).
      cbn [bind]. f_equal. f_equal.
      + rewrite !filter_app. fold ut uf wt wf. napp. auto.
      + rewrite !filter_app. fold ut wt. len.
  Qed.
  Lemma stable_partition_spec pre l post :
    stable_partition pred (pre ++ l ++ post) (length pre) (length pre + length l)
    = Ok (pre ++ (filter pred l ++ filter (fun x => negb (pred x)) l) ++ post,
          length pre + length (filter pred l)).
  Proof. apply stable_partition_spec'. lia. Qed.
End Part.

Section Misc.
  Context {A : Type}.

  Lemma swap_perm (m post : list A) x y : Permutation (x :: m ++ y :: post) (y :: m ++ x :: post).
  Proof.
    rewrite <- !Permutation_middle. apply perm_swap.
  Qed.

  Lemma random_shuffle_loop_spec n rnd k pre (l post : list A) first last :
    n = length l -> first = length pre -> last = length pre + length l ->
    exists r, random_shuffle_loop n rnd k (pre ++ l ++ post) first last = Ok (pre ++ r ++ post) /\
              Permutation r l.
  Proof.
    revert k pre l first last. induction n as [|n IH]; intros k pre l f la Hn -> ->;
      cbn [random_shuffle_loop].
    - destruct l; [|discriminate]. exists []. auto.
    - destruct l as [|x t]; [discriminate|].
      replace (length pre + length (x :: t) - length pre) with (length (x :: t)) by lia.
      assert (Hj : rnd k mod length (x :: t) < length (x :: t))
        by (apply Nat.mod_upper_bound; simpl; lia).
      set (j := rnd k mod length (x :: t)) in *.
      destruct j as [|j].
      + rewrite Nat.add_0_r. cbn [app]. rewrite iter_swap_same by auto. cbn [bind].
        replace (pre ++ x :: t ++ post) with ((pre ++ [x]) ++ t ++ post) by (napp; auto).
        destruct (IH (S k) (pre ++ [x]) t (length pre + 1) (length pre + length (x :: t)))
          as (r & -> & Hp); try (len; simpl in *; lia).
        exists (x :: r). split; [f_equal; napp; auto|]. now constructor.
      + simpl in Hj. destruct (nth_error t j) as [y|] eqn:Ey;
          [|apply nth_error_None in Ey; lia].
        apply nth_error_split in Ey. destruct Ey as (m & t2 & -> & Hm). subst j.
        replace (pre ++ (x :: m ++ y :: t2) ++ post) with (pre ++ x :: m ++ y :: t2 ++ post)
          by (napp; auto).
        rewrite iter_swap_far by (auto; lia). cbn [bind].
        replace (pre ++ y :: m ++ x :: t2 ++ post) with ((pre ++ [y]) ++ (m ++ x :: t2) ++ post)
          by (napp; auto).
        destruct (IH (S k) (pre ++ [y]) (m ++ x :: t2) (length pre + 1)
                    (length pre + length (x :: m ++ y :: t2)))
          as (r & -> & Hp); try (len; fail).
        { simpl in Hn. rewrite app_length in *. simpl in *. lia. }
        exists (y :: r). split; [f_equal; napp; auto|].
        rewrite Hp. apply swap_perm.
  Qed.
  Lemma random_shuffle_spec rnd pre (l post : list A) :
    exists r, random_shuffle rnd (pre ++ l ++ post) (length pre) (length pre + length l)
              = Ok (pre ++ r ++ post) /\ Permutation r l.
  Proof. apply random_shuffle_loop_spec; auto; lia. Qed.

  Lemma swap_ranges_loop_spec n pre u m v (post : list A) first result :
    n = length u -> n = length v -> first = length pre -> 
    result = length pre + length u + length m ->
    swap_ranges_loop n (pre ++ u ++ m ++ v ++ post) first result
    = Ok (pre ++ v ++ m ++ u ++ post).
  Proof.
    revert pre u m v post first result.
    induction n as [|n IH]; intros pre u m v post f r Hu Hv -> ->; cbn [swap_ranges_loop].
    - destruct u, v; try discriminate. auto.
    - destruct u as [|x u], v as [|y v]; try discriminate.
      replace (pre ++ (x :: u) ++ m ++ (y :: v) ++ post)
        with (pre ++ x :: (u ++ m) ++ y :: v ++ post) by (napp; auto).
      rewrite iter_swap_far by (auto; len). cbn [bind].
      replace (pre ++ y :: (u ++ m) ++ x :: v ++ post)
        with ((pre ++ [y]) ++ u ++ (m ++ [x]) ++ v ++ post) by (napp; auto).
      simpl in *. rewrite IH; try (len; simpl in *; lia). f_equal. napp. auto.
  Qed.
  Lemma swap_ranges_spec pre u m v (post : list A) :
    length u = length v ->
    swap_ranges (pre ++ u ++ m ++ v ++ post) (length pre) (length pre + length u)
                (length pre + length u + length m)
    = Ok (pre ++ v ++ m ++ u ++ post).
  Proof. intros H. apply swap_ranges_loop_spec; auto; lia. Qed.
End Misc.
