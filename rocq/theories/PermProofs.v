From Verif Require Import PermSpec Base Order RangeSpec RangeModel RangeProofs ArrayModel ArrayProofs
     SetAlgoProofs SortProofs.

(** ** Lexicographic extremes *)
Section Lex.
  Context {A : Type} (lt : A -> A -> bool) (W : StrictWeak lt).
  Notation lex := (lexicographical_compare lt).

  Definition MEq (l m : list A) : Prop := forall v, mult lt v l = mult lt v m.

  Lemma MEq_perm l m : Permutation l m -> MEq l m.
  Proof. intros H v. apply countp_perm. auto. Qed.
  Lemma MEq_cons x y l m : equiv lt x y = true -> MEq (x :: l) (y :: m) -> MEq l m.
  Proof.
    intros E H v. specialize (H v). rewrite !mult_cons in H.
    apply equiv_true in E. rewrite (equiv_eq lt W v x y) in H by tauto.
    destruct (equiv lt v y); lia.
  Qed.
  Lemma MEq_in l m y : MEq l m -> In y m -> exists x, In x l /\ equiv lt y x = true.
  Proof.
    intros H Hy. assert (0 < mult lt y m).
    { apply countp_pos. exists y. split; [auto|]. apply equiv_refl; auto. }
    rewrite <- H in H0. apply countp_pos in H0. auto.
  Qed.
  Lemma MEq_sym l m : MEq l m -> MEq m l.
  Proof. intros H v. symmetry. auto. Qed.

  Lemma desc_max d r : Descending lt d -> MEq d r -> lex d r = false.
  Proof.
    intros Hd. revert r. induction Hd as [|x d Hs IH Hf]; intros r Hm.
    - destruct r as [|y r]; [auto|]. specialize (Hm y). rewrite mult_cons in Hm.
      rewrite (equiv_refl lt W) in Hm. change (mult lt y []) with 0 in Hm. lia.
    - destruct r as [|y r]; simpl; [auto|].
      destruct (MEq_in _ _ y Hm (or_introl eq_refl)) as (z & Hz & Ez).
      assert (Hxz : lt x z = false).
      { destruct Hz as [<-|Hz]; [now apply sw_irrefl|]. rewrite Forall_forall in Hf. auto. }
      apply equiv_true in Ez. destruct Ez as [E1 E2].
      assert (Hxy : lt x y = false).
      { destruct (lt x y) eqn:E; [|auto].
        assert (lt x z = true) by (eapply sw_lt_le_trans; eauto). congruence. }
      rewrite Hxy. destruct (lt y x) eqn:Eyx; [auto|].
      apply IH. eapply MEq_cons; [|exact Hm]. apply equiv_true. auto.
  Qed.
  Lemma asc_min d r : Ascending lt d -> MEq d r -> lex r d = false.
  Proof.
    intros Hd. revert r. induction Hd as [|x d Hs IH Hf]; intros r Hm.
    - destruct r; auto.
    - destruct r as [|y r]; simpl.
      + specialize (Hm x). rewrite mult_cons in Hm.
        rewrite (equiv_refl lt W) in Hm. change (mult lt x []) with 0 in Hm. lia.
      + destruct (MEq_in _ _ y Hm (or_introl eq_refl)) as (z & Hz & Ez).
        assert (Hzx : lt z x = false).
        { destruct Hz as [<-|Hz]; [now apply sw_irrefl|]. rewrite Forall_forall in Hf. auto. }
        apply equiv_true in Ez. destruct Ez as [E1 E2].
        assert (Hyx : lt y x = false) by (eapply sw_le_trans; eauto).
        rewrite Hyx. destruct (lt x y) eqn:Exy; [auto|].
        apply IH. eapply MEq_cons; [|exact Hm]. apply equiv_true. auto.
  Qed.

  Lemma lex_app_same p l m : lex (p ++ l) (p ++ m) = lex l m.
  Proof. induction p as [|x p IH]; simpl; [auto|]. now rewrite (sw_irrefl lt W). Qed.

  (** Nothing lies strictly between [p ++ x :: d] and [p ++ z :: asc]. *)
  Lemma between p x d z asc m :
    Descending lt d -> Ascending lt asc ->
    lt x z = true ->
    (forall w, In w d -> lt x w = true -> lt w z = false) ->
    MEq (x :: d) (z :: asc) ->
    MEq (p ++ x :: d) m ->
    lex (p ++ x :: d) m = true ->
    lex m (p ++ z :: asc) = false.
  Proof.
    intros Hd Ha Hxz Hz Hxd. revert m. induction p as [|q p IH]; intros m Hm Hlt.
    - simpl in *. destruct m as [|y r]; [discriminate|].
      simpl. destruct (lt x y) eqn:Exy.
      + destruct (MEq_in _ _ y Hm (or_introl eq_refl)) as (w & Hw & Ew).
        apply equiv_true in Ew. destruct Ew as [E1 E2].
        assert (Hxw : lt x w = true) by (eapply sw_lt_le_trans; eauto).
        destruct Hw as [<-|Hw]; [rewrite (sw_irrefl lt W) in Hxw; discriminate|].
        assert (Hwz : lt w z = false) by auto.
        assert (Hyz : lt y z = false) by (eapply sw_le_trans; eauto).
        rewrite Hyz. destruct (lt z y) eqn:Ezy; [auto|].
        apply asc_min; [auto|].
        assert (Hzr : MEq (z :: asc) (y :: r)).
        { intros v. rewrite <- Hxd. apply Hm. }
        eapply MEq_cons; [|exact Hzr]. apply equiv_true. auto.
      + simpl in Hlt. rewrite ?Exy in Hlt. destruct (lt y x) eqn:Eyx; [discriminate|].
        assert (Hdr : MEq d r) by (eapply MEq_cons; [|exact Hm]; apply equiv_true; auto).
        rewrite (desc_max d r Hd Hdr) in Hlt. discriminate.
    - destruct m as [|y r]; [simpl in Hlt; discriminate|]. simpl in *.
      destruct (lt q y) eqn:Eqy.
      + rewrite (sw_asym lt W _ _ Eqy). auto.
      + destruct (lt y q) eqn:Eyq; [discriminate|].
        apply IH; [|auto]. eapply MEq_cons; [|exact Hm]. apply equiv_true. auto.
  Qed.
End Lex.

Section NP.
  Context {A : Type} (lt : A -> A -> bool) (W : StrictWeak lt).
  Notation lex := (lexicographical_compare lt).

  Lemma np_find_j_spec fuel pre x d1 z d2 post i j :
    length d2 < fuel -> i = length pre -> j = length pre + 1 + length d1 + 1 + length d2 ->
    lt x z = true -> (forall w, In w d2 -> lt x w = false) ->
    np_find_j fuel lt (pre ++ x :: d1 ++ z :: d2 ++ post) i j = Ok (length pre + 1 + length d1).
  Proof.
    revert d2 post j. induction fuel as [|fuel IH]; intros d2 post j Hf -> -> Hz Hd2; [lia|].
    cbn [np_find_j]. rewrite rd_app. cbn [bind].
    destruct (snoc_case d2) as [->|(d & w & ->)].
    - simpl. rewrite Nat.add_0_r, Nat.add_1_r.
      replace (pre ++ x :: d1 ++ z :: post) with ((pre ++ x :: d1) ++ z :: post) by (napp; auto).
      rewrite rd_app' by len. cbn [bind]. now rewrite Hz.
    - replace (length pre + 1 + length d1 + 1 + length (d ++ [w]))
        with (S (length pre + 1 + length d1 + 1 + length d)) by len.
      replace (pre ++ x :: d1 ++ z :: (d ++ [w]) ++ post)
        with ((pre ++ x :: d1 ++ z :: d) ++ w :: post) by (napp; auto).
      rewrite rd_app' by len. cbn [bind].
      rewrite (Hd2 w) by (apply in_or_app; right; left; auto). cbn [negb].
      replace ((pre ++ x :: d1 ++ z :: d) ++ w :: post)
        with (pre ++ x :: d1 ++ z :: d ++ (w :: post)) by (napp; auto).
      apply IH; auto.
      + rewrite app_length in Hf. simpl in Hf. lia.
      + intros v Hv. apply Hd2. apply in_or_app; auto.
  Qed.

  (** In a descending list the elements above [x] form a prefix. *)
  Lemma desc_split x y d : Descending lt (y :: d) -> lt x y = true ->
    exists d1 z d2, y :: d = d1 ++ z :: d2 /\ lt x z = true /\
                    (forall w, In w d2 -> lt x w = false) /\
                    (forall w, In w d1 -> lt w z = false) /\
                    (forall w, In w d2 -> lt z w = false).
  Proof.
    revert y. induction d as [|w d IH]; intros y Hd Hxy.
    - exists [], y, []. repeat split; auto; intros w [].
    - destruct (lt x w) eqn:E.
      + inversion Hd as [|? ? Hd' Hf]; subst.
        destruct (IH w Hd' E) as (d1 & z & d2 & Eq & H1 & H2 & H3 & H4).
        exists (y :: d1), z, d2. rewrite Eq. repeat split; auto.
        intros v [<-|Hv]; [|auto]. rewrite Forall_forall in Hf. apply Hf.
        rewrite Eq. apply in_or_app. right. left. auto.
      + inversion Hd as [|? ? Hd' Hf]; subst. rewrite Forall_forall in Hf.
        exists [], y, (w :: d). repeat split; auto.
        * intros v Hv. destruct Hv as [<-|Hv]; [auto|].
          inversion Hd' as [|? ? _ Hf']; subst. rewrite Forall_forall in Hf'.
          assert (lt w v = false) by auto.
          destruct (lt x v) eqn:Ev; [|auto].
          assert (lt x w = true) by (eapply sw_lt_le_trans; eauto). congruence.
        * intros v [].
  Qed.

  Lemma desc_rev l : Descending lt l -> Ascending lt (rev l).
  Proof.
    induction 1 as [|x l Hs IH Hf]; simpl; [constructor|].
    apply StronglySorted_app_iff. split; [auto|]. split; [repeat constructor|].
    intros a b Ha [<-|[]]. apply in_rev in Ha. rewrite Forall_forall in Hf. auto.
  Qed.

  Definition np_post (l : list A) (r : list A) (b : bool) : Prop :=
    Permutation r l /\
    (b = true -> lex l r = true /\
                 forall m, Permutation m l -> lex l m = true -> lex m r = false) /\
    (b = false -> Ascending lt r /\ forall m, Permutation m l -> lex l m = false).

  Lemma np_loop_spec fuel pre p d post i last :
    d <> [] -> length p <= fuel -> Descending lt d ->
    i = length pre + length p -> last = length pre + length p + length d ->
    exists r b, np_loop fuel lt (pre ++ (p ++ d) ++ post) (length pre) last i
                = Ok (pre ++ r ++ post, b) /\ np_post (p ++ d) r b.
  Proof.
    revert p d i. induction fuel as [|fuel IH]; intros p d i Hne Hf Hd -> ->; cbn [np_loop].
    - destruct p; simpl in Hf; [|lia]. rewrite Nat.add_0_r, Nat.eqb_refl. cbn [app].
      rewrite reverse_spec. cbn [bind]. exists (rev d), false. split; [auto|].
      split; [symmetry; apply Permutation_rev|]. split; [discriminate|]. intros _.
      split; [now apply desc_rev|]. intros m Hm. apply desc_max; auto.
      apply MEq_perm. now symmetry.
    - destruct (snoc_case p) as [->|(p' & x & ->)].
      + rewrite Nat.add_0_r, Nat.eqb_refl. cbn [app].
        rewrite reverse_spec. cbn [bind]. exists (rev d), false. split; [auto|].
        split; [symmetry; apply Permutation_rev|]. split; [discriminate|]. intros _.
        split; [now apply desc_rev|]. intros m Hm. apply desc_max; auto.
        apply MEq_perm. now symmetry.
      + destruct (Nat.eqb_spec (length pre + length (p' ++ [x])) (length pre)) as [E|_];
          [rewrite app_length in E; simpl in E; lia|].
        replace (length pre + length (p' ++ [x]) - 1) with (length (pre ++ p')) by len.
        destruct d as [|y d]; [congruence|].
        replace (pre ++ ((p' ++ [x]) ++ y :: d) ++ post)
          with ((pre ++ p') ++ x :: y :: d ++ post) by (napp; auto).
        rewrite rd_app. cbn [bind].
        replace ((pre ++ p') ++ x :: y :: d ++ post)
          with (((pre ++ p') ++ [x]) ++ y :: d ++ post) by (napp; auto).
        rewrite rd_app' by len. cbn [bind].
        destruct (lt x y) eqn:E.
        * destruct (desc_split x y d Hd E) as (d1 & z & d2 & Eq & H1 & H2 & H3 & H4).
          replace (((pre ++ p') ++ [x]) ++ y :: d ++ post)
            with ((pre ++ p') ++ x :: d1 ++ z :: d2 ++ post).
          2:{ change (y :: d ++ post) with ((y :: d) ++ post). rewrite Eq. napp. auto. }
          rewrite np_find_j_spec; auto.
          2:{ apply (f_equal (@length A)) in Eq. rewrite app_length in Eq. cbn [length] in *. lia. }
          2:{ rewrite Eq. len. }
          cbn [bind]. rewrite iter_swap_far; [|auto|len]. cbn [bind].
          replace ((pre ++ p') ++ z :: d1 ++ x :: d2 ++ post)
            with ((pre ++ p' ++ [z]) ++ (d1 ++ x :: d2) ++ post) by (napp; auto).
          rewrite reverse_spec'; [|len|rewrite Eq; len]. cbn [bind].
          exists (p' ++ z :: rev (d1 ++ x :: d2)), true. split; [f_equal; f_equal; napp; auto|].
          assert (Hdx : Descending lt (d1 ++ x :: d2)).
          { unfold Descending in Hd. rewrite Eq in Hd.
            apply StronglySorted_app_iff in Hd. destruct Hd as (D1 & D2 & D3).
            inversion D2 as [|? ? D2' F2]; subst. rewrite Forall_forall in F2.
            apply StronglySorted_app_iff. split; [auto|]. split.
            - constructor; [auto|]. now rewrite Forall_forall.
            - intros a b Ha [<-|Hb]; [|apply D3; [auto|right; auto]].
              apply sw_asym; auto. eapply sw_lt_le_trans; eauto. }
          assert (Hperm : Permutation (z :: rev (d1 ++ x :: d2)) (x :: y :: d)).
          { rewrite <- Permutation_rev, Eq. symmetry. apply swap_perm. }
          split; [|split; [|discriminate]].
          -- napp. apply Permutation_app_head. cbn [app]. auto.
          -- intros _. split.
             ++ napp. rewrite (lex_app_same lt W). cbn [app]. simpl. now rewrite H1.
             ++ intros m Hm Hlt. apply (between lt W p' x (y :: d) z _ m); auto.
                ** now apply desc_rev.
                ** intros w Hw Hxw. rewrite Eq in Hw. apply in_app_or in Hw.
                   destruct Hw as [Hw|[<-|Hw]]; [auto|now apply sw_irrefl|].
                   rewrite (H2 w Hw) in Hxw. discriminate.
                ** apply MEq_perm. now symmetry.
                ** apply MEq_perm. revert Hm. napp. intros Hm. symmetry. auto.
                ** revert Hlt. napp. auto.
        * assert (Hd' : Descending lt (x :: y :: d)).
          { constructor; [auto|].
            inversion Hd as [|? ? _ F]; subst. rewrite Forall_forall in *.
            intros w [<-|Hw]; [auto|]. destruct (lt x w) eqn:Ew; [|auto].
            assert (lt x y = true) by (eapply sw_lt_le_trans; eauto). congruence. }
          assert (Hf' : length p' <= fuel) by (rewrite app_length in Hf; simpl in Hf; lia).
          assert (Hn' : x :: y :: d <> []) by discriminate.
          assert (Hi' : length (pre ++ p') = length pre + length p') by len.
          specialize (IH p' (x :: y :: d) (length (pre ++ p')) Hn' Hf' Hd' Hi').
          replace (length pre + length p' + length (x :: y :: d))
            with (length pre + length (p' ++ [x]) + length (y :: d)) in IH by len.
          destruct (IH eq_refl) as (r & b & Er & Hpost).
          exists r, b. split.
          -- rewrite <- Er. f_equal. napp. auto.
          -- revert Hpost. napp. auto.
  Qed.

  Lemma next_permutation_spec pre l post :
    exists r b, next_permutation lt (pre ++ l ++ post) (length pre) (length pre + length l)
                = Ok (pre ++ r ++ post, b) /\ np_post l r b.
  Proof.
    unfold next_permutation.
    replace (length pre + length l - length pre) with (length l) by lia.
    destruct (Nat.ltb_spec (length l) 2) as [H|H].
    - exists l, false. split; [auto|]. split; [auto|]. split; [discriminate|]. intros _.
      destruct l as [|x [|y t]]; [| |simpl in H; lia].
      + split; [constructor|]. intros m Hm. symmetry in Hm. apply Permutation_nil in Hm. now subst.
      + split; [repeat constructor|]. intros m Hm. symmetry in Hm.
        apply Permutation_length_1_inv in Hm. subst. simpl. now rewrite (sw_irrefl lt W).
    - destruct (snoc_case l) as [->|(p & x & ->)]; [simpl in H; lia|].
      apply np_loop_spec; auto.
      + discriminate.
      + len.
      + repeat constructor.
      + len.
      + len.
  Qed.
End NP.

Section PP.
  Context {A : Type} (lt : A -> A -> bool) (W : StrictWeak lt).
  Notation lex := (lexicographical_compare lt).
  Let gt := fun x y => lt y x.

  Lemma pp_find_j_flip fuel a i j : pp_find_j fuel lt a i j = np_find_j fuel gt a i j.
  Proof.
    revert j. induction fuel as [|fuel IH]; intros j; simpl; [auto|].
    destruct (rd a i); simpl; auto. destruct j; auto. destruct (rd a j); simpl; auto.
    unfold gt at 1. destruct (lt a1 a0); simpl; auto.
  Qed.
  Lemma pp_loop_flip fuel a first last i : pp_loop fuel lt a first last i = np_loop fuel gt a first last i.
  Proof.
    revert i. induction fuel as [|fuel IH]; intros i; simpl; [auto|].
    destruct (Nat.eqb i first); [auto|].
    destruct (rd a (i - 1)); simpl; auto. destruct (rd a (i - 1 + 1)); simpl; auto.
    unfold gt at 1. destruct (lt a1 a0); auto. now rewrite pp_find_j_flip.
  Qed.
  Lemma prev_next_flip a first last : prev_permutation lt a first last = next_permutation gt a first last.
  Proof.
    unfold prev_permutation, next_permutation. now rewrite pp_loop_flip.
  Qed.
  Lemma lex_flip l m : length l = length m -> lexicographical_compare gt l m = lex m l.
  Proof.
    revert m. induction l as [|x l IH]; intros [|y m] H; simpl in *; try discriminate; auto.
    unfold gt at 1 2. rewrite IH by lia. auto.
  Qed.

  Definition pp_post (l r : list A) (b : bool) : Prop :=
    Permutation r l /\
    (b = true -> lex r l = true /\
                 forall m, Permutation m l -> lex m l = true -> lex r m = false) /\
    (b = false -> Descending lt r /\ forall m, Permutation m l -> lex m l = false).

  Lemma prev_permutation_spec pre l post :
    exists r b, prev_permutation lt (pre ++ l ++ post) (length pre) (length pre + length l)
                = Ok (pre ++ r ++ post, b) /\ pp_post l r b.
  Proof.
    rewrite prev_next_flip.
    destruct (next_permutation_spec gt (flip_weak lt W) pre l post) as (r & b & E & Hp & Ht & Hf).
    exists r, b. split; [auto|]. split; [auto|].
    assert (Hlen : forall m, Permutation m l -> length m = length l)
      by (intros; now apply Permutation_length).
    split.
    - intros Hb. destruct (Ht Hb) as [H1 H2]. rewrite lex_flip in H1 by (symmetry; auto).
      split; [auto|]. intros m Hm Hlt. specialize (H2 m Hm).
      rewrite !lex_flip in H2 by (rewrite ?(Hlen m), ?(Hlen r); auto). auto.
    - intros Hb. destruct (Hf Hb) as [H1 H2]. split; [exact H1|].
      intros m Hm. specialize (H2 m Hm). rewrite lex_flip in H2 by (symmetry; auto). auto.
  Qed.
End PP.
