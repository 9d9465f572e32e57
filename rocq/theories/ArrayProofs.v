From Verif Require Import Base Order RangeSpec RangeModel RangeProofs ArrayModel.

Ltac napp := repeat (rewrite <- app_assoc || cbn [app]).
Ltac len := repeat (rewrite app_length || rewrite rev_length || rewrite map_length ||
                    cbn [length]); try lia.

Section Arr.
  Context {A : Type}.
  Implicit Types (l pre post a : list A).

  Lemma iter_swap_far pre m post x y i j :
    i = length pre -> j = length pre + 1 + length m ->
    iter_swap (pre ++ x :: m ++ y :: post) i j = Ok (pre ++ y :: m ++ x :: post).
  Proof.
    intros -> ->. unfold iter_swap. rewrite rd_app. cbn [bind].
    replace (pre ++ x :: m ++ y :: post) with ((pre ++ x :: m) ++ y :: post) at 1 by (napp; auto).
    rewrite rd_app' by len. cbn [bind]. rewrite wr_app. cbn [bind].
    replace (pre ++ y :: m ++ y :: post) with ((pre ++ y :: m) ++ y :: post) by (napp; auto).
    rewrite wr_app' by len. now napp.
  Qed.
  Lemma iter_swap_same pre post x i :
    i = length pre -> iter_swap (pre ++ x :: post) i i = Ok (pre ++ x :: post).
  Proof.
    intros ->. unfold iter_swap. rewrite rd_app. simpl. rewrite wr_app. simpl. now rewrite wr_app.
  Qed.

  Lemma snoc_case l : l = [] \/ exists u x, l = u ++ [x].
  Proof.
    destruct l as [|x t] using rev_ind; [auto|]. right. eauto.
  Qed.

  Lemma reverse_loop_spec fuel pre l post first last :
    length l <= fuel -> first = length pre -> last = length pre + length l ->
    reverse_loop fuel (pre ++ l ++ post) first last = Ok (pre ++ rev l ++ post).
  Proof.
    revert pre l post first last. induction fuel as [|fuel IH]; intros pre l post f la Hf -> ->.
    - destruct l; simpl in Hf; [|lia]. simpl.
      destruct (Nat.ltb_spec (length pre + 1) (length pre + 0)); [lia|auto].
    - simpl. destruct l as [|x t].
      + destruct (Nat.ltb_spec (length pre + 1) (length pre + length (@nil A))); [simpl in *; lia|auto].
      + destruct (snoc_case t) as [->|(m & y & ->)].
        * destruct (Nat.ltb_spec (length pre + 1) (length pre + length [x])); [simpl in *; lia|auto].
        * destruct (Nat.ltb_spec (length pre + 1) (length pre + length (x :: m ++ [y])));
            [|simpl in *; rewrite app_length in *; simpl in *; lia].
          replace (pre ++ (x :: m ++ [y]) ++ post) with (pre ++ x :: m ++ y :: post) by (napp; auto).
          rewrite iter_swap_far; [|auto|len]. cbn [bind].
          replace (pre ++ y :: m ++ x :: post) with ((pre ++ [y]) ++ m ++ (x :: post)) by (napp; auto).
          rewrite (IH (pre ++ [y]) m (x :: post)).
          -- f_equal. simpl. rewrite rev_app_distr. napp. auto.
          -- simpl in Hf. rewrite app_length in Hf. simpl in Hf. lia.
          -- len.
          -- len.
  Qed.
  Lemma reverse_spec pre l post :
    reverse (pre ++ l ++ post) (length pre) (length pre + length l) = Ok (pre ++ rev l ++ post).
  Proof. unfold reverse. apply reverse_loop_spec; auto. lia. Qed.
  Lemma reverse_spec' pre l post first last :
    first = length pre -> last = length pre + length l ->
    reverse (pre ++ l ++ post) first last = Ok (pre ++ rev l ++ post).
  Proof. intros -> ->. apply reverse_spec. Qed.

  (** The swapping loop of [rotate] on [u] reversed then [v] reversed. *)
  Lemma rotate_swap_loop_spec fuel pre u v post first middle last :
    length u + length v <= fuel ->
    first = length pre -> middle = length pre + length u -> last = middle + length v ->
    exists pre' u' v' post' f' e',
      rotate_swap_loop fuel (pre ++ u ++ v ++ post) first middle last
      = Ok (pre' ++ (u' ++ v') ++ post', f', e') /\
      f' = length pre' /\ e' = length pre' + length u' + length v' /\
      (u' = [] \/ v' = []) /\ middle = length pre' + length u' /\
      pre' ++ rev (u' ++ v') ++ post' = pre ++ rev v ++ rev u ++ post /\
      f' = first + Nat.min (length u) (length v).
  Proof.
    revert pre u v post first middle last.
    induction fuel as [|fuel IH]; intros pre u v post f m la Hf -> -> ->; cbn [rotate_swap_loop].
    - destruct u, v; simpl in Hf; try lia.
      destruct (Nat.eqb_spec (length pre) (length pre + length (@nil A))); simpl; [|simpl in *; lia].
      exists pre, [], [], post, (length pre), (length pre + 0 + 0). simpl.
      repeat split; auto; try lia; repeat f_equal; lia.
    - destruct (Nat.eqb_spec (length pre) (length pre + length u)) as [E1|E1]; cbn [negb andb orb].
      { destruct u; simpl in E1; [|lia].
        exists pre, [], v, post, (length pre), (length pre + 0 + length v). simpl.
        repeat split; auto; try lia; repeat f_equal; lia. }
      destruct (Nat.eqb_spec (length pre + length u) (length pre + length u + length v)) as [E2|E2]; cbn [negb andb orb].
      { destruct v; simpl in E2; [|lia].
        exists pre, u, [], post, (length pre), (length pre + length u + 0). simpl.
        rewrite ?app_nil_r. repeat split; auto; try lia; repeat f_equal; lia. }
      destruct u as [|x u]; [simpl in E1; lia|].
      destruct (snoc_case v) as [->|(w & y & ->)]; [simpl in E2; lia|].
      replace (pre ++ (x :: u) ++ (w ++ [y]) ++ post) with (pre ++ x :: (u ++ w) ++ y :: post)
        by (napp; auto).
      rewrite iter_swap_far; [|auto|len]. cbn [bind].
      replace (pre ++ y :: (u ++ w) ++ x :: post) with ((pre ++ [y]) ++ u ++ w ++ (x :: post))
        by (napp; auto).
      destruct (IH (pre ++ [y]) u w (x :: post) (length pre + 1) (length pre + length (x :: u))
                  (length pre + length (x :: u) + length (w ++ [y]) - 1))
        as (pre' & u' & v' & post' & f' & e' & E & Hf' & He' & Hor & Hm & Hc & Hff).
      + simpl in Hf. rewrite app_length in Hf. simpl in Hf. lia.
      + len.
      + len.
      + len.
      + exists pre', u', v', post', f', e'. rewrite E.
        split; [auto|]. split; [auto|]. split; [auto|]. split; [auto|]. split; [auto|].
        split; [|rewrite Hff, app_length; cbn [length]; lia].
        rewrite Hc. rewrite rev_app_distr. napp. simpl. napp. auto.
  Qed.

  Lemma rotate_spec pre u v post :
    exists it,
      rotate (pre ++ u ++ v ++ post) (length pre) (length pre + length u)
             (length pre + length u + length v)
      = Ok (pre ++ v ++ u ++ post, it).
  Proof.
    unfold rotate.
    destruct (Nat.eqb_spec (length pre) (length pre + length u)) as [E1|E1]; cbn [negb andb orb].
    { destruct u; simpl in E1; [|lia]. eauto. }
    destruct (Nat.eqb_spec (length pre + length u) (length pre + length u + length v)) as [E2|E2].
    { destruct v; simpl in E2; [|lia]. eauto. }
    rewrite (reverse_spec pre u (v ++ post)). cbn [bind].
    replace (pre ++ rev u ++ v ++ post) with ((pre ++ rev u) ++ v ++ post) by (napp; auto).
    rewrite reverse_spec' by len. cbn [bind].
    replace ((pre ++ rev u) ++ rev v ++ post) with (pre ++ rev u ++ rev v ++ post) by (napp; auto).
    destruct (rotate_swap_loop_spec (length pre + length u + length v - length pre)
                pre (rev u) (rev v) post (length pre) (length pre + length u)
                (length pre + length u + length v))
      as (pre' & u' & v' & post' & f' & e' & -> & -> & -> & Hor & Hm & Hc & _);
      try (len; fail).
    cbn [bind].
    replace (if Nat.eqb (length pre') (length pre + length u)
             then length pre' + length u' + length v'
             else length pre + length u) with (length pre' + length (u' ++ v')).
    - rewrite reverse_spec. cbn [bind]. rewrite Hc, !rev_involutive. eauto.
    - rewrite app_length.
      destruct (Nat.eqb_spec (length pre') (length pre + length u)); [lia|].
      destruct Hor as [->| ->]; simpl in *; lia.
  Qed.
  Lemma rotate_spec' pre u v post f m la :
    f = length pre -> m = length pre + length u -> la = length pre + length u + length v ->
    exists it, rotate (pre ++ u ++ v ++ post) f m la = Ok (pre ++ v ++ u ++ post, it).
  Proof. intros -> -> ->. apply rotate_spec. Qed.

  (** ** remove_if *)
  Lemma remove_if_loop_spec fuel drop pre kept junk l post first last result :
    length l <= fuel ->
    first = length pre + length kept + length junk -> last = first + length l ->
    result = length pre + length kept ->
    exists junk',
      remove_if_loop fuel drop (pre ++ kept ++ junk ++ l ++ post) first last result
      = Ok (pre ++ (kept ++ filter (fun x => negb (drop x)) l) ++ junk' ++ post,
            length pre + length kept + length (filter (fun x => negb (drop x)) l)) /\
      length junk' + length (filter (fun x => negb (drop x)) l) = length junk + length l.
  Proof.
    revert kept junk l first last result.
    induction fuel as [|fuel IH]; intros kept junk l f la r Hf -> -> ->.
    - destruct l; simpl in Hf; [|lia]. simpl.
      rewrite Nat.add_0_r, Nat.eqb_refl. exists junk. rewrite app_nil_r. split; [|lia].
      napp. now rewrite Nat.add_0_r.
    - cbn [remove_if_loop]. destruct l as [|x t].
      + simpl. rewrite Nat.add_0_r, Nat.eqb_refl. exists junk. rewrite app_nil_r. split; [|lia].
        napp. now rewrite Nat.add_0_r.
      + destruct (Nat.eqb_spec (length pre + length kept + length junk)
                   (length pre + length kept + length junk + length (x :: t))) as [E|_];
          [simpl in E; lia|].
        replace (pre ++ kept ++ junk ++ (x :: t) ++ post)
          with ((pre ++ kept ++ junk) ++ x :: t ++ post) by (napp; auto).
        rewrite rd_app' by len. cbn [bind filter].
        destruct (drop x) eqn:E; simpl negb; cbv iota.
        * replace ((pre ++ kept ++ junk) ++ x :: t ++ post)
            with (pre ++ kept ++ (junk ++ [x]) ++ t ++ post) by (napp; auto).
          destruct (IH kept (junk ++ [x]) t
                      (length pre + length kept + length junk + 1)
                      (length pre + length kept + length junk + length (x :: t))
                      (length pre + length kept)) as (junk' & -> & Hl);
            try (len; simpl in *; lia).
          exists junk'. split; [auto|]. rewrite Hl. len.
        * destruct junk as [|j junk].
          -- replace ((pre ++ kept ++ []) ++ x :: t ++ post)
               with ((pre ++ kept) ++ x :: t ++ post) by (napp; auto).
             rewrite wr_app' by len. cbn [bind].
             replace ((pre ++ kept) ++ x :: t ++ post)
               with (pre ++ (kept ++ [x]) ++ [] ++ t ++ post) by (napp; auto).
             destruct (IH (kept ++ [x]) [] t
                         (length pre + length kept + length (@nil A) + 1)
                         (length pre + length kept + length (@nil A) + length (x :: t))
                         (length pre + length kept + 1)) as (junk' & -> & Hl);
               try (len; simpl in *; lia).
             exists junk'. split.
             ++ f_equal. f_equal; [napp; auto|]. len.
             ++ simpl in *. lia.
          -- replace ((pre ++ kept ++ j :: junk) ++ x :: t ++ post)
               with ((pre ++ kept) ++ j :: junk ++ x :: t ++ post) by (napp; auto).
             rewrite wr_app' by len. cbn [bind].
             replace ((pre ++ kept) ++ x :: junk ++ x :: t ++ post)
               with (pre ++ (kept ++ [x]) ++ (junk ++ [x]) ++ t ++ post) by (napp; auto).
             destruct (IH (kept ++ [x]) (junk ++ [x]) t
                         (length pre + length kept + length (j :: junk) + 1)
                         (length pre + length kept + length (j :: junk) + length (x :: t))
                         (length pre + length kept + 1)) as (junk' & -> & Hl);
               try (len; simpl in *; lia).
             exists junk'. split.
             ++ f_equal. f_equal; [napp; auto|]. len.
             ++ rewrite app_length in Hl. simpl in *. lia.
  Qed.
  Lemma remove_if_spec drop pre l post :
    exists junk,
      remove_if drop (pre ++ l ++ post) (length pre) (length pre + length l)
      = Ok (pre ++ filter (fun x => negb (drop x)) l ++ junk ++ post,
            length pre + length (filter (fun x => negb (drop x)) l)) /\
      length junk + length (filter (fun x => negb (drop x)) l) = length l.
  Proof.
    unfold remove_if.
    destruct (remove_if_loop_spec (length pre + length l - length pre) drop pre [] [] l post
                (length pre) (length pre + length l) (length pre)) as (junk & E & Hl);
      try (simpl; lia).
    simpl in E, Hl. rewrite Nat.add_0_r in E. exists junk. auto.
  Qed.

  (** ** unique *)
  Lemma unique_loop_spec fuel p pre kept cur pr junk l post first last result :
    (forall x y z, p y x = true -> p z y = p z x) ->
    (forall z, p z pr = p z cur) ->
    length l <= fuel ->
    first + 1 = length pre + length kept + 1 + length junk -> last = first + 1 + length l ->
    result = length pre + length kept ->
    let r := map snd (filter (fun xy => negb (p (snd xy) (fst xy))) (combine (pr :: l) l)) in
    exists junk',
      unique_loop fuel p (pre ++ kept ++ cur :: junk ++ l ++ post) first last result
      = Ok (pre ++ (kept ++ cur :: r) ++ junk' ++ post,
            length pre + length kept + 1 + length r) /\
      length junk' + length r = length junk + length l.
  Proof.
    intros Hp. revert kept cur pr junk l first last result.
    induction fuel as [|fuel IH]; intros kept cur pr junk l f la r Hpr Hf Hfi -> ->.
    - destruct l; simpl in Hf; [|lia]. simpl.
      rewrite Nat.add_0_r, Nat.eqb_refl. exists junk. split; [|lia].
      napp. now rewrite Nat.add_0_r.
    - cbn [unique_loop]. destruct l as [|x t].
      + simpl. rewrite Nat.add_0_r, Nat.eqb_refl. exists junk. split; [|lia].
        napp. now rewrite Nat.add_0_r.
      + destruct (Nat.eqb_spec (f + 1) (f + 1 + length (x :: t))) as [E|_]; [simpl in E; lia|].
        replace (pre ++ kept ++ cur :: junk ++ (x :: t) ++ post)
          with ((pre ++ kept ++ cur :: junk) ++ x :: t ++ post) by (napp; auto).
        rewrite rd_app' by len. cbn [bind].
        replace ((pre ++ kept ++ cur :: junk) ++ x :: t ++ post)
          with ((pre ++ kept) ++ cur :: junk ++ x :: t ++ post) by (napp; auto).
        rewrite rd_app' by len. cbn [bind combine filter map snd fst].
        rewrite Hpr. destruct (p x cur) eqn:E; cbn [negb].
        * replace ((pre ++ kept) ++ cur :: junk ++ x :: t ++ post)
            with (pre ++ kept ++ cur :: (junk ++ [x]) ++ t ++ post) by (napp; auto).
          destruct (IH kept cur x (junk ++ [x]) t (f + 1) (f + 1 + length (x :: t))
                      (length pre + length kept)) as (junk' & -> & Hl);
            try (len; simpl in *; lia).
          { intros z. now apply Hp. }
          exists junk'. split; [auto|]. rewrite app_length in Hl. cbn [combine length] in *. lia.
        * destruct junk as [|j junk].
          -- replace ((pre ++ kept) ++ cur :: [] ++ x :: t ++ post)
               with ((pre ++ kept ++ [cur]) ++ x :: t ++ post) by (napp; auto).
             rewrite wr_app' by len. cbn [bind].
             replace ((pre ++ kept ++ [cur]) ++ x :: t ++ post)
               with (pre ++ (kept ++ [cur]) ++ x :: [] ++ t ++ post) by (napp; auto).
             destruct (IH (kept ++ [cur]) x x [] t (f + 1) (f + 1 + length (x :: t))
                         (length pre + length kept + 1)) as (junk' & -> & Hl);
               try (len; simpl in *; lia); auto.
             exists junk'. split.
             ++ f_equal. f_equal; [napp; auto|]. rewrite app_length. cbn [combine map length]. lia.
             ++ cbn [combine map length] in *. lia.
          -- replace ((pre ++ kept) ++ cur :: (j :: junk) ++ x :: t ++ post)
               with ((pre ++ kept ++ [cur]) ++ j :: junk ++ x :: t ++ post) by (napp; auto).
             rewrite wr_app' by len. cbn [bind].
             replace ((pre ++ kept ++ [cur]) ++ x :: junk ++ x :: t ++ post)
               with (pre ++ (kept ++ [cur]) ++ x :: (junk ++ [x]) ++ t ++ post) by (napp; auto).
             destruct (IH (kept ++ [cur]) x x (junk ++ [x]) t (f + 1) (f + 1 + length (x :: t))
                         (length pre + length kept + 1)) as (junk' & -> & Hl);
               try (len; simpl in *; lia); auto.
             exists junk'. split.
             ++ f_equal. f_equal; [napp; auto|]. rewrite app_length. cbn [combine map length]. lia.
             ++ rewrite app_length in Hl. cbn [combine map length] in *. lia.
  Qed.
  Lemma unique_spec p pre l post :
    (forall x y z, p y x = true -> p z y = p z x) ->
    exists junk,
      unique p (pre ++ l ++ post) (length pre) (length pre + length l)
      = Ok (pre ++ run_heads p l ++ junk ++ post, length pre + length (run_heads p l)) /\
      length junk + length (run_heads p l) = length l.
  Proof.
    intros Hp. unfold unique. destruct l as [|x t].
    - simpl. rewrite Nat.add_0_r, Nat.eqb_refl. exists []. auto.
    - destruct (Nat.eqb_spec (length pre) (length pre + length (x :: t))) as [E|_]; [simpl in E; lia|].
      cbn [app]. rewrite rd_app. cbn [bind].
      cbn [app]. rewrite wr_app. cbn [bind].
      destruct (unique_loop_spec (length pre + length (x :: t) - length pre) p pre [] x x [] t post
                  (length pre) (length pre + length (x :: t)) (length pre))
        as (junk & E & Hl); try (simpl; lia); auto.
      cbn [app] in E.
      change (pre ++ x :: t ++ post) with (pre ++ x :: (t ++ post)).
      rewrite E. exists junk. split.
      + f_equal. f_equal. unfold run_heads. cbn [length]. lia.
      + unfold run_heads. cbn [length] in *. simpl in Hl. simpl. lia.
  Qed.
End Arr.
