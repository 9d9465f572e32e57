(** * PartialSortProofs: partial_sort_copy (upredalgo.h). *)
From Verif Require Import Base Order ArrayModel ArrayProofs.

Section PSC.
  Context {A : Type} (lt : A -> A -> bool) (W : StrictWeak lt).
  Implicit Types pre post s u w l rest : list A.

  Lemma psc_pos_spec fuel pre s post x rend :
    length s <= fuel -> rend = length pre + length s ->
    exists u w, s = u ++ w /\ (forall y, In y u -> lt y x = true) /\
                (w = [] \/ exists y w', w = y :: w' /\ lt y x = false) /\
                psc_pos fuel lt (pre ++ s ++ post) (length pre) rend x = Ok (length pre + length u).
  Proof.
    revert pre s. induction fuel as [|fuel IH]; intros pre s Hf ->; cbn [psc_pos].
    - destruct s; [|simpl in Hf; lia]. exists [], []. rewrite Nat.add_0_r, Nat.eqb_refl.
      split; [auto|]. split; [intros y []|]. split; [auto|]. f_equal; simpl; lia.
    - destruct s as [|y s].
      + exists [], []. rewrite Nat.add_0_r, Nat.eqb_refl.
        split; [auto|]. split; [intros y []|]. split; [auto|]. f_equal; simpl; lia.
      + destruct (Nat.eqb_spec (length pre) (length pre + length (y :: s))); [simpl in *; lia|].
        cbn [app]. rewrite rd_app. cbn [bind]. destruct (lt y x) eqn:E.
        * destruct (IH (pre ++ [y]) s) as (u & w & -> & H1 & H2 & H3); [simpl in Hf; lia|len|].
          exists (y :: u), w. split; [auto|]. split; [intros z [<-|Hz]; auto|]. split; [auto|].
          revert H3. napp. rewrite app_length. cbn [length].
          intros ->. f_equal. lia.
        * exists [], (y :: s). split; [auto|]. split; [intros z []|]. split; [right; eauto|].
          f_equal. simpl; lia.
  Qed.

  Lemma copy_backward_spec n pre w g post la re :
    n = length w -> la = length pre + length w -> re = S la ->
    exists y, copy_backward_loop n (pre ++ w ++ g :: post) la re = Ok (pre ++ y :: w ++ post).
  Proof.
    revert w g post la re. induction n as [|n IH]; intros w g post la re Hn -> ->; cbn [copy_backward_loop].
    - destruct w; [|discriminate]. exists g. reflexivity.
    - destruct (snoc_case w) as [->|(w' & z & ->)]; [discriminate|].
      replace (length pre + length (w' ++ [z])) with (S (length pre + length w')) by len.
      replace (pre ++ (w' ++ [z]) ++ g :: post) with ((pre ++ w') ++ z :: g :: post) by (napp; auto).
      rewrite rd_app' by len. cbn [bind].
      replace ((pre ++ w') ++ z :: g :: post) with ((pre ++ w' ++ [z]) ++ g :: post) by (napp; auto).
      rewrite wr_app' by len. cbn [bind].
      destruct (IH w' z (z :: post) (length pre + length w') (S (length pre + length w'))) as (y & E);
        [rewrite app_length in Hn; simpl in Hn; lia|auto|auto|].
      exists y. replace ((pre ++ w' ++ [z]) ++ z :: post) with (pre ++ w' ++ z :: z :: post) by (napp; auto).
      rewrite E. f_equal. napp. auto.
  Qed.

  Lemma insert_asc u x w :
    Ascending lt (u ++ w) -> (forall y, In y u -> lt y x = true) ->
    (w = [] \/ exists y w', w = y :: w' /\ lt y x = false) ->
    Ascending lt (u ++ x :: w).
  Proof.
    intros Hs Hu Hw. apply StronglySorted_app_iff in Hs. destruct Hs as (S1 & S2 & S3).
    apply StronglySorted_app_iff. split; [auto|]. split.
    - constructor; [auto|]. rewrite Forall_forall. intros y Hy.
      destruct Hw as [->|(z & w' & -> & E)]; [destruct Hy|].
      destruct Hy as [<-|Hy]; [auto|]. inversion S2 as [|? ? _ F]; subst.
      rewrite Forall_forall in F. eapply sw_le_trans; [auto|exact E|]. auto.
    - intros a b Ha [<-|Hb]; [apply sw_asym; auto|auto].
  Qed.

  (** [s] is the best prefix of the elements seen so far ([seen]), at most [k]. *)
  Definition best (k : nat) (s seen : list A) : Prop :=
    exists rest, Permutation (s ++ rest) seen /\ (length s < k -> rest = []) /\
                 forall x y, In x s -> In y rest -> lt y x = false.

  Lemma psc_loop_spec l pre s gap post seen :
    Ascending lt s -> best (length s + length gap) s seen ->
    exists s' gap',
      partial_sort_copy_loop lt l (pre ++ s ++ gap ++ post) (length pre)
        (length pre + length s + length gap) (length pre + length s)
      = Ok (pre ++ s' ++ gap' ++ post, length pre + length s') /\
      length s' + length gap' = length s + length gap /\
      Ascending lt s' /\ best (length s' + length gap') s' (seen ++ l) /\
      (exists g, gap = g ++ gap').
  Proof.
    revert s gap seen. induction l as [|x l IH]; intros s gap seen Hs Hb; cbn [partial_sort_copy_loop].
    - exists s, gap. split; [auto|]. split; [auto|]. split; [auto|]. split; [now rewrite app_nil_r|].
      exists []; auto.
    - destruct (psc_pos_spec (length pre + length s - length pre) pre s (gap ++ post) x (length pre + length s))
        as (u & w & Es & Hu & Hw & E); [lia|auto|].
      rewrite E. cbn [bind].
      assert (Hins : Ascending lt (u ++ x :: w)) by (apply insert_asc; auto; now rewrite <- Es).
      destruct Hb as (rest & Hp & Hr & Hle).
      destruct gap as [|g gap].
      + cbn [length] in *. rewrite !Nat.add_0_r in *.
        destruct (Nat.eqb_spec (length pre + length u) (length pre + length s)) as [Eq|Ne].
        * assert (w = []) as ->.
          { apply (f_equal (@length A)) in Es. rewrite app_length in Es. destruct w; [auto|simpl in Es; lia]. }
          rewrite app_nil_r in Es. subst u.
          destruct (IH s [] (seen ++ [x])) as (s' & gap' & E' & L & A' & B & G); auto.
          { exists (x :: rest). split.
            - transitivity (x :: s ++ rest); [symmetry; apply Permutation_middle|].
              transitivity (x :: seen); [now constructor|apply Permutation_cons_append].
            - split; [rewrite Nat.add_0_r; lia|]. intros a b Ha [<-|Hb]; [|auto].
              apply sw_asym; auto. }
          exists s', gap'. cbn [length app] in *. rewrite !Nat.add_0_r in *.
          rewrite <- app_assoc in B. split; [exact E'|]. split; [auto|]. split; [auto|]. split; auto.
        * assert (w <> []) as Hwn by (intros ->; rewrite app_nil_r in Es; subst; lia).
          destruct (snoc_case w) as [->|(w' & z & ->)]; [congruence|].
          destruct (Nat.ltb_spec (length pre + length s) (length pre + length s)); [lia|].
          assert (Ls : length s = length u + length w' + 1) by (rewrite Es; len).
          replace (pre ++ s ++ [] ++ post) with ((pre ++ u) ++ w' ++ z :: post)
            by (rewrite Es; napp; auto).
          destruct (copy_backward_spec (length pre + length s - 1 - (length pre + length u))
                    (pre ++ u) w' z post (length pre + length s - 1) (length pre + length s)) as (y & Ec).
          { lia. } { len. } { lia. }
          rewrite Ec. cbn [bind]. rewrite wr_app' by len. cbn [bind].
          destruct (IH (u ++ x :: w') [] (seen ++ [x])) as (s' & gap' & E' & L & A' & B & G).
          { replace (u ++ x :: w' ++ [z]) with ((u ++ x :: w') ++ [z]) in Hins by (napp; auto).
            apply StronglySorted_app_iff in Hins. apply Hins. }
          { exists (z :: rest). split.
            - transitivity (x :: seen); [|apply Permutation_cons_append].
              transitivity (x :: s ++ rest); [|now constructor].
              rewrite Es. napp. symmetry. apply Permutation_middle.
            - split; [simpl; len|]. intros a b Ha Hb.
              replace (u ++ x :: w' ++ [z]) with ((u ++ x :: w') ++ [z]) in Hins by (napp; auto).
              apply StronglySorted_app_iff in Hins. destruct Hins as (_ & _ & HH).
              assert (Hza : lt z a = false) by (apply HH; simpl; auto).
              destruct Hb as [<-|Hb]; [auto|].
              eapply sw_le_trans; [auto|exact Hza|]. apply Hle; [|auto]. rewrite Es.
              apply in_or_app; right; apply in_or_app; right; simpl; auto. }
          assert (Lx : length (u ++ x :: w') = length s) by len.
          rewrite Lx in *. cbn [length app] in *. rewrite !Nat.add_0_r in *.
          replace ((pre ++ u) ++ x :: w' ++ post) with (pre ++ (u ++ x :: w') ++ post) by (napp; auto).
          exists s', gap'. rewrite <- app_assoc in B. split; [exact E'|]. split; [auto|]. split; [auto|]. split; auto.
      + cbn [length] in *.
        assert (Lus : length u <= length s) by (rewrite Es; len).
        destruct (Nat.eqb_spec (length pre + length u) (length pre + length s + S (length gap))); [lia|].
        destruct (Nat.ltb_spec (length pre + length s) (length pre + length s + S (length gap))); [|lia].
        assert (rest = []) as -> by (apply Hr; lia). rewrite app_nil_r in Hp.
        assert (Ls : length s = length u + length w) by (rewrite Es; len).
        replace (pre ++ s ++ (g :: gap) ++ post) with ((pre ++ u) ++ w ++ g :: gap ++ post)
            by (rewrite Es; napp; auto).
        destruct (copy_backward_spec (length pre + length s + 1 - 1 - (length pre + length u))
                    (pre ++ u) w g (gap ++ post) (length pre + length s + 1 - 1) (length pre + length s + 1)) as (y & Ec).
        { lia. } { len. } { lia. }
        rewrite Ec. cbn [bind]. rewrite wr_app' by len. cbn [bind].
        destruct (IH (u ++ x :: w) gap (seen ++ [x])) as (s' & gap' & E' & L & A' & B & (g' & G)); auto.
        { exists []. rewrite app_nil_r. split.
          - rewrite <- Permutation_middle, <- Es, Hp. apply Permutation_cons_append.
          - split; [auto|]. intros a b _ []. }
        assert (Lx : length (u ++ x :: w) = length s + 1) by len.
        rewrite Lx in *.
        replace ((pre ++ u) ++ x :: w ++ gap ++ post) with (pre ++ (u ++ x :: w) ++ gap ++ post) by (napp; auto).
        exists s', gap'. rewrite <- app_assoc in B.
        replace (length pre + (length s + 1)) with (length pre + length s + 1) in E' by lia.
        replace (length pre + length s + 1 + length gap) with (length pre + length s + S (length gap)) in E' by lia.
        split; [exact E'|]. split; [lia|]. split; [auto|]. split; [auto|]. exists (g :: g'). now rewrite G.
  Qed.

  Lemma partial_sort_copy_spec l pre gap post :
    exists s gap',
      partial_sort_copy lt l (pre ++ gap ++ post) (length pre) (length pre + length gap)
      = Ok (pre ++ s ++ gap' ++ post, length pre + length s) /\
      length s + length gap' = length gap /\ (exists g, gap = g ++ gap') /\
      length s = Nat.min (length l) (length gap) /\
      Ascending lt s /\
      (exists rest, Permutation (s ++ rest) l /\ forall x y, In x s -> In y rest -> lt y x = false).
  Proof.
    destruct (psc_loop_spec l pre [] gap post []) as (s & gap' & E & L & A' & (rest & P & Hr & Hle) & G).
    - constructor.
    - exists []. split; [constructor|]. split; [auto|]. intros x y [].
    - cbn [length app] in *. rewrite !Nat.add_0_r in *. exists s, gap'.
      split; [exact E|]. split; [auto|]. split; [auto|].
      assert (Lp : length s + length rest = length l) by (rewrite <- app_length; now apply Permutation_length).
      split; [|eauto].
      destruct (Nat.lt_ge_cases (length s) (length s + length gap')) as [H|H].
      + rewrite (Hr H) in Lp. cbn [length] in Lp. lia.
      + lia.
  Qed.
End PSC.
