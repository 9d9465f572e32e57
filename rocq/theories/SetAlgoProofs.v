From Verif Require Import Base Order RangeSpec RangeModel RangeProofs.

Section S.
  Context {A : Type} (lt : A -> A -> bool) (W : StrictWeak lt).
  Implicit Types (l r : list A).

  Lemma asc_tail x l : Ascending lt (x :: l) -> Ascending lt l.
  Proof. intros H. now inversion H. Qed.
  Lemma asc_head x l z : Ascending lt (x :: l) -> In z l -> lt z x = false.
  Proof.
    intros H Hz. inversion H as [|? ? _ Hf]; subst. rewrite Forall_forall in Hf. auto.
  Qed.
  Lemma asc_head' x l z : Ascending lt (x :: l) -> In z (x :: l) -> lt z x = false.
  Proof.
    intros H [<-|Hz]; [now apply sw_irrefl|]. eapply asc_head; eauto.
  Qed.
  Lemma asc_cons x l : Ascending lt l -> (forall z, In z l -> lt z x = false) -> Ascending lt (x :: l).
  Proof. intros H1 H2. constructor; [auto|]. now rewrite Forall_forall. Qed.

  Lemma mult_cons v x l : mult lt v (x :: l) = (if equiv lt v x then 1 else 0) + mult lt v l.
  Proof. apply countp_cons. Qed.
  Lemma mult_app v l1 l2 : mult lt v (l1 ++ l2) = mult lt v l1 + mult lt v l2.
  Proof. apply countp_app. Qed.
  Lemma mult_below v y l : Ascending lt (y :: l) -> lt v y = true -> mult lt v (y :: l) = 0.
  Proof.
    intros H Hv. apply countp_0. intros z Hz. apply (asc_head' _ _ _ H) in Hz.
    assert (Hvz : lt v z = true) by (eapply sw_lt_le_trans; eauto).
    unfold equiv. now rewrite Hvz.
  Qed.
  Lemma equiv_lt v x y : equiv lt v x = true -> lt x y = true -> lt v y = true.
  Proof.
    intros H Hx. apply equiv_true in H. destruct H as [H1 H2].
    eapply sw_le_lt_trans; eauto.
  Qed.
  Lemma equiv_eq v x y : lt x y = false -> lt y x = false -> equiv lt v x = equiv lt v y.
  Proof.
    intros H1 H2. apply eq_true_iff_eq. rewrite !equiv_true.
    destruct W as (_ & _ & Hi).
    split; intros [H3 H4].
    - destruct (Hi v x y); auto.
    - destruct (Hi v y x); auto.
  Qed.

  (** ** merge *)
  Lemma merge_loop_spec fuel l1 l2 res :
    length l1 + length l2 <= fuel ->
    exists r, merge_loop fuel lt l1 l2 res = Ok (res ++ r) /\ Permutation r (l1 ++ l2) /\
              (Ascending lt l1 -> Ascending lt l2 -> Ascending lt r).
  Proof.
    revert l1 l2 res. induction fuel as [|fuel IH]; intros l1 l2 res Hf.
    - destruct l1, l2; simpl in Hf; try lia. simpl. exists []. rewrite app_nil_r. auto.
    - destruct l1 as [|x t1]; [|destruct l2 as [|y t2]].
      + simpl. rewrite copy_out_app. exists l2. simpl. auto.
      + cbn [merge_loop set_union_loop set_difference_loop set_symdiff_loop]. rewrite ?copy_out_app. exists (x :: t1). rewrite app_nil_r. split; [reflexivity|]. split; [apply Permutation_refl|auto].
      + simpl in *. destruct (lt x y) eqn:E.
        * destruct (IH t1 (y :: t2) (res ++ [x])) as (r & -> & Hp & Hs); [simpl; lia|].
          exists (x :: r). rewrite <- app_assoc. split; [auto|]. split; [now constructor|].
          intros H1 H2. apply asc_cons; [apply Hs; eauto using asc_tail|].
          intros z Hz. apply (Permutation_in _ Hp) in Hz. apply in_app_or in Hz.
          destruct Hz as [Hz|Hz]; [eapply asc_head; eauto|].
          apply (asc_head' _ _ _ H2) in Hz. apply sw_asym; auto.
          eapply sw_lt_le_trans; eauto.
        * destruct (IH (x :: t1) t2 (res ++ [y])) as (r & -> & Hp & Hs); [simpl; lia|].
          exists (y :: r). rewrite <- app_assoc. split; [auto|]. split.
          -- change (x :: t1 ++ y :: t2) with ((x :: t1) ++ y :: t2).
             rewrite <- Permutation_middle. now constructor.
          -- intros H1 H2. apply asc_cons; [apply Hs; eauto using asc_tail|].
             intros z Hz. apply (Permutation_in _ Hp) in Hz.
             apply in_app_or in Hz. destruct Hz as [Hz|Hz]; [|eapply asc_head; eauto].
             apply (asc_head' _ _ _ H1) in Hz. eapply sw_le_trans; eauto.
  Qed.
  Lemma merge_spec l1 l2 :
    exists r, merge lt l1 l2 = Ok r /\ Permutation r (l1 ++ l2) /\
              (Ascending lt l1 -> Ascending lt l2 -> Ascending lt r).
  Proof. apply (merge_loop_spec _ l1 l2 []). auto. Qed.

  (** ** set operations *)
  Lemma set_union_loop_spec fuel l1 l2 res :
    length l1 + length l2 <= fuel -> Ascending lt l1 -> Ascending lt l2 ->
    exists r, set_union_loop fuel lt l1 l2 res = Ok (res ++ r) /\ Ascending lt r /\
              (forall z, In z r -> In z l1 \/ In z l2) /\
              (forall v, mult lt v r = Nat.max (mult lt v l1) (mult lt v l2)).
  Proof.
    revert l1 l2 res. induction fuel as [|fuel IH]; intros l1 l2 res Hf H1 H2.
    - destruct l1, l2; simpl in Hf; try lia. simpl. exists []. rewrite app_nil_r. auto.
    - destruct l1 as [|x t1]; [|destruct l2 as [|y t2]].
      + simpl. rewrite copy_out_app. exists l2. auto.
      + cbn [merge_loop set_union_loop set_difference_loop set_symdiff_loop]. rewrite ?copy_out_app. exists (x :: t1). rewrite ?app_nil_r. split; [reflexivity|]. split; [auto|]. split; [auto|].
        intros v. change (mult lt v []) with 0. lia.
      + simpl in *. destruct (lt y x) eqn:E.
        * destruct (IH (x :: t1) t2 (res ++ [y])) as (r & -> & Hs & Hin & Hm);
            [simpl; lia|auto|eauto using asc_tail|].
          exists (y :: r). rewrite <- app_assoc. split; [auto|]. split; [|split].
          -- apply asc_cons; [auto|]. intros z Hz. destruct (Hin z Hz) as [Hz'|Hz'].
             ++ apply sw_asym; auto. eapply sw_lt_le_trans; eauto. eapply asc_head'; eauto.
             ++ eapply asc_head; eauto.
          -- intros z [<-|Hz]; [auto|]. destruct (Hin z Hz); auto.
          -- intros v. rewrite (mult_cons v y r), (mult_cons v y t2), Hm.
             destruct (equiv lt v y) eqn:Q; [|lia].
             rewrite (mult_below v x t1) by eauto using equiv_lt. lia.
        * destruct (lt x y) eqn:E2; simpl.
          -- destruct (IH t1 (y :: t2) (res ++ [x])) as (r & -> & Hs & Hin & Hm);
               [simpl; lia|eauto using asc_tail|auto|].
             exists (x :: r). rewrite <- app_assoc. split; [auto|]. split; [|split].
             ++ apply asc_cons; [auto|]. intros z Hz. destruct (Hin z Hz) as [Hz'|Hz'].
                ** eapply asc_head; eauto.
                ** apply sw_asym; auto. eapply sw_lt_le_trans; eauto. eapply asc_head'; eauto.
             ++ intros z [<-|Hz]; [auto|]. destruct (Hin z Hz); auto.
             ++ intros v. rewrite (mult_cons v x r), (mult_cons v x t1), Hm.
                destruct (equiv lt v x) eqn:Q; [|lia].
                rewrite (mult_below v y t2) by eauto using equiv_lt. lia.
          -- destruct (IH t1 t2 (res ++ [x])) as (r & -> & Hs & Hin & Hm);
               [simpl; lia|eauto using asc_tail|eauto using asc_tail|].
             exists (x :: r). rewrite <- app_assoc. split; [auto|]. split; [|split].
             ++ apply asc_cons; [auto|]. intros z Hz. destruct (Hin z Hz) as [Hz'|Hz'].
                ** eapply asc_head; eauto.
                ** eapply sw_le_trans; eauto. eapply asc_head; eauto.
             ++ intros z [<-|Hz]; [auto|]. destruct (Hin z Hz); auto.
             ++ intros v. rewrite (mult_cons v x r), (mult_cons v x t1), (mult_cons v y t2), Hm.
                rewrite (equiv_eq v x y) by auto. destruct (equiv lt v y); lia.
  Qed.

  Lemma set_intersection_loop_spec fuel l1 l2 res :
    length l1 + length l2 <= fuel -> Ascending lt l1 -> Ascending lt l2 ->
    exists r, set_intersection_loop fuel lt l1 l2 res = Ok (res ++ r) /\ Ascending lt r /\
              (forall z, In z r -> In z l1) /\
              (forall v, mult lt v r = Nat.min (mult lt v l1) (mult lt v l2)).
  Proof.
    revert l1 l2 res. induction fuel as [|fuel IH]; intros l1 l2 res Hf H1 H2.
    - destruct l1, l2; simpl in Hf; try lia. simpl. exists []. rewrite app_nil_r. auto.
    - destruct l1 as [|x t1]; [|destruct l2 as [|y t2]].
      + simpl. exists []. rewrite app_nil_r. split; [reflexivity|]. split; [constructor|]. split; [intros z []|]. intros v. reflexivity.
      + simpl. exists []. rewrite app_nil_r. split; [reflexivity|]. split; [constructor|]. split; [intros z []|].
        intros v. change (mult lt v []) with 0. lia.
      + simpl in *. destruct (lt y x) eqn:E.
        * rewrite (sw_asym lt W _ _ E). simpl.
          destruct (IH (x :: t1) t2 res) as (r & -> & Hs & Hin & Hm);
            [simpl; lia|auto|eauto using asc_tail|].
          exists r. repeat split; auto.
          intros v. rewrite Hm, (mult_cons v y t2).
          destruct (equiv lt v y) eqn:Q; [|lia].
          rewrite (mult_below v x t1) by eauto using equiv_lt. lia.
        * destruct (lt x y) eqn:E2; simpl.
          -- destruct (IH t1 (y :: t2) res) as (r & -> & Hs & Hin & Hm);
               [simpl; lia|eauto using asc_tail|auto|].
             exists r. repeat split; auto.
             intros v. rewrite Hm, (mult_cons v x t1).
             destruct (equiv lt v x) eqn:Q; [|lia].
             rewrite (mult_below v y t2) by eauto using equiv_lt. lia.
          -- destruct (IH t1 t2 (res ++ [x])) as (r & -> & Hs & Hin & Hm);
               [simpl; lia|eauto using asc_tail|eauto using asc_tail|].
             exists (x :: r). rewrite <- app_assoc. split; [auto|]. split; [|split].
             ++ apply asc_cons; [auto|]. intros z Hz. eapply asc_head; eauto.
             ++ intros z [<-|Hz]; auto.
             ++ intros v. rewrite (mult_cons v x r), (mult_cons v x t1), (mult_cons v y t2), Hm.
                rewrite (equiv_eq v x y) by auto. destruct (equiv lt v y); lia.
  Qed.

  Lemma set_difference_loop_spec fuel l1 l2 res :
    length l1 + length l2 <= fuel -> Ascending lt l1 -> Ascending lt l2 ->
    exists r, set_difference_loop fuel lt l1 l2 res = Ok (res ++ r) /\ Ascending lt r /\
              (forall z, In z r -> In z l1) /\
              (forall v, mult lt v r = mult lt v l1 - mult lt v l2).
  Proof.
    revert l1 l2 res. induction fuel as [|fuel IH]; intros l1 l2 res Hf H1 H2.
    - destruct l1, l2; simpl in Hf; try lia. simpl. exists []. rewrite app_nil_r. auto.
    - destruct l1 as [|x t1]; [|destruct l2 as [|y t2]].
      + simpl. exists []. rewrite app_nil_r. repeat split; auto.
      + cbn [merge_loop set_union_loop set_difference_loop set_symdiff_loop]. rewrite ?copy_out_app. exists (x :: t1). rewrite ?app_nil_r. split; [reflexivity|]. split; [auto|]. split; [auto|].
        intros v. change (mult lt v []) with 0. lia.
      + simpl in *. destruct (lt y x) eqn:E.
        * rewrite (sw_asym lt W _ _ E). simpl.
          destruct (IH (x :: t1) t2 res) as (r & -> & Hs & Hin & Hm);
            [simpl; lia|auto|eauto using asc_tail|].
          exists r. repeat split; auto.
          intros v. rewrite Hm, (mult_cons v y t2).
          destruct (equiv lt v y) eqn:Q; [|lia].
          rewrite (mult_below v x t1) by eauto using equiv_lt. lia.
        * destruct (lt x y) eqn:E2; simpl.
          -- destruct (IH t1 (y :: t2) (res ++ [x])) as (r & -> & Hs & Hin & Hm);
               [simpl; lia|eauto using asc_tail|auto|].
             exists (x :: r). rewrite <- app_assoc. split; [auto|]. split; [|split].
             ++ apply asc_cons; [auto|]. intros z Hz. eapply asc_head; eauto.
             ++ intros z [<-|Hz]; auto.
             ++ intros v. rewrite (mult_cons v x r), (mult_cons v x t1), Hm.
                destruct (equiv lt v x) eqn:Q; [|lia].
                rewrite (mult_below v y t2) by eauto using equiv_lt. lia.
          -- destruct (IH t1 t2 res) as (r & -> & Hs & Hin & Hm);
               [simpl; lia|eauto using asc_tail|eauto using asc_tail|].
             exists r. repeat split; auto.
             intros v. rewrite (mult_cons v x t1), (mult_cons v y t2), Hm.
             rewrite (equiv_eq v x y) by auto. destruct (equiv lt v y); lia.
  Qed.

  Lemma set_symdiff_loop_spec fuel l1 l2 res :
    length l1 + length l2 <= fuel -> Ascending lt l1 -> Ascending lt l2 ->
    exists r, set_symdiff_loop fuel lt l1 l2 res = Ok (res ++ r) /\ Ascending lt r /\
              (forall z, In z r -> In z l1 \/ In z l2) /\
              (forall v, mult lt v r = (mult lt v l1 - mult lt v l2) + (mult lt v l2 - mult lt v l1)).
  Proof.
    revert l1 l2 res. induction fuel as [|fuel IH]; intros l1 l2 res Hf H1 H2.
    - destruct l1, l2; simpl in Hf; try lia. simpl. exists []. rewrite app_nil_r. auto.
    - destruct l1 as [|x t1]; [|destruct l2 as [|y t2]].
      + simpl. rewrite copy_out_app. exists l2. repeat split; auto.
        intros v. change (mult lt v []) with 0. lia.
      + cbn [merge_loop set_union_loop set_difference_loop set_symdiff_loop]. rewrite ?copy_out_app. exists (x :: t1). rewrite ?app_nil_r. split; [reflexivity|]. split; [auto|]. split; [auto|].
        intros v. change (mult lt v []) with 0. lia.
      + simpl in *. destruct (lt y x) eqn:E.
        * rewrite (sw_asym lt W _ _ E). simpl.
          destruct (IH (x :: t1) t2 (res ++ [y])) as (r & -> & Hs & Hin & Hm);
            [simpl; lia|auto|eauto using asc_tail|].
          exists (y :: r). rewrite <- app_assoc. split; [auto|]. split; [|split].
          -- apply asc_cons; [auto|]. intros z Hz. destruct (Hin z Hz) as [Hz'|Hz'].
             ++ apply sw_asym; auto. eapply sw_lt_le_trans; eauto. eapply asc_head'; eauto.
             ++ eapply asc_head; eauto.
          -- intros z [<-|Hz]; [auto|]. destruct (Hin z Hz); auto.
          -- intros v. rewrite (mult_cons v y r), (mult_cons v y t2), Hm.
             destruct (equiv lt v y) eqn:Q; [|lia].
             rewrite (mult_below v x t1) by eauto using equiv_lt. lia.
        * destruct (lt x y) eqn:E2; simpl.
          -- destruct (IH t1 (y :: t2) (res ++ [x])) as (r & -> & Hs & Hin & Hm);
               [simpl; lia|eauto using asc_tail|auto|].
             exists (x :: r). rewrite <- app_assoc. split; [auto|]. split; [|split].
             ++ apply asc_cons; [auto|]. intros z Hz. destruct (Hin z Hz) as [Hz'|Hz'].
                ** eapply asc_head; eauto.
                ** apply sw_asym; auto. eapply sw_lt_le_trans; eauto. eapply asc_head'; eauto.
             ++ intros z [<-|Hz]; [auto|]. destruct (Hin z Hz); auto.
             ++ intros v. rewrite (mult_cons v x r), (mult_cons v x t1), Hm.
                destruct (equiv lt v x) eqn:Q; [|lia].
                rewrite (mult_below v y t2) by eauto using equiv_lt. lia.
          -- destruct (IH t1 t2 res) as (r & -> & Hs & Hin & Hm);
               [simpl; lia|eauto using asc_tail|eauto using asc_tail|].
             exists r. repeat split; auto.
             ++ intros z Hz. destruct (Hin z Hz); auto.
             ++ intros v. rewrite (mult_cons v x t1), (mult_cons v y t2), Hm.
                rewrite (equiv_eq v x y) by auto. destruct (equiv lt v y); lia.
  Qed.

  Lemma set_union_spec l1 l2 : Ascending lt l1 -> Ascending lt l2 ->
    exists r, set_union lt l1 l2 = Ok r /\ Ascending lt r /\
              (forall z, In z r -> In z l1 \/ In z l2) /\
              (forall v, mult lt v r = Nat.max (mult lt v l1) (mult lt v l2)).
  Proof. apply (set_union_loop_spec _ l1 l2 []). auto. Qed.
  Lemma set_intersection_spec l1 l2 : Ascending lt l1 -> Ascending lt l2 ->
    exists r, set_intersection lt l1 l2 = Ok r /\ Ascending lt r /\
              (forall z, In z r -> In z l1) /\
              (forall v, mult lt v r = Nat.min (mult lt v l1) (mult lt v l2)).
  Proof. apply (set_intersection_loop_spec _ l1 l2 []). auto. Qed.
  Lemma set_difference_spec l1 l2 : Ascending lt l1 -> Ascending lt l2 ->
    exists r, set_difference lt l1 l2 = Ok r /\ Ascending lt r /\
              (forall z, In z r -> In z l1) /\
              (forall v, mult lt v r = mult lt v l1 - mult lt v l2).
  Proof. apply (set_difference_loop_spec _ l1 l2 []). auto. Qed.
  Lemma set_symdiff_spec l1 l2 : Ascending lt l1 -> Ascending lt l2 ->
    exists r, set_symmetric_difference lt l1 l2 = Ok r /\ Ascending lt r /\
              (forall z, In z r -> In z l1 \/ In z l2) /\
              (forall v, mult lt v r = (mult lt v l1 - mult lt v l2) + (mult lt v l2 - mult lt v l1)).
  Proof. apply (set_symdiff_loop_spec _ l1 l2 []). auto. Qed.

  Lemma includes_iff l1 l2 : Ascending lt l1 -> Ascending lt l2 ->
    includes lt l1 l2 = true <-> (forall v, mult lt v l2 <= mult lt v l1).
  Proof.
    revert l2. induction l1 as [|x t1 IH]; intros [|y t2] H1 H2.
    - simpl. split; [intros _ v; auto|auto].
    - simpl. split; [discriminate|]. intros H. specialize (H y). rewrite mult_cons in H.
      rewrite (equiv_refl lt W) in H. change (mult lt y []) with 0 in H. lia.
    - simpl. split; [intros _ v|auto]. change (mult lt v []) with 0. lia.
    - simpl. destruct (lt y x) eqn:E.
      + split; [discriminate|]. intros H. specialize (H y).
        rewrite (mult_below y x t1), mult_cons, (equiv_refl lt W) in H by auto. lia.
      + destruct (lt x y) eqn:E2; simpl.
        * rewrite IH by eauto using asc_tail. split; intros H v; specialize (H v).
          -- rewrite (mult_cons v x t1). lia.
          -- rewrite (mult_cons v x t1) in H. destruct (equiv lt v x) eqn:Q; [|lia].
             rewrite (mult_below v y t2) by eauto using equiv_lt. lia.
        * rewrite IH by eauto using asc_tail.
          split; intros H v; specialize (H v);
            rewrite (mult_cons v x t1), (mult_cons v y t2), (equiv_eq v x y) in * by auto;
            destruct (equiv lt v y); lia.
  Qed.
End S.
