(** * AssocFamProofs: several sets or maps. *)
From Verif Require Import Base Order UtilModel StoreModel VectorModel VectorSpec StoreProofs VectorProofs VectorFacts
  ArrayModel AssocModel AssocSpec AssocProofs MapProofs AssocFamModel AssocFamSpec.
From Coq Require Import ZArith ZifyBool ZifyNat.
Local Open Scope nat_scope.

Section Lists.
  Context {X Y : Type} (R : X -> Y -> Prop).
  Lemma F2_nth fs ss i s : Forall2 R fs ss -> nth_error ss i = Some s -> exists v, rd fs i = Ok v /\ R v s.
  Proof.
    intros F. revert i. induction F as [|v s0 fs ss H F IH]; intros [|i] E; try discriminate.
    - injection E as <-. exists v. auto.
    - destruct (IH i E) as (w & E1 & E2). exists w. auto.
  Qed.
  Lemma F2_weaken (Q : X -> Y -> Prop) fs ss : (forall v s, R v s -> Q v s) -> Forall2 R fs ss -> Forall2 Q fs ss.
  Proof. intros H F. induction F; constructor; auto. Qed.
  Lemma F2_put fs ss i v s : Forall2 R fs ss -> i < length ss -> R v s ->
    exists fs', wr fs i v = Ok fs' /\ Forall2 R fs' (firstn i ss ++ s :: skipn (S i) ss).
  Proof.
    intros F. revert i. induction F as [|w s0 fs ss H F IH]; intros [|i] L Rv; cbn [length] in L; try lia.
    - eexists. split; [reflexivity|]. cbn. constructor; auto.
    - destruct (IH i ltac:(lia) Rv) as (fs' & E & F'). exists (w :: fs'). split.
      + unfold wr in *. cbn [upd]. destruct (upd fs i v) as [q|]; [injection E as ->; reflexivity|discriminate].
      + cbn [firstn app]. constructor; auto.
  Qed.
End Lists.

Section P.
  Context {A K O R : Type}.
  Variable e : env.
  Variable es : Z.
  Variable dflt : A.
  Variable key : A -> K.
  Variable comp : K -> K -> bool.
  Variable step : vec A -> O -> outcome (vec A * R).
  Variable spec : list A -> O -> list A * R.
  Variable cost : O -> nat.
  Hypothesis Hes : (0 < es)%Z.
  Hypothesis H4 : (es mod 4 = 0)%Z.
  Hypothesis Henv : good_env e.
  Hypothesis Hmem : enough_memory e.
  Hypothesis W : StrictWeak comp.
  Notation lt := (klt key comp).
  Definition Rel (v : vec A) (s : list A) : Prop :=
    exists l, Vinv es v l /\ StrictlyAscending lt l /\ Permutation l s.
  Hypothesis Hstep : forall v s o, Rel v s -> (es * Z.of_nat (length s + cost o) <= 2 ^ 31)%Z ->
     exists v', step v o = Ok (v', snd (spec s o)) /\ Rel v' (fst (spec s o)).
  Notation F2 := (Forall2 Rel).
  Notation rank := (rank key comp).
  Notation kth := (kth key comp).
  Notation without := (without key comp).

  (** *** Positions *)
  Lemma rank_perm l s x : Permutation l s -> rank l x = rank s x.
  Proof. intros P. apply countp_perm. exact P. Qed.
  Lemma countp_all (p : A -> bool) l : (forall x, In x l -> p x = true) -> countp p l = length l.
  Proof. intros H. unfold countp. rewrite filter_all; auto. Qed.
  Lemma countp_zero (p : A -> bool) l : (forall x, In x l -> p x = false) -> countp p l = 0.
  Proof. intros H. unfold countp. rewrite filter_none; auto. Qed.
  Lemma rank_mid a x b : StrictlyAscending lt (a ++ x :: b) -> rank (a ++ x :: b) x = length a.
  Proof.
    intros S. apply StronglySorted_app_iff in S. destruct S as (_ & Sb & Hab).
    unfold AssocFamSpec.rank. rewrite countp_app, countp_all, countp_zero; [lia| |].
    - intros y [<-|Hy]; [apply W|]. apply sw_asym; [exact W|].
      inversion Sb as [|? ? _ Hf]; subst. rewrite Forall_forall in Hf. apply (Hf y Hy).
    - intros y Hy. apply (Hab y x Hy). now left.
  Qed.
  Lemma rank_range a b c x : StrictlyAscending lt (a ++ b ++ c) -> In x (a ++ b ++ c) ->
    ((length a <=? rank (a ++ b ++ c) x) && (rank (a ++ b ++ c) x <? length a + length b) = true /\ In x b) \/
    ((length a <=? rank (a ++ b ++ c) x) && (rank (a ++ b ++ c) x <? length a + length b) = false /\ (In x a \/ In x c)).
  Proof.
    intros S H. apply in_app_or in H. destruct H as [H|H]; [|apply in_app_or in H; destruct H as [H|H]].
    - right. split; [|auto]. apply in_split in H. destruct H as (a1 & a2 & ->).
      rewrite <- app_assoc in *. cbn [app] in *. rewrite (rank_mid _ _ _ S), app_length. cbn [length]. lia.
    - left. split; [|auto]. apply in_split in H. destruct H as (b1 & b2 & ->).
      rewrite <- app_assoc in *. cbn [app] in *. rewrite app_assoc in *. rewrite (rank_mid _ _ _ S), !app_length. cbn [length]. lia.
    - right. split; [|auto]. apply in_split in H. destruct H as (c1 & c2 & ->).
      rewrite !app_assoc in *. rewrite (rank_mid _ _ _ S), !app_length. lia.
  Qed.
  Lemma without_ok a b c s : StrictlyAscending lt (a ++ b ++ c) -> Permutation (a ++ b ++ c) s ->
    StrictlyAscending lt (a ++ c) /\ Permutation (a ++ c) (without (length a) (length a + length b) s).
  Proof.
    intros S P. split.
    - apply StronglySorted_app_iff in S. destruct S as (Sa & Sbc & Hab). apply StronglySorted_app_iff in Sbc. destruct Sbc as (_ & Sc & _).
      apply StronglySorted_app_iff. split; [exact Sa|]. split; [exact Sc|]. intros x y Hx Hy. apply Hab; auto. apply in_or_app. auto.
    - unfold AssocFamSpec.without.
      assert (E : filter (fun x => negb ((length a <=? rank s x) && (rank s x <? length a + length b))) (a ++ b ++ c) = a ++ c).
      { assert (Hd : forall x, In x a \/ In x c -> In x b -> False).
        { intros x Hx Hb. apply StronglySorted_app_iff in S. destruct S as (_ & Sbc & Hab). apply StronglySorted_app_iff in Sbc. destruct Sbc as (_ & _ & Hbc).
          destruct Hx as [Hx|Hx].
          - pose proof (Hab x x Hx ltac:(apply in_or_app; auto)) as D. unfold klt in D. rewrite (sw_irrefl _ W) in D. discriminate.
          - pose proof (Hbc x x Hb Hx) as D. unfold klt in D. rewrite (sw_irrefl _ W) in D. discriminate. }
        assert (Q : forall x, In x (a ++ b ++ c) -> negb ((length a <=? rank s x) && (rank s x <? length a + length b)) = true <-> In x a \/ In x c).
        { intros x Hx. rewrite <- (rank_perm _ _ x P). destruct (rank_range a b c x S Hx) as [(-> & Hb)|(-> & Hac)]; cbn [negb].
          - split; [discriminate|]. intros Hac. exfalso. eauto.
          - split; auto. }
        rewrite !filter_app. rewrite (filter_all _ a), (filter_none _ b), (filter_all _ c); [reflexivity| | |].
        - intros x Hx. apply Q; [apply in_or_app; right; apply in_or_app; auto|auto].
        - intros x Hx. destruct (negb _) eqn:En; [|reflexivity]. exfalso. apply Q in En; [eauto|].
          apply in_or_app; right; apply in_or_app; auto.
        - intros x Hx. apply Q; [apply in_or_app; auto|auto]. }
      rewrite <- E at 1. apply filter_perm. exact P.
  Qed.
  Lemma kth_ok l s k x : StrictlyAscending lt l -> Permutation l s -> nth_error l k = Some x -> kth k s = Some x.
  Proof.
    intros S P E. assert (Rk : forall j y, nth_error l j = Some y -> rank s y = j).
    { intros j y Ej. rewrite <- (rank_perm _ _ y P). apply nth_error_split in Ej. destruct Ej as (a & b & -> & <-).
      apply rank_mid. exact S. }
    unfold AssocFamSpec.kth. destruct (find _ s) as [y|] eqn:Ef.
    - apply find_some in Ef. destruct Ef as (Hy & Hr). apply Nat.eqb_eq in Hr.
      assert (Hy' : In y l) by (eapply Permutation_in; [symmetry; exact P|exact Hy]).
      apply In_nth_error in Hy'. destruct Hy' as (j & Ej). rewrite (Rk j y Ej) in Hr. congruence.
    - exfalso. assert (Hx : In x s) by (eapply Permutation_in; [exact P|eapply nth_error_In; eauto]).
      pose proof (find_none _ _ Ef x Hx) as N. cbn beta in N. rewrite (Rk k x E), Nat.eqb_refl in N. discriminate.
  Qed.

  (** *** Variables *)
  Lemma get_nth (ss : list (list A)) i : i < length ss -> nth_error ss i = Some (get ss i).
  Proof. intros H. unfold get. apply nth_error_nth'. exact H. Qed.
  Lemma F2_get fs ss i : F2 fs ss -> i < length ss -> exists v, rd fs i = Ok v /\ Rel v (get ss i).
  Proof. intros F H. apply (F2_nth Rel fs ss i _ F). apply get_nth. exact H. Qed.
  Lemma F2_wr fs ss i v s : F2 fs ss -> i < length ss -> Rel v s ->
    exists fs', wr fs i v = Ok fs' /\ F2 fs' (put ss i s).
  Proof. intros F H. apply F2_put; auto. Qed.
  Lemma put_length ss i (s : list A) : i < length ss -> length (put ss i s) = length ss.
  Proof. intros H. unfold put. rewrite app_length, firstn_length. cbn [length]. rewrite skipn_length. lia. Qed.
  Lemma get_put ss i j (s : list A) : i < length ss -> get (put ss i s) j = if Nat.eqb j i then s else get ss j.
  Proof.
    intros H. unfold get, put. destruct (Nat.eqb_spec j i) as [->|N].
    - rewrite app_nth2 by (rewrite firstn_length; lia). rewrite firstn_length. replace (i - Nat.min i (length ss)) with 0 by lia. reflexivity.
    - rewrite <- (firstn_skipn i ss) at 3. destruct (Nat.lt_ge_cases j i) as [L|L].
      + rewrite !app_nth1 by (rewrite firstn_length; lia). reflexivity.
      + rewrite !app_nth2 by (rewrite firstn_length; lia). rewrite firstn_length.
        replace (Nat.min i (length ss)) with i by lia.
        destruct (skipn i ss) as [|q t] eqn:Es.
        * apply (f_equal (@length _)) in Es. rewrite skipn_length in Es. cbn in Es. lia.
        * assert (Et : skipn (S i) ss = t).
          { replace (S i) with (1 + i) by lia. rewrite <- skipn_skipn, Es. reflexivity. }
          rewrite Et. destruct (j - i) as [|m] eqn:Em; [lia|]. reflexivity.
  Qed.
  Lemma put_put ss i (s t : list A) : i < length ss -> put (put ss i s) i t = put ss i t.
  Proof.
    intros H. unfold put. assert (L : length (firstn i ss) = i) by (rewrite firstn_length; lia).
    rewrite firstn_app, L, Nat.sub_diag. cbn [firstn]. rewrite app_nil_r, firstn_firstn, Nat.min_id. do 2 f_equal.
    rewrite skipn_app, L. replace (S i - i) with 1 by lia. rewrite skipn_all2 by lia. reflexivity.
  Qed.
  Lemma Rel_nil : Rel vec_nil [].
  Proof. exists []. split; [apply Vinv_nil|]. split; constructor. Qed.
  Lemma renew_ok fs ss i v s : F2 fs ss -> i < length ss -> Rel v s ->
    exists fs', f_renew fs i v = Ok fs' /\ F2 fs' (put ss i s).
  Proof.
    intros F H Rv. destruct (F2_get fs ss i F H) as (old & E & (l & I & _)).
    destruct (destroy_all_ok es Hes old l I) as (o' & Ed & _). unfold f_renew. rewrite E. cbn [bind]. rewrite Ed. cbn [bind].
    apply F2_wr; auto.
  Qed.
  Lemma swap_ok fs ss i j : F2 fs ss -> i < length ss -> j < length ss ->
    exists fs', f_swap fs i j = Ok fs' /\ F2 fs' (put (put ss i (get ss j)) j (get ss i)).
  Proof.
    intros F Hi Hj. destruct (F2_get fs ss i F Hi) as (a & Ea & Ra). destruct (F2_get fs ss j F Hj) as (b & Eb & Rb).
    unfold f_swap. rewrite Ea, Eb. cbn [bind].
    destruct (F2_wr fs ss i b _ F Hi Rb) as (fs1 & E1 & F1). rewrite E1. cbn [bind].
    apply F2_wr; auto. rewrite put_length; auto.
  Qed.
  Lemma erase_range_ok v s k1 k2 : Rel v s -> k1 <= k2 <= length s ->
    exists v', erase e es v k1 (k2 - k1) = Ok v' /\ Rel v' (without k1 k2 s).
  Proof.
    intros (l & I & S & P) H. rewrite <- (Permutation_length P) in H.
    destruct (erase4_ok e es Hes Henv v l k1 (k2 - k1) H4 I) as (v' & E & I'); [lia|].
    exists v'. split; [exact E|]. unfold seq_erase in I'.
    pose (a := firstn k1 l). pose (b := firstn (k2 - k1) (skipn k1 l)). pose (c := skipn (k1 + (k2 - k1)) l).
    assert (La : length a = k1) by (unfold a; rewrite firstn_length; lia).
    assert (Lb : length b = k2 - k1) by (unfold b; rewrite firstn_length, skipn_length; lia).
    assert (El : l = a ++ b ++ c).
    { unfold a, b, c. rewrite Nat.add_comm, <- skipn_skipn, firstn_skipn, firstn_skipn. reflexivity. }
    rewrite El in S, P. destruct (without_ok a b c s S P) as (S' & P').
    rewrite La, Lb in P'. replace (k1 + (k2 - k1)) with k2 in P' by lia. exists (a ++ c). auto.
  Qed.
  Lemma assign_var_ok fs ss i j : F2 fs ss -> i < length ss -> j < length ss ->
    exists fs', f_step e es dflt step fs (FAssign i j) = Ok (fs', FNone) /\ F2 fs' (put ss i (get ss j)).
  Proof.
    intros F Hi Hj. destruct (F2_get fs ss i F Hi) as (a & Ea & (la & Ia & Sa & Pa)).
    destruct (F2_get fs ss j F Hj) as (b & Eb & (lb & Ib & Sb & Pb)).
    cbn [f_step]. rewrite Eb, Ea. cbn [bind]. rewrite (Vinv_size es b lb Ib).
    assert (Hb : (es * Z.of_nat (length lb) <= 2 ^ 31)%Z).
    { pose proof (Vinv_cap es Hes b lb Ib). pose proof Ib as (_ & _ & _ & C). lia. }
    unfold resize. destruct (resize_with_ok e es Hes Hmem a la (length lb) dflt Ia Hb) as (a' & Er & Ia').
    rewrite Er. cbn [bind].
    (* the source after the resize of the target *)
    assert (Wr : exists fs1, wr fs i a' = Ok fs1 /\ forall c, wr fs1 i c = wr fs i c).
    { clear - Ea. unfold rd in Ea. unfold wr. revert i Ea. induction fs as [|w t IH]; intros [|i] Ea; try discriminate; cbn [upd].
      - eexists. split; [reflexivity|]. intros c. reflexivity.
      - cbn in Ea. destruct (IH i Ea) as (t1 & E1 & E2). destruct (upd t i a') as [q|] eqn:Eu; [|discriminate].
        injection E1 as ->. eexists. split; [reflexivity|]. intros c. cbn [upd]. specialize (E2 c).
        destruct (upd t1 i c), (upd t i c); try discriminate; try reflexivity. injection E2 as ->. reflexivity. }
    destruct Wr as (fs1 & Ew & Ww). rewrite Ew. cbn [bind].
    assert (Rb : exists b', rd fs1 j = Ok b' /\ contents b' = Ok lb).
    { destruct (Nat.eq_dec i j) as [<-|N].
      - assert (rd fs1 i = Ok a').
        { clear - Ew. unfold wr in Ew. unfold rd. revert i fs1 Ew. induction fs as [|w t IH]; intros [|i] fs1 Ew; try discriminate; cbn [upd] in Ew.
          - injection Ew as <-. reflexivity.
          - destruct (upd t i a') as [q|] eqn:Eu; [|discriminate]. injection Ew as <-. cbn [nth_error]. apply IH. rewrite Eu. reflexivity. }
        exists a'. split; [assumption|]. rewrite Ea in Eb. injection Eb as <-.
        assert (la = lb).
        { pose proof (contents_ok es Hes a la Ia) as C1. pose proof (contents_ok es Hes a lb Ib) as C2. congruence. }
        subst la. rewrite (contents_ok es Hes a' _ Ia'). unfold seq_resize. rewrite firstn_all, Nat.sub_diag, app_nil_r. reflexivity.
      - exists b. split; [|exact (contents_ok es Hes b lb Ib)]. rewrite <- Eb.
        clear - Ew N. unfold wr in Ew. unfold rd. revert i j fs1 Ew N. induction fs as [|w t IH]; intros [|i] [|j] fs1 Ew N; try discriminate; cbn [upd] in Ew; try lia.
        + injection Ew as <-. reflexivity.
        + destruct (upd t i a') as [q|]; [|discriminate]. injection Ew as <-. reflexivity.
        + destruct (upd t i a') as [q|] eqn:Eu; [|discriminate]. injection Ew as <-. cbn [nth_error]. apply (IH i j); [rewrite Eu; reflexivity|lia]. }
    destruct Rb as (b' & Eb' & Cb'). rewrite Eb'. cbn [bind]. rewrite Cb'. cbn [bind].
    destruct Ia' as ((m & Ec) & S & L & C). rewrite Ec.
    pose proof (assign_cells_ok lb [] (seq_resize la (length lb) dflt) (repeat None m) (seq_resize_length _ _ _)) as D.
    cbn [app length] in D. rewrite D. cbn [bind]. rewrite Ww.
    assert (Rn : Rel (mkvec (map Some lb ++ repeat None m) (vsize a') (vcap a')) (get ss j)).
    { exists lb. split; [|auto]. rewrite S, seq_resize_length. apply Vinv_mk; [|exact C].
      rewrite <- L, Ec, app_length, map_length, repeat_length, seq_resize_length. reflexivity. }
    destruct (F2_wr fs ss i _ _ F Hi Rn) as (fs2 & E2 & F2'). rewrite E2. cbn [bind]. eauto.
  Qed.

  Lemma f_step_ok fs ss o : F2 fs ss -> f_pre es cost ss o ->
    exists fs', f_step e es dflt step fs o = Ok (fs', snd (f_spec key comp spec ss o)) /\
      F2 fs' (fst (f_spec key comp spec ss o)).
  Proof.
    intros F Hp. destruct o; cbn [f_pre f_spec fst snd] in *.
    - destruct (renew_ok fs ss i vec_nil [] F Hp Rel_nil) as (fs' & E & F'). cbn [f_step]. rewrite E. cbn [bind]. eauto.
    - destruct Hp as (Hi & Hj & N). cbn [f_step]. destruct (Nat.eqb_spec i j) as [?|_]; [contradiction|].
      destruct (F2_get fs ss j F Hj) as (b & Eb & (lb & Ib & Sb & Pb)). rewrite Eb. cbn [bind].
      rewrite (contents_ok es Hes b lb Ib). cbn [bind].
      destruct (vec_of_ok e es Hes Hmem lb) as (c & Ec & Ic).
      { pose proof (Vinv_cap es Hes b lb Ib). pose proof Ib as (_ & _ & _ & C). lia. }
      rewrite Ec. cbn [bind]. destruct (renew_ok fs ss i c (get ss j) F Hi) as (fs' & E & F'); [exists lb; auto|].
      rewrite E. cbn [bind]. eauto.
    - destruct Hp as (Hi & Hj & N). cbn [f_step]. destruct (Nat.eqb_spec i j) as [?|_]; [contradiction|].
      destruct (renew_ok fs ss i vec_nil [] F Hi Rel_nil) as (fs1 & E1 & F1). rewrite E1. cbn [bind].
      destruct (swap_ok fs1 (put ss i []) i j F1) as (fs' & E & F'); [rewrite put_length; auto|rewrite put_length; auto|].
      rewrite E. cbn [bind]. eexists. split; [reflexivity|].
      rewrite !get_put in F' by exact Hi. rewrite Nat.eqb_refl in F'.
      replace (j =? i) with false in F' by lia. rewrite put_put in F' by exact Hi. exact F'.
    - destruct Hp as (Hi & Hj). exact (assign_var_ok fs ss i j F Hi Hj).
    - destruct Hp as (Hi & Hj). destruct (swap_ok fs ss i j F Hi Hj) as (fs' & E & F'). cbn [f_step]. rewrite E. cbn [bind]. eauto.
    - destruct Hp as (Hi & Hj). destruct (swap_ok fs ss i j F Hi Hj) as (fs' & E & F'). cbn [f_step]. rewrite E. cbn [bind]. eauto.
    - destruct Hp as (Hi & Hk). destruct (F2_get fs ss i F Hi) as (v & Ev & Rv). cbn [f_step]. rewrite Ev. cbn [bind].
      destruct (erase_range_ok v _ k (k + 1) Rv ltac:(lia)) as (v' & E & R').
      replace (k + 1 - k) with 1 in E by lia. rewrite E. cbn [bind].
      destruct (F2_wr fs ss i v' _ F Hi R') as (fs' & E' & F'). rewrite E'. cbn [bind]. eauto.
    - destruct Hp as (Hi & Hk). destruct (F2_get fs ss i F Hi) as (v & Ev & Rv). cbn [f_step]. rewrite Ev. cbn [bind].
      replace (k2 <? k1) with false by lia.
      destruct (erase_range_ok v _ k1 k2 Rv Hk) as (v' & E & R'). rewrite E. cbn [bind].
      destruct (F2_wr fs ss i v' _ F Hi R') as (fs' & E' & F'). rewrite E'. cbn [bind]. eauto.
    - destruct Hp as (Hi & Hk). destruct (F2_get fs ss i F Hi) as (v & Ev & (l & I & S & P)). cbn [f_step]. rewrite Ev. cbn [bind].
      rewrite <- (Permutation_length P) in Hk. destruct (nth_error l k) as [x|] eqn:Ex; [|apply nth_error_None in Ex; lia].
      rewrite (vat_ok es Hes v l k x I Ex). cbn [bind]. rewrite (kth_ok l _ k x S P Ex). eauto.
    - destruct Hp as (Hi & Hb). destruct (F2_get fs ss i F Hi) as (v & Ev & Rv). cbn [f_step]. rewrite Ev. cbn [bind].
      destruct (Hstep v _ o Rv Hb) as (v' & E & R'). rewrite E. cbn [bind].
      destruct (F2_wr fs ss i v' _ F Hi R') as (fs' & E' & F'). rewrite E'. cbn [bind]. eauto.
  Qed.
  Lemma f_run_ok ops : forall fs ss, F2 fs ss -> f_pres es key comp spec cost ss ops ->
    exists fs', run_ops (f_step e es dflt step) fs ops = Ok (fs', snd (f_spec_run key comp spec ss ops)) /\
      F2 fs' (fst (f_spec_run key comp spec ss ops)).
  Proof.
    induction ops as [|o t IH]; intros fs ss F Hp; cbn [run_ops f_spec_run].
    - exists fs. auto.
    - destruct Hp as (Ho & Ht). destruct (f_step_ok fs ss o F Ho) as (fs1 & E1 & F1). rewrite E1. cbn [bind].
      destruct (f_spec key comp spec ss o) as (ss1, r). cbn [fst snd] in *.
      destruct (IH fs1 ss1 F1 Ht) as (fs2 & E2 & F2'). rewrite E2. cbn [bind].
      destruct (f_spec_run key comp spec ss1 t) as (ss2, rs). cbn [fst snd] in *. eauto.
  Qed.
  Lemma F2_nil n : F2 (repeat vec_nil n) (repeat [] n).
  Proof. induction n; cbn [repeat]; constructor; auto. apply Rel_nil. Qed.
End P.

(** ** Own elements as arguments *)
Section OwnVec.
  Context {T : Type}.
  Variable e : env.
  Variable es : Z.
  Hypothesis Hes : (0 < es)%Z.
  Hypothesis H4 : (es mod 4 = 0)%Z.
  Hypothesis Henv : good_env e.
  Hypothesis Hmem : enough_memory e.
  Lemma insert_own_ok (v : vec T) l ip i x : Vinv es v l -> i < ip -> ip <= length l -> nth_error l i = Some x ->
    (es * Z.of_nat (length l + 1) <= vcap v)%Z ->
    exists v', insert_own e es v ip i = Ok v' /\ insert1 e es v ip x = Ok v'.
  Proof.
    intros H Hi Hip Hx Hc.
    assert (Hb : (es * Z.of_nat (length l + 1) <= 2 ^ 31)%Z) by (pose proof H as (_ & _ & _ & ?); lia).
    destruct (rot_good_4 es (Z.of_nat ip) (Z.of_nat (length l)) (Z.of_nat (length l + 1)) H4) as [G|G]; [|nia].
    destruct (insert_hole_ok e es Hes Henv Hmem v l ip 1 H Hip Hb G) as (v' & mv & r & E & C & S & L & B & W).
    specialize (W Hc). subst mv.
    unfold insert_own, insert1, insert_list. cbn [length]. rewrite E. cbn [bind]. rewrite C.
    assert (Hr : rd (map Some (firstn ip l) ++ repeat None 1 ++ map Some (skipn ip l) ++ repeat None r) i = Ok (Some x)).
    { unfold rd. rewrite nth_error_app1 by (rewrite map_length, firstn_length; lia).
      rewrite (map_nth_error Some i (firstn ip l) (d := x)); [reflexivity|].
      rewrite <- (firstn_skipn ip l) in Hx. rewrite nth_error_app1 in Hx by (rewrite firstn_length; lia). exact Hx. }
    rewrite Hr. cbn [bind].
    pose proof (construct_ok [x] (map Some (firstn ip l)) (map Some (skipn ip l) ++ repeat None r)) as D.
    cbn [length] in D. rewrite map_length, firstn_length, Nat.min_l in D by lia. rewrite D. cbn [bind].
    eexists. split; reflexivity.
  Qed.
  Lemma insert_own_UB (v : vec T) l ip i : Vinv es v l -> ip <= length l ->
    (es * Z.of_nat (length l + 1) <= 2 ^ 31)%Z -> (vcap v < es * Z.of_nat (length l + 1))%Z ->
    insert_own e es v ip i = UB.
  Proof.
    intros H Hip Hb Hc. unfold insert_own.
    destruct (rot_good_4 es (Z.of_nat ip) (Z.of_nat (length l)) (Z.of_nat (length l + 1)) H4) as [G|G]; [|nia].
    destruct (insert_hole_ok e es Hes Henv Hmem v l ip 1 H Hip Hb G) as (v' & mv & r & E & _).
    rewrite E. cbn [bind]. assert (mv = true); [|subst mv; reflexivity].
    unfold insert_hole in E. rewrite (Vinv_size es v l H) in E. replace (length l <? ip) with false in E by lia.
    destruct (reserve_ok e es Hes Hmem v l (bytes es (length l + 1)) false H ltac:(unfold bytes; exact Hb)) as (v1 & m1 & E1 & I1 & C1 & U1 & _).
    unfold vreserve in E. rewrite E1 in E. cbn [bind] in E.
    assert (m1 = true). { destruct m1; [reflexivity|]. specialize (U1 eq_refl). subst v1. unfold bytes in C1. lia. }
    subst m1. destruct (vreserve_bytes e es v1 (bytes es (length l + 1)) false) as [(v2 & m2)| | |]; cbn [bind] in E; try discriminate.
    destruct (rotate_cells _ _ _ _ _ _ _) as [c| | |]; cbn [bind] in E; try discriminate. injection E as _ <-. reflexivity.
  Qed.
End OwnVec.

Section OwnSet.
  Context {T : Type}.
  Variable e : env.
  Variable es : Z.
  Variable comp eqb : T -> T -> bool.
  Hypothesis Hes : (0 < es)%Z.
  Hypothesis H4 : (es mod 4 = 0)%Z.
  Hypothesis Henv : good_env e.
  Hypothesis Hmem : enough_memory e.
  Hypothesis Tot : StrictWeak comp.
  Hypothesis Deq : EqvOf comp eqb.
  Notation key := (fun x : T => x).
  Lemma lower_own l i x : StrictlyAscending (klt key comp) l -> nth_error l i = Some x ->
    lower_bound comp l 0 (length l) x = Ok i.
  Proof.
    intros S E. apply nth_error_split in E. destruct E as (a & b & -> & <-).
    apply (split_lower key comp Tot (a ++ x :: b) x a [x] b).
    apply StronglySorted_app_iff in S. destruct S as (_ & Sb & Hab).
    split; [reflexivity|]. split; [intros y Hy; apply (Hab y x Hy); now left|]. split.
    - intros y [<-|[]]. rewrite (sw_irrefl _ Tot). auto.
    - intros y Hy. inversion Sb as [|? ? _ Hf]; subst. rewrite Forall_forall in Hf. apply (Hf y Hy).
  Qed.
  Lemma set_insert_own_ok v l i : Vinv es v l -> StrictlyAscending (klt key comp) l -> i < length l ->
    set_insert_own e es comp v i = Ok (v, i, false).
  Proof.
    intros I S Hi. destruct (nth_error l i) as [x|] eqn:E; [|apply nth_error_None in E; lia].
    unfold set_insert_own, s_lower. rewrite (vat_ok es Hes v l i x I E). cbn [bind].
    rewrite (contents_ok es Hes v l I). cbn [bind]. rewrite (lower_own l i x S E). cbn [bind].
    rewrite (Vinv_size es v l I). replace (i =? length l) with false by lia.
    rewrite (vat_ok es Hes v l i x I E). cbn [bind]. rewrite (sw_irrefl _ Tot). reflexivity.
  Qed.
  Lemma set_insert_range_own_ok v l : Vinv es v l -> StrictlyAscending (klt key comp) l ->
    forall n i, i + n <= length l -> set_insert_range_own e es comp v i n = Ok v.
  Proof.
    intros I S. induction n as [|n IH]; intros i H; cbn [set_insert_range_own]; [reflexivity|].
    rewrite (set_insert_own_ok v l i I S) by lia. cbn [bind]. apply IH. lia.
  Qed.
  Lemma set_erase_own_ok v l i : Vinv es v l -> StrictlyAscending (klt key comp) l -> i < length l ->
    exists v', set_erase_own e es comp eqb v i = Ok v' /\ Vinv es v' (firstn i l ++ skipn (S i) l).
  Proof.
    intros I S Hi. destruct (nth_error l i) as [x|] eqn:E; [|apply nth_error_None in E; lia].
    unfold set_erase_own, s_find, s_lower. rewrite (vat_ok es Hes v l i x I E). cbn [bind].
    rewrite (contents_ok es Hes v l I). cbn [bind]. rewrite (lower_own l i x S E). cbn [bind].
    rewrite (Vinv_size es v l I). replace (i =? length l) with false by lia. cbn [bind].
    rewrite (vat_ok es Hes v l i x I E). cbn [bind]. rewrite (Deq x x). unfold equiv. rewrite (sw_irrefl _ Tot). cbn [negb andb bind].
    replace (i =? length l) with false by lia.
    destruct (erase1_ok e es Hes Henv v l i I) as (v' & E' & I'); [lia|]. exists v'. split; [exact E'|].
    unfold seq_erase in I'. rewrite Nat.add_1_r in I'. exact I'.
  Qed.
  Lemma upper_own l i x : Ascending (klt key comp) l -> nth_error l i = Some x ->
    exists ip, i < ip <= length l /\ upper_bound comp l 0 (length l) x = Ok ip.
  Proof.
    intros S E. destruct (split_exists key comp Tot l x S) as (lo & eq & hi & HS).
    pose proof (split_upper key comp Tot _ _ _ _ _ HS) as U. destruct HS as (El & H1 & H2 & H3).
    exists (length lo + length eq). split; [|exact U].
    assert (L : length l = length lo + length eq + length hi) by (rewrite El, !app_length; lia).
    destruct (Nat.lt_ge_cases i (length lo + length eq)) as [Hlt|Hge]; [lia|].
    exfalso. rewrite El, app_assoc, nth_error_app2 in E by (rewrite app_length; lia).
    apply nth_error_In in E. specialize (H3 x E). cbn beta in H3. rewrite (sw_irrefl _ Tot) in H3. discriminate.
  Qed.
  Lemma mset_insert_own_ok v l i x : Vinv es v l -> Ascending (klt key comp) l -> nth_error l i = Some x ->
    (es * Z.of_nat (length l + 1) <= vcap v)%Z ->
    mset_insert_own e es comp v i = mset_insert e es comp v x /\ exists r, mset_insert_own e es comp v i = Ok r.
  Proof.
    intros I S E Hc. unfold mset_insert_own, mset_insert, s_upper. rewrite (vat_ok es Hes v l i x I E). cbn [bind].
    rewrite (contents_ok es Hes v l I). cbn [bind]. destruct (upper_own l i x S E) as (ip & Hip & U). rewrite U. cbn [bind].
    destruct (insert_own_ok e es Hes H4 Henv Hmem v l ip i x I ltac:(lia) ltac:(lia) E Hc) as (v' & E1 & E2).
    rewrite E1, E2. cbn [bind]. eauto.
  Qed.
  Lemma mset_insert_own_UB v l i x : Vinv es v l -> Ascending (klt key comp) l -> nth_error l i = Some x ->
    (es * Z.of_nat (length l + 1) <= 2 ^ 31)%Z -> (vcap v < es * Z.of_nat (length l + 1))%Z ->
    mset_insert_own e es comp v i = UB.
  Proof.
    intros I S E Hb Hc. unfold mset_insert_own, s_upper. rewrite (vat_ok es Hes v l i x I E). cbn [bind].
    rewrite (contents_ok es Hes v l I). cbn [bind]. destruct (upper_own l i x S E) as (ip & Hip & U). rewrite U. cbn [bind].
    rewrite (insert_own_UB e es Hes H4 Henv Hmem v l ip i I); [reflexivity|lia|exact Hb|exact Hc].
  Qed.
  Lemma mset_erase_own_ok v l i x : Vinv es v l -> nth_error l i = Some x ->
    mset_erase_own e es comp v i = mset_erase e es comp v x.
  Proof.
    intros I E. unfold mset_erase_own, mset_erase. rewrite (vat_ok es Hes v l i x I E). reflexivity.
  Qed.
End OwnSet.

Section OwnMap.
  Context {K V : Type}.
  Variable e : env.
  Variable es : Z.
  Variable comp keqb : K -> K -> bool.
  Hypothesis Hes : (0 < es)%Z.
  Hypothesis H4 : (es mod 4 = 0)%Z.
  Hypothesis Henv : good_env e.
  Hypothesis Hmem : enough_memory e.
  Hypothesis Tot : StrictWeak comp.
  Notation lt := (klt (@fst K V) comp).
  Notation Sp := (Split (@fst K V) comp).
  Lemma own_split l i p : StrictlyAscending lt l -> nth_error l i = Some p ->
    exists a b, l = a ++ p :: b /\ length a = i /\ Sp l (fst p) a [p] b.
  Proof.
    intros S E. apply nth_error_split in E. destruct E as (a & b & -> & <-). exists a, b. split; [reflexivity|]. split; [reflexivity|].
    apply StronglySorted_app_iff in S. destruct S as (_ & Sb & Hab).
    split; [reflexivity|]. split; [intros y Hy; apply (Hab y p Hy); now left|]. split.
    - intros y [<-|[]]. rewrite (sw_irrefl _ Tot). auto.
    - intros y Hy. inversion Sb as [|? ? _ Hf]; subst. rewrite Forall_forall in Hf. apply (Hf y Hy).
  Qed.
  Lemma map_insert_own_ok (v : vec (K * V)) l i : Vinv es v l -> StrictlyAscending lt l -> i < length l ->
    map_insert_own e es comp v i = Ok (v, i, false).
  Proof.
    intros I S Hi. destruct (nth_error l i) as [p|] eqn:E; [|apply nth_error_None in E; lia].
    destruct (own_split l i p S E) as (a & b & El & La & HS).
    unfold map_insert_own. rewrite (vat_ok es Hes v l i p I E). cbn [bind].
    rewrite (m_lower_ok es comp Hes Tot v l I (fst p) a [p] b HS), La. cbn [bind].
    rewrite (Vinv_size es v l I). replace (i =? length l) with false by lia.
    rewrite (vat_ok es Hes v l i p I E). cbn [bind]. rewrite (sw_irrefl _ Tot). reflexivity.
  Qed.
  Lemma map_erase_own_ok (v : vec (K * V)) l i : Vinv es v l -> StrictlyAscending lt l -> i < length l ->
    exists v', map_erase_own e es comp v i = Ok v' /\ Vinv es v' (firstn i l ++ skipn (S i) l).
  Proof.
    intros I S Hi. destruct (nth_error l i) as [p|] eqn:E; [|apply nth_error_None in E; lia].
    destruct (own_split l i p S E) as (a & b & El & La & HS).
    unfold map_erase_own, m_find. rewrite (vat_ok es Hes v l i p I E). cbn [bind].
    rewrite (m_lower_ok es comp Hes Tot v l I (fst p) a [p] b HS), La. cbn [bind].
    rewrite (Vinv_size es v l I). replace (i <? length l) with true by lia.
    rewrite (vat_ok es Hes v l i p I E). cbn [bind]. rewrite (sw_irrefl _ Tot). cbn [bind].
    replace (i =? length l) with false by lia.
    destruct (erase1_ok e es Hes Henv v l i I) as (v' & E' & I'); [lia|]. exists v'. split; [exact E'|].
    unfold seq_erase in I'. rewrite Nat.add_1_r in I'. exact I'.
  Qed.
  Lemma mupper_own (v : vec (K * V)) l i p : Vinv es v l -> Ascending lt l -> nth_error l i = Some p ->
    exists ip, i < ip <= length l /\ m_upper comp v (fst p) = Ok ip.
  Proof.
    intros I S E. destruct (split_exists (@fst K V) comp Tot l (fst p) S) as (lo & eq & hi & HS).
    pose proof (m_upper_ok es comp Hes Tot v l I _ _ _ _ HS) as U. destruct HS as (El & H1 & H2 & H3).
    exists (length lo + length eq). split; [|exact U].
    assert (L : length l = length lo + length eq + length hi) by (rewrite El, !app_length; lia).
    destruct (Nat.lt_ge_cases i (length lo + length eq)) as [Hlt|Hge]; [lia|].
    exfalso. rewrite El, app_assoc, nth_error_app2 in E by (rewrite app_length; lia).
    apply nth_error_In in E. specialize (H3 p E). rewrite (sw_irrefl _ Tot) in H3. discriminate.
  Qed.
  Lemma mmap_insert_own_ok (v : vec (K * V)) l i p : Vinv es v l -> Ascending lt l -> nth_error l i = Some p ->
    (es * Z.of_nat (length l + 1) <= vcap v)%Z ->
    mmap_insert_own e es comp v i = mmap_insert e es comp v p /\ exists r, mmap_insert_own e es comp v i = Ok r.
  Proof.
    intros I S E Hc. unfold mmap_insert_own, mmap_insert. rewrite (vat_ok es Hes v l i p I E). cbn [bind].
    destruct (mupper_own v l i p I S E) as (ip & Hip & U). rewrite U. cbn [bind].
    destruct (insert_own_ok e es Hes H4 Henv Hmem v l ip i p I ltac:(lia) ltac:(lia) E Hc) as (v' & E1 & E2).
    rewrite E1, E2. cbn [bind]. eauto.
  Qed.
  Lemma mmap_insert_own_UB (v : vec (K * V)) l i p : Vinv es v l -> Ascending lt l -> nth_error l i = Some p ->
    (es * Z.of_nat (length l + 1) <= 2 ^ 31)%Z -> (vcap v < es * Z.of_nat (length l + 1))%Z ->
    mmap_insert_own e es comp v i = UB.
  Proof.
    intros I S E Hb Hc. unfold mmap_insert_own. rewrite (vat_ok es Hes v l i p I E). cbn [bind].
    destruct (mupper_own v l i p I S E) as (ip & Hip & U). rewrite U. cbn [bind].
    rewrite (insert_own_UB e es Hes H4 Henv Hmem v l ip i I); [reflexivity|lia|exact Hb|exact Hc].
  Qed.
End OwnMap.
