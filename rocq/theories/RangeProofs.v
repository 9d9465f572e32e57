From Verif Require Import Base Order RangeSpec RangeModel.

Section R.
  Context {A : Type}.
  Implicit Types (l : list A) (p : A -> bool).

  (** ** FirstOrEnd helpers *)
  Lemma FOE_S (P : nat -> Prop) len n :
    ~ P 0 -> FirstOrEnd (fun i => P (S i)) len n -> FirstOrEnd P (S len) (S n).
  Proof.
    intros H0 [(H1 & H2 & H3)|(H1 & H3)].
    - left. split; [lia|]. split; [auto|]. intros [|i] Hi; [auto|]. apply H3. lia.
    - right. split; [lia|]. intros [|i] Hi; [auto|]. apply H3. lia.
  Qed.
  Lemma FOE_0 (P : nat -> Prop) len : P 0 -> FirstOrEnd P (S len) 0.
  Proof. intros H. left. split; [lia|]. split; [auto|]. intros; lia. Qed.
  Lemma FOE_nil (P : nat -> Prop) : FirstOrEnd P 0 0.
  Proof. right. split; [auto|]. intros; lia. Qed.
  Lemma FOE_ext (P Q : nat -> Prop) len n :
    (forall i, P i <-> Q i) -> FirstOrEnd P len n -> FirstOrEnd Q len n.
  Proof.
    intros E [(H1 & H2 & H3)|(H1 & H3)]; [left|right]; repeat split; auto.
    - now apply E.
    - intros i Hi Hq. apply (H3 i Hi). now apply E.
    - intros i Hi Hq. apply (H3 i Hi). now apply E.
  Qed.
  Lemma FOE_unique (P : nat -> Prop) len n m :
    FirstOrEnd P len n -> FirstOrEnd P len m -> n = m.
  Proof.
    intros [(H1 & H2 & H3)|(H1 & H3)] [(K1 & K2 & K3)|(K1 & K3)]; subst; auto.
    - destruct (Nat.lt_trichotomy n m) as [H|[H|H]]; auto; exfalso; firstorder.
    - exfalso. apply (K3 n); auto.
    - exfalso. apply (H3 m); auto.
  Qed.

  Lemma find_if_first p l : FirstOrEnd (holds_at p l) (length l) (find_if p l).
  Proof.
    induction l as [|x t IH]; simpl; [apply FOE_nil|].
    destruct (p x) eqn:E; simpl.
    - apply FOE_0. exists x. auto.
    - apply FOE_S.
      + intros (y & Hy & Hp). simpl in Hy. inversion Hy; subst. congruence.
      + eapply FOE_ext; [|exact IH]. intros i. unfold holds_at. simpl. tauto.
  Qed.

  Lemma find_find_if eqb l v : find eqb l v = find_if (fun x => eqb x v) l.
  Proof. induction l as [|x t IH]; simpl; [auto|]. now rewrite IH. Qed.

  Lemma find_first eqb l v :
    FirstOrEnd (holds_at (fun x => eqb x v) l) (length l) (find eqb l v).
  Proof. rewrite find_find_if. apply find_if_first. Qed.

  Lemma adjacent_find_loop_first (p : A -> A -> bool) prev l :
    FirstOrEnd (holds_at2 p (prev :: l)) (length (prev :: l)) (adjacent_find_loop p prev l).
  Proof.
    revert prev. induction l as [|x t IH]; intros prev; simpl.
    - right. split; [auto|]. intros i Hi (a & b & _ & Hb & _).
      assert (i = 0) by lia. subst. simpl in Hb. discriminate.
    - destruct (p prev x) eqn:E.
      + apply FOE_0. exists prev, x. auto.
      + apply FOE_S.
        * intros (a & b & Ha & Hb & Hp). simpl in *. inversion Ha; inversion Hb; subst. congruence.
        * eapply FOE_ext; [|exact (IH x)]. intros i. unfold holds_at2. simpl. tauto.
  Qed.
  Lemma adjacent_find_first (p : A -> A -> bool) l :
    FirstOrEnd (holds_at2 p l) (length l) (adjacent_find p l).
  Proof. destruct l; [apply FOE_nil|apply adjacent_find_loop_first]. Qed.

  Lemma mismatch_first {B} (comp : A -> B -> bool) l1 (l2 : list B) :
    length l1 <= length l2 ->
    exists n, mismatch comp l1 l2 = Ok n /\
      FirstOrEnd (fun i => exists x y, nth_error l1 i = Some x /\ nth_error l2 i = Some y
                                       /\ comp x y = false) (length l1) n.
  Proof.
    revert l2. induction l1 as [|x t IH]; intros l2 Hl; simpl.
    - exists 0. split; [auto|apply FOE_nil].
    - destruct l2 as [|y t2]; simpl in Hl; [lia|].
      destruct (comp x y) eqn:E.
      + destruct (IH t2) as (n & -> & Hn); [lia|]. exists (S n). split; [auto|].
        apply FOE_S.
        * intros (a & b & Ha & Hb & Hc). simpl in *. inversion Ha; inversion Hb; subst. congruence.
        * eapply FOE_ext; [|exact Hn]. intros i. simpl. tauto.
      + exists 0. split; [auto|]. apply FOE_0. exists x, y. auto.
  Qed.

  Lemma equal_iff {B} (comp : A -> B -> bool) l1 (l2 : list B) :
    length l1 <= length l2 ->
    exists b, equal comp l1 l2 = Ok b /\
      (b = true <-> forall i x y, nth_error l1 i = Some x -> nth_error l2 i = Some y ->
                                  comp x y = true).
  Proof.
    intros H. destruct (mismatch_first comp l1 l2 H) as (n & E & Hn).
    unfold equal. rewrite E. simpl. eexists. split; [reflexivity|].
    rewrite Nat.eqb_eq. destruct Hn as [(H1 & (x & y & Hx & Hy & Hc) & H3)|(-> & H3)].
    - split; [lia|]. intros Hall. specialize (Hall _ _ _ Hx Hy). congruence.
    - split; [intros _|auto]. intros i x y Hx Hy. destruct (comp x y) eqn:Ec; [auto|].
      exfalso. apply (H3 i); [apply nth_error_Some; congruence|]. eauto 6.
  Qed.

  Lemma count_if_countp p l : count_if p l = countp p l.
  Proof.
    unfold count_if. enough (H : forall n, count_if_loop p l n = n + countp p l) by apply H.
    induction l as [|x t IH]; intros n; simpl.
    - unfold countp; simpl; lia.
    - rewrite IH, countp_cons. destruct (p x); lia.
  Qed.
  Lemma count_countp eqb l v : count eqb l v = countp (fun x => eqb x v) l.
  Proof.
    unfold count. enough (H : forall n, count_loop eqb l v n = n + countp (fun x => eqb x v) l) by apply H.
    induction l as [|x t IH]; intros n; simpl.
    - unfold countp; simpl; lia.
    - rewrite IH, countp_cons. destruct (eqb x v); lia.
  Qed.

  Lemma transform_map {B} (op : A -> B) l : transform op l = map op l.
  Proof. induction l; simpl; congruence. Qed.
  Lemma transform2_combine {B C} (op : A -> B -> C) l1 (l2 : list B) :
    length l1 <= length l2 ->
    transform2 op l1 l2 = Ok (map (fun xy => op (fst xy) (snd xy)) (combine l1 l2)).
  Proof.
    revert l2. induction l1 as [|x t IH]; intros [|y t2] H; simpl in *; try lia; auto.
    rewrite IH by lia. reflexivity.
  Qed.
  Lemma replace_map eqb l o n :
    replace eqb l o n = map (fun x => if eqb x o then n else x) l.
  Proof. induction l; simpl; congruence. Qed.
  Lemma replace_if_map p l n :
    replace_if p l n = map (fun x => if p x then n else x) l.
  Proof. induction l; simpl; congruence. Qed.

  Lemma copy_out_app l r : copy_out l r = r ++ l.
  Proof.
    revert r. induction l as [|x t IH]; intros r; simpl; [now rewrite app_nil_r|].
    rewrite IH, <- app_assoc. reflexivity.
  Qed.

  Lemma reverse_copy_rev l : reverse_copy l = Ok (rev l).
  Proof.
    unfold reverse_copy.
    enough (H : forall n r, n <= length l ->
              reverse_copy_loop n l n r = Ok (r ++ rev (firstn n l))).
    { rewrite H by lia. now rewrite firstn_all. }
    induction n as [|n IH]; intros r Hn; simpl; [now rewrite app_nil_r|].
    rewrite Nat.sub_0_r. destruct (rd_lt l n) as (x & E & En); [lia|].
    rewrite E. simpl. rewrite IH by lia. f_equal.
    rewrite <- app_assoc. f_equal. simpl.
    apply nth_error_split in En. destruct En as (l1 & l2 & -> & Hl1).
    subst n. rewrite firstn_app, Nat.sub_diag, firstn_all. simpl. rewrite app_nil_r.
    replace (match l1 ++ x :: l2 with [] => [] | a :: l => a :: firstn (length l1) l end)
      with (firstn (S (length l1)) (l1 ++ x :: l2)) by reflexivity.
    replace (S (length l1)) with (length l1 + 1) by lia.
    rewrite firstn_app_2. simpl. now rewrite rev_app_distr.
  Qed.

  Lemma rotate_copy_app l1 l2 r :
    rotate_copy (l1 ++ l2) (length l1) r = r ++ l2 ++ l1.
  Proof.
    unfold rotate_copy. rewrite !copy_out_app.
    rewrite firstn_app, Nat.sub_diag, firstn_all, skipn_app, skipn_all, Nat.sub_diag.
    simpl. now rewrite app_nil_r, app_assoc.
  Qed.

  (** ** Filters *)
  Lemma copy_if_filter p l r : copy_if p l r = r ++ filter p l.
  Proof.
    revert r. induction l as [|x t IH]; intros r; simpl; [now rewrite app_nil_r|].
    rewrite IH. destruct (p x); [rewrite <- app_assoc|]; reflexivity.
  Qed.
  Lemma remove_copy_if_filter p l r :
    remove_copy_if p l r = r ++ filter (fun x => negb (p x)) l.
  Proof.
    revert r. induction l as [|x t IH]; intros r; simpl; [now rewrite app_nil_r|].
    rewrite IH. destruct (p x); simpl; [|rewrite <- app_assoc]; reflexivity.
  Qed.
  Lemma remove_copy_filter eqb l v r :
    remove_copy eqb l v r = r ++ filter (fun x => negb (eqb x v)) l.
  Proof.
    revert r. induction l as [|x t IH]; intros r; simpl; [now rewrite app_nil_r|].
    rewrite IH. destruct (eqb x v); simpl; [|rewrite <- app_assoc]; reflexivity.
  Qed.

  Lemma skip_less_spec pos (r : list nat) :
    StronglySorted le r ->
    StronglySorted le (skip_less pos r) /\
    (forall q, pos <= q -> (In q (skip_less pos r) <-> In q r)) /\
    (forall q, In q (skip_less pos r) -> pos <= q).
  Proof.
    induction 1 as [|q t Hs IH Hf]; simpl; [split; [constructor|split; [tauto|intros ? []]]|].
    destruct (Nat.ltb_spec q pos) as [Hq|Hq].
    - destruct IH as (H1 & H2 & H3). split; [auto|]. split; [|auto].
      intros q' Hq'. rewrite H2 by auto. split; [auto|]. intros [->|H]; [lia|auto].
    - split; [constructor; auto|]. split; [intros; simpl; tauto|].
      intros q' [<-|H]; [auto|]. rewrite Forall_forall in Hf. specialize (Hf _ H). lia.
  Qed.

  (** [remove_copy] by iterators drops exactly the listed positions. *)
  Fixpoint keep_from (pos : nat) (r : list nat) l : list A :=
    match l with
    | [] => []
    | x :: t => if existsb (Nat.eqb pos) r then keep_from (S pos) r t
                else x :: keep_from (S pos) r t
    end.
  Lemma keep_from_ext r r' l pos :
    (forall q, pos <= q -> (In q r <-> In q r')) -> keep_from pos r l = keep_from pos r' l.
  Proof.
    revert pos. induction l as [|x t IH]; intros pos H; simpl; [auto|].
    rewrite (IH (S pos)) by (intros; apply H; lia).
    replace (existsb (Nat.eqb pos) r) with (existsb (Nat.eqb pos) r'); [auto|].
    apply eq_true_iff_eq. rewrite !existsb_exists.
    split; intros (q & Hq & Hp); apply Nat.eqb_eq in Hp; subst q; exists pos;
      rewrite Nat.eqb_refl; (split; [apply H; auto|auto]).
  Qed.
  Lemma remove_copy_its_keep l pos r res :
    StronglySorted le r -> remove_copy_its l pos r res = res ++ keep_from pos r l.
  Proof.
    revert pos r res. induction l as [|x t IH]; intros pos r res Hs; simpl;
      [now rewrite app_nil_r|].
    destruct (skip_less_spec pos r Hs) as (H1 & H2 & H3).
    rewrite IH by auto.
    rewrite (keep_from_ext (skip_less pos r) r t (S pos)) by (intros; apply H2; lia).
    assert (E : existsb (Nat.eqb pos) r
                = match skip_less pos r with [] => false | q :: _ => Nat.eqb pos q end).
    { apply eq_true_iff_eq. rewrite existsb_exists. split.
      - intros (q & Hq & Hp). apply Nat.eqb_eq in Hp. subst q.
        apply H2 in Hq; [|auto]. destruct (skip_less pos r) as [|q u]; [contradiction|].
        apply Nat.eqb_eq. destruct Hq as [->|Hq]; [auto|].
        assert (pos <= q) by (apply H3; left; auto).
        inversion H1 as [|? ? _ Hf]; subst. rewrite Forall_forall in Hf.
        specialize (Hf _ Hq). lia.
      - destruct (skip_less pos r) as [|q u] eqn:E; [discriminate|].
        intros Hp. apply Nat.eqb_eq in Hp. subst q. exists pos. rewrite Nat.eqb_refl.
        split; [|auto]. apply H2; [auto|]. left; auto. }
    rewrite E. destruct (skip_less pos r) as [|q u]; simpl.
    - now rewrite <- app_assoc.
    - destruct (Nat.eqb pos q); simpl; [auto|now rewrite <- app_assoc].
  Qed.

  Lemma unique_copy_loop_heads (p : A -> A -> bool) l res cur pr :
    (forall x y z, p y x = true -> p z y = p z x) ->
    (forall z, p z pr = p z cur) ->
    unique_copy_loop p l res cur
    = res ++ map snd (filter (fun xy => negb (p (snd xy) (fst xy))) (combine (pr :: l) l)).
  Proof.
    intros Hp. revert res cur pr. induction l as [|x t IH]; intros res cur pr Hpr; simpl.
    - now rewrite app_nil_r.
    - rewrite Hpr. destruct (p x cur) eqn:E; simpl.
      + apply IH. intros z. now apply Hp.
      + rewrite (IH _ x x) by auto. rewrite <- app_assoc. reflexivity.
  Qed.
  Lemma unique_copy_heads (p : A -> A -> bool) l res :
    (forall x y z, p y x = true -> p z y = p z x) ->
    unique_copy p l res = res ++ run_heads p l.
  Proof.
    intros Hp. destruct l as [|x t]; simpl; [now rewrite app_nil_r|].
    rewrite (unique_copy_loop_heads p t _ x x) by auto.
    rewrite <- app_assoc. reflexivity.
  Qed.

  (** ** search_n *)
  Lemma search_n_loop_first (comp : A -> A -> bool) v count pre l n :
    0 < count -> n < count -> n <= length pre ->
    (forall k, length pre - n <= k < length pre -> holds_at (fun x => comp x v) (pre ++ l) k) ->
    (n < length pre -> ~ holds_at (fun x => comp x v) (pre ++ l) (length pre - n - 1)) ->
    (forall i, i + count <= length pre ->
       ~ (forall k, k < count -> holds_at (fun x => comp x v) (pre ++ l) (i + k))) ->
    FirstOrEnd (fun i => forall k, k < count -> holds_at (fun x => comp x v) (pre ++ l) (i + k))
      (length (pre ++ l)) (search_n_loop comp l (length pre) n count v).
  Proof.
    intros Hc. revert pre n. induction l as [|x t IH]; intros pre n Hn Hnp Hrun Hbrk Hnone; simpl.
    - rewrite app_nil_r in *. right. split; [auto|].
      intros i Hi Hall. destruct (Nat.le_gt_cases (i + count) (length pre)) as [H|H].
      + apply (Hnone i H Hall).
      + destruct (Hall (count - 1)) as (y & Hy & _); [lia|].
        assert (i + (count - 1) < length pre) by (apply nth_error_Some; congruence). lia.
    - assert (Hx : nth_error (pre ++ x :: t) (length pre) = Some x)
        by (rewrite nth_error_app2, Nat.sub_diag by lia; auto).
      destruct (comp x v) eqn:E; simpl.
      + destruct count as [|c]; [lia|].
        change (match S c with 0 => false | S m' => Nat.eqb n m' end) with (Nat.eqb n c).
        destruct (Nat.eqb_spec n c) as [->|Hne].
        * left. rewrite app_length. simpl. split; [lia|]. split.
          -- intros k Hk. destruct (Nat.eq_dec k c) as [->|].
             ++ replace (length pre - c + c) with (length pre) by lia. exists x. auto.
             ++ apply Hrun. lia.
          -- intros i Hi Hall. 
             destruct (Nat.le_gt_cases (i + S c) (length pre)) as [H|H]; [apply (Hnone i H Hall)|].
             lia.
        * replace (pre ++ x :: t) with ((pre ++ [x]) ++ t) in * by (rewrite <- app_assoc; auto).
          specialize (IH (pre ++ [x]) (S n)).
          replace (length (pre ++ [x])) with (S (length pre)) in IH by (rewrite app_length; simpl; lia).
          apply IH; try lia.
          -- intros k Hk. destruct (Nat.eq_dec k (length pre)) as [->|]; [exists x; auto|].
             apply Hrun. lia.
          -- intros Hlt. replace (S (length pre) - S n - 1) with (length pre - n - 1) by lia.
             apply Hbrk. lia.
          -- intros i Hi Hall.
             destruct (Nat.le_gt_cases (i + S c) (length pre)) as [H|H]; [apply (Hnone i H Hall)|].
             assert (n < length pre) by lia.
             apply (Hbrk H0). specialize (Hall (length pre - n - 1 - i)).
             replace (i + (length pre - n - 1 - i)) with (length pre - n - 1) in Hall by lia.
             apply Hall. lia.
      + assert (Hnx : ~ holds_at (fun y => comp y v) (pre ++ x :: t) (length pre)).
        { intros (y & Hy & Hcy). rewrite Hx in Hy. inversion Hy; subst. congruence. }
        replace (pre ++ x :: t) with ((pre ++ [x]) ++ t) in * by (rewrite <- app_assoc; auto).
        specialize (IH (pre ++ [x]) 0).
        replace (length (pre ++ [x])) with (S (length pre)) in IH by (rewrite app_length; simpl; lia).
        apply IH; try lia.
        * intros _. replace (S (length pre) - 0 - 1) with (length pre) by lia. auto.
        * intros i Hi Hall.
          destruct (Nat.le_gt_cases (i + count) (length pre)) as [H|H]; [apply (Hnone i H Hall)|].
          apply Hnx. specialize (Hall (length pre - i)).
          replace (i + (length pre - i)) with (length pre) in Hall by lia. apply Hall. lia.
  Qed.
  Lemma search_n_first (comp : A -> A -> bool) l count v :
    0 < count ->
    FirstOrEnd (fun i => forall k, k < count -> holds_at (fun x => comp x v) l (i + k))
      (length l) (search_n comp l count v).
  Proof.
    intros Hc. apply (search_n_loop_first comp v count [] l 0); auto; simpl; try lia.
  Qed.

  Lemma any_match_exists {B} (comp : A -> B -> bool) x (l2 : list B) :
    any_match comp x l2 = true <-> exists y, In y l2 /\ comp x y = true.
  Proof.
    induction l2 as [|y t IH]; simpl.
    - split; [discriminate|intros (y & [] & _)].
    - destruct (comp x y) eqn:E.
      + split; [intros _; exists y; auto|auto].
      + rewrite IH. split; intros (z & Hz & Hc); exists z; [auto|].
        destruct Hz as [->|Hz]; [congruence|auto].
  Qed.
  Lemma find_first_of_first {B} (comp : A -> B -> bool) l1 (l2 : list B) :
    FirstOrEnd (fun i => exists x y, nth_error l1 i = Some x /\ In y l2 /\ comp x y = true)
      (length l1) (find_first_of comp l1 l2).
  Proof.
    induction l1 as [|x t IH]; simpl; [apply FOE_nil|].
    destruct (any_match comp x l2) eqn:E.
    - apply FOE_0. apply any_match_exists in E. destruct E as (y & Hy & Hc). exists x, y. auto.
    - apply FOE_S.
      + intros (x' & y & Hx & Hy & Hc). simpl in Hx. inversion Hx; subst.
        assert (any_match comp x' l2 = true) by (apply any_match_exists; eauto). congruence.
      + exact IH.
  Qed.

  (** ** is_sorted, lexicographical_compare, extremes *)
  Lemma is_sorted_loop_iff lt x l : StrictWeak lt ->
    is_sorted_loop lt x l = true <-> Ascending lt (x :: l).
  Proof.
    intros W. revert x. induction l as [|y t IH]; intros x; simpl.
    - split; [intros _; repeat constructor|auto].
    - destruct (lt y x) eqn:E.
      + split; [discriminate|]. intros H. inversion H as [|? ? _ Hf]; subst.
        inversion Hf; subst. congruence.
      + rewrite IH. split; intros H.
        * constructor; [exact H|]. inversion H as [|? ? _ Hf]; subst.
          constructor; [auto|]. rewrite Forall_forall in *. intros z Hz.
          eapply sw_le_trans; eauto.
        * now inversion H.
  Qed.
  Lemma is_sorted_iff lt l : StrictWeak lt -> is_sorted lt l = true <-> Ascending lt l.
  Proof.
    intros W. destruct l as [|x t]; simpl; [split; [intros _; constructor|auto]|].
    now apply is_sorted_loop_iff.
  Qed.

  Lemma lex_iff lt l1 l2 : StrictWeak lt ->
    lexicographical_compare lt l1 l2 = true <-> LexLt lt l1 l2.
  Proof.
    intros W. revert l2. induction l1 as [|x t1 IH]; intros [|y t2]; simpl.
    - split; [discriminate|]. intros (n & _ & H). destruct n; simpl in H; contradiction.
    - split; [intros _|auto]. exists 0. split; [intros; lia|]. simpl. auto.
    - split; [discriminate|]. intros (n & H1 & H2). destruct n; simpl in H2; [contradiction|].
      destruct (nth_error t1 n); contradiction.
    - destruct (lt x y) eqn:E.
      + split; [intros _|auto]. exists 0. split; [intros; lia|]. simpl. auto.
      + destruct (lt y x) eqn:E2.
        * split; [discriminate|]. intros (n & H1 & H2). destruct n; simpl in H2; [congruence|].
          destruct (H1 0) as (a & b & Ha & Hb & Hc & Hd); [lia|]. simpl in *.
          inversion Ha; inversion Hb; subst. congruence.
        * rewrite IH. split; intros (n & H1 & H2).
          -- exists (S n). split; [|exact H2]. intros [|i] Hi; [exists x, y; auto|].
             apply H1. lia.
          -- destruct n as [|n]; [simpl in H2; congruence|]. exists n. split; [|exact H2].
             intros i Hi. apply (H1 (S i)). lia.
  Qed.

  Lemma max_element_loop_spec lt pre l r rv : StrictWeak lt ->
    r <= length pre -> nth_error (pre ++ l) r = Some rv ->
    (forall i x, i < length pre -> nth_error (pre ++ l) i = Some x -> lt rv x = false) ->
    (forall i x, i < r -> nth_error (pre ++ l) i = Some x -> lt x rv = true) ->
    exists m mv, max_element_loop lt l (length pre) r rv = m /\ nth_error (pre ++ l) m = Some mv /\
      (forall i x, nth_error (pre ++ l) i = Some x -> lt mv x = false) /\
      (forall i x, i < m -> nth_error (pre ++ l) i = Some x -> lt x mv = true).
  Proof.
    intros W. revert pre r rv. induction l as [|x t IH]; intros pre r rv Hr Hrv Hmax Hfirst; simpl.
    - exists r, rv. repeat split; auto. intros i x Hx. apply (Hmax i); auto.
      assert (i < length (pre ++ [])) by (apply nth_error_Some; congruence).
      rewrite app_nil_r in *. auto.
    - assert (Hx : nth_error (pre ++ x :: t) (length pre) = Some x)
        by (rewrite nth_error_app2, Nat.sub_diag by lia; auto).
      replace (pre ++ x :: t) with ((pre ++ [x]) ++ t) in * by (rewrite <- app_assoc; auto).
      destruct (lt rv x) eqn:E.
      + specialize (IH (pre ++ [x]) (length pre) x).
        replace (length (pre ++ [x])) with (S (length pre)) in IH by (rewrite app_length; simpl; lia).
        apply IH; auto.
        * intros i y Hi Hy. destruct (Nat.eq_dec i (length pre)) as [->|].
          -- rewrite Hx in Hy. inversion Hy; subst. apply sw_irrefl; auto.
          -- eapply sw_asym; auto. eapply sw_le_lt_trans; eauto. apply (Hmax i); auto. lia.
        * intros i y Hi Hy. eapply sw_le_lt_trans; eauto.
      + specialize (IH (pre ++ [x]) r rv).
        replace (length (pre ++ [x])) with (S (length pre)) in IH by (rewrite app_length; simpl; lia).
        apply IH; auto.
        intros i y Hi Hy. destruct (Nat.eq_dec i (length pre)) as [->|].
        * rewrite Hx in Hy. now inversion Hy; subst.
        * apply (Hmax i); auto. lia.
  Qed.
  Lemma max_element_spec lt l : StrictWeak lt -> l <> [] ->
    exists m mv, max_element lt l = m /\ nth_error l m = Some mv /\
      (forall i x, nth_error l i = Some x -> lt mv x = false) /\
      (forall i x, i < m -> nth_error l i = Some x -> lt x mv = true).
  Proof.
    intros W Hl. destruct l as [|x t]; [congruence|]. unfold max_element.
    apply (max_element_loop_spec lt [] (x :: t) 0 x W); auto; simpl; intros; lia.
  Qed.
  Lemma min_element_max lt l : min_element lt l = max_element (fun x y => lt y x) l.
  Proof.
    destruct l as [|x t]; [auto|]. unfold min_element, max_element.
    generalize (x :: t) as u. intros u.
    enough (H : forall i r rv, min_element_loop lt u i r rv
                             = max_element_loop (fun x y => lt y x) u i r rv) by apply H.
    induction u as [|y u IH]; intros i r rv; simpl; [auto|]. now rewrite !IH.
  Qed.
  Lemma flip_weak (lt : A -> A -> bool) : StrictWeak lt -> StrictWeak (fun x y => lt y x).
  Proof.
    intros W. split; [intros; now apply sw_irrefl|]. split.
    - intros x y z H1 H2. eapply sw_trans; eauto.
    - intros x y z H1 H2 H3 H4. destruct W as (_ & _ & H). destruct (H x y z); auto.
  Qed.
  Lemma min_element_spec lt l : StrictWeak lt -> l <> [] ->
    exists m mv, min_element lt l = m /\ nth_error l m = Some mv /\
      (forall i x, nth_error l i = Some x -> lt x mv = false) /\
      (forall i x, i < m -> nth_error l i = Some x -> lt mv x = true).
  Proof.
    intros W Hl. rewrite min_element_max.
    apply (max_element_spec (fun x y => lt y x)); auto using flip_weak.
  Qed.
  Lemma minmax_split lt l : minmax_element lt l = (min_element lt l, max_element lt l).
  Proof.
    destruct l as [|x t]; [auto|]. unfold minmax_element, min_element, max_element.
    generalize (x :: t) as u. intros u.
    enough (H : forall i r1 v1 r2 v2, minmax_loop lt u i r1 v1 r2 v2
                = (min_element_loop lt u i r1 v1, max_element_loop lt u i r2 v2)) by apply H.
    induction u as [|y u IH]; intros; simpl; [auto|].
    destruct (lt y v1), (lt v2 y); apply IH.
  Qed.
End R.
