From Verif Require Import Base Order RangeSpec RangeModel RangeProofs ArrayModel ArrayProofs.

Section B.
  Context {A : Type}.

  Lemma half_lt n : 0 < n -> n / 2 < n.
  Proof. intros. apply Nat.div_lt; lia. Qed.

  Lemma lower_bound_loop_split {B} fuel (lt : A -> B -> bool) a v first last s :
    last - first <= fuel -> first <= s -> s <= last -> last <= length a ->
    (forall i x, first <= i -> i < s -> nth_error a i = Some x -> lt x v = true) ->
    (forall i x, s <= i -> i < last -> nth_error a i = Some x -> lt x v = false) ->
    lower_bound_loop fuel lt a v first last = Ok s.
  Proof.
    revert first last. induction fuel as [|fuel IH]; intros first last Hf H1 H2 H3 Hlo Hhi;
      cbn [lower_bound_loop].
    - assert (first = last) by lia. subst. rewrite Nat.eqb_refl. f_equal. lia.
    - destruct (Nat.eqb_spec first last) as [->|Hne]; [f_equal; lia|].
      pose proof (half_lt (last - first) ltac:(lia)) as Hh.
      set (mid := first + (last - first) / 2) in *.
      assert (Hm : first <= mid < last) by (unfold mid; lia).
      destruct (rd_lt a mid) as (x & -> & Hx); [lia|]. cbn [bind].
      destruct (lt x v) eqn:E.
      + assert (mid < s).
        { destruct (Nat.lt_ge_cases mid s) as [|Hge]; [auto|].
          rewrite (Hhi mid x) in E by (auto; lia). discriminate. }
        apply IH; try lia.
        * intros i y Hi1 Hi2 Hy. apply (Hlo i); auto. lia.
        * intros i y Hi1 Hi2 Hy. apply (Hhi i); auto.
      + assert (s <= mid).
        { destruct (Nat.lt_ge_cases mid s) as [Hge|]; [|auto].
          rewrite (Hlo mid x) in E by (auto; lia). discriminate. }
        apply IH; try lia.
        * intros i y Hi1 Hi2 Hy. apply (Hlo i); auto.
        * intros i y Hi1 Hi2 Hy. apply (Hhi i); auto. lia.
  Qed.

  Lemma upper_bound_loop_split {B} fuel (lt : B -> A -> bool) a v first last s :
    last - first <= fuel -> first <= s -> s <= last -> last <= length a ->
    (forall i x, first <= i -> i < s -> nth_error a i = Some x -> lt v x = false) ->
    (forall i x, s <= i -> i < last -> nth_error a i = Some x -> lt v x = true) ->
    upper_bound_loop fuel lt a v first last = Ok s.
  Proof.
    revert first last. induction fuel as [|fuel IH]; intros first last Hf H1 H2 H3 Hlo Hhi;
      cbn [upper_bound_loop].
    - assert (first = last) by lia. subst. rewrite Nat.eqb_refl. f_equal. lia.
    - destruct (Nat.eqb_spec first last) as [->|Hne]; [f_equal; lia|].
      pose proof (half_lt (last - first) ltac:(lia)) as Hh.
      set (mid := first + (last - first) / 2) in *.
      assert (Hm : first <= mid < last) by (unfold mid; lia).
      destruct (rd_lt a mid) as (x & -> & Hx); [lia|]. cbn [bind].
      destruct (lt v x) eqn:E.
      + assert (s <= mid).
        { destruct (Nat.lt_ge_cases mid s) as [Hge|]; [|auto].
          rewrite (Hlo mid x) in E by (auto; lia). discriminate. }
        apply IH; try lia.
        * intros i y Hi1 Hi2 Hy. apply (Hlo i); auto.
        * intros i y Hi1 Hi2 Hy. apply (Hhi i); auto. lia.
      + assert (mid < s).
        { destruct (Nat.lt_ge_cases mid s) as [|Hge]; [auto|].
          rewrite (Hhi mid x) in E by (auto; lia). discriminate. }
        apply IH; try lia.
        * intros i y Hi1 Hi2 Hy. apply (Hlo i); auto. lia.
        * intros i y Hi1 Hi2 Hy. apply (Hhi i); auto.
  Qed.

  Lemma nth_error_mid (pre l1 l2 post : list A) i x :
    nth_error (pre ++ (l1 ++ l2) ++ post) i = Some x ->
    (length pre <= i < length pre + length l1 -> In x l1) /\
    (length pre + length l1 <= i < length pre + length l1 + length l2 -> In x l2).
  Proof.
    intros H. split; intros Hi.
    - rewrite nth_error_app2 in H by lia. rewrite <- app_assoc in H.
      rewrite nth_error_app1 in H by lia. eapply nth_error_In; eauto.
    - rewrite nth_error_app2 in H by lia. rewrite <- app_assoc in H.
      rewrite nth_error_app2 in H by lia. rewrite nth_error_app1 in H by lia.
      eapply nth_error_In; eauto.
  Qed.

  (** Partitioned ranges. *)
  Lemma lower_bound_part {B} (lt : A -> B -> bool) pre l1 l2 post v first last :
    first = length pre -> last = length pre + length (l1 ++ l2) ->
    (forall x, In x l1 -> lt x v = true) -> (forall x, In x l2 -> lt x v = false) ->
    lower_bound lt (pre ++ (l1 ++ l2) ++ post) first last v = Ok (length pre + length l1).
  Proof.
    intros -> -> H1 H2. unfold lower_bound. rewrite !app_length.
    apply lower_bound_loop_split; try lia.
    - rewrite !app_length. lia.
    - intros i x Hi Hi2 Hx. apply H1. apply nth_error_mid in Hx. apply Hx. lia.
    - intros i x Hi Hi2 Hx. apply H2. apply nth_error_mid in Hx. apply Hx. lia.
  Qed.
  Lemma upper_bound_part {B} (lt : B -> A -> bool) pre l1 l2 post v first last :
    first = length pre -> last = length pre + length (l1 ++ l2) ->
    (forall x, In x l1 -> lt v x = false) -> (forall x, In x l2 -> lt v x = true) ->
    upper_bound lt (pre ++ (l1 ++ l2) ++ post) first last v = Ok (length pre + length l1).
  Proof.
    intros -> -> H1 H2. unfold upper_bound. rewrite !app_length.
    apply upper_bound_loop_split; try lia.
    - rewrite !app_length. lia.
    - intros i x Hi Hi2 Hx. apply H1. apply nth_error_mid in Hx. apply Hx. lia.
    - intros i x Hi Hi2 Hx. apply H2. apply nth_error_mid in Hx. apply Hx. lia.
  Qed.

  (** A range ascending w.r.t. [lt] is partitioned by any monotone predicate. *)
  Lemma partition_mono (p : A -> bool) (R : A -> A -> Prop) (l : list A) :
    StronglySorted R l ->
    (forall x y, R x y -> p y = true -> p x = true) ->
    exists l1 l2, l = l1 ++ l2 /\ (forall x, In x l1 -> p x = true) /\
                  (forall x, In x l2 -> p x = false).
  Proof.
    intros Hs Hm. induction Hs as [|x l Hs IH Hf].
    - exists [], []. repeat split; auto; intros x [].
    - destruct (p x) eqn:E.
      + destruct IH as (l1 & l2 & -> & H1 & H2). exists (x :: l1), l2.
        repeat split; auto. intros y [<-|Hy]; auto.
      + exists [], (x :: l). repeat split; [intros y []|].
        intros y [<-|Hy]; [auto|]. destruct (p y) eqn:Ey; [|auto].
        rewrite Forall_forall in Hf. rewrite (Hm x y) in E by auto. discriminate.
  Qed.

  Lemma FOE_part (p : A -> bool) (l1 l2 : list A) :
    (forall x, In x l1 -> p x = false) -> (forall x, In x l2 -> p x = true) ->
    FirstOrEnd (holds_at p (l1 ++ l2)) (length (l1 ++ l2)) (length l1).
  Proof.
    intros H1 H2.
    assert (Hbefore : forall i, i < length l1 -> ~ holds_at p (l1 ++ l2) i).
    { intros i Hi (x & Hx & Hp). rewrite nth_error_app1 in Hx by auto.
      apply nth_error_In in Hx. rewrite H1 in Hp by auto. discriminate. }
    destruct l2 as [|y t].
    - right. rewrite app_nil_r in *. auto.
    - left. split; [rewrite app_length; simpl; lia|]. split; [|auto].
      exists y. rewrite nth_error_app2, Nat.sub_diag by lia. split; [auto|].
      apply H2. left; auto.
  Qed.

  Context (lt : A -> A -> bool) (W : StrictWeak lt).

  Lemma lower_split l v : Ascending lt l ->
    exists l1 l2, l = l1 ++ l2 /\ (forall x, In x l1 -> lt x v = true) /\
                  (forall x, In x l2 -> lt x v = false).
  Proof.
    intros H. apply (partition_mono (fun x => lt x v) _ l H).
    intros x y Hxy Hy. eapply sw_le_lt_trans; eauto.
  Qed.
  Lemma upper_split l v : Ascending lt l ->
    exists l1 l2, l = l1 ++ l2 /\ (forall x, In x l1 -> lt v x = false) /\
                  (forall x, In x l2 -> lt v x = true).
  Proof.
    intros H.
    destruct (partition_mono (fun x => negb (lt v x)) _ l H) as (l1 & l2 & E & H1 & H2).
    - intros x y Hxy Hy. apply negb_true_iff in Hy. apply negb_true_iff.
      eapply sw_le_trans; eauto.
    - exists l1, l2. split; [auto|]. split; intros x Hx.
      + apply negb_true_iff. auto.
      + apply negb_false_iff. auto.
  Qed.

  Lemma lower_bound_spec pre l post v :
    Ascending lt l ->
    exists n, lower_bound lt (pre ++ l ++ post) (length pre) (length pre + length l) v
              = Ok (length pre + n) /\
              FirstOrEnd (holds_at (fun x => negb (lt x v)) l) (length l) n.
  Proof.
    intros H. destruct (lower_split l v H) as (l1 & l2 & -> & H1 & H2).
    exists (length l1). split; [now apply lower_bound_part|].
    apply FOE_part; intros x Hx; [rewrite H1|rewrite H2]; auto.
  Qed.
  Lemma upper_bound_spec pre l post v :
    Ascending lt l ->
    exists n, upper_bound lt (pre ++ l ++ post) (length pre) (length pre + length l) v
              = Ok (length pre + n) /\
              FirstOrEnd (holds_at (fun x => lt v x) l) (length l) n.
  Proof.
    intros H. destruct (upper_split l v H) as (l1 & l2 & -> & H1 & H2).
    exists (length l1). split; [now apply upper_bound_part|].
    apply FOE_part; auto.
  Qed.

  Lemma equal_range_loop_part {B} fuel (gt : B -> A -> bool) pre l1 l2 post v second last :
    length l1 <= fuel -> second = length pre -> last = length pre + length l1 + length l2 ->
    (forall x, In x l1 -> gt v x = false) -> (forall x, In x l2 -> gt v x = true) ->
    equal_range_loop fuel gt (pre ++ l1 ++ l2 ++ post) v second last
    = Ok (length pre + length l1).
  Proof.
    revert pre l1 second. induction fuel as [|fuel IH]; intros pre l1 second Hf -> -> H1 H2;
      cbn [equal_range_loop].
    - destruct l1; simpl in Hf; [|lia]. simpl. rewrite !Nat.add_0_r.
      destruct (Nat.eqb_spec (length pre) (length pre + length l2)); [auto|].
      destruct l2 as [|y t]; [simpl in *; lia|]. simpl app. rewrite rd_app. cbn [bind].
      rewrite H2 by (left; auto). auto.
    - destruct l1 as [|x t].
      + simpl. rewrite !Nat.add_0_r.
        destruct (Nat.eqb_spec (length pre) (length pre + length l2)); [auto|].
        destruct l2 as [|y t]; [simpl in *; lia|]. simpl app. rewrite rd_app. cbn [bind].
        rewrite H2 by (left; auto). auto.
      + destruct (Nat.eqb_spec (length pre) (length pre + length (x :: t) + length l2)) as [E|_];
          [simpl in E; lia|].
        cbn [app]. rewrite rd_app. cbn [bind]. rewrite (H1 x) by (left; auto). cbn [negb].
        replace (pre ++ x :: t ++ l2 ++ post) with ((pre ++ [x]) ++ t ++ l2 ++ post)
          by (napp; auto).
        rewrite (IH (pre ++ [x]) t).
        * f_equal. len.
        * simpl in Hf. lia.
        * len.
        * len.
        * intros y Hy. apply H1. right; auto.
        * auto.
  Qed.

  (** Splitting an ascending range around a value. *)
  Lemma three_split l v : Ascending lt l ->
    exists lo eq hi, l = lo ++ eq ++ hi /\
      (forall x, In x lo -> lt x v = true) /\
      (forall x, In x eq -> lt x v = false /\ lt v x = false) /\
      (forall x, In x hi -> lt v x = true).
  Proof.
    intros H. destruct (lower_split l v H) as (lo & r & -> & H1 & H2).
    apply StronglySorted_app_iff in H. destruct H as (_ & Hr & _).
    destruct (upper_split r v Hr) as (eq & hi & -> & H3 & H4).
    exists lo, eq, hi. repeat split; auto. apply H2. apply in_or_app; auto.
  Qed.

  Lemma equal_range_spec pre l post v :
    Ascending lt l ->
    exists n m, equal_range lt lt (pre ++ l ++ post) (length pre) (length pre + length l) v
              = Ok (length pre + n, length pre + m) /\
              FirstOrEnd (holds_at (fun x => negb (lt x v)) l) (length l) n /\
              FirstOrEnd (holds_at (fun x => lt v x) l) (length l) m.
  Proof.
    intros H. destruct (three_split l v H) as (lo & eq & hi & -> & H1 & H2 & H3).
    exists (length lo), (length lo + length eq).
    unfold equal_range.
    rewrite (lower_bound_part lt pre lo (eq ++ hi) post v _ _ eq_refl eq_refl); auto.
    - cbn [bind].
      replace (pre ++ (lo ++ eq ++ hi) ++ post) with ((pre ++ lo) ++ eq ++ hi ++ post)
        by (napp; auto).
      rewrite equal_range_loop_part; try (len; fail); auto.
      + cbn [bind]. split; [f_equal; f_equal; len|]. split.
        * apply (FOE_part (fun x => negb (lt x v))).
          -- intros x Hx. now rewrite H1.
          -- intros x Hx. apply in_app_or in Hx. destruct Hx as [Hx|Hx].
             ++ now rewrite (proj1 (H2 x Hx)).
             ++ now rewrite (sw_asym lt W v x (H3 x Hx)).
        * rewrite (app_assoc lo eq hi). rewrite <- app_length.
          apply (FOE_part (fun x => lt v x)).
          -- intros x Hx. apply in_app_or in Hx. destruct Hx as [Hx|Hx].
             ++ apply sw_asym; auto.
             ++ apply H2; auto.
          -- auto.
      + intros x Hx. apply H2; auto.
    - intros x Hx. apply in_app_or in Hx. destruct Hx as [Hx|Hx].
      + apply H2; auto.
      + apply sw_asym; auto.
  Qed.

  Lemma binary_search_spec pre l post v :
    Ascending lt l ->
    exists b, binary_search lt (pre ++ l ++ post) (length pre) (length pre + length l) v = Ok b /\
              (b = true <-> exists x, In x l /\ lt x v = false /\ lt v x = false).
  Proof.
    intros H. destruct (three_split l v H) as (lo & eq & hi & -> & H1 & H2 & H3).
    unfold binary_search.
    rewrite (lower_bound_part lt pre lo (eq ++ hi) post v _ _ eq_refl eq_refl); auto.
    - cbn [bind]. destruct eq as [|e eq].
      + exists false. split.
        * cbn [app]. destruct hi as [|h hi].
          -- rewrite app_nil_r, Nat.eqb_refl. auto.
          -- destruct (Nat.eqb_spec (length pre + length lo) (length pre + length (lo ++ h :: hi)));
               [auto|].
             replace (pre ++ (lo ++ h :: hi) ++ post) with ((pre ++ lo) ++ h :: hi ++ post)
               by (napp; auto).
             rewrite rd_app' by len. cbn [bind]. rewrite H3 by (left; auto). auto.
        * split; [discriminate|]. intros (x & Hx & Hl & Hr).
          cbn [app] in Hx. apply in_app_or in Hx. destruct Hx as [Hx|Hx].
          -- rewrite H1 in Hl by auto. discriminate.
          -- rewrite H3 in Hr by auto. discriminate.
      + exists true. split.
        * destruct (Nat.eqb_spec (length pre + length lo)
                      (length pre + length (lo ++ (e :: eq) ++ hi))) as [E|_].
          { rewrite !app_length in E. simpl in E. lia. }
          replace (pre ++ (lo ++ (e :: eq) ++ hi) ++ post)
            with ((pre ++ lo) ++ e :: eq ++ hi ++ post) by (napp; auto).
          rewrite rd_app' by len. cbn [bind].
          rewrite (proj2 (H2 e (or_introl eq_refl))). auto.
        * split; [intros _|auto]. exists e. split; [|apply H2; left; auto].
          apply in_or_app. right. left. auto.
    - intros x Hx. apply in_app_or in Hx. destruct Hx as [Hx|Hx].
      + apply H2; auto.
      + apply sw_asym; auto.
  Qed.
End B.

(** ** search, find_end *)
Section Search.
  Context {A B : Type} (comp : A -> B -> bool).

  Lemma match_at_spec (pat : list B) (a : list A) j :
    j + length pat <= length a ->
    exists b, match_at comp a j pat = Ok b /\ (b = true <-> occurs_at comp pat a j).
  Proof.
    revert j. induction pat as [|y t IH]; intros j H; simpl.
    - exists true. split; [auto|]. split; [|auto]. intros _ k y Hy. destruct k; discriminate.
    - simpl in H. destruct (rd_lt a j) as (x & -> & Hx); [lia|]. cbn [bind].
      destruct (comp x y) eqn:E.
      + destruct (IH (S j)) as (b & -> & Hb); [lia|]. exists b. split; [auto|].
        rewrite Hb. split; intros Ho.
        * intros [|k] z Hz; simpl in Hz.
          -- inversion Hz; subst. exists x. rewrite Nat.add_0_r. auto.
          -- destruct (Ho k z Hz) as (w & Hw & Hc). exists w. split; [|auto].
             rewrite <- Hw. f_equal. lia.
        * intros k z Hz. destruct (Ho (S k) z Hz) as (w & Hw & Hc). exists w.
          split; [|auto]. rewrite <- Hw. f_equal. lia.
      + exists false. split; [auto|]. split; [discriminate|]. intros Ho.
        destruct (Ho 0 y eq_refl) as (w & Hw & Hc). rewrite Nat.add_0_r in Hw. congruence.
  Qed.

  Lemma occurs_at_shift (pat : list B) (pre l post : list A) i :
    i + length pat <= length l ->
    (occurs_at comp pat (pre ++ l ++ post) (length pre + i) <-> occurs_at comp pat l i).
  Proof.
    intros H. split; intros Ho k y Hy.
    - destruct (Ho k y Hy) as (x & Hx & Hc). exists x. split; [|auto].
      assert (k < length pat) by (apply nth_error_Some; congruence).
      rewrite nth_error_app2 in Hx by lia. rewrite nth_error_app1 in Hx by lia.
      rewrite <- Hx. f_equal. lia.
    - destruct (Ho k y Hy) as (x & Hx & Hc). exists x. split; [|auto].
      assert (k < length pat) by (apply nth_error_Some; congruence).
      rewrite nth_error_app2 by lia. rewrite nth_error_app1 by lia.
      rewrite <- Hx. f_equal. lia.
  Qed.
  Lemma occurs_at_fits (pat : list B) (l : list A) i :
    pat <> [] -> occurs_at comp pat l i -> i + length pat <= length l.
  Proof.
    intros Hp Ho. destruct pat as [|y t]; [congruence|].
    destruct (nth_error (y :: t) (length t)) eqn:E.
    - destruct (Ho _ _ E) as (x & Hx & _).
      assert (i + length t < length l) by (apply nth_error_Some; congruence). simpl. lia.
    - apply nth_error_None in E. simpl in E. lia.
  Qed.

  Lemma search_loop_spec fuel (pre l post : list A) pat i last :
    last = length pre + length l -> i <= length l ->
    length l + 1 - i <= fuel ->
    (forall k, k < i -> ~ occurs_at comp pat l k) ->
    exists n, search_loop fuel comp (pre ++ l ++ post) (length pre + i) last pat
              = Ok (length pre + n) /\
              FirstOrEnd (occurs_at comp pat l) (length l) n.
  Proof.
    intros ->. revert i. induction fuel as [|fuel IH]; intros i Hi Hf Hno; cbn [search_loop].
    - lia.
    - destruct (Nat.ltb_spec (length pre + i + length pat) (length pre + length l + 1)) as [Hlt|Hge].
      + destruct (match_at_spec pat (pre ++ l ++ post) (length pre + i)) as (b & -> & Hb);
          [rewrite !app_length; lia|].
        cbn [bind]. rewrite occurs_at_shift in Hb by lia. destruct b.
        * exists i. split; [auto|]. assert (Ho : occurs_at comp pat l i) by now apply Hb.
          destruct (Nat.eq_dec i (length l)) as [->|]; [right; auto|]. left. split; [lia|auto].
        * assert (Hn : ~ occurs_at comp pat l i) by (intros Ho; apply Hb in Ho; discriminate).
          destruct (Nat.eq_dec i (length l)) as [->|].
          { (* pattern empty, would have matched *)
            exfalso. apply Hn. intros k y Hy.
            assert (k < length pat) by (apply nth_error_Some; congruence). lia. }
          replace (length pre + i + 1) with (length pre + (i + 1)) by lia.
          apply IH; try lia.
          intros k Hk. destruct (Nat.eq_dec k i) as [->|]; [auto|]. apply Hno. lia.
      + exists (length l). split; [auto|]. right. split; [auto|].
        intros k Hk Ho. destruct (Nat.lt_ge_cases k i) as [H|H]; [apply (Hno k H Ho)|].
        assert (pat <> []) by (intros ->; simpl in Hge; lia).
        apply occurs_at_fits in Ho; [lia|auto].
  Qed.
  Lemma search_spec (pre l post : list A) pat :
    exists n, search comp (pre ++ l ++ post) (length pre) (length pre + length l) pat
              = Ok (length pre + n) /\
              FirstOrEnd (occurs_at comp pat l) (length l) n.
  Proof.
    unfold search.
    pose proof (search_loop_spec (length pre + length l - length pre + 1) pre l post pat 0
                  (length pre + length l) eq_refl ltac:(lia) ltac:(lia)) as H.
    rewrite Nat.add_0_r in H. apply H. intros; lia.
  Qed.

  Lemma find_end_loop_spec fuel (pre l post : list A) pat s last :
    pat <> [] -> last = length pre + length l -> s + length pat <= length l ->
    s <= fuel ->
    (forall k, s < k -> ~ occurs_at comp pat l k) ->
    exists n, find_end_loop fuel comp (pre ++ l ++ post) (length pre) last (length pre + s) pat
              = Ok (length pre + n) /\
              LastOrEnd (fun i => 0 < i /\ occurs_at comp pat l i) (length l) n.
  Proof.
    intros Hp ->. revert s. induction fuel as [|fuel IH]; intros s Hs Hf Hno; cbn [find_end_loop].
    - assert (s = 0) by lia. subst s. rewrite Nat.add_0_r, Nat.ltb_irrefl.
      exists (length l). split; [auto|]. right. split; [auto|]. intros i Hi [H0 Ho].
      apply (Hno i H0 Ho).
    - destruct (Nat.ltb_spec (length pre) (length pre + s)) as [Hlt|Hge].
      + destruct (match_at_spec pat (pre ++ l ++ post) (length pre + s)) as (b & -> & Hb);
          [rewrite !app_length; lia|].
        cbn [bind]. rewrite occurs_at_shift in Hb by lia. destruct b.
        * exists s. split; [auto|]. left.
          assert (0 < length pat) by (destruct pat; [congruence|simpl; lia]).
          split; [lia|]. split; [split; [lia|now apply Hb]|].
          intros i Hi [_ Ho]. apply (Hno i); auto. lia.
        * replace (length pre + s - 1) with (length pre + (s - 1)) by lia.
          apply IH; try lia. intros k Hk Ho.
          destruct (Nat.eq_dec k s) as [->|].
          -- apply Hb in Ho. discriminate.
          -- apply (Hno k); auto. lia.
      + assert (s = 0) by lia. subst s.
        exists (length l). split; [auto|]. right. split; [auto|]. intros i Hi [H0 Ho].
        apply (Hno i H0 Ho).
  Qed.
  Lemma find_end_spec (l post : list A) pre pat :
    pat <> [] ->
    exists n, find_end comp (pre ++ l ++ post) (length pre) (length pre + length l) pat
              = Ok (length pre + n) /\
              LastOrEnd (fun i => 0 < i /\ occurs_at comp pat l i) (length l) n.
  Proof.
    intros Hp. unfold find_end.
    destruct (Nat.le_gt_cases (length pat) (length l)) as [H|H].
    - destruct (Nat.ltb_spec (length pre + length l) (length pat)); [lia|].
      replace (length pre + length l - length pat) with (length pre + (length l - length pat)) by lia.
      apply find_end_loop_spec; auto; try lia.
      intros k Hk Ho. apply occurs_at_fits in Ho; [lia|auto].
    - assert (Hnone : forall i, i < length l -> ~ (0 < i /\ occurs_at comp pat l i)).
      { intros i Hi [_ Ho]. apply occurs_at_fits in Ho; [lia|auto]. }
      exists (length l). split; [|right; auto].
      destruct (Nat.ltb_spec (length pre + length l) (length pat)); [auto|].
      destruct (length pre + length l - length pre) as [|k] eqn:Ek; cbn [find_end_loop];
        (destruct (Nat.ltb_spec (length pre) (length pre + length l - length pat)); [lia|auto]).
  Qed.
End Search.
