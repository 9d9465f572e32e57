From Verif Require Import Base Order RangeSpec RangeModel ArrayModel RangeProofs ArrayProofs SortProofs ExampleOrders FuncModel FuncSpec.
From Coq Require Import ZArith.

Section One.
  Context {T : Type} (lt : T -> T -> bool).
  Hypothesis W : StrictWeak lt.
  Lemma greater_weak : StrictWeak (f_greater lt).
  Proof.
    destruct W as (I & Tr & N). unfold f_greater. split; [exact I|]. split.
    - intros x y z H1 H2. exact (Tr z y x H2 H1).
    - intros x y z H1 H2 H3 H4. destruct (N x y z H2 H1 H4 H3) as [A B]. now split.
  Qed.
  Lemma pull_weak {S} (g : S -> T) : StrictWeak (fun a b => lt (g a) (g b)).
  Proof.
    destruct W as (I & Tr & N). split; [intros; apply I|]. split; intros x y z; [apply Tr|apply N].
  Qed.
  Lemma compare_range a b : f_compare lt a b = (-1)%Z \/ f_compare lt a b = 0%Z \/ f_compare lt a b = 1%Z.
  Proof. unfold f_compare. destruct (lt a b), (lt b a); auto. Qed.
  Lemma compare_neg a b : f_compare lt b a = (- f_compare lt a b)%Z.
  Proof.
    unfold f_compare. destruct (lt a b) eqn:E1, (lt b a) eqn:E2; try reflexivity.
    rewrite (sw_asym lt W _ _ E1) in E2. discriminate.
  Qed.
  Lemma compare_lt a b : (f_compare lt a b < 0)%Z <-> lt a b = true.
  Proof. unfold f_compare. destruct (lt a b) eqn:E1, (lt b a) eqn:E2; split; intros; try reflexivity; try discriminate; try lia. Qed.
  Lemma compare_eq a b : f_compare lt a b = 0%Z <-> equiv lt a b = true.
  Proof. rewrite equiv_true. unfold f_compare. destruct (lt a b), (lt b a); split; intros H; try discriminate; auto; destruct H; discriminate. Qed.
  Lemma compare_le_trans a b c : (f_compare lt a b <= 0)%Z -> (f_compare lt b c <= 0)%Z -> (f_compare lt a c <= 0)%Z.
  Proof.
    intros H1 H2.
    assert (L : forall x y, (f_compare lt x y <= 0)%Z <-> lt y x = false).
    { intros x y. unfold f_compare. destruct (lt x y) eqn:E1, (lt y x) eqn:E2; split; intros; try reflexivity; try discriminate; try lia.
      rewrite (sw_asym lt W _ _ E1) in E2. discriminate. }
    apply L in H1. apply L in H2. apply L. exact (sw_le_trans lt W a b c H1 H2).
  Qed.
End One.

Section Pairs.
  Context {A B : Type} (lta eqa : A -> A -> bool) (ltb : B -> B -> bool).
  Hypothesis Wa : StrictWeak lta.
  Hypothesis Wb : StrictWeak ltb.
  Hypothesis E : eq_is_equiv lta eqa.
  Local Notation plt := (pair_lt lta eqa ltb).
  Lemma pair_lex u v : plt u v = true <-> Lexicographic lta ltb u v.
  Proof.
    unfold pair_lt, Lexicographic. rewrite orb_true_iff, andb_true_iff. pose proof (E (fst u) (fst v)). tauto.
  Qed.
  Lemma pair_lex_false u v : plt u v = false <-> lta (fst u) (fst v) = false /\ (lta (fst v) (fst u) = true \/ ltb (snd u) (snd v) = false).
  Proof.
    rewrite <- not_true_iff_false, pair_lex. unfold Lexicographic.
    destruct (lta (fst u) (fst v)) eqn:E1, (lta (fst v) (fst u)) eqn:E2, (ltb (snd u) (snd v)) eqn:E3; intuition congruence.
  Qed.
  Lemma pair_weak : StrictWeak plt.
  Proof.
    split; [|split].
    - intros u. apply pair_lex_false. split; [apply Wa|right; apply Wb].
    - intros x y z H1 H2. apply pair_lex in H1. apply pair_lex in H2. apply pair_lex.
      destruct H1 as [H1 | (A1 & A2 & A3)]; destruct H2 as [H2 | (B1 & B2 & B3)].
      + left. exact (sw_trans lta Wa _ _ _ H1 H2).
      + left. exact (sw_lt_le_trans lta Wa _ _ _ H1 B2).
      + left. exact (sw_le_lt_trans lta Wa _ _ _ A2 H2).
      + right. split; [exact (sw_le_trans lta Wa _ _ _ B1 A1)|]. split; [exact (sw_le_trans lta Wa _ _ _ A2 B2)|].
        exact (sw_trans ltb Wb _ _ _ A3 B3).
    - assert (Q : forall u v, plt u v = false -> plt v u = false ->
        (lta (fst u) (fst v) = false /\ lta (fst v) (fst u) = false) /\ ltb (snd u) (snd v) = false /\ ltb (snd v) (snd u) = false).
      { intros u v H1 H2. apply pair_lex_false in H1. apply pair_lex_false in H2. destruct H1 as [P1 P2], H2 as [P3 P4].
        split; [now split|]. destruct P2 as [P2|P2]; [congruence|]. destruct P4 as [P4|P4]; [congruence|]. now split. }
      intros x y z H1 H2 H3 H4. destruct (Q x y H1 H2) as ((A1 & A2) & A3 & A4). destruct (Q y z H3 H4) as ((B1 & B2) & B3 & B4).
      destruct Wa as (_ & _ & Na). destruct Wb as (_ & _ & Nb).
      destruct (Na _ _ _ A1 A2 B1 B2) as [C1 C2]. destruct (Nb _ _ _ A3 A4 B3 B4) as [D1 D2].
      split; apply pair_lex_false; auto.
  Qed.
  Lemma pair_equiv u v : equiv plt u v = true <-> equiv lta (fst u) (fst v) = true /\ equiv ltb (snd u) (snd v) = true.
  Proof.
    rewrite !equiv_true, !pair_lex_false. split.
    - intros ((A1 & A2) & (B1 & B2)). split; [now split|]. destruct A2 as [A2|A2]; [congruence|]. destruct B2 as [B2|B2]; [congruence|]. now split.
    - intros ((A1 & A2) & B1 & B2). auto.
  Qed.
End Pairs.
Lemma pair_total {A B} (lta eqa : A -> A -> bool) (ltb : B -> B -> bool) :
  StrictTotal lta -> DecEq eqa -> StrictTotal ltb -> StrictTotal (pair_lt lta eqa ltb).
Proof.
  intros Ta Ea Tb. assert (Ee : eq_is_equiv lta eqa).
  { intros x y. destruct Ta as (I & _ & Q). split; [intros H; apply Ea in H; subst; split; apply I|]. intros [H1 H2]. apply Ea. now apply Q. }
  pose proof (pair_weak lta eqa ltb (total_weak _ Ta) (total_weak _ Tb) Ee) as W.
  split; [apply W|]. split; [apply W|]. intros [a b] [a' b'] H1 H2.
  assert (Q : equiv (pair_lt lta eqa ltb) (a, b) (a', b') = true) by now apply equiv_true.
  apply (pair_equiv lta eqa ltb Ee) in Q. cbn [fst snd] in Q. rewrite !equiv_true in Q. destruct Q as [[Q1 Q2] [Q3 Q4]].
  destruct Ta as (_ & _ & Ta). destruct Tb as (_ & _ & Tb). f_equal; auto.
Qed.

(** ** make_pair *)
Lemma make_pair_values m a b x y : arg_value m a = Some x -> arg_value m b = Some y ->
  exists p, make_pair m a b = Ok p /\ half_value m (fst p) = Ok x /\ half_value m (snd p) = Ok y /\ to_values m p = Ok (Own x, Own y).
Proof.
  assert (R : forall c z, arg_value m c = Some z -> half_value m (forward_half c) = Ok z).
  { intros c z H. destruct c; cbn [arg_value forward_half half_value] in *; [congruence|unfold rd; now rewrite H..]. }
  intros Ha Hb. pose proof (R a x Ha) as Ra. pose proof (R b y Hb) as Rb.
  assert (G : exists p, make_pair m a b = Ok p /\ half_value m (fst p) = Ok x /\ half_value m (snd p) = Ok y).
  { destruct a, b; cbn [make_pair]; try (eexists; split; [reflexivity|]; cbn [fst snd]; split; assumption).
    cbn [forward_half half_value] in Ra, Rb. rewrite Ra. cbn [bind]. rewrite Rb. cbn [bind]. eexists. split; [reflexivity|]. now split. }
  destruct G as (p & P & P1 & P2). exists p. split; [exact P|]. split; [exact P1|]. split; [exact P2|].
  unfold to_values. rewrite P1. cbn [bind]. rewrite P2. reflexivity.
Qed.
Lemma alias_read m i b p v m' : i < length m -> make_pair m (Lvalue i) b = Ok p -> wr m i v = Ok m' -> half_value m' (fst p) = Ok v.
Proof.
  intros Hi H Hw. cbn [make_pair] in H. injection H as <-. cbn [fst forward_half half_value].
  unfold wr in Hw. destruct (upd m i v) as [m1|] eqn:U; [|discriminate]. injection Hw as <-. unfold rd. rewrite (upd_nth_error _ _ _ _ i U). now rewrite Nat.eqb_refl.
Qed.
Lemma aliased m i b v : i < length m ->
  exists p, make_pair m (Lvalue i) b = Ok p /\
    (exists m', wr m i v = Ok m' /\ half_value m' (fst p) = Ok v) /\
    (exists m' h, set_half m (fst p) v = Ok (m', h) /\ nth_error m' i = Some v).
Proof.
  intros Hi. eexists. split; [reflexivity|]. cbn [fst forward_half set_half].
  destruct (upd_lt m i v Hi) as (m1 & U).
  assert (R : nth_error m1 i = Some v) by (rewrite (upd_nth_error _ _ _ _ i U); now rewrite Nat.eqb_refl).
  split.
  - exists m1. unfold wr. rewrite U. split; [reflexivity|]. cbn [half_value]. unfold rd. now rewrite R.
  - exists m1, (Bound i). unfold wr. rewrite U. split; [reflexivity|exact R].
Qed.

(** ** Sorting *)
Lemma sort_by {A V} (lt : V -> V -> bool) (W : StrictWeak lt) (g : A -> V) pre l post :
  exists r, stable_sort (fun a b => lt (g a) (g b)) (pre ++ l ++ post) (length pre) (length pre + length l) = Ok (pre ++ r ++ post) /\
    Ascending lt (map g r) /\ Permutation r l /\
    (forall v, filter (fun x => equiv lt v (g x)) r = filter (fun x => equiv lt v (g x)) l).
Proof.
  destruct (stable_sort_spec (fun a b => lt (g a) (g b)) (pull_weak lt W g) pre l post) as (r & E & S & P & F).
  exists r. split; [exact E|]. split; [|split; [exact P|]].
  - clear E P F. induction S as [|a t S IH H]; cbn [map]; constructor; [exact IH|]. rewrite Forall_map. exact H.
  - intros v. destruct (existsb (fun x => equiv lt v (g x)) l) eqn:X.
    + apply existsb_exists in X. destruct X as (x & Hx & Q). specialize (F x).
      assert (Q2 : forall w, filter (fun y => equiv lt v (g y)) w = filter (equiv (fun a b => lt (g a) (g b)) x) w).
      { intros w. apply filter_ext. intros y. apply equiv_true in Q. destruct Q as [Q1 Q3]. destruct W as (_ & _ & N).
        apply Bool.eq_iff_eq_true. rewrite !equiv_true. split; intros [H1 H2].
        - exact (N _ _ _ Q3 Q1 H1 H2).
        - exact (N _ _ _ Q1 Q3 H1 H2). }
      now rewrite !Q2.
    + assert (Z : forall w, Permutation w l -> filter (fun x => equiv lt v (g x)) w = []).
      { intros w Pw. destruct (filter (fun x => equiv lt v (g x)) w) as [|y t] eqn:Y; [reflexivity|].
        assert (I : In y (filter (fun x => equiv lt v (g x)) w)) by (rewrite Y; now left). apply filter_In in I. destruct I as [I1 I2].
        assert (existsb (fun x => equiv lt v (g x)) l = true); [|congruence].
        apply existsb_exists. exists y. split; [exact (Permutation_in y Pw I1)|exact I2]. }
      rewrite (Z r P), (Z l (Permutation_refl l)). reflexivity.
Qed.
Lemma sort_pairs {A B} (lta eqa : A -> A -> bool) (ltb : B -> B -> bool) pre l post :
  StrictWeak lta -> StrictWeak ltb -> eq_is_equiv lta eqa ->
  exists r, stable_sort (pair_lt lta eqa ltb) (pre ++ l ++ post) (length pre) (length pre + length l) = Ok (pre ++ r ++ post) /\
    Permutation r l /\ Ascending lta (map fst r) /\
    (forall a, Ascending ltb (map snd (filter (fun p => equiv lta a (fst p)) r))).
Proof.
  intros Wa Wb E. destruct (stable_sort_spec _ (pair_weak lta eqa ltb Wa Wb E) pre l post) as (r & Es & S & P & _).
  exists r. split; [exact Es|]. split; [exact P|]. clear Es P. induction S as [|u t S [IH1 IH2] H].
  - split; [constructor|intros a; constructor].
  - split.
    + cbn [map]. constructor; [exact IH1|]. rewrite Forall_map. eapply Forall_impl; [|exact H].
      intros v Hv. apply (pair_lex_false lta eqa ltb E) in Hv. tauto.
    + intros a. cbn [filter]. destruct (equiv lta a (fst u)) eqn:Q; [|apply IH2]. cbn [map]. constructor; [apply IH2|].
      rewrite Forall_map. apply Forall_forall. intros v Hv. apply filter_In in Hv. destruct Hv as [Hv Qv].
      rewrite Forall_forall in H. specialize (H v Hv). apply (pair_lex_false lta eqa ltb E) in H. destruct H as [_ [H | H]]; [|exact H].
      apply equiv_true in Q. apply equiv_true in Qv. destruct Q as [Q1 Q2], Qv as [V1 V2].
      destruct Wa as (_ & _ & N). destruct (N _ _ _ Q2 Q1 V1 V2) as [N1 _]. congruence.
Qed.
Lemma relations {T} (lt : T -> T -> bool) (W : StrictWeak lt) (x y z : T) :
  (op_gt lt x y = lt y x /\ f_greater lt x y = lt y x /\ f_less lt x y = lt x y) /\
  (op_le lt x y = true <-> lt x y = true \/ equiv lt x y = true) /\
  (op_ge lt x y = true <-> op_gt lt x y = true \/ equiv lt x y = true) /\
  (op_le lt x y = true \/ op_le lt y x = true) /\
  (op_le lt x y = true -> op_le lt y z = true -> op_le lt x z = true) /\
  f_less_equal lt x y = op_le lt x y /\ f_greater_equal lt x y = op_ge lt x y.
Proof.
  pose proof (sw_asym lt W x y) as A1. pose proof (sw_asym lt W y x) as A2.
  split; [auto|]. unfold op_le, op_ge, op_gt. rewrite !equiv_true, !negb_true_iff.
  split; [destruct (lt x y), (lt y x); intuition congruence|].
  split; [destruct (lt x y), (lt y x); intuition congruence|].
  split; [destruct (lt x y), (lt y x); intuition congruence|].
  split; [intros H1 H2; exact (sw_le_trans lt W x y z H1 H2)|]. split; reflexivity.
Qed.
(** Letters: 0 is A, 1 is a, 2 is B, ... *)
Lemma mixed_order : exists (lta eqa : nat -> nat -> bool) (l : list (nat * nat)),
  StrictWeak lta /\ DecEq eqa /\ ~ StrictWeak (pair_lt lta eqa Nat.ltb) /\
  stable_sort (pair_lt lta eqa Nat.ltb) l 0 (length l) = Ok l /\ ~ Ascending (pair_lt lta eqa Nat.ltb) l.
Proof.
  exists (fun a b => Nat.ltb (Nat.div2 a) (Nat.div2 b)), Nat.eqb, [(1, 1); (0, 5); (1, 0)].
  split; [exact (pull_weak _ ltb_weak Nat.div2)|]. split; [exact Nat.eqb_eq|]. split.
  - intros (_ & _ & N). destruct (N (1, 1) (0, 5) (1, 0)) as [_ H]; try reflexivity. discriminate H.
  - split; [reflexivity|]. intros S. rewrite Ascending_nth in S. specialize (S 0 2 (1, 1) (1, 0) ltac:(lia) eq_refl eq_refl). discriminate S.
Qed.
(** ** Adaptors *)
Lemma bound_counts {A} (lt : A -> A -> bool) (v : A) (l : list A) :
  count_if (bind2nd (f_less lt) v) l = countp (fun x => lt x v) l /\
  count_if (bind1st (f_less lt) v) l = countp (fun x => lt v x) l /\
  count_if (unary_negator (bind2nd (f_less lt) v)) l + count_if (bind2nd (f_less lt) v) l = length l.
Proof.
  rewrite !count_if_countp. split; [reflexivity|]. split; [reflexivity|].
  induction l as [|x t IH]; [reflexivity|]. rewrite !countp_cons. cbn [length]. unfold unary_negator at 1. destruct (bind2nd (f_less lt) v x); cbn [negb]; lia.
Qed.
Lemma find_member {A V} (eq : V -> V -> bool) (member : A -> V) (v : V) (l : list A) : DecEq eq ->
  let i := find_if (mem_var_equal_to1 eq member v) l in
  (forall x, In x (firstn i l) -> member x <> v) /\ (i = length l \/ exists x, nth_error l i = Some x /\ member x = v).
Proof.
  intros E. cbv zeta. induction l as [|y t [IH1 IH2]]; cbn [find_if].
  - split; [intros x []|now left].
  - destruct (mem_var_equal_to1 eq member v y) eqn:Q.
    + split; [intros x []|]. right. exists y. split; [reflexivity|]. now apply E.
    + cbn [firstn length nth_error]. split.
      * intros x [<- | Hx]; [|now apply IH1]. intros H. apply E in H. unfold mem_var_equal_to1, mem_var1, bind2nd, f_equal_to in Q. congruence.
      * destruct IH2 as [-> | (x & H1 & H2)]; [now left|]. right. exists x. now split.
Qed.
Lemma composes {A B C D} (f : B -> C) (g : A -> B) (k : B -> C -> D) (h : A -> C) (l : list A) :
  transform (compose1 f g) l = map f (map g l) /\
  transform (compose2 k g h) l = map (fun p => k (fst p) (snd p)) (combine (map g l) (map h l)).
Proof.
  induction l as [|x t [IH1 IH2]]; [now split|]. cbn [transform map combine]. rewrite IH1, IH2. now split.
Qed.
