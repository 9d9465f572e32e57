(** * SearchFacts: counterexamples and derived facts for P_Search.v. *)
From Verif Require Import Base Order RangeSpec RangeModel ArrayModel ArrayProofs RangeProofs BoundProofs ExampleOrders.

Lemma binary_search_comp_wrong :
  exists (comp : nat -> nat -> bool) l v,
    StrictWeak comp /\ Ascending comp l /\
    binary_search_comp comp l 0 (length l) v = Ok true /\
    ~ exists x, In x l /\ comp x v = false /\ comp v x = false.
Proof.
  exists Nat.ltb, [5], 3. split; [exact ltb_weak|]. split; [asc|]. split; [reflexivity|].
  intros (x & [<-|[]] & H1 & H2). discriminate.
Qed.

Lemma binary_search_comp_actual {A} (comp : A -> A -> bool) (W : StrictWeak comp) pre l post v :
  Ascending comp l ->
  exists b, binary_search_comp comp (pre ++ l ++ post) (length pre) (length pre + length l) v = Ok b /\
            (b = true <-> exists x, In x l /\ comp x v = false).
Proof.
  intros Ha. destruct (lower_bound_spec comp W pre l post v Ha) as (n & E & H).
  unfold binary_search_comp. rewrite E. cbn [bind].
  destruct (Nat.eqb_spec (length pre + n) (length pre + length l)) as [Eq|Ne].
  - exists false. split; [auto|]. split; [discriminate|]. intros (x & Hx & Hc).
    destruct H as [(H & _)|(_ & H)]; [lia|].
    apply In_nth_error in Hx. destruct Hx as (i & Hi).
    exfalso. apply (H i); [apply nth_error_Some; congruence|]. exists x. now rewrite Hc.
  - destruct H as [(H1 & (x & Hx & Hp) & _)|(H1 & _)]; [|lia].
    exists true. split.
    + destruct (split_at _ _ _ Hx) as (u & w & -> & <-).
      replace (pre ++ (u ++ x :: w) ++ post) with ((pre ++ u) ++ x :: w ++ post) by (napp; auto).
      rewrite rd_app' by len. cbn [bind]. now rewrite Hp.
    + split; [|auto]. intros _. exists x. split; [eapply nth_error_In; eauto|].
      now apply negb_true_iff.
Qed.

Lemma find_end_wrong :
  exists (l pat : list nat) n,
    find_end Nat.eqb l 0 (length l) pat = Ok n /\
    ~ LastOrEnd (occurs_at Nat.eqb pat l) (length l) n.
Proof.
  exists [1; 2], [1], 2. split; [reflexivity|].
  intros [(H & _)|(_ & H)]; [simpl in H; lia|].
  apply (H 0); [simpl; lia|]. intros [|[|k]] y Hy; try discriminate.
  inversion Hy; subst. exists 1. auto.
Qed.

Section Lex.
  Context {A : Type} (lt : A -> A -> bool).
  Notation lex := (lexicographical_compare lt).
  Lemma lex_weak : StrictWeak lt -> StrictWeak lex.
  Proof.
    intros W. split; [|split].
    - induction x as [|a x IH]; simpl; [auto|]. now rewrite (sw_irrefl lt W).
    - induction x as [|a x IH]; intros [|b y] [|c z]; simpl; try discriminate; auto.
      destruct (lt a b) eqn:Eab.
      + intros _. destruct (lt b c) eqn:Ebc.
        * intros _. now rewrite (sw_trans lt W _ _ _ Eab Ebc).
        * destruct (lt c b) eqn:Ecb; [discriminate|]. intros _.
          now rewrite (sw_lt_le_trans lt W _ _ _ Eab Ecb).
      + destruct (lt b a) eqn:Eba; [discriminate|]. intros H1.
        destruct (lt b c) eqn:Ebc.
        * intros _. now rewrite (sw_le_lt_trans lt W a b c Eba Ebc).
        * destruct (lt c b) eqn:Ecb; [discriminate|]. intros H2.
          rewrite (sw_le_trans lt W c b a); auto.
          rewrite (sw_le_trans lt W a b c); auto. eauto.
    - induction x as [|a x IH]; intros [|b y] [|c z]; simpl; try discriminate; auto.
      destruct (lt a b) eqn:Eab; [discriminate|]. destruct (lt b a) eqn:Eba; [discriminate|].
      intros H1 H2. destruct (lt b c) eqn:Ebc; [discriminate|].
      destruct (lt c b) eqn:Ecb; [discriminate|]. intros H3 H4.
      rewrite (sw_le_trans lt W c b a); auto. rewrite (sw_le_trans lt W a b c); auto. eauto.
  Qed.
  Lemma lex_total : StrictTotal lt -> StrictTotal lex.
  Proof.
    intros T. pose proof (lex_weak (total_weak lt T)) as (H1 & H2 & _).
    split; [auto|]. split; [auto|]. destruct T as (Ti & _ & Te).
    induction x as [|a x IH]; intros [|b y]; simpl; try discriminate; auto.
    destruct (lt a b) eqn:Eab; [discriminate|]. destruct (lt b a) eqn:Eba; [discriminate|].
    intros K1 K2. f_equal; auto.
  Qed.
End Lex.
