(** * SortFacts: counterexamples and derived facts for P_Sort.v. *)
From Verif Require Import Base Order RangeSpec RangeModel ArrayModel HeapModel HeapSpec PqSpec
  RangeProofs SetAlgoProofs SortProofs PermSpec PermProofs HeapProofs ExampleOrders.

Lemma heap_example : Heap Nat.ltb [9; 4; 7; 1].
Proof.
  intros i c x y Hk Hx Hy. assert (Hc : c < 4) by (apply (nth_error_Some [9;4;7;1]); congruence).
  destruct i as [|[|[|i]]]; destruct Hk as [->| ->]; simpl in *; try lia;
    inversion Hx; inversion Hy; subst; reflexivity.
Qed.

Lemma pop_heap_largest {A} (lt : A -> A -> bool) (W : StrictWeak lt) pre x t post :
  Heap lt (x :: t) ->
  exists r, pop_heap lt (pre ++ (x :: t) ++ post) (length pre) (length pre + length (x :: t))
            = Ok (pre ++ (r ++ [x]) ++ post) /\
            Permutation r t /\ Heap lt r /\ Largest lt x (x :: t).
Proof.
  intros H. destruct (pop_heap_spec lt W pre x t post H) as (r & E & P & Hr).
  exists r. split; [auto|]. split; [auto|]. split; [auto|]. now apply heap_largest.
Qed.

Lemma pq_comparator_wrong :
  exists (comp : nat -> nat -> bool) ops out r t,
    StrictWeak comp /\ pops_ok 0 ops /\
    pq_run comp Nat.ltb ops [] = Ok (out, r) /\ pq_top r = Ok t /\ ~ Largest comp t r.
Proof.
  exists gtb, [PqPush 1; PqPush 2; PqPush 3; PqPop], [1], [3; 2], 3.
  split; [exact gtb_weak|]. split; [exact I|]. split; [reflexivity|]. split; [reflexivity|].
  intros [_ H]. specialize (H 2 (or_intror (or_introl eq_refl))). discriminate.
Qed.

Lemma merge_not_stable :
  exists l1 l2 r v, Ascending key_lt l1 /\ Ascending key_lt l2 /\
    merge key_lt l1 l2 = Ok r /\
    filter (equiv key_lt v) r <> filter (equiv key_lt v) (l1 ++ l2).
Proof.
  exists [(1, 0)], [(1, 1)], [(1, 1); (1, 0)], (1, 0).
  split; [asc|]. split; [asc|]. split; [reflexivity|]. discriminate.
Qed.

Section MergeOrder.
  Context {A : Type} (lt : A -> A -> bool) (W : StrictWeak lt).

  Lemma merge_loop_order fuel l1 l2 res r :
    Ascending lt l1 -> Ascending lt l2 -> merge_loop fuel lt l1 l2 res = Ok r ->
    forall v, filter (equiv lt v) r = filter (equiv lt v) res ++ filter (equiv lt v) (l2 ++ l1).
  Proof.
    revert l1 l2 res. induction fuel as [|fuel IH]; intros l1 l2 res H1 H2 E v.
    - destruct l1 as [|x t1], l2 as [|y t2]; cbn [merge_loop] in E; try discriminate;
        rewrite copy_out_app in E; injection E as <-; rewrite ?filter_app; cbn [app]; rewrite ?app_nil_r; auto. 
    - destruct l1 as [|x t1], l2 as [|y t2]; cbn [merge_loop] in E;
        try (rewrite copy_out_app in E; injection E as <-; rewrite ?filter_app; cbn [app]; rewrite ?app_nil_r; auto; fail).
      destruct (lt x y) eqn:Exy.
      + inversion H1 as [|? ? H1' F1]; subst.
        rewrite (IH _ _ _ H1' H2 E v), filter_app, <- app_assoc. f_equal.
        rewrite !filter_app. cbn [filter app].
        destruct (equiv lt v x) eqn:Ev; [|auto].
        assert (Hn : filter (equiv lt v) (y :: t2) = []).
        { apply filter_none. intros z Hz. unfold equiv in *.
          apply andb_true_iff in Ev. rewrite !negb_true_iff in Ev. destruct Ev as [Ev1 Ev2].
          assert (Hxz : lt x z = true).
          { destruct Hz as [<-|Hz]; [auto|]. inversion H2 as [|? ? _ F2]; subst.
            rewrite Forall_forall in F2. eapply sw_lt_le_trans; eauto. }
          assert (Hvz : lt v z = true) by (eapply sw_le_lt_trans; eauto).
          now rewrite Hvz. }
        cbn [filter] in Hn. rewrite Hn. reflexivity.
      + inversion H2 as [|? ? H2' F2]; subst.
        rewrite (IH _ _ _ H1 H2' E v), filter_app, <- app_assoc. f_equal.
        rewrite !filter_app. cbn [filter app]. destruct (equiv lt v y); auto.
  Qed.
  Lemma merge_order l1 l2 r :
    Ascending lt l1 -> Ascending lt l2 -> merge lt l1 l2 = Ok r ->
    forall v, filter (equiv lt v) r = filter (equiv lt v) (l2 ++ l1).
  Proof. intros H1 H2 E v. exact (merge_loop_order _ l1 l2 [] r H1 H2 E v). Qed.

  Lemma not_lex l m : lexicographical_compare lt l m = false <-> ~ LexLt lt l m.
  Proof.
    rewrite <- lex_iff by auto. destruct (lexicographical_compare lt l m); split; congruence.
  Qed.

  Lemma next_permutation_LexLt pre l post :
    exists r b, next_permutation lt (pre ++ l ++ post) (length pre) (length pre + length l)
                = Ok (pre ++ r ++ post, b) /\
      Permutation r l /\
      (b = true -> LexLt lt l r /\
         (forall m, Permutation m l -> LexLt lt l m -> ~ LexLt lt m r)) /\
      (b = false -> Ascending lt r /\ forall m, Permutation m l -> ~ LexLt lt l m).
  Proof.
    destruct (next_permutation_spec lt W pre l post) as (r & b & E & P & Ht & Hf).
    exists r, b. split; [auto|]. split; [auto|]. split; intros Hb.
    - destruct (Ht Hb) as [K1 K2]. split; [now apply lex_iff|].
      intros m Hm Hl. apply not_lex. apply K2; auto. now apply lex_iff.
    - destruct (Hf Hb) as [K1 K2]. split; [auto|]. intros m Hm. now apply not_lex, K2.
  Qed.
  Lemma prev_permutation_LexLt pre l post :
    exists r b, prev_permutation lt (pre ++ l ++ post) (length pre) (length pre + length l)
                = Ok (pre ++ r ++ post, b) /\
      Permutation r l /\
      (b = true -> LexLt lt r l /\
         (forall m, Permutation m l -> LexLt lt m l -> ~ LexLt lt r m)) /\
      (b = false -> Descending lt r /\ forall m, Permutation m l -> ~ LexLt lt m l).
  Proof.
    destruct (prev_permutation_spec lt W pre l post) as (r & b & E & P & Ht & Hf).
    exists r, b. split; [auto|]. split; [auto|]. split; intros Hb.
    - destruct (Ht Hb) as [K1 K2]. split; [now apply lex_iff|].
      intros m Hm Hl. apply not_lex. apply K2; auto. now apply lex_iff.
    - destruct (Hf Hb) as [K1 K2]. split; [auto|]. intros m Hm. now apply not_lex, K2.
  Qed.
End MergeOrder.
