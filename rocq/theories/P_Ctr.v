(** * P_Ctr: the container algorithms on vectors (C91). *)
From Verif Require Import Base Order StoreModel VectorModel VectorSpec VectorProofs VectorFacts
  QsortModel QsortSpec QsortProofs ExampleOrders RangeSpec ArrayModel BoundProofs CtrModel CtrSpec CtrProofs.
From Coq Require Import ZArith.
Local Open Scope nat_scope.

(** Any sequence of vector operations and container algorithms, beginning with
    an empty vector, leaves it with contents that a sequence would have after
    right results of the same operations. *)
Theorem C91_container_algorithms {T} (e : env) (es : Z) (dflt : T) (eqb lt : T -> T -> bool) qs ops :
  (0 < es)%Z -> (es mod 4 = 0)%Z -> good_env e -> enough_memory e ->
  (forall x y, eqb x y = true <-> x = y) -> StrictWeak lt -> qsort_contract qs ->
  cpres es dflt eqb lt [] ops ->
  exists v l, c_run e es dflt eqb lt qs vec_nil ops = Ok v /\ contents v = Ok l /\ cspecs dflt eqb lt [] ops l.
Proof.
  intros Hes H4 He Hm Heq Hlt Hqs P.
  assert (Q : forall x y z, eqb y x = true -> eqb z y = eqb z x) by (intros x y z H; apply Heq in H; now subst).
  destruct (c_run_ok e es dflt eqb lt qs Hes H4 He Hm Q Hlt Hqs ops vec_nil [] (Vinv_nil es) P) as (v & l & E & I & S).
  exists v, l. split; [exact E|]. split; [now apply (contents_ok es Hes)|exact S].
Qed.
Print Assumptions C91_container_algorithms.

Example C91_example : let ops := [CVec (OpAssign [3; 1; 4; 1; 5; 9; 2; 6]); CRotate 3; CRemoveAt [0; 2; 2; 7]; CStableSort; CUnique;
    CReverse; CTransform S] in
  cpres 4 0 Nat.eqb Nat.ltb [] ops /\
  (v <- c_run env0 4 0 Nat.eqb Nat.ltb isort vec_nil ops ;; contents v) = Ok [5; 4; 3; 2].
Proof.
  cbv zeta. split; [|vm_compute; reflexivity].
  split; [split; [cbn [seq_step length]; lia|exact I]|]. cbn [cspec seq_step]. intros l1 ->.
  split; [cbn [cpre length]; lia|]. intros l2 _. split; [repeat constructor|]. intros l3 _.
  repeat (split; [exact I|intros ? _]). exact I.
Qed.
(** [fill] and [generate] between others: {7, 7, 7} with a 1 added, then 0, 10, 20, 30. *)
Example C91_generators : let ops := [CVec (OpAssign [3; 1; 4]); CFill 7; CVec (OpPushBack 1)] in
  (v <- c_run env0 4 0 Nat.eqb Nat.ltb isort vec_nil ops ;; contents v) = Ok [7; 7; 7; 1] /\
  (v <- c_run env0 4 0 Nat.eqb Nat.ltb isort vec_nil (ops ++ [CGenerate (fun k => 10 * k)]) ;; contents v) = Ok [0; 10; 20; 30].
Proof. split; vm_compute; reflexivity. Qed.

(** After any history that ends with a sort, the container searches find, for
    every value: [equal_range] exactly the positions of the elements equivalent
    to it, [lower_bound] and [upper_bound] its two ends, [binary_search] if
    there are any.  Nothing else is needed of the history. *)
Lemma cspecs_last {T} (dflt : T) eqb lt o : forall ops l l2, cspecs dflt eqb lt l (ops ++ [o]) l2 -> exists l1, cspec dflt eqb lt l1 o l2.
Proof.
  induction ops as [|a ops IH]; intros l l2 H; cbn [app] in H; inversion H; subst; [|eauto].
  match goal with Q : cspecs _ _ _ _ [] _ |- _ => inversion Q; subst end. eauto.
Qed.
Theorem C91_sorted_searches {T} (e : env) (es : Z) (dflt : T) (eqb lt : T -> T -> bool) qs ops o :
  (0 < es)%Z -> (es mod 4 = 0)%Z -> good_env e -> enough_memory e ->
  (forall x y, eqb x y = true <-> x = y) -> StrictWeak lt -> qsort_contract qs ->
  o = CSort \/ o = CStableSort -> cpres es dflt eqb lt [] (ops ++ [o]) ->
  exists v l, c_run e es dflt eqb lt qs vec_nil (ops ++ [o]) = Ok v /\ contents v = Ok l /\
    forall x, exists n m b, c_equal_range lt v x = Ok (n, m) /\ c_lower_bound lt v x = Ok n /\ c_upper_bound lt v x = Ok m /\
      c_binary_search lt v x = Ok b /\ n <= m <= length l /\
      (forall k y, nth_error l k = Some y -> (n <= k < m <-> lt y x = false /\ lt x y = false)) /\
      (b = true <-> n < m).
Proof.
  intros Hes H4 He Hm Heq Hlt Hqs Ho P.
  destruct (C91_container_algorithms e es dflt eqb lt qs _ Hes H4 He Hm Heq Hlt Hqs P) as (v & l & E & C & S).
  exists v, l. split; [exact E|]. split; [exact C|]. destruct (cspecs_last _ _ _ _ _ _ _ S) as (l1 & L).
  assert (A : Ascending lt l) by (destruct Ho as [-> | ->]; cbn [cspec] in L; apply L). clear - A C Hlt.
  intros x. unfold c_equal_range, c_lower_bound, c_upper_bound, c_binary_search. rewrite C. cbn [bind].
  destruct (lower_bound_spec lt Hlt [] l [] x A) as (n & Ln & Fn). destruct (upper_bound_spec lt Hlt [] l [] x A) as (m & Lm & Fm).
  destruct (equal_range_spec lt Hlt [] l [] x A) as (n' & m' & Le & Fn' & Fm'). destruct (binary_search_spec lt Hlt [] l [] x A) as (b & Lb & Fb).
  cbn [app length Nat.add] in *. rewrite !app_nil_r in *.
  assert (U : forall (p : T -> bool) i j, FirstOrEnd (holds_at p l) (length l) i -> FirstOrEnd (holds_at p l) (length l) j -> i = j).
  { clear. intros p i j [(A & B & C)|(A & C)] [(A' & B' & C')|(A' & C')]; [|exfalso; eapply C'; eauto|exfalso; eapply C; eauto|lia].
    destruct (Nat.lt_trichotomy i j) as [H|[H|H]]; [exfalso; eapply C'; eauto|exact H|exfalso; eapply C; eauto]. }
  rewrite (U _ _ _ Fn' Fn), (U _ _ _ Fm' Fm) in Le. clear U Fn' Fm' n' m'.
  pose proof (proj1 (Ascending_nth lt l) A) as An. destruct Hlt as (Ir & Tr & In').
  (* below n: less; from n: not less; below m: not greater; from m: greater *)
  assert (N : n <= length l /\ forall k y, nth_error l k = Some y -> (n <= k <-> lt y x = false)).
  { destruct Fn as [(A1 & (y0 & Y0 & L0) & B1)|(-> & B1)].
    - split; [lia|]. intros k y Y. split.
      + intros Hk. apply negb_true_iff in L0. destruct (lt y x) eqn:Q; [|reflexivity]. exfalso.
        destruct (Nat.eq_dec n k) as [<-|Ne]; [congruence|]. specialize (An n k y0 y ltac:(lia) Y0 Y).
        destruct (lt y0 y) eqn:Q2; [rewrite (Tr _ _ _ Q2 Q) in L0; discriminate|].
        destruct (lt x y0) eqn:Q3; [rewrite (Tr _ _ _ Q Q3) in An; discriminate|]. destruct (In' y y0 x An Q2 L0 Q3) as (Z1 & _). congruence.
      + intros Q. destruct (le_lt_dec n k) as [|Hk]; [assumption|]. exfalso. apply (B1 k Hk). exists y. split; [exact Y|]. now rewrite Q.
    - split; [lia|]. intros k y Y. assert (k < length l) by (apply nth_error_Some; congruence). split; [lia|]. intros Q. exfalso. apply (B1 k H). exists y. split; [exact Y|]. now rewrite Q. }
  assert (M : m <= length l /\ forall k y, nth_error l k = Some y -> (m <= k <-> lt x y = true)).
  { destruct Fm as [(A1 & (y0 & Y0 & L0) & B1)|(-> & B1)].
    - split; [lia|]. intros k y Y. split.
      + intros Hk. destruct (Nat.eq_dec m k) as [<-|Ne]; [congruence|]. specialize (An m k y0 y ltac:(lia) Y0 Y).
        destruct (lt y0 y) eqn:Q2; [exact (Tr _ _ _ L0 Q2)|]. destruct (lt x y) eqn:Q; [reflexivity|]. exfalso.
        destruct (lt y x) eqn:Q3; [rewrite (Tr _ _ _ Q3 L0) in An; discriminate|]. destruct (In' x y y0 Q Q3 An Q2) as (Z1 & _). congruence.
      + intros Q. destruct (le_lt_dec m k) as [|Hk]; [assumption|]. exfalso. apply (B1 k Hk). exists y. now split.
    - split; [lia|]. intros k y Y. assert (k < length l) by (apply nth_error_Some; congruence). split; [lia|]. intros Q. exfalso. apply (B1 k H). exists y. now split. }
  destruct N as (N1 & N). destruct M as (M1 & M).
  assert (NM : n <= m).
  { destruct (le_lt_dec n m) as [|H]; [assumption|]. exfalso. destruct (nth_error l m) as [y|] eqn:Y; [|apply nth_error_None in Y; lia].
    pose proof (proj1 (M m y Y) (le_n _)) as Q. destruct (lt y x) eqn:Q2; [pose proof (Tr _ _ _ Q Q2) as Z0; rewrite Ir in Z0; discriminate|].
    pose proof (proj2 (N m y Y) Q2). lia. }
  assert (R : forall k y, nth_error l k = Some y -> (n <= k < m <-> lt y x = false /\ lt x y = false)).
  { intros k y Y. rewrite <- (N k y Y). specialize (M k y Y). split.
    - intros (H1 & H2). split; [exact H1|]. destruct (lt x y); [|reflexivity]. exfalso. apply proj2 in M. specialize (M eq_refl). lia.
    - intros (H1 & H2). split; [exact H1|]. destruct (le_lt_dec m k) as [H|]; [|assumption]. apply M in H. congruence. }
  exists n, m, b. split; [exact Le|]. split; [exact Ln|]. split; [exact Lm|]. split; [exact Lb|]. split; [lia|]. split; [exact R|].
  rewrite Fb. split.
  - intros (y & Hy & Q). apply In_nth_error in Hy. destruct Hy as (k & Y). apply (R k y Y) in Q. lia.
  - intros H. destruct (nth_error l n) as [y|] eqn:Y; [|apply nth_error_None in Y; lia]. exists y. split; [eapply nth_error_In; exact Y|]. apply (R n y Y). lia.
Qed.
Print Assumptions C91_sorted_searches.
Example C91_search_example : let ops := [CVec (OpAssign [3; 1; 4; 1; 5]); CReverse; CVec (OpPushBack 1)] in
  cpres 4 0 Nat.eqb Nat.ltb [] (ops ++ [CStableSort]) /\
  (v <- c_run env0 4 0 Nat.eqb Nat.ltb isort vec_nil (ops ++ [CStableSort]) ;; c_equal_range Nat.ltb v 1) = Ok (0, 3).
Proof.
  cbv zeta. split; [|vm_compute; reflexivity]. cbn [app].
  split; [split; [cbn [seq_step length]; lia|exact I]|]. cbn [cspec seq_step]. intros l1 ->.
  split; [exact I|]. cbn [cspec]. intros l2 ->. split; [split; [cbn [seq_step rev app length]; lia|exact Logic.I]|]. intros l3 _. split; [exact I|]. intros ? _. exact I.
Qed.
