(** * Properties C225-C226: algorithms on two ranges, without a comparison object. *)
From Verif Require Import Base Order RangeSpec RangeModel ArrayModel RangeProofs ArrayProofs SetAlgoProofs MinMaxModel MinMaxSpec
  P_MinMax P_Search P_SetOps DefCmpModel.
From Coq Require Import ZArith List Bool Lia Sorted Arith.
Import ListNotations.
Local Open Scope Z_scope.

(** How often the number [v] is in [l]. *)
Definition times (v : Z) (l : list Z) : nat := count_occ Z.eq_dec l v.
(** The numbers of [l] in order. *)
Definition in_order (l : list Z) : Prop := StronglySorted Z.le l.
(** [pat] stands in [l] at [i]. *)
Definition stands_at (pat l : list Z) (i : nat) : Prop := exists r, skipn i l = pat ++ r.
(** Dictionary order of numbers. *)
Inductive before : list Z -> list Z -> Prop :=
| before_nil y l : before [] (y :: l)
| before_head x y k l : x < y -> before (x :: k) (y :: l)
| before_tail x k l : before k l -> before (x :: k) (x :: l).

Lemma less_weak t : StrictWeak (less_as t).
Proof.
  unfold less_as. split; [intros x; apply Z.ltb_irrefl|]. split.
  - intros x y z A B. apply Z.ltb_lt in A, B. apply Z.ltb_lt. lia.
  - intros x y z A B C D. apply Z.ltb_ge in A, B, C, D. split; apply Z.ltb_ge; lia.
Qed.
Lemma asc_fit t l : int_type t -> Forall (fits t) l -> in_order l -> Ascending (less_as t) l.
Proof.
  intros T F O. induction O as [|x l O IH L]; [constructor|]. inversion F as [|a b Fx Fl]; subst. constructor; [now apply IH|].
  clear IH O F. induction L as [|y l Lx L IH]; [constructor|]. inversion Fl as [|a b Fy Fl']; subst. constructor; [|now apply IH].
  unfold less_as. rewrite (conv_fits t x T Fx), (conv_fits t y T Fy). now apply Z.ltb_ge.
Qed.
Lemma asc_back t l : int_type t -> Forall (fits t) l -> Ascending (less_as t) l -> in_order l.
Proof.
  intros T F O. induction O as [|x l O IH L]; [constructor|]. inversion F as [|a b Fx Fl]; subst. constructor; [now apply IH|].
  clear IH O F. induction L as [|y l Lx L IH]; [constructor|]. inversion Fl as [|a b Fy Fl']; subst. constructor; [|now apply IH].
  unfold less_as in Lx. rewrite (conv_fits t x T Fx), (conv_fits t y T Fy) in Lx. now apply Z.ltb_ge in Lx.
Qed.
Lemma mult_times t v l : int_type t -> fits t v -> Forall (fits t) l -> mult (less_as t) v l = times v l.
Proof.
  intros T Fv F. unfold mult, times, countp. induction F as [|x l Fx F IH]; [reflexivity|]. cbn [filter count_occ].
  unfold equiv at 1, less_as at 1 2. rewrite (conv_fits t x T Fx), (conv_fits t v T Fv).
  destruct (Z.eq_dec x v) as [->|N].
  - rewrite Z.ltb_irrefl. cbn [negb andb]. cbn [length]. now rewrite IH.
  - destruct (Z.ltb_spec v x), (Z.ltb_spec x v); cbn [negb andb]; try exact IH. lia.
Qed.
Lemma times_out t v l : ~ fits t v -> Forall (fits t) l -> times v l = 0%nat.
Proof.
  intros N F. unfold times. apply count_occ_not_In. intros J. apply N. rewrite Forall_forall in F. now apply F.
Qed.
Lemma fits_dec t v : fits t v \/ ~ fits t v.
Proof. unfold fits. lia. Qed.
Lemma stands_iff t pat l i : int_type t -> Forall (fits t) l -> Forall (fits t) pat -> (i <= length l)%nat ->
  occurs_at (eq_as t) pat l i <-> stands_at pat l i.
Proof.
  intros T F G. revert l i F. induction G as [|y pat Fy G IH]; intros l i F Hi.
  - split; [intros _; now exists (skipn i l)|]. intros _ k y E. destruct k; discriminate E.
  - split.
    + intros H. destruct (H 0%nat y eq_refl) as (x & E & C). rewrite Nat.add_0_r in E.
      assert (Fx : fits t x) by (rewrite Forall_forall in F; apply F; now apply nth_error_In with i).
      unfold eq_as in C. rewrite (conv_fits t x T Fx), (conv_fits t y T Fy) in C. apply Z.eqb_eq in C. subst x.
      destruct (nth_error_split l i E) as (l1 & l2 & -> & L).
      assert (H2 : occurs_at (eq_as t) pat (l1 ++ y :: l2) (S i)).
      { intros k z Ez. destruct (H (S k) z Ez) as (x & Ex & C). exists x. split; [|exact C]. rewrite <- Ex. f_equal. lia. }
      apply IH in H2; [|exact F|rewrite app_length; cbn [length]; lia]. destruct H2 as (r & R). exists r.
      rewrite skipn_app. rewrite (skipn_all2 l1) by lia. rewrite L, Nat.sub_diag. cbn [skipn app].
      rewrite skipn_app in R. rewrite (skipn_all2 l1) in R by lia. rewrite L in R. replace (S i - i)%nat with 1%nat in R by lia. cbn [skipn app] in R.
      now rewrite R.
    + intros (r & R) k z Ez. assert (Q : nth_error l (i + k) = Some z).
      { rewrite <- (firstn_skipn i l), nth_error_app2 by (rewrite firstn_length; lia).
        rewrite firstn_length, Nat.min_l by lia. replace (i + k - i)%nat with k by lia. rewrite R, nth_error_app1; [exact Ez|].
        apply nth_error_Some. now rewrite Ez. }
      exists z. split; [exact Q|]. apply Z.eqb_refl.
Qed.
Lemma fe_ext (P Q : nat -> Prop) n k : (forall i, (i <= n)%nat -> P i <-> Q i) -> FirstOrEnd P n k -> FirstOrEnd Q n k.
Proof.
  intros H [(A & B & C)|(A & B)]; [left|right].
  - split; [exact A|]. split; [apply H; [lia|exact B]|]. intros i L J. apply (C i L). apply H; [lia|exact J].
  - split; [exact A|]. intros i L J. apply (B i L). apply H; [lia|exact J].
Qed.

(** ** C225 *)
Section Fit.
  Variable t : ity.
  Variables l1 l2 : list Z.
  Hypothesis T : int_type t.
  Hypothesis F1 : Forall (fits t) l1.
  Hypothesis F2 : Forall (fits t) l2.
Theorem C225_search pre post :
    exists n, search_default t (pre ++ l1 ++ post) (length pre) (length pre + length l1) l2 = Ok (length pre + n)%nat /\
      FirstOrEnd (stands_at l2 l1) (length l1) n.
  Proof.
    destruct (C27_search (eq_as t) pre l1 post l2) as (n & E & R). exists n. split; [exact E|].
    apply (fe_ext _ _ _ _ (fun i L => stands_iff t l2 l1 i T F1 F2 L) R).
  Qed.
Theorem C225_find_first_of :
    FirstOrEnd (fun i => exists x, nth_error l1 i = Some x /\ In x l2) (length l1) (find_first_of_default t l1 l2).
  Proof.
    refine (fe_ext _ _ _ _ _ (C27_find_first_of (eq_as t) l1 l2)). intros i _. split.
    - intros (x & y & E & J & C). rewrite Forall_forall in F1, F2. unfold eq_as in C.
      rewrite (conv_fits t x T (F1 x (nth_error_In _ _ E))), (conv_fits t y T (F2 y J)) in C. apply Z.eqb_eq in C. subst y. now exists x.
    - intros (x & E & J). exists x, x. split; [exact E|]. split; [exact J|]. apply Z.eqb_refl.
  Qed.
Theorem C225_lexicographical_compare : lexicographical_compare_default t l1 l2 = true <-> before l1 l2.
  Proof.
    unfold lexicographical_compare_default. clear - T F1 F2. revert l2 F2. induction F1 as [|x k Fx Fk IH]; intros l F2.
    - destruct l as [|y l]; cbn [lexicographical_compare]; split; intros H; try discriminate H; try reflexivity; try constructor. inversion H.
    - destruct l as [|y l]; cbn [lexicographical_compare]; [split; intros H; [discriminate H|inversion H]|].
      inversion F2 as [|a b Fy Fl]; subst. specialize (IH Fk l Fl). unfold less_as at 1 2.
      rewrite (conv_fits t x T Fx), (conv_fits t y T Fy).
      destruct (Z.ltb_spec x y) as [A|A]; [split; [intros _; now constructor|reflexivity]|].
      destruct (Z.ltb_spec y x) as [B|B].
      + split; [discriminate|]. intros H. inversion H; subst; lia.
      + assert (x = y) by lia. subst y. rewrite IH. split; [now constructor|]. intros H. inversion H; subst; [lia|assumption].
  Qed.
  Section Sets.
  Hypothesis O1 : in_order l1.
  Hypothesis O2 : in_order l2.
Theorem C225_includes : includes_default t l1 l2 = true <-> (forall v, times v l2 <= times v l1)%nat.
  Proof.
    unfold includes_default. rewrite (C24_includes (less_as t) (less_weak t) l1 l2 (asc_fit t l1 T F1 O1) (asc_fit t l2 T F2 O2)).
    split; intros H v.
    - destruct (fits_dec t v) as [V|V]; [rewrite <- !(mult_times t v) by assumption; apply H|].
      rewrite !(times_out t v) by assumption. lia.
    - assert (G : forall l, mult (less_as t) v l = mult (less_as t) (conv t v) l).
      { intros l. unfold mult. f_equal. unfold equiv, less_as. now rewrite (conv_fits t (conv t v) T (conv_range t v T)). }
      rewrite !G, !(mult_times t (conv t v)) by (try assumption; now apply conv_range). apply H.
  Qed.
  (** Every number is in the result as often as the operation says, in order. *)
Theorem C225_set_operations :
    exists u i d s, set_union_default t l1 l2 = Ok u /\ set_intersection_default t l1 l2 = Ok i /\
      set_difference_default t l1 l2 = Ok d /\ set_symmetric_difference_default t l1 l2 = Ok s /\
      in_order u /\ in_order i /\ in_order d /\ in_order s /\
      forall v, times v u = Nat.max (times v l1) (times v l2) /\ times v i = Nat.min (times v l1) (times v l2) /\
        times v d = (times v l1 - times v l2)%nat /\ times v s = ((times v l1 - times v l2) + (times v l2 - times v l1))%nat.
  Proof.
    pose proof (asc_fit t l1 T F1 O1) as A1. pose proof (asc_fit t l2 T F2 O2) as A2.
    destruct (C24_set_union _ (less_weak t) l1 l2 A1 A2) as (u & Eu & Au & Iu & Mu).
    destruct (C24_set_intersection _ (less_weak t) l1 l2 A1 A2) as (i & Ei & Ai & Ii & Mi).
    destruct (C24_set_difference _ (less_weak t) l1 l2 A1 A2) as (d & Ed & Ad & Id & Md).
    destruct (C24_set_symmetric_difference _ (less_weak t) l1 l2 A1 A2) as (s & Es & As & Is & Ms).
    exists u, i, d, s. split; [exact Eu|]. split; [exact Ei|]. split; [exact Ed|]. split; [exact Es|].
    assert (Fu : Forall (fits t) u) by (apply Forall_forall; intros z J; rewrite Forall_forall in F1, F2; destruct (Iu z J); auto).
    assert (Fi : Forall (fits t) i) by (apply Forall_forall; intros z J; rewrite Forall_forall in F1; auto).
    assert (Fd : Forall (fits t) d) by (apply Forall_forall; intros z J; rewrite Forall_forall in F1; auto).
    assert (Fs : Forall (fits t) s) by (apply Forall_forall; intros z J; rewrite Forall_forall in F1, F2; destruct (Is z J); auto).
    split; [exact (asc_back t u T Fu Au)|]. split; [exact (asc_back t i T Fi Ai)|].
    split; [exact (asc_back t d T Fd Ad)|]. split; [exact (asc_back t s T Fs As)|].
    intros v. destruct (fits_dec t v) as [V|V].
    - rewrite <- !(mult_times t v) by assumption. auto.
    - rewrite !(times_out t v) by assumption. auto.
  Qed.
  End Sets.
End Fit.
Print Assumptions C225_search.
Print Assumptions C225_find_first_of.
Print Assumptions C225_lexicographical_compare.
Print Assumptions C225_includes.
Print Assumptions C225_set_operations.
(** Bytes, and ints that are bytes. *)
Example C225_example : let t := Ity 8 false in
  int_type t /\ Forall (fits t) [3; 7; 7; 255] /\ Forall (fits t) [7; 255] /\ in_order [3; 7; 7; 255] /\ in_order [7; 255] /\
  search_default t [3; 7; 7; 255] 0 4 [7; 255] = Ok 2%nat /\ set_difference_default t [3; 7; 7; 255] [7; 255] = Ok [3; 7].
Proof.
  cbv zeta. split; [now left|]. split; [repeat constructor; discriminate|]. split; [repeat constructor; discriminate|].
  split; [repeat constructor; discriminate|]. split; [repeat constructor; discriminate|]. now split.
Qed.

(** ** C226 *)
(** Each number [v] that the first type cannot hold is taken for another one, [conv t v]. *)
Section NoFit.
  Variable t : ity.
  Variable v : Z.
  Hypothesis T : int_type t.
  Hypothesis N : ~ fits t v.
  Lemma other : conv t v <> v /\ fits t (conv t v).
  Proof. split; [intros E; apply N; rewrite <- E; now apply conv_range|now apply conv_range]. Qed.
  Lemma same : eq_as t (conv t v) v = true /\ less_as t (conv t v) v = false /\ less_as t v (conv t v) = false.
  Proof. unfold eq_as, less_as. rewrite (conv_fits t (conv t v) T (conv_range t v T)), Z.eqb_refl, Z.ltb_irrefl. auto. Qed.
Theorem C226_found_refuted : exists w, fits t w /\ w <> v /\
    find_first_of_default t [w] [v] = 0%nat /\ search_default t [w] 0 1 [v] = Ok 0%nat /\ search_n_default t [w] 1 v = 0%nat.
  Proof.
    destruct other as (D & R), same as (E & _). exists (conv t v). split; [exact R|]. split; [exact D|].
    unfold find_first_of_default, search_default, search_n_default.
    split; [cbn [find_first_of any_match]; now rewrite E|]. split.
    - unfold search. cbn. rewrite E. reflexivity.
    - unfold search_n. cbn. rewrite E. reflexivity.
  Qed.
Theorem C226_sets_refuted : exists w, fits t w /\ w <> v /\
    includes_default t [w] [v] = true /\ set_intersection_default t [w] [v] = Ok [w] /\
    set_difference_default t [w] [v] = Ok [] /\ set_union_default t [w] [v] = Ok [w] /\
    lexicographical_compare_default t [w] [v] = false /\ lexicographical_compare_default t [v] [w] = false.
  Proof.
    destruct other as (D & R), same as (_ & E1 & E2). exists (conv t v). split; [exact R|]. split; [exact D|].
    unfold includes_default, set_intersection_default, set_difference_default, set_union_default, lexicographical_compare_default.
    unfold set_intersection, set_difference, set_union. cbn. rewrite ?E1, ?E2. cbn. rewrite ?E1, ?E2. cbn. auto 10.
  Qed.
End NoFit.
Print Assumptions C226_found_refuted.
Print Assumptions C226_sets_refuted.
(** The number 321 in a range of ints, and the letter A in a range of bytes. *)
Example C226_example : let t := Ity 8 false in int_type t /\ ~ fits t 321 /\ find_first_of_default t [66; 65] [321] = 1%nat.
Proof. cbv zeta. split; [now left|]. split; [unfold fits, lo, hi; cbn; lia|reflexivity]. Qed.
