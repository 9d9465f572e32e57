(** * TypelistProofs *)
From Coq Require Import List Arith Bool ZArith Lia Permutation.
From Verif Require Import TypelistModel TypelistSpec.
Import ListNotations.

Lemma same_true a b : same a b = true <-> a = b.
Proof. unfold same. destruct (ty_dec a b); split; congruence. Qed.
Lemma same_false a b : same a b = false <-> a <> b.
Proof. unfold same. destruct (ty_dec a b); split; congruence. Qed.
Lemma same_refl a : same a a = true.
Proof. now apply same_true. Qed.

Lemma build_tlist l : build l = tlist l.
Proof. induction l; cbn; congruence. Qed.
Lemma last_given_app l : l <> [] -> last l NullType <> NullType -> last_given l = length l.
Proof.
  induction l as [|x t IH]; [congruence|]. intros _ H. cbn [last_given length].
  destruct t as [|y t].
  - cbn [last last_given] in *. rewrite (proj2 (same_false _ _) H). reflexivity.
  - rewrite IH; [reflexivity|discriminate|exact H].
Qed.
Lemma seq_spec l : l <> [] -> length l <= 9 -> last l NullType <> NullType -> Seq l = Some (tlist l).
Proof.
  intros Hn L H. unfold Seq. destruct (Nat.ltb_spec 9 (length l)); [lia|].
  rewrite last_given_app by assumption.
  replace (Nat.max 1 (length l)) with (length l) by (destruct l; [congruence|cbn [length]; lia]).
  rewrite firstn_app, Nat.sub_diag, firstn_all, firstn_O, app_nil_r, build_tlist. reflexivity.
Qed.

Lemma length_tlist l : Length (tlist l) = Some (length l).
Proof. induction l; cbn; [reflexivity|]. now rewrite IHl. Qed.
Lemma type_at l i : TypeAt (tlist l) i = nth_error l i.
Proof. revert i. induction l; intros [|i]; cbn; auto. Qed.
Lemma type_at_ns l i d : TypeAtNonStrict (tlist l) i d = nth i l d.
Proof. revert i. induction l; intros [|i]; cbn; auto. Qed.
Lemma index_of_some l x : exists z, IndexOf (tlist l) x = Some z /\
  ((z = -1 /\ ~ In x l)%Z \/ (exists i, z = Z.of_nat i /\ nth_error l i = Some x /\ forall j, j < i -> nth_error l j <> Some x)).
Proof.
  induction l as [|h t (z & E & D)]; cbn [tlist IndexOf].
  - exists (-1)%Z. split; [reflexivity|]. left. split; [reflexivity|auto].
  - destruct (ty_dec h x) as [->|N].
    + rewrite same_refl. exists 0%Z. split; [reflexivity|]. right. exists 0. split; [reflexivity|]. split; [reflexivity|]. lia.
    + rewrite (proj2 (same_false h x) N), E. eexists. split; [reflexivity|].
      destruct D as [[-> D]|(i & -> & Ei & Hj)].
      * left. split; [reflexivity|]. cbn [In]. intros [H|H]; auto.
      * right. exists (S i). destruct (Z.eqb_spec (Z.of_nat i) (-1)); [lia|]. split; [lia|]. split; [exact Ei|].
        intros [|j] Hlt; cbn [nth_error]; [congruence|]. apply Hj. lia.
Qed.
Lemma append_list l m : Append (tlist l) (tlist m) = Some (tlist (l ++ m)).
Proof. induction l; cbn [tlist Append app]; [destruct m; reflexivity|]. now rewrite IHl. Qed.
Lemma append_plain l x : plain x -> Append (tlist l) x = Some (tlist (l ++ [x])).
Proof. intros [n ->]. induction l; cbn [tlist Append app]; [reflexivity|]. now rewrite IHl. Qed.
Lemma append_null l : Append (tlist l) NullType = Some (tlist l).
Proof. induction l; cbn [tlist Append]; [reflexivity|]. now rewrite IHl. Qed.

Lemma erase_none l x : ~ In x l -> Erase (tlist l) x = Some (tlist l).
Proof.
  induction l as [|h t IH]; intros H; cbn [tlist Erase]; [reflexivity|].
  rewrite (proj2 (same_false h x)) by (intros ->; apply H; now left).
  rewrite IH; [reflexivity|]. intros Q. apply H. now right.
Qed.
Lemma erase_first l1 x l2 : ~ In x l1 -> Erase (tlist (l1 ++ x :: l2)) x = Some (tlist (l1 ++ l2)).
Proof.
  induction l1 as [|h t IH]; intros H; cbn [tlist Erase app].
  - now rewrite same_refl.
  - rewrite (proj2 (same_false h x)) by (intros ->; apply H; now left).
    rewrite IH; [reflexivity|]. intros Q. apply H. now right.
Qed.
Lemma erase_all l x : EraseAll (tlist l) x = Some (tlist (filter (fun y => negb (same y x)) l)).
Proof. induction l as [|h t IH]; cbn [tlist EraseAll filter]; [reflexivity|]. destruct (same h x); cbn [negb]; rewrite IH; reflexivity. Qed.
Lemma replace_none l x y : ~ In x l -> Replace (tlist l) x y = Some (tlist l).
Proof.
  induction l as [|h t IH]; intros H; cbn [tlist Replace]; [reflexivity|].
  rewrite (proj2 (same_false h x)) by (intros ->; apply H; now left).
  rewrite IH; [reflexivity|]. intros Q. apply H. now right.
Qed.
Lemma replace_first l1 x l2 y : ~ In x l1 -> Replace (tlist (l1 ++ x :: l2)) x y = Some (tlist (l1 ++ y :: l2)).
Proof.
  induction l1 as [|h t IH]; intros H; cbn [tlist Replace app].
  - now rewrite same_refl.
  - rewrite (proj2 (same_false h x)) by (intros ->; apply H; now left).
    rewrite IH; [reflexivity|]. intros Q. apply H. now right.
Qed.
Lemma replace_all l x y : ReplaceAll (tlist l) x y = Some (tlist (map (fun z => if same z x then y else z) l)).
Proof. induction l as [|h t IH]; cbn [tlist ReplaceAll map]; [reflexivity|]. now rewrite IH. Qed.
Lemma reverse_plain l : Forall plain l -> Reverse (tlist l) = Some (tlist (rev l)).
Proof.
  induction 1 as [|h t Hh Ht IH]; cbn [tlist Reverse rev]; [reflexivity|]. rewrite IH. now apply append_plain.
Qed.

(** Removing the duplicates. *)
Lemma in_firsts seen l x : In x (firsts seen l) <-> In x l /\ ~ In x seen.
Proof.
  revert seen. induction l as [|h t IH]; intros seen; cbn [firsts In]; [tauto|].
  destruct (in_dec ty_dec h seen) as [Hi|Hi].
  - rewrite IH. split; [tauto|]. intros [[<-|H] N]; [tauto|tauto].
  - cbn [In]. rewrite IH. cbn [In]. destruct (ty_dec h x) as [->|N]; [tauto|]. tauto.
Qed.
Lemma nodup_firsts seen l : NoDup (firsts seen l).
Proof.
  revert seen. induction l as [|h t IH]; intros seen; cbn [firsts]; [constructor|].
  destruct (in_dec ty_dec h seen); [apply IH|]. constructor; [|apply IH].
  rewrite in_firsts. cbn [In]. tauto.
Qed.
Lemma firsts_filter x seen l : firsts (x :: seen) l = filter (fun y => negb (same y x)) (firsts seen l).
Proof.
  revert x seen. induction l as [|h t IH]; intros x seen; cbn [firsts]; [reflexivity|].
  destruct (in_dec ty_dec h seen) as [Hi|Hi]; destruct (in_dec ty_dec h (x :: seen)) as [Hj|Hj]; cbn [In] in *; try tauto.
  - apply IH.
  - destruct Hj as [->|]; [|tauto]. cbn [filter]. rewrite same_refl. cbn [negb]. rewrite (IH h seen).
    (* filter idempotent *)
    generalize (firsts seen t). intros w. induction w as [|a w IHw]; cbn [filter]; [reflexivity|].
    destruct (negb (same a h)) eqn:E; [cbn [filter]; rewrite E; now rewrite <- IHw|exact IHw].
  - cbn [filter]. assert (N : h <> x) by (intros ->; apply Hj; now left). rewrite (proj2 (same_false h x) N). cbn [negb]. f_equal.
    rewrite (IH h (x :: seen)), (IH x seen), (IH h seen).
    generalize (firsts seen t). intros w. induction w as [|a w IHw]; cbn [filter]; [reflexivity|].
    destruct (negb (same a x)) eqn:E1; destruct (negb (same a h)) eqn:E2; cbn [filter]; rewrite ?E1, ?E2; try (now rewrite <- IHw); exact IHw.
Qed.
Lemma filter_nodup_split x l : NoDup l -> In x l ->
  exists l1 l2, l = l1 ++ x :: l2 /\ ~ In x l1 /\ filter (fun y => negb (same y x)) l = l1 ++ l2.
Proof.
  intros N H. destruct (in_split x l H) as (l1 & l2 & ->). exists l1, l2.
  apply NoDup_remove_2 in N. rewrite in_app_iff in N. split; [reflexivity|]. split; [tauto|].
  rewrite filter_app. cbn [filter]. rewrite same_refl. cbn [negb].
  assert (F : forall w, ~ In x w -> filter (fun y => negb (same y x)) w = w).
  { induction w as [|a w IHw]; intros Hw; cbn [filter]; [reflexivity|].
    rewrite (proj2 (same_false a x)) by (intros ->; apply Hw; now left). cbn [negb]. f_equal. apply IHw. intros Q. apply Hw. now right. }
  rewrite !F by tauto. reflexivity.
Qed.
Lemma filter_notin x l : ~ In x l -> filter (fun y => negb (same y x)) l = l.
Proof.
  induction l as [|a w IHw]; intros Hw; cbn [filter]; [reflexivity|].
  rewrite (proj2 (same_false a x)) by (intros ->; apply Hw; now left). cbn [negb]. f_equal. apply IHw. intros Q. apply Hw. now right.
Qed.
Lemma no_duplicates l : NoDuplicates (tlist l) = Some (tlist (firsts [] l)).
Proof.
  induction l as [|h t IH]; cbn [tlist NoDuplicates]; [reflexivity|]. rewrite IH.
  cbn [firsts]. destruct (in_dec ty_dec h []) as [[]|_].
  rewrite firsts_filter.
  destruct (in_dec ty_dec h (firsts [] t)) as [Hi|Hi].
  - destruct (filter_nodup_split h _ (nodup_firsts [] t) Hi) as (l1 & l2 & E & N & F).
    rewrite F. rewrite E. rewrite erase_first by exact N. reflexivity.
  - rewrite filter_notin by exact Hi. rewrite erase_none by exact Hi. reflexivity.
Qed.

Section Classes.
  Variable super : ty -> ty -> bool.
  Hypothesis H : Hierarchy super.

  Lemma most_derived l x : exists d, MostDerived super (tlist l) x = Some d /\ super x d = true /\ In d (x :: l) /\
    forall e, In e (x :: l) -> super d e = true -> e = d.
  Proof.
    induction l as [|h t (c & E & B & I & M)]; cbn [tlist MostDerived].
    - exists x. split; [reflexivity|]. split; [apply (h_refl _ H)|]. split; [now left|].
      intros e [<-|[]] _. reflexivity.
    - rewrite E. unfold Select. destruct (super c h) eqn:S.
      + exists h. split; [reflexivity|]. split; [eapply (h_trans _ H); eauto|]. split; [right; now left|].
        intros e He Q. destruct He as [<-|[<-|He]]; [|reflexivity|].
        * (* x *) apply (h_antisym _ H); [eapply (h_trans _ H); eauto|exact Q].
        * assert (e = c) by (apply M; [now right|eapply (h_trans _ H); eauto]). subst e.
          apply (h_antisym _ H); assumption.
      + exists c. split; [reflexivity|]. split; [exact B|]. split; [destruct I; [now left|now right; right]|].
        intros e He Q. destruct He as [<-|[<-|He]].
        * apply M; [now left|exact Q].
        * congruence.
        * apply M; [now right|exact Q].
  Qed.

  Lemma derived_to_front_ok n l : length l = n ->
    exists r, derived_to_front super n (tlist l) = Some (tlist r) /\ Permutation r l /\ derived_first super r.
  Proof.
    revert l. induction n as [|n IH]; intros l L.
    - destruct l; [|discriminate]. exists []. split; [reflexivity|]. split; [constructor|].
      intros i j a b _ Ha. destruct i; discriminate.
    - destruct l as [|h t]; [discriminate|]. cbn [tlist derived_to_front].
      destruct (most_derived t h) as (d & E & B & I & M). rewrite E.
      assert (R : exists w, Replace (tlist t) d h = Some (tlist w) /\ length w = length t /\ Permutation (d :: w) (h :: t)).
      { destruct (in_dec ty_dec d t) as [Hi|Hi].
        - assert (Q : exists l1 l2, t = l1 ++ d :: l2 /\ ~ In d l1).
          { clear -Hi. induction t as [|a t IHt]; [easy|]. destruct (ty_dec a d) as [->|N].
            - exists [], t. split; [reflexivity|auto].
            - destruct IHt as (l1 & l2 & -> & N2); [destruct Hi; congruence|].
              exists (a :: l1), l2. split; [reflexivity|]. cbn [In]. intros [Q|Q]; auto. }
          destruct Q as (l1 & l2 & -> & N). exists (l1 ++ h :: l2). split; [now apply replace_first|].
          split; [rewrite !app_length; reflexivity|].
          rewrite <- Permutation_middle. rewrite <- Permutation_middle. apply perm_swap.
        - rewrite replace_none by exact Hi. exists t. split; [reflexivity|]. split; [reflexivity|].
          destruct I as [->|I]; [apply Permutation_refl|easy]. }
      destruct R as (w & Ew & Lw & Pw). rewrite Ew.
      destruct (IH w) as (r & Er & Pr & Dr); [cbn [length] in L; lia|].
      rewrite Er. exists (d :: r). split; [reflexivity|].
      split; [eapply Permutation_trans; [apply perm_skip, Pr|exact Pw]|].
      intros i j a b Hij Ha Hb Q. destruct j as [|j]; [lia|].
      destruct i as [|i].
      + cbn [nth_error] in Ha, Hb. injection Ha as <-. symmetry. apply M; [|exact Q].
        apply nth_error_In in Hb. apply (Permutation_in b Pr) in Hb.
        apply (Permutation_in b Pw). now right.
      + cbn [nth_error] in Ha, Hb. eapply (Dr i j); eauto. lia.
  Qed.
  Lemma derived_to_front_spec l :
    exists r, DerivedToFront super (tlist l) = Some (tlist r) /\ Permutation r l /\ derived_first super r.
  Proof. unfold DerivedToFront. rewrite length_tlist. now apply derived_to_front_ok. Qed.
End Classes.
