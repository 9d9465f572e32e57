(** * QsortProofs *)
From Verif Require Import Base Order QsortModel QsortSpec.
From Coq Require Import ZArith.

Section Adapter.
  Context {A S : Type} (app : S -> A -> A -> bool) (s : S).
  Hypothesis W : StrictWeak (app s).

  Lemma adapter_le x y : (qsort_adapter app s x y <= 0)%Z <-> app s y x = false.
  Proof.
    unfold qsort_adapter. destruct (app s x y) eqn:E.
    - rewrite (sw_asym (app s) W x y E). split; [reflexivity|lia].
    - destruct (app s y x); split; try discriminate; try lia; reflexivity.
  Qed.
  Lemma adapter_consistent : consistent (qsort_adapter app s).
  Proof.
    split.
    - intros x y. unfold qsort_adapter. destruct (app s x y) eqn:E.
      + rewrite (sw_asym (app s) W x y E). reflexivity.
      + destruct (app s y x); reflexivity.
    - intros x y z. rewrite !adapter_le. intros H1 H2.
      destruct (app s z x) eqn:E; [|reflexivity].
      destruct (app s x y) eqn:E1.
      + rewrite (sw_trans (app s) W z x y E E1) in H2. discriminate.
      + destruct (app s y z) eqn:E2.
        * rewrite (sw_trans (app s) W y z x E2 E) in H1. discriminate.
        * destruct W as (_ & _ & W3). destruct (W3 x y z) as [_ B]; congruence.
  Qed.
End Adapter.

Lemma sorted_weaken {A} (R Q : A -> A -> Prop) l : (forall x y, R x y -> Q x y) -> StronglySorted R l -> StronglySorted Q l.
Proof.
  intros H. induction 1 as [|x t S IH F]; constructor; [assumption|].
  eapply Forall_impl; [|exact F]. intros y. apply H.
Qed.

Lemma sort_ok {A S} (app : S -> A -> A -> bool) s qs given pre l post :
  qsort_contract qs -> StrictWeak (app s) ->
  exists r, sort app (Some s) qs (pre ++ l ++ post) (length pre) (length pre + length l) given = Ok (pre ++ r ++ post) /\
    Ascending (app s) r /\ Permutation r l.
Proof.
  intros C W. unfold sort.
  replace (length pre <=? length pre + length l) with true by (symmetry; apply Nat.leb_le; lia).
  replace (length pre + length l <=? length (pre ++ l ++ post)) with true
    by (symmetry; apply Nat.leb_le; rewrite !app_length; lia).
  cbn [andb].
  assert (firstn (length pre) (pre ++ l ++ post) = pre) as ->.
  { rewrite firstn_app, Nat.sub_diag, firstn_all, app_nil_r. reflexivity. }
  assert (slice (pre ++ l ++ post) (length pre) (length pre + length l) = l) as ->.
  { unfold slice. rewrite skipn_app, Nat.sub_diag, skipn_all. cbn [skipn List.app].
    replace (length pre + length l - length pre) with (length l) by lia.
    rewrite firstn_app, Nat.sub_diag, firstn_all, app_nil_r. reflexivity. }
  assert (skipn (length pre + length l) (pre ++ l ++ post) = post) as ->.
  { rewrite app_assoc, <- app_length, skipn_app, Nat.sub_diag, skipn_all. reflexivity. }
  destruct (C (qsort_adapter app s) l (adapter_consistent app s W)) as [P Q].
  eexists. split; [reflexivity|]. split; [|exact P].
  eapply sorted_weaken; [|exact Q]. intros x y H. now apply (adapter_le app s W).
Qed.

(** ** An implementation of the contract: insertion sort *)
Section Insertion.
  Context {A : Type} (cmp : A -> A -> Z).
  Fixpoint ins (x : A) (l : list A) : list A :=
    match l with
    | [] => [x]
    | y :: t => if (cmp x y <=? 0)%Z then x :: y :: t else y :: ins x t
    end.
  Fixpoint isort (l : list A) : list A :=
    match l with [] => [] | x :: t => ins x (isort t) end.
  Lemma ins_perm x l : Permutation (ins x l) (x :: l).
  Proof.
    induction l as [|y t IH]; cbn [ins]; [reflexivity|]. destruct (cmp x y <=? 0)%Z; [reflexivity|].
    rewrite IH. apply perm_swap.
  Qed.
  Lemma isort_perm l : Permutation (isort l) l.
  Proof. induction l as [|x t IH]; cbn [isort]; [reflexivity|]. now rewrite ins_perm, IH. Qed.
  Hypothesis C : consistent cmp.
  Lemma ins_sorted x l : StronglySorted (fun x y => (cmp x y <= 0)%Z) l ->
    StronglySorted (fun x y => (cmp x y <= 0)%Z) (ins x l).
  Proof.
    destruct C as [C1 C2]. induction 1 as [|y t S IH F]; cbn [ins]; [repeat constructor|].
    destruct (Z.leb_spec (cmp x y) 0).
    - constructor; [constructor; assumption|]. constructor; [assumption|].
      eapply Forall_impl; [|exact F]. intros z Hz. eapply C2; eassumption.
    - constructor; [exact IH|]. assert (cmp y x <= 0)%Z.
      { pose proof (C1 x y). destruct (cmp x y), (cmp y x); cbn in *; lia. }
      apply (Permutation_Forall (Permutation_sym (ins_perm x t))). constructor; assumption.
  Qed.
  Lemma isort_sorted l : StronglySorted (fun x y => (cmp x y <= 0)%Z) (isort l).
  Proof. induction l as [|x t IH]; cbn [isort]; [constructor|]. now apply ins_sorted. Qed.
End Insertion.
Lemma isort_contract {A} : qsort_contract (@isort A).
Proof. intros cmp l C. split; [apply isort_perm|now apply isort_sorted]. Qed.
Lemma isort_rev_contract {A} : qsort_contract (fun cmp (l : list A) => isort cmp (rev l)).
Proof.
  intros cmp l C. split; [|now apply isort_sorted]. rewrite isort_perm. symmetry. apply Permutation_rev.
Qed.
