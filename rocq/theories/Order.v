(** * Order: the specification vocabulary for ordering (independent of the model). *)
From Verif Require Import Base.
From Coq Require Export Sorting.Sorted Sorting.Permutation.

(** What the C++ standard asks of a comparison function object: a strict weak
    ordering.  [lt x y = true] reads "x is less than y". *)
Definition StrictWeak {A : Type} (lt : A -> A -> bool) : Prop :=
  (forall x, lt x x = false) /\
  (forall x y z, lt x y = true -> lt y z = true -> lt x z = true) /\
  (forall x y z, lt x y = false -> lt y x = false ->
                 lt y z = false -> lt z y = false ->
                 lt x z = false /\ lt z x = false).

(** A strict total order whose induced equality is the real equality. *)
Definition StrictTotal {A : Type} (lt : A -> A -> bool) : Prop :=
  (forall x, lt x x = false) /\
  (forall x y z, lt x y = true -> lt y z = true -> lt x z = true) /\
  (forall x y, lt x y = false -> lt y x = false -> x = y).

(** An equality operator that decides equality. *)
Definition DecEq {A : Type} (eqb : A -> A -> bool) : Prop :=
  forall x y, eqb x y = true <-> x = y.

(** Ascending order: no element is less than an earlier one. *)
Definition Ascending {A : Type} (lt : A -> A -> bool) (l : list A) : Prop :=
  StronglySorted (fun x y => lt y x = false) l.

(** Strictly ascending order: every element is less than all later ones. *)
Definition StrictlyAscending {A : Type} (lt : A -> A -> bool) (l : list A) : Prop :=
  StronglySorted (fun x y => lt x y = true) l.

(** Neither is less than the other. *)
Definition equiv {A : Type} (lt : A -> A -> bool) (x y : A) : bool :=
  negb (lt x y) && negb (lt y x).

(** Number of positions of [l] holding an element that satisfies [p]. *)
Definition countp {A : Type} (p : A -> bool) (l : list A) : nat :=
  length (filter p l).

(** ** Facts *)
Section Facts.
  Context {A : Type} (lt : A -> A -> bool).

  Lemma total_weak : StrictTotal lt -> StrictWeak lt.
  Proof.
    intros (Hi & Ht & He). split; [exact Hi|]. split; [exact Ht|].
    intros x y z H1 H2 H3 H4.
    assert (x = y) by now apply He. assert (y = z) by now apply He. subst.
    split; apply Hi.
  Qed.

  Hypothesis W : StrictWeak lt.

  Lemma sw_irrefl x : lt x x = false.
  Proof. apply W. Qed.

  Lemma sw_trans x y z : lt x y = true -> lt y z = true -> lt x z = true.
  Proof. apply W. Qed.

  Lemma sw_asym x y : lt x y = true -> lt y x = false.
  Proof.
    intros H. destruct (lt y x) eqn:E; [|reflexivity].
    rewrite <- (sw_irrefl x). symmetry. eapply sw_trans; eauto.
  Qed.

  (** [le x y := lt y x = false] is transitive. *)
  Lemma sw_le_trans x y z : lt y x = false -> lt z y = false -> lt z x = false.
  Proof.
    intros H1 H2. destruct (lt z x) eqn:E; [|reflexivity].
    destruct (lt x y) eqn:E1.
    { pose proof (sw_trans _ _ _ E E1). congruence. }
    destruct (lt y z) eqn:E2.
    { pose proof (sw_trans _ _ _ E2 E). congruence. }
    destruct W as (_ & _ & Hinc).
    destruct (Hinc x y z) as [_ H]; congruence.
  Qed.

  Lemma sw_lt_le_trans x y z : lt x y = true -> lt z y = false -> lt x z = true.
  Proof.
    intros H1 H2. destruct (lt x z) eqn:E; [reflexivity|].
    rewrite (sw_le_trans y z x H2 E) in H1. discriminate.
  Qed.

  Lemma sw_le_lt_trans x y z : lt y x = false -> lt y z = true -> lt x z = true.
  Proof.
    intros H1 H2. destruct (lt x z) eqn:E; [reflexivity|].
    (* le x y, lt y z, not lt x z, i.e. le z x; then le z y, contradiction *)
    assert (lt y z = false) by (eapply sw_le_trans; eauto).
    congruence.
  Qed.

  Lemma equiv_refl x : equiv lt x x = true.
  Proof. unfold equiv. now rewrite sw_irrefl. Qed.

  Lemma equiv_sym x y : equiv lt x y = equiv lt y x.
  Proof. unfold equiv. apply andb_comm. Qed.

  Lemma equiv_true x y : equiv lt x y = true <-> lt x y = false /\ lt y x = false.
  Proof.
    unfold equiv. rewrite andb_true_iff, !negb_true_iff. tauto.
  Qed.
End Facts.

Lemma Ascending_nth {A} (lt : A -> A -> bool) l :
  Ascending lt l <->
  (forall i j x y, i < j -> nth_error l i = Some x -> nth_error l j = Some y -> lt y x = false).
Proof.
  split.
  - intros H. induction H as [|a l Hs IH Hf]; intros i j x y Hij Hx Hy.
    + destruct i; discriminate.
    + destruct i, j; simpl in *; try lia.
      * inversion Hx; subst. rewrite Forall_forall in Hf. apply Hf.
        eapply nth_error_In; eauto.
      * eapply (IH i j); eauto. lia.
  - induction l as [|a l IH]; intros H; constructor.
    + apply IH. intros i j x y Hij Hx Hy. apply (H (S i) (S j)); auto. lia.
    + rewrite Forall_forall. intros y Hy. apply In_nth_error in Hy. destruct Hy as [n Hn].
      apply (H 0 (S n) a y); auto. lia.
Qed.

Lemma StrictlyAscending_nth {A} (lt : A -> A -> bool) l :
  StrictlyAscending lt l <->
  (forall i j x y, i < j -> nth_error l i = Some x -> nth_error l j = Some y -> lt x y = true).
Proof.
  split.
  - intros H. induction H as [|a l Hs IH Hf]; intros i j x y Hij Hx Hy.
    + destruct i; discriminate.
    + destruct i, j; simpl in *; try lia.
      * inversion Hx; subst. rewrite Forall_forall in Hf. apply Hf.
        eapply nth_error_In; eauto.
      * eapply (IH i j); eauto. lia.
  - induction l as [|a l IH]; intros H; constructor.
    + apply IH. intros i j x y Hij Hx Hy. apply (H (S i) (S j)); auto. lia.
    + rewrite Forall_forall. intros y Hy. apply In_nth_error in Hy. destruct Hy as [n Hn].
      apply (H 0 (S n) a y); auto. lia.
Qed.

Lemma StronglySorted_app_iff {A} (R : A -> A -> Prop) l1 l2 :
  StronglySorted R (l1 ++ l2) <->
  StronglySorted R l1 /\ StronglySorted R l2 /\
  (forall x y, In x l1 -> In y l2 -> R x y).
Proof.
  induction l1 as [|a l1 IH]; simpl.
  - split.
    + intros H. split; [constructor|]. split; [exact H|]. intros x y [].
    + tauto.
  - split.
    + intros H. inversion H as [|? ? Hs Hf]; subst. apply IH in Hs.
      destruct Hs as (H1 & H2 & H3). rewrite Forall_app in Hf. destruct Hf as [F1 F2].
      split; [constructor; auto|]. split; [auto|].
      intros x y [<-|Hx] Hy; [|auto].
      rewrite Forall_forall in F2. auto.
    + intros (H1 & H2 & H3). inversion H1 as [|? ? Hs Hf]; subst. constructor.
      * apply IH. split; [auto|]. split; [auto|]. intros; apply H3; auto.
      * rewrite Forall_app. split; [auto|]. rewrite Forall_forall. intros y Hy. apply H3; auto.
Qed.

Lemma countp_app {A} (p : A -> bool) l1 l2 :
  countp p (l1 ++ l2) = countp p l1 + countp p l2.
Proof. unfold countp. now rewrite filter_app, app_length. Qed.

Lemma countp_cons {A} (p : A -> bool) x l :
  countp p (x :: l) = (if p x then 1 else 0) + countp p l.
Proof. unfold countp. simpl. destruct (p x); reflexivity. Qed.

Lemma countp_perm {A} (p : A -> bool) l1 l2 :
  Permutation l1 l2 -> countp p l1 = countp p l2.
Proof.
  intros H. induction H; rewrite ?countp_cons; lia.
Qed.

Lemma countp_0 {A} (p : A -> bool) l : countp p l = 0 <-> (forall x, In x l -> p x = false).
Proof.
  induction l as [|a l IH]; [split; [intros _ x []|reflexivity]|].
  rewrite countp_cons. split.
  - intros H x [<-|Hx]; [destruct (p a); [lia|reflexivity]|].
    apply IH; [destruct (p a); lia|auto].
  - intros H. rewrite (H a) by (left; auto). simpl. apply IH. intros x Hx. apply H. right; auto.
Qed.

Lemma countp_pos {A} (p : A -> bool) l : 0 < countp p l <-> exists x, In x l /\ p x = true.
Proof.
  split.
  - intros H. unfold countp in H. destruct (filter p l) as [|x t] eqn:E; [simpl in H; lia|].
    exists x. apply filter_In. rewrite E. left; auto.
  - intros (x & Hx & Hp). unfold countp.
    assert (In x (filter p l)) by (apply filter_In; auto).
    destruct (filter p l); [contradiction|simpl; lia].
Qed.
