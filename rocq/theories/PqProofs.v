(** * PqProofs: every history of a priority_queue with the default comparator. *)
From Verif Require Import Base Order ArrayModel ArrayProofs HeapModel HeapSpec HeapProofs PqSpec.

Section Pq.
  Context {A : Type} (lt : A -> A -> bool) (W : StrictWeak lt).
  Implicit Types v b : list A.

  Lemma pq_push_spec v x : Heap lt v ->
    exists r, pq_push lt v x = Ok r /\ Permutation r (x :: v) /\ Heap lt r.
  Proof.
    intros H. destruct (push_heap_spec lt W [] v x [] H) as (r & E & P & Hr).
    unfold pq_push. rewrite !app_nil_r in E. cbn [app length] in E.
    rewrite app_length in E. exists r. split; [exact E|]. split; [|auto].
    rewrite P. symmetry. apply Permutation_cons_append.
  Qed.
  Lemma pq_pop_spec x t : Heap lt (x :: t) ->
    exists r, pq_pop lt (x :: t) = Ok r /\ Permutation r t /\ Heap lt r.
  Proof.
    intros H. destruct (pop_heap_spec lt W [] x t [] H) as (r & E & P & Hr).
    unfold pq_pop. rewrite !app_nil_r in E. cbn [app length Nat.add] in *. rewrite E. cbn [bind].
    exists r. split; [|auto]. destruct (r ++ [x]) eqn:Er; [destruct r; discriminate|].
    rewrite <- Er. now rewrite removelast_last.
  Qed.
  Lemma pq_make_spec l : exists r, pq_make lt l = Ok r /\ Permutation r l /\ Heap lt r.
  Proof.
    destruct (make_heap_spec lt W [] l []) as (r & E & P & Hr).
    rewrite !app_nil_r in E. exists r. auto.
  Qed.
  Lemma Largest_perm x l l' : Permutation l l' -> Largest lt x l -> Largest lt x l'.
  Proof.
    intros P [H1 H2]. split; [eapply Permutation_in; eauto|].
    intros y Hy. apply H2. eapply Permutation_in; [symmetry; eauto|auto].
  Qed.

  Lemma pq_run_spec ops : forall v b,
    Heap lt v -> Permutation v b -> pops_ok (length v) ops ->
    exists out r, pq_run lt lt ops v = Ok (out, r) /\ BagRun lt ops b out r /\ Heap lt r.
  Proof.
    induction ops as [|[x|] ops IH]; intros v b Hv P Hok; cbn [pq_run].
    - exists [], v. split; [auto|]. split; [|auto]. constructor. now symmetry.
    - destruct (pq_push_spec v x Hv) as (r & E & Pr & Hr). rewrite E. cbn [bind].
      destruct (IH r (x :: b)) as (out & r' & E' & B & H'); auto.
      + rewrite Pr. now constructor.
      + rewrite (Permutation_length Pr). exact Hok.
      + exists out, r'. split; [auto|]. split; [|auto]. now constructor.
    - destruct v as [|m t]; [contradiction Hok|].
      unfold pq_top. rewrite rd_cons_0. cbn [bind].
      destruct (pq_pop_spec m t Hv) as (r & E & Pr & Hr). rewrite E. cbn [bind].
      destruct (IH r r) as (out & r' & E' & B & H'); auto.
      + rewrite (Permutation_length Pr). exact Hok.
      + rewrite E'. cbn [bind]. exists (m :: out), r'. split; [auto|]. split; [|auto].
        eapply BagPop; [|  |exact B].
        * eapply Largest_perm; [exact P|]. now apply heap_largest.
        * rewrite <- P. constructor. now symmetry.
  Qed.

  Lemma pq_history_spec init ops : pops_ok (length init) ops ->
    exists v out r, pq_make lt init = Ok v /\ pq_run lt lt ops v = Ok (out, r) /\
      BagRun lt ops init out r /\
      (r <> [] -> exists t, pq_top r = Ok t /\ Largest lt t r).
  Proof.
    intros Hok. destruct (pq_make_spec init) as (v & E & P & Hv).
    destruct (pq_run_spec ops v init Hv P) as (out & r & E' & B & Hr).
    { now rewrite (Permutation_length P). }
    exists v, out, r. split; [auto|]. split; [auto|]. split; [auto|].
    intros Hne. destruct r as [|t r]; [congruence|]. exists t. split; [reflexivity|]. now apply heap_largest.
  Qed.
End Pq.
