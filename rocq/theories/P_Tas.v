(** * Theorems about TestAndSet. *)
From Verif Require Import Base TasModel.
From Coq Require Import ZArith List Lia.
Import ListNotations.
Local Open Scope Z_scope.

(** The number of threads whose last call returned true and that have not set the variable back. *)
Definition is_owner (c : call) : bool := match c with Done true => true | _ => false end.
Definition owners (s : tas) : nat := length (filter is_owner (t_calls s)).

Lemma set_call_owners l : forall t c, (t < length l)%nat ->
  (length (filter is_owner (set_call l t c)) + (if is_owner (nth t l NotYet) then 1 else 0) =
   length (filter is_owner l) + (if is_owner c then 1 else 0))%nat.
Proof.
  induction l as [|x l IH]; intros t c H; [cbn in H; lia|]. destruct t as [|t]; cbn [set_call nth filter].
  - destruct (is_owner c), (is_owner x); cbn [length]; lia.
  - specialize (IH t c ltac:(cbn in H; lia)). destruct (is_owner x); cbn [length]; lia.
Qed.
Lemma set_call_length l : forall t c, length (set_call l t c) = length l.
Proof. induction l as [|x l IH]; intros [|t] c; cbn; auto. Qed.
Lemma set_call_nth l : forall t c, (t < length l)%nat -> nth t (set_call l t c) NotYet = c.
Proof. induction l as [|x l IH]; intros [|t] c H; cbn in *; try lia; auto. apply IH. lia. Qed.
Lemma set_call_out l : forall t c, (length l <= t)%nat -> set_call l t c = l.
Proof. induction l as [|x l IH]; intros [|t] c H; cbn in *; try lia; auto. f_equal. apply IH. lia. Qed.

Definition valid_turn (n : nat) (w : turn) : Prop := match w with Go t | Back t => (t < n)%nat end.
Definition tinv (n : nat) (s : tas) : Prop :=
  length (t_calls s) = n /\ ((owners s = 0%nat /\ t_var s = 0) \/ (owners s = 1%nat /\ t_var s <> 0)).
Lemma go_inv n s t : (t < n)%nat -> tinv n s -> tinv n (go_x86 s t).
Proof.
  intros Ht [L H]. unfold go_x86. destruct (call_of s t) as [|o|r] eqn:C; [| |split; assumption].
  all: split; [cbn; now rewrite set_call_length|]; unfold owners in *; cbn [t_calls t_var];
    pose proof (set_call_owners (t_calls s) t (Done (t_var s =? 0)) ltac:(lia)) as O; unfold call_of in C; rewrite C in O; cbn [is_owner] in O;
    destruct (Z.eqb_spec (t_var s) 0) as [E|E]; right; (split; [destruct H as [[H1 H2]|[H1 H2]]; try congruence; lia|discriminate]).
Qed.
Lemma step_inv n s w : valid_turn n w -> tinv n s -> tinv n (tstep go_x86 s w).
Proof.
  intros V I. destruct w as [t|t]; cbn [tstep valid_turn] in *.
  - destruct (call_of s t) as [|o|[|]] eqn:C; try now apply go_inv. apply go_inv; [exact V|]. destruct I as [L H].
    split; [cbn; now rewrite set_call_length|]. unfold owners in *. cbn [t_calls t_var].
    pose proof (set_call_owners (t_calls s) t NotYet ltac:(lia)) as O. unfold call_of in C. rewrite C in O. cbn [is_owner] in O.
    destruct H as [[H1 H2]|[H1 H2]]; [left|right]; split; try assumption; lia.
  - unfold back. destruct (call_of s t) as [|o|[|]] eqn:C; try exact I. destruct I as [L H].
    split; [cbn; now rewrite set_call_length|]. unfold owners in *. cbn [t_calls t_var].
    pose proof (set_call_owners (t_calls s) t NotYet ltac:(lia)) as O. unfold call_of in C. rewrite C in O. cbn [is_owner] in O.
    left. split; [destruct H as [[H1 H2]|[H1 H2]]; lia|reflexivity].
Qed.
Lemma run_inv n sched : forall s, Forall (valid_turn n) sched -> tinv n s -> tinv n (trun go_x86 sched s).
Proof.
  induction sched as [|w sched IH]; intros s F I; [exact I|]. inversion F; subst. cbn [trun fold_left]. apply IH; [assumption|]. now apply step_inv.
Qed.
Lemma init_inv n : tinv n (tinit n 0).
Proof.
  split; [apply repeat_length|]. left. split; [|reflexivity]. unfold owners. cbn [tinit t_calls]. induction n; cbn; auto.
Qed.

(** ** C179 *)
(** Any number of threads, any order of turns: at most one owner at a time, and the variable is 0 exactly when there is none. *)
Theorem C179_one_owner n sched : Forall (valid_turn n) sched ->
  let s := trun go_x86 sched (tinit n 0) in (owners s <= 1)%nat /\ (t_var s = 0 <-> owners s = 0%nat).
Proof.
  intros F. cbn zeta. destruct (run_inv n sched (tinit n 0) F (init_inv n)) as [_ H]. destruct H as [[H1 H2]|[H1 H2]]; rewrite H1; split; try lia; split; congruence.
Qed.
Print Assumptions C179_one_owner.
(** The next call succeeds whenever there is no owner, and fails whenever there is one. *)
Theorem C179_next_call n sched t : Forall (valid_turn n) sched -> (t < n)%nat ->
  let s := trun go_x86 sched (tinit n 0) in is_owner (call_of s t) = false ->
  call_of (tstep go_x86 s (Go t)) t = Done (match owners s with O => true | _ => false end).
Proof.
  intros F Ht. cbn zeta. pose proof (run_inv n sched (tinit n 0) F (init_inv n)) as [L H]. set (s := trun go_x86 sched (tinit n 0)) in *. clearbody s.
  intros NO.
  assert (G : forall s', length (t_calls s') = n -> is_owner (call_of s' t) = false -> (forall r, call_of s' t <> Done r) ->
    call_of (go_x86 s' t) t = Done (t_var s' =? 0)).
  { intros s' L' _ N. unfold go_x86. destruct (call_of s' t) as [|o|r] eqn:C; [| |now destruct (N r)]; unfold call_of; cbn [t_calls]; apply set_call_nth; lia. }
  assert (V : (t_var s =? 0) = match owners s with O => true | _ => false end).
  { destruct H as [[H1 H2]|[H1 H2]]; rewrite H1; [now rewrite H2|now apply Z.eqb_neq]. }
  cbn [tstep]. destruct (call_of s t) as [|o|[|]] eqn:C; [| |discriminate|].
  - rewrite G; [now rewrite V|exact L|now rewrite C|intros r; rewrite C; discriminate].
  - rewrite G; [now rewrite V|exact L|now rewrite C|intros r; rewrite C; discriminate].
  - rewrite G; cbn [t_var]; [now rewrite V|cbn; now rewrite set_call_length| |].
    + unfold call_of. cbn [t_calls]. rewrite set_call_nth by lia. reflexivity.
    + intros r. unfold call_of. cbn [t_calls]. rewrite set_call_nth by lia. discriminate.
Qed.
Print Assumptions C179_next_call.
Example C179_example : let s := trun go_x86 [Go 1; Go 0; Go 2; Back 1; Go 2] (tinit 3 0) in
  Forall (valid_turn 3) [Go 1; Go 0; Go 2; Back 1; Go 2] /\ t_calls s = [Done false; NotYet; Done true] /\ t_var s = 1.
Proof. split; [repeat constructor|]. split; reflexivity. Qed.

(** ** C180 *)
(** On other processors two threads can both get true. *)
Theorem C180_not_atomic_refuted : exists sched, Forall (valid_turn 2) sched /\ owners (trun go_other sched (tinit 2 0)) = 2%nat.
Proof. exists [Go 0; Go 1; Go 0; Go 1]. split; [repeat constructor|reflexivity]. Qed.
Print Assumptions C180_not_atomic_refuted.
