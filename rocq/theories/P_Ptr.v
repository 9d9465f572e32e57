(** * P_Ptr: theorems C47, C48, C71 (smart pointers). *)
From Verif Require Import Base AssocModel AssocSpec PtrModel PtrSpec PtrProofs PtrUniqProofs.
From Coq Require Import ZArith Permutation.

(** ** C47 *)

(** Every history of shared_ptr operations on [n] variables does what the
    specification says: no undefined behaviour, each operation deletes exactly
    the objects that lose their last owner, use_count is the number of owners. *)
Theorem C47_shared_ptr n ops :
  (Z.of_nat n < 2 ^ 64)%Z -> sp_pres (SS 0 (repeat None n)) ops ->
  exists s, run_ops sh_step (Sh [] (repeat None n)) ops = Ok (s, snd (spec_run sp_step (SS 0 (repeat None n)) ops)).
Proof.
  intros Hn Hp. destruct (sh_run_ok ops (Sh [] (repeat None n)) (SS 0 (repeat None n))) as (s & E & _); eauto.
  constructor; cbn.
  - reflexivity.
  - clear. induction n; cbn; [reflexivity|now f_equal].
  - intros g o H. apply in_groups in H as (i & H). unfold var in H. rewrite nth_repeat in H. discriminate.
  - now rewrite repeat_length.
Qed.
Print Assumptions C47_shared_ptr.

(** Every object handed over was deleted exactly once, or is still owned. *)
Theorem C47_deleted_once n ops : sp_pres (SS 0 (repeat None n)) ops ->
  let (a, rs) := spec_run sp_step (SS 0 (repeat None n)) ops in
  Permutation (flat_map sh_given ops) (flat_map fst rs ++ owned (sp_vars a)).
Proof.
  intros Hp. pose proof (sp_conserve_run ops (SS 0 (repeat None n))) as P.
  destruct (spec_run sp_step (SS 0 (repeat None n)) ops) as (a, rs). cbn [fst snd sp_vars] in P.
  assert (E : owned (repeat None n) = []).
  { unfold owned, groups.
    assert (F : flat_map (fun v : option (option group) => match v with Some (Some g) => [g] | _ => [] end) (repeat None n) = [])
      by (clear; induction n; cbn; auto).
    rewrite F. reflexivity. }
  rewrite E in P. apply P; [|assumption]. split.
  - intros g o o' H. apply in_groups in H as (i & H). cbn in H. unfold var in H. rewrite nth_repeat in H. discriminate.
  - intros g o H. apply in_groups in H as (i & H). cbn in H. unfold var in H. rewrite nth_repeat in H. discriminate.
Qed.
Print Assumptions C47_deleted_once.

(** Three variables: 7 is shared and then lost, 8 survives its first owner. *)
Definition C47_history : list shop :=
  [ShOf 0 (Some 7); ShCopy 1 0; ShCount 0; ShReset 0 (Some 8); ShMove 2 0; ShGet 0; ShSwap 1 2; ShDestroy 2; ShDestroy 0; ShGet 1].
Example C47_example : sp_pres (SS 0 (repeat None 3)) C47_history.
Proof. cbn. unfold is_live, is_vacant, var; cbn. repeat split; try lia; try discriminate; try congruence. Qed.
Example C47_example_run :
  snd (spec_run sp_step (SS 0 (repeat None 3)) C47_history) =
    [([], PNone); ([], PNone); ([], PNum 2); ([], PNone); ([], PNone); ([], PPtr None); ([], PNone); ([7], PNone); ([], PNone); ([], PPtr (Some 8))].
Proof. reflexivity. Qed.

(** ** C48 *)

(** auto_ptr, unique_ptr, and unique_ptr<T[]> with assertions compiled out, do
    what the specification says. *)
Theorem C48_unique_partial f n ops : f <> UniqArray true -> us_pres (repeat None n) ops ->
  run_ops (u_step f) (repeat None n) ops = Ok (spec_run us_step (repeat None n) ops).
Proof. intros F. now apply u_run_ok. Qed.
Print Assumptions C48_unique_partial.

(** Every object handed over was deleted exactly once, released exactly once
    by release(), or is still held. *)
Theorem C48_deleted_once n ops : us_pres (repeat None n) ops ->
  let (vs, rs) := spec_run us_step (repeat None n) ops in
  Permutation (flat_map u_given ops)
    (flat_map fst rs ++ flat_map (fun or => u_released (fst or) (snd or)) (combine ops rs) ++ u_held vs).
Proof.
  intros Hp. pose proof (us_conserve_run ops (repeat None n) Hp) as P.
  destruct (spec_run us_step (repeat None n) ops) as (vs, rs). cbn [fst snd] in P.
  assert (E : u_held (repeat None n) = []) by (clear; induction n; cbn; auto). rewrite E in P. exact P.
Qed.
Print Assumptions C48_deleted_once.

(** unique_ptr<T[]> in a build with assertions: assigning a null pointer to a
    null pointer fails one. *)
Theorem C48_unique_array_refuted : exists n ops,
  us_pres (repeat None n) ops /\ run_ops (u_step (UniqArray true)) (repeat None n) ops = UB.
Proof.
  exists 2, [UOf 0 None; UOf 1 None; UAssign 0 1]. split; [|reflexivity].
  cbn. unfold is_live, is_vacant, var; cbn. repeat split; try lia; try discriminate; auto.
Qed.
Print Assumptions C48_unique_array_refuted.

(** An auto_ptr told to take the pointer it holds keeps the object: nothing is
    deleted and get() is what it was. *)
Theorem C48_auto_self_reset (vs : list (option (option obj))) i p : nth_error vs i = Some (Some p) ->
  run_ops (u_step Auto) vs [UReset i p; UGet i] = Ok (vs, [([], PNone); ([], PPtr p)]).
Proof.
  intros H. assert (U : upd vs i (Some p) = Some vs).
  { revert i H. induction vs as [|v t IH]; intros [|i] H; try discriminate; cbn in *; [congruence|].
    rewrite (IH i H). reflexivity. }
  cbn [run_ops u_step]. unfold live, set, rd, wr, u_reset. rewrite H. cbn [bind].
  destruct p as [a|]; [rewrite Nat.eqb_refl|]; cbn [bind]; rewrite U; cbn [bind]; rewrite H; reflexivity.
Qed.
Print Assumptions C48_auto_self_reset.
Example C48_auto_self_reset_example : nth_error [None; Some (Some 7)] 1 = Some (Some (Some 7)).
Proof. reflexivity. Qed.

Definition C48_history : list uop :=
  [UOf 0 (Some 7); UOf 1 (Some 8); UAssign 0 0; UAssign 0 1; UReset 1 (Some 9); USwap 0 1; URelease 0; UMove 2 1; UDestroy 2; UDestroy 1; UDestroy 0].
Example C48_example : us_pres (repeat None 3) C48_history.
Proof. cbn. unfold is_live, is_vacant, var; cbn. repeat split; try lia; try discriminate; try congruence; auto. Qed.
Example C48_example_run :
  map fst (snd (spec_run us_step (repeat None 3) C48_history)) = [[]; []; []; [7]; []; []; []; []; [8]; []; []].
Proof. reflexivity. Qed.

(** unique_resource and scope_exit. *)
Theorem C48_unique_resource n ops : rs_pres (repeat None n) ops ->
  exists vs, run_ops r_step (repeat None n) ops = Ok (vs, snd (spec_run rs_step (repeat None n) ops)).
Proof.
  intros Hp. destruct (r_run_ok ops (repeat None n)) as (vs & E & _).
  - assert (E : rabs (repeat None n) = repeat None n) by (clear; induction n; cbn; [reflexivity|now f_equal]). now rewrite E.
  - assert (F : rabs (repeat None n) = repeat None n) by (clear; induction n; cbn; [reflexivity|now f_equal]). rewrite F in E. eauto.
Qed.
Print Assumptions C48_unique_resource.

Theorem C48_resource_disposed_once n ops : rs_pres (repeat None n) ops ->
  let (vs, ds) := spec_run rs_step (repeat None n) ops in
  Permutation (flat_map r_given ops) (map snd (concat ds) ++ r_released (repeat None n) ops ++ r_held vs).
Proof.
  intros Hp. pose proof (rs_conserve_run ops (repeat None n) Hp) as P.
  destruct (spec_run rs_step (repeat None n) ops) as (vs, ds). cbn [fst snd] in P.
  assert (E : r_held (repeat None n) = []) by (clear; induction n; cbn; auto). rewrite E in P. exact P.
Qed.
Print Assumptions C48_resource_disposed_once.

Definition C48_resources : list rop :=
  [ROf 0 3 10 true; ROf 1 4 11 true; RAssign 0 1; RReset 1; RResetTo 1 5; RMove 2 1; RRelease 2; RDestroy 2; RDestroy 1; RDestroy 0].
Example C48_resource_example : rs_pres (repeat None 3) C48_resources.
Proof. cbn. unfold is_live, is_vacant, var; cbn. repeat split; try lia; try discriminate; try congruence; auto. Qed.
Example C48_resource_run :
  snd (spec_run rs_step (repeat None 3) C48_resources) = [[]; []; [(10, 3)]; []; []; []; []; []; []; [(11, 4)]].
Proof. reflexivity. Qed.

(** ** C71 *)

(** Two threads drop one pointer each: both see a count of zero, and the object
    is deleted twice; or one looks at the count after the other deleted it. *)
Theorem C71_concurrent_release_refuted : exists sched,
  Forall (fun ta => fst ta < 2) sched /\ c_run (started [1; 1]) sched = UB.
Proof. exists [(0, Dec); (1, Dec); (0, Load); (1, Load); (0, Delete); (1, Delete)]. split; [repeat constructor|reflexivity]. Qed.
Print Assumptions C71_concurrent_release_refuted.
Theorem C71_use_after_delete_refuted : exists sched,
  Forall (fun ta => fst ta < 2) sched /\ c_run (started [1; 1]) sched = UB /\ ~ In (0, Delete) sched.
Proof.
  exists [(0, Dec); (1, Dec); (1, Load); (1, Delete); (0, Load)]. split; [repeat constructor|]. split; [reflexivity|].
  cbn. intuition congruence.
Qed.
Print Assumptions C71_use_after_delete_refuted.

(** For every interleaving of any number of threads that does not run into
    that: the object is not deleted while somebody owns it, at most once, and
    it has been when nobody owns it and every thread is done. *)
Theorem C71_never_early_partial owns sched s :
  0 < total (k_thr (started owns)) -> c_run (started owns) sched = Ok s ->
  k_deleted s <= 1 /\ (k_deleted s = 1 -> total (k_thr s) = 0) /\
  (Forall idle (k_thr s) -> total (k_thr s) = 0 -> k_deleted s = 1).
Proof.
  intros P E. destruct (started_inv owns P) as (I & _). pose proof (c_run_inv sched _ _ I E) as I'.
  pose proof (ci_alive _ I') as A. destruct (k_alive s) eqn:Al.
  - split; [lia|]. split; [lia|]. intros F Z. exfalso. destruct (ci_leak _ I' Al Z) as (i & th & Ei & N).
    rewrite Forall_forall in F. apply N, F. eapply nth_error_In; eauto.
  - split; [lia|]. split; [intros _; now apply (ci_dead _ I')|auto].
Qed.
Print Assumptions C71_never_early_partial.

(** And if no thread starts to drop a pointer while another is between its
    decrement and its test, it does not run into it. *)
Theorem C71_serial_partial owns sched :
  0 < total (k_thr (started owns)) ->
  Forall (fun ta => fst ta < length owns) sched -> serial (started owns) sched ->
  exists s, c_run (started owns) sched = Ok s /\
    k_deleted s <= 1 /\ (k_deleted s = 1 -> total (k_thr s) = 0) /\
    (Forall idle (k_thr s) -> total (k_thr s) = 0 -> k_deleted s = 1).
Proof.
  intros P B S. destruct (started_inv owns P) as (I & SI).
  destruct (c_run_serial sched _ I SI) as (s & E & _); auto.
  - eapply Forall_impl; [|exact B]. intros ta. cbn. now rewrite map_length.
  - exists s. split; [assumption|]. now apply (C71_never_early_partial owns sched).
Qed.
Print Assumptions C71_serial_partial.
Example C71_example :
  let sched := [(0, Copy); (0, Dec); (1, Copy); (0, Load); (1, Dec); (1, Load); (1, Dec); (1, Load); (0, Dec); (0, Load); (0, Delete)] in
  serial (started [1; 1]) sched /\ c_run (started [1; 1]) sched = Ok (Cs 0 false 1 [Th 0 Idle; Th 0 Idle]).
Proof. cbn. split; [|reflexivity]. repeat split; try discriminate; intros _; repeat constructor; discriminate. Qed.
