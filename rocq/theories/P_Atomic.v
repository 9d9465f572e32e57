(** * P_Atomic: theorems C109-C113 (atomic objects shared by threads). *)
From Verif Require Import Base AtomicModel AtomicSpec AtomicProofs AtomicLockProofs.
From Coq Require Import ZArith Permutation.
Open Scope Z_scope.

(** ** C109: calls of the members. *)

(** Any number of threads make any calls on one atomic object, in any
    interleaving: what they get and the final value are those of the calls made
    one at a time, in an order that respects each thread's program. *)
Theorem C109_calls_are_atomic w v0 progs sched :
  exists v ths, turns w caller_code sched (Conf [v0] (map (fun p => Caller p []) progs)) = Ok (Conf [v] ths) /\
    linear (call_means w) v0 v progs (map todo ths) (map got ths).
Proof.
  destruct (caller_turns w v0 progs sched _ (caller_start w v0 progs)) as ((m, ths) & E & v & M & I).
  cbn [cmem cths] in *. subst m. exists v, ths. auto.
Qed.
Print Assumptions C109_calls_are_atomic.

(** The operators of an atomic object, with their default arguments: what is left
    in the object, and what a read of it then gives; -- undoes ++, -= undoes +=
    and ^= undoes itself. *)
Theorem C109_operators w m v b : 0 <= m < 2 ^ w ->
  (exists r, exec w pre_increment b m = Ok ((m + 1) mod 2 ^ w, r)) /\
  (exists r, exec w pre_decrement b m = Ok ((m - 1) mod 2 ^ w, r)) /\
  (exists r, exec w (add_assign v) b m = Ok ((m + v) mod 2 ^ w, r)) /\
  (exists r, exec w (sub_assign v) b m = Ok ((m - v) mod 2 ^ w, r)) /\
  (exists r, exec w (and_assign v) b m = Ok (Z.land m v, r)) /\
  (exists r, exec w (or_assign v) b m = Ok (Z.lor m v, r)) /\
  (exists r, exec w (xor_assign v) b m = Ok (Z.lxor m v, r)) /\
  (exists r, exec w (assign v) b m = Ok (v, r)) /\
  exec w to_value b m = Ok (m, Reply m false) /\
  (forall x r, exec w pre_increment b m = Ok (x, r) -> exists r', exec w pre_decrement b x = Ok (m, r')) /\
  (forall x r, exec w (add_assign v) b m = Ok (x, r) -> exists r', exec w (sub_assign v) b x = Ok (m, r')) /\
  (forall x r, exec w (xor_assign v) b m = Ok (x, r) -> exists r', exec w (xor_assign v) b x = Ok (m, r')).
Proof.
  intros H.
  assert (U : forall k, ((m + k) mod 2 ^ w - k) mod 2 ^ w = m).
  { intros k. rewrite Zminus_mod_idemp_l. replace (m + k - k) with m by ring. now apply Z.mod_small. }
  do 9 (split; [solve [reflexivity|eexists; reflexivity]|]).
  split; [|split]; intros x r E; cbn in E; injection E as <- _.
  - eexists. cbn. rewrite U. reflexivity.
  - eexists. cbn. rewrite U. reflexivity.
  - eexists. cbn. rewrite Z.lxor_assoc, Z.lxor_nilpotent, Z.lxor_0_r. reflexivity.
Qed.
Print Assumptions C109_operators.
Example C109_operators_example : exists r r', exec 8 pre_increment false 255 = Ok (0, r) /\
  exec 8 pre_decrement false 0 = Ok (255, r').
Proof. do 2 eexists. split; reflexivity. Qed.

(** No addition is lost: when all threads have finished, the value is the sum. *)
Theorem C109_no_lost_update w v0 progs sched v ths :
  0 <= v0 < 2 ^ w -> Forall (Forall (fun a => amount a <> None)) progs ->
  turns w caller_code sched (Conf [v0] (map (fun p => Caller p []) progs)) = Ok (Conf [v] ths) ->
  Forall (fun l => todo l = []) ths ->
  v = (v0 + zsum (map amount0 (concat progs))) mod 2 ^ w.
Proof.
  intros Hv A E D. destruct (C109_calls_are_atomic w v0 progs sched) as (v' & ths' & E' & I).
  rewrite E in E'. inversion E'; subst v' ths'.
  destruct (linear_done _ _ _ _ _ _ I) as (o & F & P & _).
  { rewrite Forall_map. exact D. }
  rewrite F, oat_sum; auto.
  - f_equal. f_equal. rewrite <- (map_map snd amount0). symmetry. now apply zsum_perm, Permutation_map.
  - apply (Forall_map_snd (fun a => amount a <> None)). eapply Permutation_Forall; [exact P|]. now apply Forall_concat.
Qed.
Print Assumptions C109_no_lost_update.

(** fetch_add(1) hands out tickets: every number once, none skipped. *)
Theorem C109_tickets w v0 progs sched v ths :
  0 <= v0 -> v0 + Z.of_nat (length (concat progs)) <= 2 ^ w ->
  Forall (Forall (fun a => a = CFetchAdd 1)) progs ->
  turns w caller_code sched (Conf [v0] (map (fun p => Caller p []) progs)) = Ok (Conf [v] ths) ->
  Forall (fun l => todo l = []) ths ->
  Permutation (map rval (concat (map got ths)))
              (map (fun k => v0 + Z.of_nat k) (seq 0 (length (concat progs)))).
Proof.
  intros Hv B A E D. destruct (C109_calls_are_atomic w v0 progs sched) as (v' & ths' & E' & I).
  rewrite E in E'. inversion E'; subst v' ths'.
  destruct (linear_done _ _ _ _ _ _ I) as (o & F & P & Q).
  { rewrite Forall_map. exact D. }
  pose proof (Permutation_length P) as L. rewrite map_length in L.
  rewrite L in *. rewrite <- (oat_tickets w o v0); auto.
  - rewrite <- (map_map snd rval). now apply Permutation_map.
  - apply (Forall_map_snd (fun a => a = CFetchAdd 1)). eapply Permutation_Forall; [exact P|]. now apply Forall_concat.
Qed.
Print Assumptions C109_tickets.

Example C109_nonvacuous :
  exists ths, turns 8 caller_code [(0, false); (1, false); (1, false); (0, false); (2, false)]%nat
    (Conf [7] (map (fun p => Caller p []) [[CFetchAdd 1; CFetchAdd 1]; [CFetchAdd 1; CFetchAdd 1]; [CFetchAdd 1]]))
    = Ok (Conf [12] ths) /\ Forall (fun l => todo l = []) ths /\
    map (fun l => map rval (got l)) ths = [[7; 10]; [8; 9]; [11]].
Proof. eexists. split; [reflexivity|]. split; [repeat constructor|reflexivity]. Qed.

(** ** C110: the compare_exchange loop. *)
Theorem C110_cas_loop_is_atomic w v0 progs sched :
  exists v ths, turns w (updater_code w) sched (Conf [v0] (map (fun p => Updater CasStart p []) progs)) = Ok (Conf [v] ths) /\
    linear (update_means w) v0 v progs (map utodo ths) (map ugot ths).
Proof.
  destruct (updater_turns w v0 progs sched _ (updater_start w v0 progs)) as ((m, ths) & E & v & M & I).
  cbn [cmem cths] in *. subst m. exists v, ths. auto.
Qed.
Print Assumptions C110_cas_loop_is_atomic.

(** Without spurious failures the threads together cannot spin for ever: N
    updates by n threads take at most N*(n+1)+n turns of unfinished threads,
    whatever the schedule. *)
Theorem C110_lock_free w v0 progs sched :
  Forall (fun t => snd t = false) sched ->
  (moves w (updater_code w) sched (Conf [v0] (map (fun p => Updater CasStart p []) progs))
   <= length (concat progs) * (length progs + 1) + length progs)%nat.
Proof.
  intro F. etransitivity; [|apply (updater_total_start v0 progs)].
  apply updater_moves; [reflexivity| |assumption]. cbn [cths]. apply map_length.
Qed.
Print Assumptions C110_lock_free.

Example C110_nonvacuous :
  exists ths, turns 8 (updater_code 8)
    [(0, false); (1, false); (1, true); (1, false); (0, false); (0, false); (0, false); (0, false)]%nat
    (Conf [7] (map (fun p => Updater CasStart p []) [[Z.mul 3; Z.add 250]; [Z.add 1]]))
    = Ok (Conf [18] ths) /\ Forall (fun l => utodo l = []) ths /\ map ugot ths = [[8; 24]; [7]].
Proof. eexists. split; [reflexivity|]. split; [repeat constructor|reflexivity]. Qed.

(** ** C111: atomic_flag as a spin lock. *)
Theorem C111_mutual_exclusion w v0 progs sched :
  exists c, turns w locker_code sched (Conf [0; v0] (map (fun p => Locker Outside p []) progs)) = Ok c /\
    forall i j li lj, nth_error (cths c) i = Some li -> nth_error (cths c) j = Some lj ->
      inside li -> inside lj -> i = j.
Proof.
  destruct (locker_turns w v0 progs sched _ (locker_start v0 progs)) as (c & E & fl & x & M & _ & S).
  exists c. split; [assumption|]. unfold inside. intros i j li lj Hi Hj Ii Ij.
  destruct S as [(_ & F)|(_ & p & l & q & T & _ & Fp & Fq)].
  - rewrite Forall_forall in F. now apply nth_error_In, F in Hi.
  - assert (G : forall k lk, nth_error (cths c) k = Some lk -> lphase lk <> Outside -> k = length p).
    { intros k lk Hk Ik. rewrite T in Hk. rewrite Forall_forall in Fp, Fq.
      destruct (Nat.lt_trichotomy k (length p)) as [H|[H|H]]; [|assumption|].
      - rewrite nth_error_app1 in Hk by assumption. now apply nth_error_In, Fp in Hk.
      - rewrite nth_error_app2 in Hk by lia. destruct (k - length p)%nat as [|d] eqn:Ed; [lia|].
        cbn [nth_error] in Hk. now apply nth_error_In, Fq in Hk. }
    rewrite (G i li Hi Ii), (G j lj Hj Ij). reflexivity.
Qed.
Print Assumptions C111_mutual_exclusion.

(** Updates of a plain variable under the lock have the effect of executing the
    sections one after another. *)
Theorem C111_sections_are_atomic w v0 progs sched :
  exists fl x ths, turns w locker_code sched (Conf [0; v0] (map (fun p => Locker Outside p []) progs)) = Ok (Conf [fl; x] ths) /\
    linear plain_update_means v0 x progs (map ltodo ths) (map lgot ths).
Proof.
  destruct (locker_turns w v0 progs sched _ (locker_start v0 progs)) as ((m, ths) & E & fl & x & M & I & S).
  cbn [cmem cths] in *. subst m. exists fl, x, ths. auto.
Qed.
Print Assumptions C111_sections_are_atomic.

(** From every state the threads can reach there is a schedule on which all of
    them finish: the lock is never left taken. *)
Theorem C111_no_deadlock w v0 progs sched c :
  turns w locker_code sched (Conf [0; v0] (map (fun p => Locker Outside p []) progs)) = Ok c ->
  exists more c', turns w locker_code more c = Ok c' /\ Forall (fun l => ltodo l = []) (cths c').
Proof.
  intro E. destruct (locker_turns w v0 progs sched _ (locker_start v0 progs)) as (c1 & E1 & I).
  unfold start_lockers in E1. rewrite E in E1. inversion E1; subst c1.
  eapply locker_finish; [reflexivity|exact I].
Qed.
Print Assumptions C111_no_deadlock.

Example C111_nonvacuous :
  exists ths, turns 32 locker_code
    [(0, false); (1, false); (0, false); (1, false); (0, false); (1, false); (0, false);
     (1, false); (1, false); (0, false); (1, false); (1, false)]%nat
    (Conf [0; 5] (map (fun p => Locker Outside p []) [[Z.add 10]; [Z.mul 2]]))
    = Ok (Conf [0; 30] ths) /\ Forall (fun l => ltodo l = []) ths /\ map lgot ths = [[5]; [15]].
Proof. eexists. split; [reflexivity|]. split; [repeat constructor|reflexivity]. Qed.

(** ** C112: the value of ++a. *)

(** [v = ++a] in two threads can give both the same value: the operator returns
    the object, and reading it is a second access. *)
Theorem C112_increment_values_refuted w v0 :
  exists sched v ths,
    turns w incer_code sched (Conf [v0] [Incer false 1 []; Incer false 1 []]) = Ok (Conf [v] ths) /\
    Forall (fun l => itodo l = 0%nat /\ ipending l = false) ths /\
    map igot ths = [[v]; [v]].
Proof.
  exists [(0%nat, false); (1%nat, false); (0%nat, false); (1%nat, false)].
  exists (((v0 + 1) mod 2 ^ w + 1) mod 2 ^ w). eexists.
  split; [reflexivity|]. split; [repeat constructor|reflexivity].
Qed.
Print Assumptions C112_increment_values_refuted.

(** ** C113: compare_exchange_weak with one order. *)

(** memory_order_acq_rel and memory_order_release, usable with one argument in
    C++ (the failure order is then derived), are passed on as failure order,
    which the builtin forbids. *)
Theorem C113_one_order_refuted w e d spurious m :
  exec w (compare_exchange_weak e d AcqRel) spurious m = UB /\
  exec w (compare_exchange_weak e d Release) spurious m = UB /\
  exec w (compare_exchange_weak2 e d AcqRel Acquire) spurious m <> UB /\
  exec w (exchange d AcqRel) spurious m <> UB.
Proof.
  unfold exec. cbn [compare_exchange_weak compare_exchange_weak2 exchange order_allowed negb].
  repeat split; try discriminate. destruct ((m =? e) && negb (true && spurious)); discriminate.
Qed.
Print Assumptions C113_one_order_refuted.
