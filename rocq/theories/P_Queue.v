(** * Properties C30, C31, C65-C68: queue and stack. *)
From Verif Require Import Base UtilModel StoreModel VectorModel VectorSpec VectorProofs VectorFacts AssocModel AssocSpec
  QueueModel QueueSpec QueueProofs.
From Coq Require Import ZArith.
Local Open Scope nat_scope.

(** C30.  For every element size and every history over [n] queues of
    constructing (empty, from a container, by moving), pushing, popping and
    asking for front, back, size, empty and the order: no undefined behaviour,
    and each call returns what the FIFO sequences ([fifo_step]) say.
    Restriction, in [fifo_pre]: twice the elements fit 2^31 bytes (C35). *)
Theorem C30_queue_fifo {T} (e : env) (es : Z) (n : nat) (ops : list (qop T)) :
  (0 < es)%Z -> good_env e -> enough_memory e ->
  fifo_pres (fifo_pre es) (empty_queues n) ops ->
  Forall (fun o => match o with QCopy _ _ => False | _ => True end) ops ->
  exists s, run_ops (q_step e es) (repeat q_new n) ops = Ok (s, snd (spec_run fifo_step (empty_queues n) ops)).
Proof.
  intros H0 He Hm Hp Hc.
  destruct (q_run_ok e es H0 He Hm n ops Hp (no_copies ops Hc _)) as (s & E & _). eauto.
Qed.
Print Assumptions C30_queue_fifo.

Example C30_nonvacuous :
  let ops := [QPush 0 5; QPush 0 6; QPush 0 7; QPop 0; QFront 0; QSize 0; QPop 0; QFront 0; QPush 0 8; QBack 0;
              QMove 1 0; QEmpty 0; QFront 1; QLess 0 1; QOf 0 [1; 2]; QFront 0] in
  fifo_pres (fifo_pre 4) (empty_queues 2) ops /\
  snd (spec_run fifo_step (empty_queues 2) ops) =
    [QNone; QNone; QNone; QNone; QVal 6; QNum 2; QNone; QVal 7; QNone; QVal 8;
     QNone; QBool true; QVal 7; QBool true; QNone; QVal 1].
Proof. cbn. repeat split; try lia; try discriminate. Qed.

(** C31: copies are right when nothing was popped from the source since its
    construction, or when it is empty.  Missing: the other cases, refuted below. *)
Theorem C31_queue_copy_partial {T} (e : env) (es : Z) (n : nat) (ops : list (qop T)) :
  (0 < es)%Z -> good_env e -> enough_memory e ->
  fifo_pres (fifo_pre es) (empty_queues n) ops -> fifo_pres copy_pre (empty_queues n) ops ->
  exists s, run_ops (q_step e es) (repeat q_new n) ops = Ok (s, snd (spec_run fifo_step (empty_queues n) ops)).
Proof.
  intros H0 He Hm Hp Hc. destruct (q_run_ok e es H0 He Hm n ops Hp Hc) as (s & E & _). eauto.
Qed.
Print Assumptions C31_queue_copy_partial.

(** Push 1, 2, 3, pop, copy: the copy delivers the popped 1 again. *)
Theorem C31_queue_copy_refuted :
  let ops := [QPush 0 1; QPush 0 2; QPush 0 3; QPop 0; QCopy 1 0; QFront 0; QFront 1; QSize 1] in
  fifo_pres (fifo_pre 4) (empty_queues 2) ops /\
  exists s, run_ops (q_step env0 4) (repeat q_new 2) ops =
    Ok (s, [QNone; QNone; QNone; QNone; QNone; QVal 2; QVal 1; QNum 3]).
Proof.
  split; [cbn; repeat split; try lia; try discriminate|]. eexists. vm_compute. reflexivity.
Qed.
Print Assumptions C31_queue_copy_refuted.

Example C31_nonvacuous :
  let ops := [QPush 0 1; QPush 0 2; QCopy 1 0; QPop 0; QFront 1; QSize 1; QPop 0; QCopy 1 0; QEmpty 1] in
  fifo_pres (fifo_pre 4) (empty_queues 2) ops /\ fifo_pres copy_pre (empty_queues 2) ops /\
  snd (spec_run fifo_step (empty_queues 2) ops) =
    [QNone; QNone; QNone; QNone; QVal 1; QNum 2; QNone; QNone; QBool true].
Proof. cbn. repeat split; try lia; try discriminate; tauto. Qed.

(** C66: after any history a queue keeps at most as many popped elements
    undestroyed as it has elements left. *)
Theorem C66_queue_retains {T} (e : env) (es : Z) (n i : nat) (ops : list (qop T)) :
  (0 < es)%Z -> good_env e -> enough_memory e ->
  fifo_pres (fifo_pre es) (empty_queues n) ops ->
  Forall (fun o => match o with QCopy _ _ => False | _ => True end) ops ->
  i < length (fst (spec_run fifo_step (empty_queues n) ops)) ->
  exists s q, run_ops (q_step e es) (repeat q_new n) ops = Ok (s, snd (spec_run fifo_step (empty_queues n) ops)) /\
    rd s i = Ok q /\ vsize (qst q) <= 2 * length (get (fst (spec_run fifo_step (empty_queues n) ops)) i).
Proof.
  intros H0 He Hm Hp Hc Hi.
  destruct (q_run_ok e es H0 He Hm n ops Hp (no_copies ops Hc _)) as (s & E & I).
  destruct (Sinv_dead es s _ i I Hi) as (q & Eq & B). eauto.
Qed.
Print Assumptions C66_queue_retains.
Example C66_nonvacuous :
  let ops := [QPush 0 1; QPush 0 2; QPush 0 3; QPush 0 4; QPop 0; QPop 0] in
  fifo_pres (fifo_pre 4) (empty_queues 1) ops /\ get (fst (spec_run fifo_step (empty_queues 1) ops)) 0 = [3; 4].
Proof. cbn. repeat split; try lia; try discriminate. Qed.

(** C67: two queues after any history; if [==] says yes they hold the same
    values; the converse holds if nothing was popped from either.  [eqb] is
    the equality of values, which must be that of representations. *)
Theorem C67_queue_equal_partial {T} (e : env) (es : Z) (eqb : T -> T -> bool) (n i j : nat) (ops : list (qop T)) :
  (0 < es)%Z -> good_env e -> enough_memory e -> (forall x y, eqb x y = true <-> x = y) ->
  fifo_pres (fifo_pre es) (empty_queues n) ops -> fifo_pres copy_pre (empty_queues n) ops ->
  let t := fst (spec_run fifo_step (empty_queues n) ops) in
  i < length t -> j < length t ->
  exists s a b r, run_ops (q_step e es) (repeat q_new n) ops = Ok (s, snd (spec_run fifo_step (empty_queues n) ops)) /\
    rd s i = Ok a /\ rd s j = Ok b /\ q_eq eqb a b = Ok r /\
    (r = true -> get t i = get t j) /\
    (popped t i = false -> popped t j = false -> get t i = get t j -> r = true).
Proof.
  intros H0 He Hm Hq Hp Hc t Hi Hj.
  destruct (q_run_ok e es H0 He Hm n ops Hp Hc) as (s & E & I). fold t in I.
  destruct (f2_rd _ _ _ I i Hi) as (a & Ea & Ia). destruct (f2_rd _ _ _ I j Hj) as (b & Eb & Ib).
  destruct (q_eq_ok es H0 eqb Hq a b _ _ Ia Ib) as (r & Er & R1 & R2).
  exists s, a, b, r. repeat split; assumption.
Qed.
Print Assumptions C67_queue_equal_partial.
(** Two queues with the same values that are not equal: push 1, 2, 3 and pop,
    against push 2, 3. *)
Theorem C67_queue_equal_refuted :
  let ops := [QPush 0 1; QPush 0 2; QPush 0 3; QPop 0; QPush 1 2; QPush 1 3] in
  fifo_pres (fifo_pre 4) (empty_queues 2) ops /\
  (let t := fst (spec_run fifo_step (empty_queues 2) ops) in get t 0 = [2; 3] /\ get t 1 = [2; 3]) /\
  exists s a b rs, run_ops (q_step env0 4) (repeat q_new 2) ops = Ok (s, rs) /\
    rd s 0 = Ok a /\ rd s 1 = Ok b /\ q_eq Nat.eqb a b = Ok false.
Proof.
  split; [cbn; repeat split; try lia; try discriminate|]. split; [split; reflexivity|].
  do 4 eexists. split; [vm_compute; reflexivity|]. repeat split.
Qed.
Print Assumptions C67_queue_equal_refuted.

(** C65: the stack. *)
Theorem C65_stack_lifo {T} (e : env) (es : Z) (ops : list (kop T)) :
  (0 < es)%Z -> enough_memory e -> lifo_pres es [] ops ->
  exists v, run_ops (k_step e es) vec_nil ops = Ok (v, snd (spec_run lifo_step [] ops)) /\
    contents v = Ok (rev (fst (spec_run lifo_step [] ops))).
Proof. exact (fun H0 Hm => k_run_ok e es H0 Hm ops). Qed.
Print Assumptions C65_stack_lifo.
Example C65_nonvacuous :
  let ops := [KPush 1; KPush 2; KTop; KPop; KPush 3; KPush 4; KTop; KSize; KPop; KPop; KTop; KPop; KEmpty; KOf [7; 8]; KTop] in
  lifo_pres 4 [] ops /\ snd (spec_run lifo_step [] ops) =
    [QNone; QNone; QVal 2; QNone; QNone; QNone; QVal 4; QNum 3; QNone; QNone; QVal 1; QNone; QBool true; QNone; QVal 8].
Proof. cbn. repeat split; try lia; try discriminate. Qed.
