(** * Properties C201, C202: scope_exit and unique_resource in programs with exceptions. *)
From Verif Require Import Base ScopeModel ScopeSpec ScopeProofs.

(** ** C201: every callback given to a guard is called exactly once, or given up
    by release() exactly once, on every path through the program: normal end,
    return, exception, in loops and calls, after any moves, assignments and
    resets; and when the program is over no guard is left. *)
Theorem C201_exactly_once (b : stmt) (c : completion) (s : st) : program b = Done c s ->
  live s = [] /\
  (forall g t, In (Made g t) (log s) ->
     times (Made g t) (log s) = 1 /\
     (times (Ran g t) (log s) = 1 /\ times (Dropped g t) (log s) = 0 \/
      times (Ran g t) (log s) = 0 /\ times (Dropped g t) (log s) = 1)) /\
  (forall g t, In (Ran g t) (log s) -> In (Made g t) (log s)).
Proof.
  intros E. destruct (program_counts b c s E) as (L & H1 & H2). split; [exact L|]. split; intros g t Hi.
  - specialize (H1 g t). specialize (H2 g t). apply (count_occ_In event_dec) in Hi. unfold times in *. lia.
  - specialize (H1 g t). apply (count_occ_In event_dec). apply (count_occ_In event_dec) in Hi. unfold times in *. lia.
Qed.
Print Assumptions C201_exactly_once.

(** A guard that the rest [b] of its block does not touch is a finally clause:
    the block does what [b] does (with the guard on the stack), ends as [b]
    ends -- normally, by return, or with the same exception -- and the callback
    is the last thing that happens, after the guards declared in [b]. *)
Theorem C201_finally (c : callback) (b : stmt) (s : st) c1 s1 :
  quiet b -> cb_throws c = None -> Forall (fun g => cb_throws (gcb g) = None) (live s) -> untouched 0 b ->
  let s0 := mkst (mkguard (next s) c true :: live s) (S (next s)) (log s ++ [Made (next s) (cb_tag c)]) in
  exec b s0 = Done c1 s1 ->
  exists s2, exec (Block b) s0 = Done c1 s2 /\
    exec (Block (Seq (Guard c) b)) s = Done c1 (mkst (tl (live s2)) (next s2) (log s2 ++ [Ran (next s) (cb_tag c)])).
Proof. apply finally_ok. Qed.
Print Assumptions C201_finally.

(** At the end of a block the enabled guards declared in it fire in the reverse
    order of their declaration, however the block ends. *)
Theorem C201_reverse_order (b : stmt) (s : st) c1 s1 :
  quiet b -> Forall (fun g => cb_throws (gcb g) = None) (live s) -> exec b s = Done c1 s1 ->
  exists inner outer, live s1 = inner ++ outer /\ length outer = length (live s) /\
    exec (Block b) s = Done c1 (mkst outer (next s1)
      (log s1 ++ map (fun g => Ran (gid g) (cb_tag (gcb g))) (filter genabled inner))).
Proof.
  intros Q C E. pose proof (exec_keep _ _ _ _ E) as (_ & _ & K).
  pose proof (exec_calm b s Q C) as C1. rewrite E in C1.
  exists (firstn (length (live s1) - length (live s)) (live s1)), (skipn (length (live s1) - length (live s)) (live s1)).
  split; [now rewrite firstn_skipn|]. split; [rewrite skipn_length; lia|].
  cbn [exec]. rewrite E. now rewrite (leave_calm _ _ _ C1).
Qed.
Print Assumptions C201_reverse_order.

(** Programs whose callbacks do not throw never end in std::terminate. *)
Theorem C201_no_terminate (b : stmt) l : quiet b -> program b <> Dead l.
Proof.
  intros Q E. pose proof (exec_calm (Block b) (mkst [] 0 []) Q (Forall_nil _)) as C. unfold program in E. rewrite E in C. exact C.
Qed.
Print Assumptions C201_no_terminate.

(** ** C202: an exception thrown by the callback reaches the program.  False:
    it ends the program, though no other exception is under way and a handler
    is there -- for the destructor ... *)
Theorem C202_destructor_refuted (c : callback) (b h : stmt) (s : st) x s1 :
  quiet b -> cb_throws c = Some x -> Forall (fun g => cb_throws (gcb g) = None) (live s) -> untouched 0 b ->
  exec b (mkst (mkguard (next s) c true :: live s) (S (next s)) (log s ++ [Made (next s) (cb_tag c)])) = Done Normal s1 ->
  Forall (fun g => cb_throws (gcb g) = None) (firstn (length (live s1) - S (length (live s))) (live s1)) ->
  exists l, exec (Try (Block (Seq (Guard c) b)) h) s = Dead l.
Proof.
  intros Q T C U E F. destruct (throwing_dead c b s Normal s1 x Q T C U E F) as (l & D).
  exists l. change (exec (Try (Block (Seq (Guard c) b)) h) s) with
    (match exec (Block (Seq (Guard c) b)) s with
      | Done c s1 =>
          match leave (length (live s)) c s1 with
          | Done (Thrown _) s2 => match exec h s2 with Done c' s3 => leave (length (live s)) c' s3 | r => r end
          | r => r
          end
      | r => r
      end). now rewrite D.
Qed.
Print Assumptions C202_destructor_refuted.
(** ... and for an explicit reset(). *)
Theorem C202_reset_refuted (h : stmt) (s : st) k g x : nth_error (live s) k = Some g -> genabled g = true ->
  cb_throws (gcb g) = Some x -> exists l, exec (Try (Reset k) h) s = Dead l.
Proof.
  intros E G T. cbn [exec]. unfold do_reset. rewrite E. unfold fire. rewrite G, T. eexists. reflexivity.
Qed.
Print Assumptions C202_reset_refuted.

(** A guard, a loop with a guard that is released in it, a guard moved into an
    inner block, and an exception. *)
Definition ex_cb (n : nat) : callback := mkcb n None.
Definition ex_prog : stmt :=
  Seq (Guard (ex_cb 100)) (Seq (Try
    (Seq (Guard (ex_cb 200)) (Seq (Loop 2 (Seq (Guard (ex_cb 300)) (Do 1)))
      (Seq (Block (Seq (MoveNew 0) (Do 2))) (Seq (Guard (ex_cb 400)) (Seq (Release 0) (Throw 7))))))
    (Do 3)) Return).
Example C201_example : program ex_prog = Done Returned (mkst [] 5
  [Made 0 100; Made 1 200; Made 2 300; Act 1; Ran 2 300; Made 3 300; Act 1; Ran 3 300; Act 2; Ran 1 200;
   Made 4 400; Dropped 4 400; Act 3; Ran 0 100]) /\ quiet ex_prog.
Proof. split; [reflexivity|cbn; tauto]. Qed.
Example C202_example : program (Try (Seq (Guard (mkcb 1 (Some 9))) (Do 5)) (Do 6)) = Dead [Made 0 1; Act 5; Ran 0 1].
Proof. reflexivity. Qed.
