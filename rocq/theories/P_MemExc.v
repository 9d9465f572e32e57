(** * Properties C114-C116: memory blocks and strings when memory runs out. *)
From Verif Require Import Base UtilModel StoreModel VectorSpec VectorFacts MemModel MemSpec MemProofs MemRun MemFacts
  StringModel StringSpec StringProofs StringRun StringFacts MemExcModel MemExcSpec MemExcProofs MemExcStr.
From Coq Require Import ZArith.
Local Open Scope Z_scope.

(** ** C114: any program over any number of memory blocks, whichever
    allocations fail: nothing undefined happens; an operation that throws
    leaves all blocks as they were; there are as many exceptions as failed
    allocations; the caller's memory is untouched.  (The restrictions on
    positions, sizes and byte moves are those of C34.) *)
Theorem C114_memblock_bad_alloc (e : env) (h0 : heap) (k : nat) (p : xprog mop) (answers : list bool) :
  good_env e -> enough_memory e -> callers h0 -> prog_pre (mop_pre h0) (mspec_step h0) as_before (repeat [] k) p ->
  exists h ms rest fs ss, xrun (xmstep e) (mkmws h0 (repeat mb_nil k) answers) p = Ok (mkmws h ms rest) /\
    ends (mspec_step h0) as_before (repeat [] k) p fs ss /\ Forall2 (mresult h) ms ss /\ firstn (length h0) h = h0 /\
    refused answers = (refused fs + refused rest)%nat.
Proof.
  intros He Hm Hc P. destruct (xmrun_ok e He Hm h0 Hc p _ _ _ answers (sinv_init e h0 k) P) as (h & ms & t & fs & ss & E & En & I & R & _).
  exists h, ms, t, fs, ss. split; [exact E|]. split; [exact En|]. split; [eapply sinv_result; eauto|].
  split; [eapply sinv_foreign; eauto|exact R].
Qed.
Print Assumptions C114_memblock_bad_alloc.
(** Nothing is leaked: every allocated block belongs to one of the variables. *)
Theorem C114_no_leak (e : env) (h0 : heap) (k : nat) (p : xprog mop) (answers : list bool) :
  good_env e -> enough_memory e -> callers h0 -> prog_pre (mop_pre h0) (mspec_step h0) as_before (repeat [] k) p ->
  uses not_linking p ->
  exists s, xrun (xmstep e) (mkmws h0 (repeat mb_nil k) answers) p = Ok s /\
    forall b x, nth_error (xheap s) b = Some x -> bkind x = Owned ->
      exists m o, In m (xms s) /\ is_linked m = false /\ mptr m = Some (b, o).
Proof.
  intros He Hm Hc P U. destruct (xmrun_ok e He Hm h0 Hc p _ _ _ answers (sinv_init e h0 k) P) as (h & ms & t & fs & ss & E & _ & _ & _ & N).
  exists (mkmws h ms t). split; [exact E|]. apply noleak_owner. apply N; [exact U|]. apply noleak_init. exact Hc.
Qed.
Print Assumptions C114_no_leak.

(** Fill a block, fail to insert, erase instead. *)
Definition c114_prog : xprog mop :=
  Do (MAssign 0 (Some (0%nat, 0)) 8) (Do (MInsert 0 8 4) Stop (Do (MErase 0 4 4) Stop Stop)) Stop.
Example C114_example :
  prog_pre (mop_pre nine) (mspec_step nine) as_before (repeat [] 1) c114_prog /\ uses not_linking c114_prog /\
  exists h m rest l, xrun (xmstep env0) (mkmws nine (repeat mb_nil 1) [true; false]) c114_prog = Ok (mkmws h [m] rest) /\
    rest = [] /\ msize m = 4 /\ mb_bytes h m = Ok l /\ l = bytes_at nine (Some (0%nat, 0)) 4.
Proof.
  split.
  - cbn [prog_pre c114_prog repeat]. unfold mop_pre, as_before. cbn [mspec_step]. 
    split; [split; [cbn; lia|]; split; [lia|]; eexists; reflexivity|]. split; [|exact I].
    split; [split; [cbn; lia|]; split; [vm_compute; split; discriminate|]; split; [lia|]; split; [vm_compute; discriminate|]; right; left; reflexivity|].
    split; [exact I|]. split; [|split; exact I]. split; [cbn; lia|]. split; [lia|]. split; [lia|]. split; [vm_compute; discriminate|].
    right. left. reflexivity.
  - split; [cbn; tauto|]. do 4 eexists. split; [vm_compute; reflexivity|]. repeat split; vm_compute; reflexivity.
Qed.

(** ** C115: the same for strings.  Every operation except assign (n, c) leaves
    all strings as they were; a constructor that throws leaves no string and
    no memory behind. *)
Theorem C115_string_bad_alloc (e : env) (h0 : heap) (nul : ptr) (k : nat) (p : xprog sop) (answers : list bool) :
  good_env e -> enough_memory e -> callers h0 -> NulBlk nul h0 ->
  prog_pre (sop_pre h0) (sspec_step h0) string_left (repeat [] k) p ->
  careful_prog e nul h0 (repeat [] k) (mkmws h0 (repeat (str_nil nul) k) answers) p ->
  exists h ms rest fs ss, xrun (xsstep e nul) (mkmws h0 (repeat (str_nil nul) k) answers) p = Ok (mkmws h ms rest) /\
    ends (sspec_step h0) string_left (repeat [] k) p fs ss /\ Forall2 (sresult h) ms ss /\ firstn (length h0) h = h0 /\
    refused answers = (refused fs + refused rest)%nat /\
    (forall b x, nth_error h b = Some x -> bkind x = Owned -> exists m o, In m ms /\ is_linked m = false /\ mptr m = Some (b, o)).
Proof.
  intros He Hm Hc Hn P C.
  destruct (xsrun_ok e He Hm h0 Hc nul Hn p _ _ _ answers (tinv_init e h0 nul Hn k) P C) as (h & ms & t & fs & ss & E & En & T & R & N).
  exists h, ms, t, fs, ss. split; [exact E|]. split; [exact En|]. split; [eapply tinv_result; eauto|].
  split; [eapply sinv_foreign; eauto using t_sinv|]. split; [exact R|].
  apply noleak_owner. apply N. now apply noleak_init_str.
Qed.
Print Assumptions C115_string_bad_alloc.
(** "hello", append fails, then push_back. *)
Definition c115_prog : xprog sop :=
  Do (SAssign 0 hello 5) (Do (SAppendFill 0 40 120) Stop (Do (SPopBack 0) Stop Stop)) Stop.
Example C115_example : prog_pre (sop_pre text) (sspec_step text) string_left (repeat [] 1) c115_prog /\
  careful_prog env0 nul0 text (repeat [] 1) (mkmws text (repeat (str_nil nul0) 1) [true; false]) c115_prog /\
  exists h m rest,
  xrun (xsstep env0 nul0) (mkmws (fst (start 1)) (snd (start 1)) [true; false]) c115_prog = Ok (mkmws h [m] rest) /\
  mb_bytes h m = Ok (map Some [104; 101; 108; 108]).
Proof.
  split; [|split].
  - cbn [prog_pre c115_prog repeat]. unfold sop_pre, fits. 
    split; [split; [cbn; lia|]; split; [lia|]; eexists; reflexivity|]. split; [|exact I].
    split; [split; [cbn; lia|]; split; [lia|]; split; [vm_compute; discriminate|vm_compute; reflexivity]|].
    split; [exact I|]. split; [|split; exact I]. split; [cbn; lia|]. vm_compute. discriminate.
  - cbn [careful_prog c115_prog]. split; [exact I|]. intros s r E. vm_compute in E. injection E as <- <-.
    split; [exact I|]. intros s r E. vm_compute in E. injection E as <- <-.
    split; [exact I|]. intros s r E. vm_compute in E. injection E as <- <-. exact I.
  - do 3 eexists. split; vm_compute; reflexivity.
Qed.

(** ** C116: assign (n, c) clears the string before it asks for memory. *)
Theorem C116_assign_fill_refuted : exists h m h' m' rest,
  xrun (xsstep env0 nul0) (mkmws (fst (start 1)) (snd (start 1)) [true]) (Do (SAssign 0 hello 5) Stop Stop) = Ok (mkmws h [m] []) /\
  mb_bytes h m = Ok (map Some [104; 101; 108; 108; 111]) /\
  xsstep env0 nul0 (mkmws h [m] [false]) (SAssignFill 0 40 120) = Ok (mkmws h' [m'] rest, NoMemory) /\
  msize m' = 0.
Proof. do 5 eexists. split; [vm_compute; reflexivity|]. split; [vm_compute; reflexivity|]. split; vm_compute; reflexivity. Qed.
Print Assumptions C116_assign_fill_refuted.
