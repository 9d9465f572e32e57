(** * Properties C34, C35, C56, C57, C59: memory blocks. *)
From Verif Require Import Base UtilModel StoreModel VectorSpec VectorFacts MemModel MemSpec MemProofs MemRun MemFacts.
From Coq Require Import ZArith.
Local Open Scope Z_scope.

(** C34: any history over any number of memory blocks, starting empty, with
    the caller's memory [h0]: nothing undefined happens, no exception; every
    block has the specified size and bytes, its storage is allocated and large
    enough; the caller's memory is as before.
    Missing: sizes above 2^31 (C35), and the three refuted cases below. *)
Theorem C34_memblock_partial (e : env) (h0 : heap) (k : nat) (ops : list mop) :
  good_env e -> enough_memory e -> callers h0 -> mops_pre h0 (repeat [] k) ops ->
  exists h ms, mrun e (h0, repeat mb_nil k) ops = Ok (h, ms) /\
    Forall2 (mresult h) ms (mspec_run h0 (repeat [] k) ops) /\ firstn (length h0) h = h0.
Proof. exact (fun He Hm Hc => mrun_correct e He Hm h0 Hc k ops). Qed.
Print Assumptions C34_memblock_partial.

(** copy-on-write of a link reads the byte after the linked memory. *)
Theorem C34_link_overread_refuted :
  exists h0 ops, callers h0 /\ can_read h0 (Some (0%nat, 0)) 3 /\ ops = [MLink 0 (Some (0%nat, 0)) 3; MCopyLink 0] /\
    mrun env0 (h0, [mb_nil]) ops = UB.
Proof.
  exists three, [MLink 0 (Some (0%nat, 0)) 3; MCopyLink 0]. split; [repeat constructor|].
  split; [eexists; reflexivity|]. exact (conj eq_refl link_overread).
Qed.
Print Assumptions C34_link_overread_refuted.

(** reserve (n) with n below the size of a linked block leaves a block whose
    size exceeds its storage; reading its bytes is undefined. *)
Theorem C34_reserve_small_refuted :
  exists h0 ops h m, callers h0 /\ ops = [MLink 0 (Some (0%nat, 0)) 8; MReserve 0 4 false] /\
    mrun env0 (h0, [mb_nil]) ops = Ok (h, [m]) /\ msize m = 8 /\ mcap m = 4 /\ mb_bytes h m = UB.
Proof.
  destruct reserve_shrinks_link as (h & m & E). exists nine, [MLink 0 (Some (0%nat, 0)) 8; MReserve 0 4 false], h, m.
  exact (conj nine_callers (conj eq_refl E)).
Qed.
Print Assumptions C34_reserve_small_refuted.

(** insert (5, 4) into 14 bytes moves the wrong bytes. *)
Theorem C34_insert_refuted :
  exists h0 h m l, mrun env0 (h0, [mb_nil]) [MAssign 0 (Some (0%nat, 0)) 14; MInsert 0 5 4] = Ok (h, [m]) /\
    mb_bytes h m = Ok l /\ ~ agrees (seq_insert (bytes_at h0 (Some (0%nat, 0)) 14) 5 (repeat None 4)) l.
Proof. exact (ex_intro _ fifteen insert_corrupts). Qed.
Print Assumptions C34_insert_refuted.

(** C35: whatever the block, if reserve (n) returns, the capacity is at least
    n, for n up to 2^31, and for every n if the exact size was asked for. *)
Theorem C35_reserve_partial (e : env) (h : heap) (m : mb) (n : Z) (exact : bool) h' m' :
  0 <= n -> (n <= 2 ^ 31 \/ (exact = true /\ n < 2 ^ 64)) ->
  reserve e 0 h m n exact = Ok (h', m') -> n <= mcap m' /\ mcap m <= mcap m'.
Proof.
  intros H0 Hn E. pose proof (reserve_cap e 0 h m n exact h' m') as R. rewrite Z.add_0_r in R.
  exact (R (conj (Z.le_refl 0) (Z.le_0_1)) H0 Hn E).
Qed.
Print Assumptions C35_reserve_partial.
(** The same for strings, whose terminator adds one byte. *)
Theorem C35_reserve_string_partial (e : env) (h : heap) (m : mb) (n : Z) (exact : bool) h' m' :
  0 <= n -> (n + 1 <= 2 ^ 31 \/ (exact = true /\ n + 1 < 2 ^ 64)) ->
  reserve e 1 h m n exact = Ok (h', m') -> n + 1 <= mcap m' /\ mcap m <= mcap m'.
Proof. exact (reserve_cap e 1 h m n exact h' m' (conj Z.le_0_1 (Z.le_refl 1))). Qed.
Print Assumptions C35_reserve_string_partial.

(** reserve (n) with 2^31 < n < 2^32 allocates one byte and says it succeeded. *)
Theorem C35_reserve_refuted (e : env) (n : Z) : enough_memory e -> 2 ^ 31 < n < 2 ^ 32 ->
  exists h' m', reserve e 0 [] mb_nil n false = Ok (h', m') /\ mcap m' = 1 /\ mcap m' < n.
Proof. exact (reserve_big e n). Qed.
Print Assumptions C35_reserve_refuted.
(** On a block with content, the content is lost. *)
Theorem C35_reserve_loses_refuted (e : env) (n : Z) : enough_memory e -> good_env e -> 2 ^ 31 < n < 2 ^ 32 ->
  exists h m, mrun e ([], [mb_nil]) [MManage 0 [10; 20; 30]; MReserve 0 n false] = Ok (h, [m]) /\
    msize m = 3 /\ mcap m = 1 /\ mb_bytes h m = UB.
Proof. exact (reserve_big_loses e n). Qed.
Print Assumptions C35_reserve_loses_refuted.
(** string::reserve (SIZE_MAX) does nothing and reports success. *)
Theorem C35_reserve_wrap_refuted (e : env) (h : heap) (m : mb) : 0 <= mcap m ->
  reserve e 1 h m (2 ^ 64 - 1) false = Ok (h, m).
Proof. exact (reserve_wrap e h m). Qed.
Print Assumptions C35_reserve_wrap_refuted.

(** C56, first half: two blocks whose bytes can be read and are determinate
    compare equal exactly if the bytes are the same (hence the sizes). *)
Theorem C56_equality (h : heap) (x y : mb) a b :
  mb_bytes h x = Ok a -> mb_bytes h y = Ok b -> 0 <= msize x -> 0 <= msize y ->
  Forall (fun v => v <> None) a -> Forall (fun v => v <> None) b ->
  exists r, mb_eq h x y = Ok r /\ (r = true <-> a = b).
Proof. exact (mb_eq_ok h x y a b). Qed.
Print Assumptions C56_equality.

(** C59: if link and manage are used only on blocks that own nothing, then
    after the destructors of all blocks nothing allocated is left (and nothing
    was freed twice, which would be undefined). *)
Theorem C59_no_leak_partial (e : env) (h0 : heap) (k : nat) (ops : list mop) :
  good_env e -> enough_memory e -> callers h0 -> mops_pre h0 (repeat [] k) ops ->
  polite e (h0, repeat mb_nil k) ops ->
  exists h ms, mrun e (h0, repeat mb_nil k) (ops ++ map MDealloc (seq 0 k)) = Ok (h, ms) /\ all_freed h.
Proof. exact (fun He Hm Hc => mrun_noleak e He Hm h0 Hc k ops). Qed.
Print Assumptions C59_no_leak_partial.
(** link on a block that owns memory leaks it. *)
Theorem C59_link_refuted :
  exists h0 h ms, callers h0 /\
    mrun env0 (h0, [mb_nil]) [MAssign 0 (Some (0%nat, 0)) 4; MLink 0 (Some (0%nat, 2)) 3; MDealloc 0] = Ok (h, ms) /\ ~ all_freed h.
Proof.
  destruct link_leaks as (h & ms & E & b & Hb & K).
  exists nine, h, ms. exact (conj nine_callers (conj E (fun F => proj1 (Forall_forall (fun k => bkind k <> Owned) h) F b (nth_error_In h 1 Hb) K))).
Qed.
Print Assumptions C59_link_refuted.

(** Non-vacuity: a history of 15 operations on 3 blocks meets the hypotheses. *)
Example C34_history : callers nine /\ mops_pre nine (repeat [] 3) mops1 /\
  mspec_run nine (repeat [] 3) mops1 =
    [[None; Some 99; None; None; Some 5; Some 6; Some 7; None; None; None; None; None];
     map Some [1; 2; 3; 4; 5; 6; 7; 8]; []].
Proof. exact (conj nine_callers (conj mops1_pre eq_refl)). Qed.
Example C59_history : polite env0 (nine, repeat mb_nil 3) mops1.
Proof.
  unfold mops1. repeat (split; [try exact I; cbn; intros m H; injection H as <-; reflexivity|intros s' E; vm_compute in E; injection E as <-]).
  exact I.
Qed.
