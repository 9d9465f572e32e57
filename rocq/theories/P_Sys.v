(** * Theorems about fcntl, ioctl and memory mapped files. *)
From Verif Require Import Base FdModel SysModel SysSpec SysProofs.
From Coq Require Import ZArith List Lia Bool.
Import ListNotations.
Local Open Scope Z_scope.

(** ** C175 *)
(** Whatever the system answers and whatever is called: nothing but the stream's own mappings is ever unmapped, and as
    long as no error was reported every link obtained is empty or can be used. *)
Theorem C175_mappings ops v s v' s' : fresh s v -> sys_run ops v s = Some (v', s') ->
  sk_wild (f_k s') = false /\
  (forall i, (i < length v')%nat -> empty_link (var v' i) \/ fst (var v' i) = map_failed \/ usable (f_k s') (var v' i)) /\
  (~ In XClear ops -> f_st s = 0 -> f_st s' = 0 -> forall i, empty_link (var v' i) \/ usable (f_k s') (var v' i)) /\
  (forall i j, (i < length v')%nat -> (j < length v')%nat -> i <> j -> usable (f_k s') (var v' i) -> var v' i <> var v' j).
Proof.
  intros F E. pose proof (fresh_inv v s F) as I. destruct (run_inv ops v s v' s' I E) as [[A B C D] L].
  split; [exact A|]. split; [exact C|]. split; [|exact D]. intros NC Z0 Z1 i.
  assert (N : nofail v' s').
  { apply (run_nofail ops v s v' s' NC I); [|exact E]. intros _ j. destruct F as (_ & _ & F).
    destruct (Nat.lt_ge_cases j (length v)) as [H|H]; [|rewrite var_out by assumption; discriminate].
    rewrite Forall_forall in F. unfold var. rewrite (F (nth j v no_link)); [discriminate|now apply nth_In]. }
  destruct (Nat.lt_ge_cases i (length v')) as [H|H]; [|left; now apply var_out].
  destruct (C i H) as [X|[X|X]]; [now left|now apply N in X|now right].
Qed.
Print Assumptions C175_mappings.
(** An error of the system is reported: by a negative result and failbit, or by an exception if failbit was asked for. *)
Theorem C175_errors s : 0 <= f_st s ->
  (match f_ioctl s with
   | Ret r s' => (r < 0 -> Z.testbit (f_st s') 2 = true) /\ (0 <= r -> f_st s' = f_st s)
   | Throw s' => Z.testbit (f_st s') 2 = true /\ Z.testbit (f_ex s) 2 = true
   | Terminate => False end) /\
  (forall n, match f_mmap s n with
   | Ret l s' => (fst l = map_failed -> Z.testbit (f_st s') 2 = true) /\ (fst l <> map_failed -> usable (f_k s') l /\ snd l = n)
   | Throw s' => Z.testbit (f_st s') 2 = true /\ Z.testbit (f_ex s) 2 = true
   | Terminate => False end).
Proof.
  intros H0.
  assert (B : forall a, Z.testbit (Z.lor a b_fail) 2 = true) by (intros a; rewrite Z.lor_spec; apply orb_true_r).
  assert (X : forall e, (Z.land e b_fail =? 0) = negb (Z.testbit e 2)).
  { intros e. change b_fail with (2 ^ 2). destruct (Z.testbit e 2) eqn:T.
    - apply Z.eqb_neq. intros Q. assert (R : Z.testbit (Z.land e (2 ^ 2)) 2 = false) by (rewrite Q; apply Z.bits_0). rewrite Z.land_spec, T in R. discriminate.
    - apply Z.eqb_eq. apply Z.bits_inj_0. intros n. rewrite Z.land_spec. destruct (Z.eq_dec n 2) as [->|N]; [now rewrite T|].
      destruct (Z_lt_dec n 0); [now rewrite Z.testbit_neg_r|]. rewrite Z.pow2_bits_eqb by lia. destruct (Z.eqb_spec 2 n); [lia|]. apply andb_false_r. }
  split.
  - unfold f_ioctl. destruct (sys_ioctl (f_k s)) as [k r]. destruct (Z.ltb_spec r 0) as [L|L].
    + unfold f_set_and_throw. cbn [f_ex f_st f_k with_k]. rewrite X. destruct (Z.testbit (f_ex s) 2) eqn:T; cbn [negb rbind f_st]; rewrite B; [auto|].
      split; [reflexivity|lia].
    + cbn [f_st with_k]. split; [lia|reflexivity].
  - intros n. unfold f_mmap. destruct (sys_mmap (f_k s) n) as [k [a|]] eqn:E.
    + cbn [fst snd f_k with_k f_st].
      unfold sys_mmap in E. destruct (sk_open (f_k s) && (0 <? n) && (Z.land (sk_flags (f_k s)) O_ACCMODE =? O_RDWR)); [|discriminate].
      destruct (next_ans (f_k s)) as [a'|]; [|discriminate].
      destruct ((0 <? a') && (a' mod page =? 0) && (a' + n <? 2 ^ 63) && forallb (disjoint a' n) (sk_maps (drop_ans (f_k s)))) eqn:Q; [|discriminate].
      injection E as <- <-. apply andb_prop in Q as [Q _]. apply andb_prop in Q as [Q _]. apply andb_prop in Q as [Q _]. apply Z.ltb_lt in Q.
      split; [unfold map_failed; lia|]. intros _. split; [now left|reflexivity].
    + unfold f_set_and_throw. cbn [f_ex f_st f_k with_k]. rewrite X. destruct (Z.testbit (f_ex s) 2) eqn:T; cbn [negb rbind f_st fst]; rewrite B; [auto|].
      split; [reflexivity|congruence].
Qed.
Print Assumptions C175_errors.
(** set_nonblock changes O_NONBLOCK and nothing else, on an open descriptor. *)
Theorem C175_nonblock s b s' : sk_open (f_k s) = true -> 0 <= sk_flags (f_k s) -> next_ans (f_k s) <> None ->
  f_set_nonblock s b = Ret tt s' ->
  f_st s' = f_st s /\ sk_maps (f_k s') = sk_maps (f_k s) /\
  forall n, 0 <= n -> Z.testbit (sk_flags (f_k s')) n = if n =? nonblock_bit then b else Z.testbit (sk_flags (f_k s)) n.
Proof.
  intros O F A E. unfold f_set_nonblock, f_fcntl, sys_getfl in E. rewrite O in E. replace (sk_flags (f_k s) <? 0) with false in E by (symmetry; apply Z.ltb_ge; lia).
  cbn [rbind with_k f_k] in E. rewrite Z.max_r in E by lia. unfold sys_setfl in E. rewrite O in E. destruct (next_ans (f_k s)) as [a|]; [|congruence].
  cbn [rbind with_k f_k f_st f_ex noexc drop_ans sk_flags sk_maps sk_wild sk_ans sk_open Z.ltb Z.compare] in E. injection E as <-. cbn [f_st f_k sk_maps sk_flags]. split; [reflexivity|]. split; [reflexivity|].
  intros n Hn. cbn [f_k with_k sk_flags].  rewrite setfl_bits by assumption. unfold nonblock_bit.
  assert (T : forall g, g = (if b then Z.lor (sk_flags (f_k s)) O_NONBLOCK else Z.ldiff (sk_flags (f_k s)) O_NONBLOCK) ->
    Z.testbit g n = if n =? 11 then b else Z.testbit (sk_flags (f_k s)) n).
  { intros g ->. change O_NONBLOCK with (2 ^ 11). destruct b; rewrite ?Z.lor_spec, ?Z.ldiff_spec, Z.pow2_bits_eqb, (Z.eqb_sym 11) by lia;
      destruct (n =? 11), (Z.testbit (sk_flags (f_k s)) n); reflexivity. }
  rewrite (T _ eq_refl). destruct (Z.eqb_spec n 10), (Z.eqb_spec n 11); subst; try lia; reflexivity.
Qed.
Print Assumptions C175_nonblock.
(** Whatever failed before, after clear () the stream is good again, with the links as they were. *)
Theorem C175_clear ops : forall v s v' s', sys_run (ops ++ [XClear]) v s = Some (v', s') ->
  f_st s' = 0 /\ exists s1, sys_run ops v s = Some (v', s1) /\ f_ex s' = f_ex s1 /\ f_k s' = f_k s1.
Proof.
  induction ops as [|o ops IH]; intros v s v' s' E.
  - cbn [app sys_run sys_step] in E. injection E as <- <-. split; [reflexivity|]. exists s. cbn [sys_run f_ex f_k]. auto.
  - cbn [app sys_run] in *. destruct (sys_step o v s) as [v1 s1|s1|]; [now apply IH|now apply IH|discriminate].
Qed.
Print Assumptions C175_clear.
(** Not vacuous: an ioctl that fails, then clear (). *)
Example C175_clear_example : exists s, sys_run ([XIoctl] ++ [XClear]) [] (mkfs 0 0 (mksk true 0 [] false [None])) = Some ([], s) /\
  f_st s = 0 /\ match sys_run [XIoctl] [] (mkfs 0 0 (mksk true 0 [] false [None])) with Some (_, s1) => f_st s1 = b_fail | None => False end.
Proof. eexists. split; [vm_compute; reflexivity|]. split; reflexivity. Qed.
Definition ex_k (fl : Z) (ans : list (option Z)) : sk := mksk true fl [] false ans.
(** Two mappings, one of them undone, on a file open for appending. *)
Example C175_example : exists v s,
  sys_run [XNonblock true; XMap 0 100; XMap 1 5000; XSync 0; XUnmap 0] [no_link; no_link] (mkfs 0 0 (ex_k 1026 [Some 0; Some 8192; Some 16384; Some 0; Some 0])) = Some (v, s) /\
  f_st s = 0 /\ v = [no_link; (16384, 5000)] /\ sk_maps (f_k s) = [(16384, 5000)] /\ sk_flags (f_k s) = 3074.
Proof. eexists _, _. split; [vm_compute; reflexivity|]. repeat split. Qed.

(** ** C176 *)
(** A file opened for reading can not be mapped. *)
Theorem C176_read_only_refuted s n : Z.land (sk_flags (f_k s)) O_ACCMODE = O_RDONLY ->
  match f_mmap s n with Ret l s' => l = (map_failed, n) | Throw s' => True | Terminate => False end.
Proof.
  intros H. unfold f_mmap, sys_mmap. rewrite H. change (O_RDONLY =? O_RDWR) with false. rewrite andb_false_r.
  unfold f_set_and_throw. cbn. destruct (_ =? 0); reflexivity.
Qed.
Print Assumptions C176_read_only_refuted.
(** Without exceptions a failed mmap gives a link of the full size to address -1, where nothing is mapped. *)
Theorem C176_bad_link_refuted s n : f_ex s = 0 -> next_ans (f_k s) = None ->
  exists s', f_mmap s n = Ret (map_failed, n) s' /\ sk_maps (f_k s') = sk_maps (f_k s).
Proof.
  intros X A. unfold f_mmap, sys_mmap. rewrite A.
  destruct (_ && _ && _); eexists; (split; [unfold f_set_and_throw; cbn [f_ex with_k]; rewrite X; reflexivity|reflexivity]).
Qed.
Print Assumptions C176_bad_link_refuted.
(** A failed munmap forgets the mapping, which stays. *)
Theorem C176_lost_mapping_refuted : exists ops s v' s', fresh s [no_link] /\ f_ex s = 0 /\
  sys_run ops [no_link] s = Some (v', s') /\ v' = [no_link] /\ sk_maps (f_k s') = [(8192, 100)].
Proof.
  exists [XMap 0 100; XUnmap 0], (mkfs 0 0 (ex_k 2 [Some 8192; None])). eexists _, _.
  split; [split; [reflexivity|split; [reflexivity|repeat constructor]]|]. split; [reflexivity|]. split; [vm_compute; reflexivity|]. split; reflexivity.
Qed.
Print Assumptions C176_lost_mapping_refuted.
(** With exceptions, an error in set_nonblock ends the program. *)
Theorem C176_terminate_refuted s b : Z.land (f_ex s) b_fail <> 0 -> sk_open (f_k s) = false -> f_set_nonblock s b = Terminate.
Proof.
  intros X O. unfold f_set_nonblock, f_fcntl, sys_getfl. rewrite O. cbn [Z.ltb Z.compare]. unfold f_set_and_throw. cbn [f_ex with_k].
  destruct (Z.eqb_spec (Z.land (f_ex s) b_fail) 0); [congruence|reflexivity].
Qed.
Print Assumptions C176_terminate_refuted.
