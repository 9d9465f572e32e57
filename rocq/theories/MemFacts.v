(** * MemFacts: consequences and counterexamples for memory blocks. *)
From Verif Require Import Base UtilModel UtilProofs StoreModel StoreProofs VectorSpec VectorFacts MemModel MemSpec MemProofs MemRun.
From Coq Require Import ZArith ZifyBool ZifyNat.
Local Open Scope Z_scope.

(** ** reserve *)
Lemma link_mb p n m : link p n = Ok m -> mptr m = p /\ msize m = n.
Proof.
  unfold link. destruct p as [q|]; [intros H; injection H as <-; auto|].
  destruct (Z.eqb_spec n 0) as [-> |]; intros H; [injection H as <-; auto|discriminate].
Qed.
Lemma reserve_cap e mfc h m n x h' m' : 0 <= mfc <= 1 -> 0 <= n -> (n + mfc <= 2 ^ 31 \/ (x = true /\ n + mfc < 2 ^ 64)) ->
  reserve e mfc h m n x = Ok (h', m') -> n + mfc <= mcap m' /\ mcap m <= mcap m'.
Proof.
  intros Hm Hn Hs. unfold reserve. rewrite u64_small by lia. destruct (Z.leb_spec (n + mfc) (mcap m)) as [L|L].
  { intros E. injection E as <- <-. lia. }
  intros E.
  assert (Hns : n + mfc <= (if x then n + mfc else next_pow2 (n + mfc))).
  { destruct x; [lia|]. destruct Hs as [Hs|(? & _)]; [|discriminate]. apply next_pow2_ge. lia. }
  remember (if x then n + mfc else next_pow2 (n + mfc)) as ns.
  match type of E with bind ?a _ = _ => destruct a as [[h1 nb]| | |]; try discriminate end. cbn [bind] in E.
  match type of E with bind ?a _ = _ => destruct a as [h2| | |]; try discriminate end. cbn [bind] in E.
  destruct (link nb (msize m)) as [m1| | |]; try discriminate. cbn [bind] in E. injection E as <- <-. cbn [mcap]. lia.
Qed.
Lemma reserve_big e n : enough_memory e -> 2 ^ 31 < n < 2 ^ 32 ->
  exists h' m', reserve e 0 [] mb_nil n false = Ok (h', m') /\ mcap m' = 1 /\ mcap m' < n.
Proof.
  intros Hm Hn. unfold reserve. rewrite Z.add_0_r, u64_small by lia. cbn [mcap mb_nil]. replace (n <=? 0) with false by lia.
  rewrite next_pow2_big by exact Hn. cbn [is_linked mcap mb_nil mptr]. change (0 =? 0) with true. cbn iota.
  unfold realloc. rewrite Hm by lia. cbn [bind push_blk link msize]. eexists _, _. split; [reflexivity|]. cbn [mcap]. lia.
Qed.
(** An existing block loses its content: realloc to one byte. *)
Lemma reserve_big_loses e n : enough_memory e -> good_env e -> 2 ^ 31 < n < 2 ^ 32 ->
  exists h m, mrun e ([], [mb_nil]) [MManage 0 [10; 20; 30]; MReserve 0 n false] = Ok (h, [m]) /\
    msize m = 3 /\ mcap m = 1 /\ mb_bytes h m = UB.
Proof.
  intros Hm He Hn. cbn [mrun mstep on rd nth_error bind]. unfold realloc. cbn [length Z.of_nat Pos.of_succ_nat Pos.succ].
  rewrite Hm by lia. unfold push_blk. cbn [bind length app].
  unfold store_n. cbn [map]. unfold rd. cbn [nth_error bind bkind writable].
  unfold in_range. cbn [bcells]. rewrite repeat_length.
  change (Z.to_nat 3) with 3%nat. cbn [length Z.of_nat Pos.of_succ_nat Pos.succ].
  change ((0 <=? 0) && (0 <=? 3) && (0 + 3 <=? 3)) with true. cbn [andb].
  unfold wr. cbn [upd bind firstn Z.to_nat repeat skipn app Nat.add manage link mptr msize bbase].
  unfold reserve. rewrite Z.add_0_r, u64_small by lia. unfold on at 1, rd at 1. cbn [nth_error bind mcap]. replace (n <=? 3) with false by lia.
  rewrite next_pow2_big by exact Hn. cbn [is_linked mcap mptr]. change (3 =? 0) with false. cbn iota. unfold realloc, rd. cbn [nth_error bind].
  change (1 =? 0) with false. cbn iota. rewrite Hm by lia. unfold free, rd. cbn [nth_error bind bkind]. change (0 =? 0) with true. cbn iota.
  unfold wr. cbn [upd bind bcells]. unfold push_blk. cbn [bind link msize mptr upd]. eexists _, _. split; [reflexivity|]. cbn [msize mcap].
  split; [reflexivity|]. split; [reflexivity|]. reflexivity.
Qed.
(** string::reserve (SIZE_MAX): the added terminator wraps the size to zero. *)
Lemma reserve_wrap e h m : 0 <= mcap m -> reserve e 1 h m (2 ^ 64 - 1) false = Ok (h, m).
Proof.
  intros H. unfold reserve. replace (2 ^ 64 - 1 + 1) with (2 ^ 64) by lia.
  change (u64 (2 ^ 64)) with 0. replace (0 <=? mcap m) with true by lia. reflexivity.
Qed.

(** ** Equality *)
Lemma memcmp_eq_ok a : forall b, length a = length b -> Forall (fun x => x <> None) a -> Forall (fun x => x <> None) b ->
  exists r, memcmp_eq a b = Ok r /\ (r = true <-> a = b).
Proof.
  induction a as [|[x|] s IH]; intros [|[y|] t] L Fa Fb; cbn [length] in L; try lia.
  - exists true. split; [reflexivity|tauto].
  - cbn [memcmp_eq]. inversion Fa; inversion Fb; subst. destruct (Z.eqb_spec x y) as [-> |N].
    + destruct (IH t) as (r & E & R); auto. exists r. split; [exact E|]. rewrite R. split; congruence.
    + exists false. split; [reflexivity|]. split; [discriminate|congruence].
  - inversion Fb; congruence.
  - inversion Fa; congruence.
  - inversion Fa; congruence.
Qed.
Lemma mb_eq_ok h x y a b : mb_bytes h x = Ok a -> mb_bytes h y = Ok b -> 0 <= msize x -> 0 <= msize y ->
  Forall (fun v => v <> None) a -> Forall (fun v => v <> None) b ->
  exists r, mb_eq h x y = Ok r /\ (r = true <-> a = b).
Proof.
  intros Ha Hb Sx Sy Fa Fb. unfold mb_eq, mb_bytes in *.
  pose proof (load_length _ _ _ _ Sx Ha) as La. pose proof (load_length _ _ _ _ Sy Hb) as Lb.
  destruct (Z.eqb_spec (msize x) (msize y)) as [E|N]; cbn [negb].
  2:{ exists false. split; [reflexivity|]. split; [discriminate|]. intros ->. lia. }
  assert (PE : ptr_eqb (mptr x) (mptr y) = true -> mptr x = mptr y).
  { unfold ptr_eqb. destruct (mptr x) as [[? ?]|], (mptr y) as [[? ?]|]; try discriminate; [|auto]. intros H. apply andb_prop in H.
    destruct H as (H1 & H2). apply Nat.eqb_eq in H1. apply Z.eqb_eq in H2. congruence. }
  destruct (ptr_eqb (mptr x) (mptr y)) eqn:P.
  - exists true. split; [reflexivity|]. split; [|tauto]. intros _. rewrite (PE eq_refl), E in Ha. congruence.
  - rewrite Hb. cbn [bind]. rewrite <- E, Ha. cbn [bind].
    destruct (memcmp_eq_ok b a) as (r & Er & R); [lia|auto|auto|]. exists r. split; [exact Er|]. rewrite R. split; congruence.
Qed.

(** ** Counterexamples *)
Definition three : heap := [mkblk [Some 1; Some 2; Some 3] 8192 Foreign].
Definition nine : heap := [mkblk (map Some [1; 2; 3; 4; 5; 6; 7; 8; 0]) 8192 Literal].
Definition fifteen : heap := [mkblk (map Some [0; 1; 2; 3; 4; 5; 6; 7; 8; 9; 10; 11; 12; 13; 14]) 8192 Literal].
(** Linking to memory that ends with the linked bytes. *)
Lemma link_overread : mrun env0 (three, [mb_nil]) [MLink 0 (Some (0%nat, 0)) 3; MCopyLink 0] = UB.
Proof. vm_compute. reflexivity. Qed.
(** Linking a block that owns memory. *)
Lemma link_leaks : exists h ms, mrun env0 (nine, [mb_nil]) [MAssign 0 (Some (0%nat, 0)) 4; MLink 0 (Some (0%nat, 2)) 3; MDealloc 0] = Ok (h, ms) /\
  exists k, nth_error h 1 = Some k /\ bkind k = Owned.
Proof. eexists _, _. split; [vm_compute; reflexivity|]. eexists. split; reflexivity. Qed.
(** reserve below the size of a linked block. *)
Lemma reserve_shrinks_link : exists h m, mrun env0 (nine, [mb_nil]) [MLink 0 (Some (0%nat, 0)) 8; MReserve 0 4 false] = Ok (h, [m]) /\
  msize m = 8 /\ mcap m = 4 /\ mb_bytes h m = UB.
Proof. eexists _, _. split; [vm_compute; reflexivity|]. vm_compute. auto. Qed.
(** Inserting 4 bytes at offset 5 of 14. *)
Lemma insert_corrupts : exists h m l, mrun env0 (fifteen, [mb_nil]) [MAssign 0 (Some (0%nat, 0)) 14; MInsert 0 5 4] = Ok (h, [m]) /\
  mb_bytes h m = Ok l /\ ~ agrees (seq_insert (bytes_at fifteen (Some (0%nat, 0)) 14) 5 (repeat None 4)) l.
Proof.
  eexists _, _, _. split; [vm_compute; reflexivity|]. split; [vm_compute; reflexivity|].
  vm_compute. intros H. repeat match goal with H : Forall2 _ (_ :: _) (_ :: _) |- _ => inversion H; clear H; subst end.
  repeat match goal with H : _ \/ _ |- _ => destruct H as [H|H]; try discriminate H end.
Qed.

(** ** A history that meets the hypotheses *)
Definition mops1 : list mop :=
  [MLink 0 (Some (0%nat, 2)) 5; MCopy 1 0; MInsert 1 2 4; MWrite 1 3 99; MErase 1 0 2; MResize 1 12 true;
   MSwap 0 1; MManage 2 [7; 8; 9]; MMove 2 1; MShrink 0; MReserve 0 100 false; MClear 1; MAssign 1 (Some (0%nat, 0)) 8; MDealloc 2; MCopy 1 1].
Lemma mops1_pre : mops_pre nine (repeat [] 3) mops1.
Proof.
  unfold mops1. cbn [mops_pre mop_pre].
  repeat match goal with |- _ /\ _ => split end; try exact Logic.I; try (vm_compute; lia);
  try (vm_compute; intuition congruence); try (vm_compute; auto; fail);
  try (right; unfold can_read; eexists; vm_compute; reflexivity);
  try (unfold can_read; eexists; vm_compute; reflexivity).
  all: try (right; right; vm_compute; reflexivity).
Qed.
Lemma nine_callers : callers nine.
Proof. repeat constructor; right; reflexivity. Qed.
