(** * Properties C181-C182: vectors linked to the caller's array. *)
From Verif Require Import Base UtilModel StoreModel VectorModel VectorSpec StoreProofs VectorProofs VectorFacts VecLinkModel VecLinkSpec VecLinkProofs.
From Coq Require Import ZArith ZifyBool ZifyNat.
Local Open Scope nat_scope.

(** ** C181: a vector of numbers linked to the first [n] of the caller's numbers
    (there is at least one more behind them) shows them; whatever is then done
    to it, it holds what a sequence would hold; the array changes only where
    an element of the vector was assigned while it was still linked, and the
    destructor leaves the array alone. *)
Theorem C181_linked {T} (e : env) (es : Z) (dflt : T) (a : list T) (n : nat) (ops : list (lop T)) :
  (0 < es)%Z -> good_env e -> enough_memory e -> n < length a -> (es * Z.of_nat n <= 2 ^ 31)%Z ->
  lops_pre es dflt (mkspec a true (firstn n a)) ops ->
  exists s s', l_run e es dflt true (l_link a n) ops = Ok s /\
    l_contents s = Ok (s_seq (spec_run dflt (mkspec a true (firstn n a)) ops)) /\
    larr s = map Some (s_arr (spec_run dflt (mkspec a true (firstn n a)) ops)) /\
    lnk s = s_linked (spec_run dflt (mkspec a true (firstn n a)) ops) /\
    l_destructor e es dflt true s = Ok s' /\ larr s' = larr s.
Proof.
  intros H0 He Hm Hn Hs Hp.
  destruct (l_run_ok e es dflt H0 He Hm ops _ _ (link_inv es a n Hn Hs) Hp) as (s & E & I).
  destruct (l_destructor_ok e es dflt H0 He Hm s _ I) as (s' & D & A).
  exists s, s'. split; [exact E|]. split; [exact (l_contents_ok es s _ I)|].
  pose proof I as (Ia & Ik & _). split; [exact Ia|]. split; [exact Ik|]. split; [exact D|]. rewrite A, Ia. reflexivity.
Qed.
Print Assumptions C181_linked.
(** A vector that is linked and then destroyed releases none of the array's objects,
    whatever their type, and leaves the array alone. *)
Theorem C181_link_and_drop {T} (e : env) (es : Z) (dflt : T) (plain : bool) (a : list T) (n : nat) :
  exists s', l_destructor e es dflt plain (l_link a n) = Ok s' /\ lrel s' = [] /\ larr s' = map Some a.
Proof. eexists. split; [reflexivity|]. split; reflexivity. Qed.
Print Assumptions C181_link_and_drop.
(** Without assignments to elements the array never changes. *)
Theorem C181_array_untouched {T} (e : env) (es : Z) (dflt : T) (a : list T) (n : nat) (ops : list (lop T)) :
  (0 < es)%Z -> good_env e -> enough_memory e -> n < length a -> (es * Z.of_nat n <= 2 ^ 31)%Z ->
  lops_pre es dflt (mkspec a true (firstn n a)) ops -> Forall no_set ops ->
  exists s, l_run e es dflt true (l_link a n) ops = Ok s /\ larr s = map Some a.
Proof.
  intros H0 He Hm Hn Hs Hp Hf.
  destruct (C181_linked e es dflt a n ops H0 He Hm Hn Hs Hp) as (s & s' & E & _ & A & _).
  exists s. split; [exact E|]. rewrite A, spec_no_set by exact Hf. reflexivity.
Qed.
Print Assumptions C181_array_untouched.
(** v[0] = 9 through the link, then push_back, then v[1] = 8 in its own block. *)
Definition c181_ops : list (lop nat) :=
  [LSet 0 9; LOp OpPopBack; LOp (OpPushBack 5); LSet 1 8; LOp (OpErase 0 1); LCopyLink; LOp (OpInsertN 1 2 6)].
Example C181_example : lops_pre 4 0 (mkspec [1; 2; 3; 4] true [1; 2; 3]) c181_ops.
Proof. cbn. unfold op_pre, op_moves_ok. cbn. intuition (try lia; try discriminate; auto). Qed.
Example C181_example_result :
  spec_run 0 (mkspec [1; 2; 3; 4] true [1; 2; 3]) c181_ops = mkspec [9; 2; 3; 4] false [8; 6; 6; 5] /\
  exists s, l_run env0 4 0 true (l_link [1; 2; 3; 4] 3) c181_ops = Ok s /\ l_contents s = Ok [8; 6; 6; 5].
Proof. split; [reflexivity|]. eexists. split; [vm_compute; reflexivity|]. reflexivity. Qed.

(** When the memory for the copy is refused, the operation throws. *)
Theorem C181_out_of_memory {T} (e : env) (es : Z) (dflt : T) (a : list T) (n k : nat) (x : T) (plain exact : bool) :
  (0 < es)%Z -> n < length a -> 0 < k ->
  (malloc_ok e (if exact then es * Z.of_nat k else next_pow2 (es * Z.of_nat k)) = false)%Z ->
  l_step e es dflt plain (l_link a n) (LOp (OpReserve k exact)) = Exn bad_alloc /\
  (exact = false -> k = n + 1 -> l_step e es dflt plain (l_link a n) (LOp (OpPushBack x)) = Exn bad_alloc) /\
  (exact = false -> l_step e es dflt plain (l_link a n) (LOp (OpResizeWith k x)) = Exn bad_alloc).
Proof.
  intros H0 Hn Hk Hm.
  assert (A : adopt e es (l_link a n) (bytes es k) exact = Exn bad_alloc).
  { unfold adopt, bytes. replace (es * Z.of_nat k <=? 0)%Z with false by nia. cbv zeta. rewrite Hm. reflexivity. }
  split; [exact A|]. split.
  - intros -> ->. change (l_step e es dflt plain (l_link a n) (LOp (OpPushBack x))) with
      (s' <- adopt e es (l_link a n) (bytes es (n + 1)) false ;; owned_step e es dflt plain s' (OpPushBack x)). rewrite A. reflexivity.
  - intros ->. change (l_step e es dflt plain (l_link a n) (LOp (OpResizeWith k x))) with (linked_resize e es dflt plain (l_link a n) k x).
    unfold linked_resize. rewrite A. reflexivity.
Qed.
Print Assumptions C181_out_of_memory.
(** Once the vector owns its elements, what an operation takes out of it is released, and nothing else is. *)
Theorem C181_releases_owned {T} (e : env) (es : Z) (dflt : T) (s s' : lvec T) (l : list T) (k : nat) (o : vop T) :
  lnk s = false -> vcells (lv s) = map Some l ++ repeat None k -> vsize (lv s) = length l ->
  l_step e es dflt false s (LOp o) = Ok s' ->
  lrel s' = rev (match o with
                 | OpPopBack => skipn (length l - 1) l
                 | OpErase i n => firstn n (skipn i l)
                 | OpResize n | OpResizeWith n _ => skipn n l
                 | OpAssign _ | OpAssignN _ _ | OpClear | OpDeallocate => l
                 | OpPushBack _ | OpInsert _ _ | OpInsertN _ _ _ | OpInsertRange _ _ | OpReserve _ _ | OpShrink => []
                 end) ++ lrel s.
Proof.
  intros Hl Hc Hs E. unfold l_step in E. rewrite Hl in E. unfold owned_step in E.
  destruct (vstep e es dflt (lv s) o) as [v'| | |]; cbn [bind] in E; try discriminate E. injection E as <-. cbn [lrel]. f_equal. f_equal.
  assert (Q : forall i n, somes (slice (vcells (lv s)) i (i + n)) = firstn n (skipn i l)).
  { intros i n. unfold slice. rewrite Hc. replace (i + n - i) with n by lia. clear.
    assert (N : forall j, somes (repeat (@None T) j) = []) by (induction j; [reflexivity|assumption]).
    assert (F : forall m (q : list T) j, somes (firstn m (map Some q ++ repeat None j)) = firstn m q).
    { induction m as [|m IH]; intros q j; [reflexivity|]. destruct q as [|y q]; cbn [map app firstn].
      - destruct j as [|j]; [reflexivity|]. cbn [repeat firstn]. unfold somes in *. cbn [flat_map app].
        transitivity (firstn m (@nil T)); [exact (IH [] j)|apply firstn_nil].
      - unfold somes in *. cbn [flat_map app]. f_equal. exact (IH q j). }
    revert l. induction i as [|i IH]; intros l; [apply F|]. destruct l as [|y l].
    - cbn [map app]. destruct k as [|k]; cbn [repeat skipn]; rewrite ?firstn_nil; [reflexivity|].
      assert (R : forall i k m, somes (firstn m (skipn i (repeat (@None T) k))) = []).
      { clear. induction i as [|i IH]; intros k m.
        - cbn [skipn]. revert k. induction m as [|m IH]; intros k; [reflexivity|]. destruct k; [reflexivity|]. cbn. apply IH.
        - destruct k as [|k]; cbn [skipn repeat]; [now rewrite firstn_nil|apply IH]. }
      apply R.
    - cbn [map app skipn]. apply IH. }
  unfold releases. destruct o; try reflexivity; cbv zeta beta; rewrite ?Q, ?Hs; try reflexivity.
  - (* pop_back *) apply firstn_all2. rewrite skipn_length. lia.
  - apply firstn_all2. rewrite skipn_length. lia.
  - apply firstn_all2. rewrite skipn_length. lia.
  - cbn [skipn]. apply firstn_all.
  - cbn [skipn]. apply firstn_all.
  - cbn [skipn]. apply firstn_all.
  - cbn [skipn]. apply firstn_all.
Qed.
Print Assumptions C181_releases_owned.
(** ** C182: what goes wrong. *)
(** Elements with a destructor (strings, say): pop_back and erase destroy the
    caller's objects in the caller's array. *)
Theorem C182_pop_back_refuted {T} (e : env) (es : Z) (dflt : T) (a b : list T) (x : T) :
  exists s, l_step e es dflt false (l_link (a ++ x :: b) (length a + 1)) (LOp OpPopBack) = Ok s /\
    nth_error (larr s) (length a) = Some None /\ lrel s = [x].
Proof.
  unfold l_step, l_link, linked_step, destroy_arr. cbn [lnk lv vsize larr lrel].
  rewrite Nat.add_1_r.
  assert (D : destroy (map Some (a ++ x :: b)) (length a) 1 = Ok (map Some a ++ None :: map Some b)).
  { rewrite map_app. cbn [map]. rewrite <- (map_length Some a). 
    cbn [destroy]. rewrite rd_app. cbn [bind]. rewrite wr_app. reflexivity. }
  rewrite D. cbn [bind]. eexists. split; [reflexivity|]. cbn [larr lrel].
  split.
  - rewrite nth_error_app2 by (rewrite map_length; lia). rewrite map_length, Nat.sub_diag. reflexivity.
  - unfold slice. rewrite map_app. cbn [map]. rewrite skipn_app, map_length, Nat.sub_diag.
    rewrite skipn_all2 by (rewrite map_length; lia). cbn [skipn app].
    replace (length a + 1 - length a) with 1 by lia. reflexivity.
Qed.
Print Assumptions C182_pop_back_refuted.

(** erase as well: here the first of two linked strings. *)
Theorem C182_erase_refuted {T} (x y z dflt : T) :
  exists s, l_step env0 8 dflt false (l_link [x; y; z] 2) (LOp (OpErase 0 1)) = Ok s /\
    larr s = [None; Some y; Some z] /\ l_contents s = Ok [y].
Proof. eexists. split; [vm_compute; reflexivity|]. split; reflexivity. Qed.
Print Assumptions C182_erase_refuted.
(** After push_back the vector holds bitwise copies of the caller's objects; its
    destructor destroys every one of them, and the caller's array still
    refers to the same resources. *)
Theorem C182_released_twice_refuted {T} (e : env) (es : Z) (dflt : T) (a : list T) (n : nat) (y : T) :
  (0 < es)%Z -> good_env e -> enough_memory e -> n < length a -> (es * Z.of_nat (n + 1) <= 2 ^ 31)%Z ->
  exists s s', l_run e es dflt false (l_link a n) [LOp (OpPushBack y)] = Ok s /\ lrel s = [] /\
    l_destructor e es dflt false s = Ok s' /\ lrel s' = rev (firstn n a ++ [y]) /\ larr s' = map Some a.
Proof.
  intros H0 He Hm Hn Hs. pose proof (link_inv es a n Hn ltac:(lia)) as I0.
  assert (Ln : length (firstn n a) = n) by (rewrite firstn_length; lia).
  destruct (adopt_owned e es dflt H0 He Hm _ _ (OpPushBack y) (n + 1) false I0 eq_refl) as (s1 & s2 & E1 & F1 & E2 & I2).
  - cbn [s_seq]. lia.
  - lia.
  - exact Hs.
  - cbn [s_seq]. split; [cbn [seq_step]; rewrite app_length, Ln; exact Hs|exact Logic.I].
  - reflexivity.
  - unfold owned_step in E2. destruct (vstep e es dflt (lv s1) (OpPushBack y)) as [v'| | |] eqn:Ev; cbn [bind] in E2; try discriminate.
    injection E2 as <-. destruct I2 as (A2 & _ & R2 & V2). cbn [larr lrel lv s_arr s_linked s_seq seq_step] in A2, R2, V2.
    assert (Es : l_run e es dflt false (l_link a n) [LOp (OpPushBack y)] = Ok (mklv (larr s1) (lnk s1) v' [])).
    { cbn [l_run l_step]. unfold l_link. cbn [lnk]. unfold linked_step. cbn [lv vsize].
      unfold l_link in E1. rewrite E1. cbn [bind]. unfold owned_step. rewrite Ev. cbn [bind releases rev app]. rewrite R2. reflexivity. }
    destruct (vstep_ok e es dflt H0 He Hm v' (firstn n a ++ [y]) OpDeallocate V2) as (v2 & Ed & Vd); [split; [cbn; lia|exact Logic.I]|reflexivity|].
    eexists _, _. split; [exact Es|]. split; [reflexivity|].
    unfold l_destructor. cbn [lnk]. rewrite F1. unfold owned_step. cbn [lv]. rewrite Ed. cbn [bind].
    split; [reflexivity|]. cbn [lrel larr]. split; [|exact A2].
    destruct V2 as ((k & Ec) & Sz & _). rewrite app_nil_r. f_equal. unfold releases. rewrite Sz, Ec.
    unfold slice. cbn [skipn]. rewrite Nat.sub_0_r. cbn [plus]. rewrite <- (map_length Some (firstn n a ++ [y])).
    rewrite firstn_app, Nat.sub_diag, firstn_all. cbn [firstn]. rewrite app_nil_r.
    generalize (firstn n a ++ [y]) as l. clear. intros l. unfold somes. induction l as [|x t IH]; [reflexivity|]. cbn. rewrite IH. reflexivity.
Qed.
Print Assumptions C182_released_twice_refuted.
(** Numbers: a linked vector told to reserve room for fewer elements than it
    shows keeps its size; reading the last element then leaves the block. *)
Theorem C182_reserve_refuted (x y z w : nat) :
  exists s, l_step env0 4 0 true (l_link [x; y; z; w] 3) (LOp (OpReserve 1 false)) = Ok s /\
    vsize (lv s) = 3 /\ vcap (lv s) = 4%Z /\ l_contents s = UB.
Proof. eexists. split; [vm_compute; reflexivity|]. split; [reflexivity|]. split; reflexivity. Qed.
Print Assumptions C182_reserve_refuted.
(** Numbers: a vector linked to the whole of an array reads the byte behind the
    array when it first needs storage of its own. *)
Theorem C182_whole_array_refuted {T} (e : env) (es : Z) (dflt : T) (a : list T) (y : T) :
  (0 < es)%Z -> enough_memory e -> (es * Z.of_nat (length a + 1) <= 2 ^ 31)%Z ->
  l_step e es dflt true (l_link a (length a)) (LOp (OpPushBack y)) = UB.
Proof.
  intros H0 Hm Hs. unfold l_step, l_link. cbn [lnk]. unfold linked_step. cbn [lv vsize]. unfold adopt, bytes.
  pose proof (grow_size (es * Z.of_nat (length a + 1)) false ltac:(nia)) as G.
  replace (es * Z.of_nat (length a + 1) <=? 0)%Z with false by nia. cbv zeta. rewrite (Hm _) by nia.
  cbn [negb lv vsize larr]. rewrite map_length.
  replace (es * Z.of_nat (length a) <? Z.min (es * Z.of_nat (length a) + 1) (next_pow2 (es * Z.of_nat (length a + 1))))%Z with true by nia.
  reflexivity.
Qed.
Print Assumptions C182_whole_array_refuted.
Example C182_example : good_env env0 /\ enough_memory env0 /\
  l_step env0 4 0 true (l_link [1; 2; 3] 3) (LOp (OpPushBack 4)) = UB /\
  exists s, l_step env0 4 0 true (l_link [1; 2; 3; 0] 3) (LOp (OpPushBack 4)) = Ok s /\ l_contents s = Ok [1; 2; 3; 4].
Proof.
  split; [exact env0_good|]. split; [exact env0_mem|]. split; [reflexivity|].
  eexists. split; [vm_compute; reflexivity|]. reflexivity.
Qed.
