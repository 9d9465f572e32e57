(** * P_Raw: construction and destruction in raw storage (C194, C195). *)
From Coq Require Import ZArith.
From Verif Require Import Base RawModel RawSpec RawProofs.
Local Open Scope nat_scope.

(** ** C194 *)

(** Copies of the objects [l] into raw memory: [k] is the number of copy
    constructors that return.  The first [k] cells hold the first [k] values,
    the rest of the destination is raw, and nothing else in memory changed;
    the iterator after the copies comes back unless one threw. *)
Theorem C194_copy {T} (s : @rst T) (l : list T) fuel first result :
  length l < fuel -> (Z.of_nat (length l) < 2 ^ 64 - 1)%Z ->
  objects_at (r_cells s) first l -> raw_at (r_cells s) result (length l) ->
  let n := length l in let k := returning (r_ans s) n in
  exists s', uninitialized_copy fuel s (Z.of_nat first) (Z.of_nat (first + n)) (Z.of_nat result) =
      Ok (s', if k =? n then Some (Z.of_nat (result + n)) else None) /\
    uninitialized_copy_n fuel s (Z.of_nat first) (Z.of_nat n) (Z.of_nat result) =
      Ok (s', if k =? n then Some (Z.of_nat (result + n)) else None) /\
    (r_live s' = r_live s + Z.of_nat k)%Z /\
    objects_at (r_cells s') result (firstn k l) /\ raw_at (r_cells s') (result + k) (n - k) /\
    only_at (r_cells s) (r_cells s') result n.
Proof.
  intros Hf Hn Ho Hr. cbv zeta. destruct (copy_ok l fuel s first result Hf Ho Hr) as (s' & E & _ & B).
  exists s'. split; [exact E|]. split; [|exact B].
  unfold uninitialized_copy_n. rewrite Z.mod_small by lia. rewrite copy_n_eq by lia.
  rewrite <- Nat2Z.inj_add. exact E.
Qed.
Print Assumptions C194_copy.

(** Moves: the first [k] sources are left as a move leaves them. *)
Theorem C194_move {T} (mv : T -> T * T) (s : @rst T) (l : list T) fuel first result :
  length l < fuel -> (Z.of_nat (length l) < 2 ^ 64 - 1)%Z ->
  objects_at (r_cells s) first l -> raw_at (r_cells s) result (length l) ->
  let n := length l in let k := returning (r_ans s) n in
  exists s', uninitialized_move mv fuel s (Z.of_nat first) (Z.of_nat (first + n)) (Z.of_nat result) =
      Ok (s', if k =? n then Some (Z.of_nat (result + n)) else None) /\
    uninitialized_move_n mv fuel s (Z.of_nat first) (Z.of_nat n) (Z.of_nat result) =
      Ok (s', if k =? n then Some (Z.of_nat (result + n)) else None) /\
    (r_live s' = r_live s + Z.of_nat k)%Z /\
    objects_at (r_cells s') result (map (fun x => fst (mv x)) (firstn k l)) /\ raw_at (r_cells s') (result + k) (n - k) /\
    objects_at (r_cells s') first (map (fun x => snd (mv x)) (firstn k l) ++ skipn k l) /\
    forall j, j < result \/ result + n <= j -> j < first \/ first + n <= j -> nth_error (r_cells s') j = nth_error (r_cells s) j.
Proof.
  intros Hf Hn Ho Hr. cbv zeta. destruct (move_ok mv l fuel s first result Hf Ho Hr) as (s' & E & _ & L & O & Rw & Sr & _ & On).
  exists s'. split; [exact E|]. split; [|now repeat split].
  unfold uninitialized_move_n. rewrite Z.mod_small by lia. rewrite move_n_eq by lia.
  rewrite <- Nat2Z.inj_add. exact E.
Qed.
Print Assumptions C194_move.

Theorem C194_fill {T} (s : @rst T) (v : T) n fuel first :
  n < fuel -> (Z.of_nat n < 2 ^ 64 - 1)%Z -> raw_at (r_cells s) first n ->
  let k := returning (r_ans s) n in
  exists s', uninitialized_fill fuel s (Z.of_nat first) (Z.of_nat (first + n)) v = Ok (s', k =? n) /\
    uninitialized_fill_n fuel s (Z.of_nat first) (Z.of_nat n) v = Ok (s', if k =? n then Some (Z.of_nat (first + n)) else None) /\
    (r_live s' = r_live s + Z.of_nat k)%Z /\
    objects_at (r_cells s') first (repeat v k) /\ raw_at (r_cells s') (first + k) (n - k) /\
    only_at (r_cells s) (r_cells s') first n.
Proof.
  intros Hf Hn Hr. cbv zeta. destruct (fill_ok v n fuel s first Hf Hr) as (s' & E & _ & B).
  unfold all_built in E. cbv zeta in B. rewrite !repeat_length in *.
  assert (Q : firstn (returning (r_ans s) n) (repeat v n) = repeat v (returning (r_ans s) n)).
  { rewrite <- (Nat.sub_add _ _ (returning_le (r_ans s) n)) at 2. rewrite Nat.add_comm, repeat_app.
    rewrite firstn_app, repeat_length, Nat.sub_diag. cbn [firstn]. rewrite app_nil_r.
    rewrite <- (repeat_length v (returning (r_ans s) n)) at 1. apply firstn_all. }
  rewrite Q in B. exists s'. split; [exact E|]. split; [|exact B].
  unfold uninitialized_fill_n. rewrite Z.mod_small by lia. rewrite fill_n_eq by lia.
  rewrite <- Nat2Z.inj_add, E. reflexivity.
Qed.
Print Assumptions C194_fill.

(** Default construction (zero bytes for pod types, whose construction cannot
    throw) and value construction, with the loops that compare addresses. *)
Theorem C194_default_value {T} (base es : Z) (dflt zero : T) (mv : T -> T * T) (s : @rst T) n fuel first :
  (0 < es)%Z -> block_fits base es (first + n) -> n < fuel -> raw_at (r_cells s) first n ->
  (let k := returning (r_ans s) n in
   exists s', uninitialized_default_construct base es dflt zero false fuel s (Z.of_nat first) (Z.of_nat (first + n)) = Ok (s', k =? n) /\
     uninitialized_default_construct_n base es dflt zero false fuel s (Z.of_nat first) n = Ok (s', k =? n) /\
     (r_live s' = r_live s + Z.of_nat k)%Z /\
     objects_at (r_cells s') first (firstn k (repeat dflt n)) /\ raw_at (r_cells s') (first + k) (n - k) /\ only_at (r_cells s) (r_cells s') first n) /\
  (exists s', uninitialized_default_construct base es dflt zero true fuel s (Z.of_nat first) (Z.of_nat (first + n)) = Ok (s', true) /\
     (r_live s' = r_live s + Z.of_nat n)%Z /\ objects_at (r_cells s') first (repeat zero n) /\ only_at (r_cells s) (r_cells s') first n) /\
  (exists s' k, uninitialized_value_construct base es dflt mv fuel s (Z.of_nat first) (Z.of_nat (first + n)) = Ok (s', k =? n) /\
     k <= n /\ k = Nat.div2 (returning (r_ans s) (2 * n)) /\ (r_live s' = r_live s + Z.of_nat k)%Z /\
     objects_at (r_cells s') first (repeat (fst (mv dflt)) k) /\ raw_at (r_cells s') (first + k) (n - k) /\ only_at (r_cells s) (r_cells s') first n).
Proof.
  intros Hes Hb Hf Hr. split; [|split].
  - cbv zeta. destruct (default_ok base es Hes dflt n fuel s first Hf Hb Hr) as (s' & E & _ & B).
    unfold all_built in E. cbv zeta in B. rewrite !repeat_length in *.
    exists s'. unfold uninitialized_default_construct_n, uninitialized_default_construct. rewrite <- Nat2Z.inj_add.
    split; [exact E|]. split; [exact E|exact B].
  - unfold uninitialized_default_construct. destruct (zero_ok zero n s first Hr) as (cells & E & Ob & On).
    replace (Z.to_nat (Z.max (Z.of_nat (first + n) - Z.of_nat first) 0)) with n by lia. rewrite E. cbn [bind].
    exists (R cells (r_ans s) (r_live s + Z.of_nat n)). split; [reflexivity|]. split; [reflexivity|]. split; [exact Ob|exact On].
  - destruct (value_ok base es Hes mv dflt n fuel s first Hf Hb Hr) as (s' & k & Kn & E & B).
    exists s', k. split; [exact E|]. split; [exact Kn|exact B].
Qed.
Print Assumptions C194_default_value.

(** destroy ends every object of the range, once, and nothing else. *)
Theorem C194_destroy {T} (base es : Z) (pod : bool) (s : @rst T) (l : list T) fuel first :
  (0 < es)%Z -> block_fits base es (first + length l) -> length l < fuel -> objects_at (r_cells s) first l ->
  exists s', destroy base es pod fuel s (Z.of_nat first) (Z.of_nat (first + length l)) = Ok s' /\
    destroy_n base es pod fuel s (Z.of_nat first) (length l) = Ok s' /\
    (r_live s' = r_live s - Z.of_nat (length l))%Z /\
    raw_at (r_cells s') first (length l) /\ only_at (r_cells s) (r_cells s') first (length l).
Proof.
  intros Hes Hb Hf Ho. unfold destroy_n. rewrite <- Nat2Z.inj_add. unfold destroy. destruct pod.
  - destruct (end_ok l s first Ho) as (cells & E & Rw & On).
    replace (Z.to_nat (Z.of_nat (first + length l) - Z.of_nat first)) with (length l) by lia.
    eexists. split; [exact E|]. split; [exact E|]. split; [reflexivity|]. split; [exact Rw|exact On].
  - destruct (destroy_loop_ok base es Hes l fuel s first Hf Hb Ho) as (cells & E & Rw & On).
    rewrite E. cbn [bind]. eexists. split; [reflexivity|]. split; [reflexivity|]. split; [reflexivity|]. split; [exact Rw|exact On].
Qed.
Print Assumptions C194_destroy.

(** The empty range at the null pointer too. *)
Example C194_case :
  block_fits 4096 8 6 /\ block_fits 0 8 0 /\
  let s := R [None; Some 1; Some 2; Some 3; None; None; None; Some 9] [true; true; true; true] 4 in
  objects_at (r_cells s) 1 [1; 2; 3] /\ raw_at (r_cells s) 4 3 /\
  uninitialized_copy 9 s 1 4 4 = Ok (R [None; Some 1; Some 2; Some 3; Some 1; Some 2; Some 3; Some 9] [true] 7, Some 7%Z) /\
  uninitialized_move_n (fun x => (x, 0)) 9 s 1 3 4 = Ok (R [None; Some 0; Some 0; Some 0; Some 1; Some 2; Some 3; Some 9] [true] 7, Some 7%Z) /\
  destroy 4096 8 false 9 s 1 4 = Ok (R [None; None; None; None; None; None; None; Some 9] [true; true; true; true] 1) /\
  destroy 0 8 false 9 s 0 0 = Ok s.
Proof.
  split; [unfold block_fits; lia|]. split; [unfold block_fits; lia|]. cbv zeta.
  split; [intros [|[|[|[|?]]]] x H; inversion H; reflexivity|].
  split; [intros [|[|[|j]]] H; [reflexivity..|lia]|].
  repeat split; vm_compute; reflexivity.
Qed.

(** ** C195: an exception leaves the destination as it was (violated) *)

(** Every one of the algorithms that is stopped by an exception at its second
    object leaves the first one alive in the destination. *)
Theorem C195_not_undone_refuted {T} (x y z : T) (mv : T -> T * T) base : (0 <= base < 2 ^ 40)%Z ->
  let s := R [Some x; Some y; None; None] [true; false] 2 in
  (exists c, uninitialized_copy 5 s 0 2 2 = Ok (R c [] 3, None) /\ nth_error c 2 = Some (Some x)) /\
  (exists c, uninitialized_copy_n 5 s 0 2 2 = Ok (R c [] 3, None) /\ nth_error c 2 = Some (Some x)) /\
  (exists c, uninitialized_fill 5 s 2 4 z = Ok (R c [] 3, false) /\ nth_error c 2 = Some (Some z)) /\
  (exists c, uninitialized_fill_n 5 s 2 2 z = Ok (R c [] 3, None) /\ nth_error c 2 = Some (Some z)) /\
  (exists c, uninitialized_move mv 5 s 0 2 2 = Ok (R c [] 3, None) /\ nth_error c 2 = Some (Some (fst (mv x))) /\
             nth_error c 0 = Some (Some (snd (mv x)))) /\
  (exists c, uninitialized_default_construct base 8 z z false 5 s 2 4 = Ok (R c [] 3, false) /\ nth_error c 2 = Some (Some z)).
Proof.
  intros Hb. cbv zeta.
  split; [eexists; split; [reflexivity|reflexivity]|].
  split; [eexists; split; [reflexivity|reflexivity]|].
  split; [eexists; split; [reflexivity|reflexivity]|].
  split; [eexists; split; [reflexivity|reflexivity]|].
  split; [eexists; split; [reflexivity|split; reflexivity]|].
  assert (F : block_fits base 8 (2 + 2)) by (unfold block_fits; lia).
  exists [Some x; Some y; Some z; None]. split; [|reflexivity].
  unfold uninitialized_default_construct.
  transitivity (ptr_loop base 8 5 (fun s i => construct_at s i z) (R [Some x; Some y; None; None] [true; false] 2)
    (Z.of_nat 2) (Z.of_nat (2 + 2) - 1)); [reflexivity|].
  rewrite (ptr_loop_eq base 8 ltac:(lia) _ _ F) by lia.
  change (construct_at (R [Some x; Some y; None; None] [true; false] 2) (Z.of_nat 2) z)
    with (Ok (R [Some x; Some y; Some z; None] [false] 3, true)). cbn [bind].
  rewrite (ptr_loop_eq base 8 ltac:(lia) _ _ F) by lia. reflexivity.
Qed.
Print Assumptions C195_not_undone_refuted.

(** What holds: the [k] objects built before the exception are exactly the
    first [k], so a caller who knows [k] can destroy them (C194_copy ...,
    C194_destroy). *)
Theorem C195_recoverable_partial {T} (base es : Z) (s : @rst T) (l : list T) fuel first result :
  (0 < es)%Z -> block_fits base es (result + length l) -> length l < fuel ->
  objects_at (r_cells s) first l -> raw_at (r_cells s) result (length l) ->
  let k := returning (r_ans s) (length l) in
  exists s1 r s2, uninitialized_copy fuel s (Z.of_nat first) (Z.of_nat (first + length l)) (Z.of_nat result) = Ok (s1, r) /\
    destroy_n base es false fuel s1 (Z.of_nat result) k = Ok s2 /\
    (r_live s2 = r_live s)%Z /\ raw_at (r_cells s2) result (length l) /\ only_at (r_cells s) (r_cells s2) result (length l).
Proof.
  intros Hes Hb Hf Ho Hr. cbv zeta.
  destruct (copy_ok l fuel s first result Hf Ho Hr) as (s1 & E & _ & L & Ob & Rw & (Len & On)).
  pose proof (returning_le (r_ans s) (length l)) as Kle. set (k := returning (r_ans s) (length l)) in *. clearbody k.
  assert (Lk : length (firstn k l) = k) by (rewrite firstn_length; lia).
  destruct (destroy_loop_ok base es Hes (firstn k l) fuel s1 result) as (cells & Ed & Rd & (Len2 & On2)); [lia| |exact Ob|].
  { rewrite Lk. destruct Hb as (B0 & B1 & B2). unfold block_fits. split; [exact B0|]. split; [exact B1|]. nia. }
  rewrite Lk in *. eexists s1, _, _. split; [exact E|].
  unfold destroy_n, destroy. rewrite <- Nat2Z.inj_add, Ed. cbn [bind]. split; [reflexivity|]. cbn [r_live r_cells].
  split; [lia|]. split.
  - intros j Hj. destruct (le_lt_dec k j) as [G|S]; [|now apply Rd].
    rewrite On2 by lia. replace (result + j) with (result + k + (j - k)) by lia. apply Rw. lia.
  - split; [congruence|]. intros j Hj. rewrite On2 by lia. apply On. exact Hj.
Qed.
Print Assumptions C195_recoverable_partial.
