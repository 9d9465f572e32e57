(** * Properties C106-C108: vectors and exceptions. *)
From Verif Require Import Base UtilModel StoreModel VectorModel VectorSpec VectorProofs VectorFacts VecExcModel VecExcSpec VecExcProofs.
From Coq Require Import ZArith ZifyBool ZifyNat.
Local Open Scope nat_scope.

(** ** C106: whichever allocations fail, an operation that throws leaves the
    vector as it was; the program goes on (and may branch on the exception);
    every object constructed and not in the vector has been destroyed; there
    are as many exceptions as refused allocations. *)
Theorem C106_bad_alloc {T} (e : env) (es : Z) (dflt : T) (p : prog T) (answers : list bool) :
  (0 < es)%Z -> (es mod 4 = 0)%Z -> good_env e -> prog_pre es dflt unchanged [] p ->
  exists s fs l, xprog e es dflt p (mkxs vec_nil answers [] 0) = Ok s /\
    ends dflt unchanged [] p fs l /\ contents (xv s) = Ok l /\ vsize (xv s) = length l /\ xlive s = Z.of_nat (length l) /\
    refusals answers = refusals fs + refusals (mans s).
Proof.
  intros H0 H4 He Hp.
  assert (G0 : good es (@nil T) [] 0) by (split; [rewrite Z.div_0_l by lia; reflexivity|lia]).
  destruct (prog_mem e es dflt H0 He p H4 [] [] 0%Z answers G0 eq_refl Hp) as (fs & l & rest & c & m' & E & En & G & R & Rm).
  exists (st l rest c m' [] (Z.of_nat (length l))), fs, l. split; [exact E|]. split; [exact En|]. split; [apply contents_st|]. split; [reflexivity|]. split; [reflexivity|]. exact Rm.
Qed.
Print Assumptions C106_bad_alloc.
(** push_back 1, 2; the second allocation fails; then insert 7 in front. *)
Definition c106_prog : prog nat :=
  Do (OpPushBack 1) (Do (OpInsertN 1 2 5) Stop (Do (OpInsert 0 7) Stop Stop)) Stop.
Example C106_example : prog_pre 4 0 unchanged [] c106_prog /\
  exists s, xprog env0 4 0 c106_prog (mkxs vec_nil [true; false] [] 0) = Ok s /\ contents (xv s) = Ok [7; 1] /\ xlive s = 2%Z.
Proof.
  split.
  - cbn [prog_pre c106_prog]. unfold op_pre. cbn. unfold unchanged. intuition (try lia); subst; cbn; lia.
  - eexists. split; [vm_compute; reflexivity|]. split; reflexivity.
Qed.

(** ** C107: elements whose construction or assignment may throw, in programs
    that do not use push_back and insert: whatever throws, the vector holds
    [size] constructed elements, the old ones or in part those being assigned,
    and the program goes on without undefined behaviour. *)
Theorem C107_throwing_elements {T} (e : env) (es : Z) (dflt : T) (p : prog T) (mem el : list bool) :
  (0 < es)%Z -> (es mod 4 = 0)%Z -> good_env e -> prog_pre es dflt (partly dflt) [] p -> uses not_inserting p ->
  exists s fs l, xprog e es dflt p (mkxs vec_nil mem el 0) = Ok s /\
    ends dflt (partly dflt) [] p fs l /\ contents (xv s) = Ok l /\ (Z.of_nat (length l) <= xlive s)%Z /\
    refusals mem + refusals el = refusals fs + refusals (mans s) + refusals (eans s).
Proof.
  intros H0 H4 He Hp Hu.
  assert (G0 : good es (@nil T) [] 0) by (split; [rewrite Z.div_0_l by lia; reflexivity|lia]).
  destruct (prog_elem e es dflt H0 He p H4 [] [] 0%Z mem el 0%Z G0 ltac:(cbn; lia) Hp Hu) as (fs & l & rest & c & m' & el' & lv' & E & En & G & R & Rm).
  exists (st l rest c m' el' lv'), fs, l. split; [exact E|]. split; [exact En|]. split; [apply contents_st|]. split; [exact R|]. exact Rm.
Qed.
Print Assumptions C107_throwing_elements.
(** If the operation does not make the vector longer, nothing is leaked either. *)
Theorem C107_no_leak {T} (e : env) (es : Z) (dflt : T) (o : vop T) (v : vec T) (l : list T) (mem el : list bool) :
  (0 < es)%Z -> (es mod 4 = 0)%Z -> good_env e -> Vinv es v l -> op_pre es dflt l o -> not_inserting o -> length (seq_step dflt l o) <= length l ->
  exists s r l', xstep e es dflt o (mkxs v mem el (Z.of_nat (length l))) = Ok (s, r) /\ Vinv es (xv s) l' /\ xlive s = Z.of_nat (length l') /\
    match r with Returned _ => l' = seq_step dflt l o | NoMemory => l' = l | ElementThrew => partly dflt l o l' end.
Proof.
  intros H0 H4 He V P No Hlen. destruct (Vinv_st es v l mem el (Z.of_nat (length l)) V) as (rest & c & -> & G & Rw).
  destruct (xstep_ok e es dflt H0 He l rest c mem el (Z.of_nat (length l)) o H4 G P) as (s' & r & E & R). destruct r as [u| |].
  - destruct R as (rest' & c' & m' & el' & lv' & -> & G' & _ & _ & _ & Rr & Hlv). eexists _, _, _. split; [exact E|]. split; [apply st_Vinv; auto|].
    split; [cbn [xlive st]; lia|]. reflexivity.
  - destruct R as (m' & -> & _). eexists _, _, _. split; [exact E|]. split; [apply st_Vinv; auto|]. split; reflexivity.
  - destruct R as (_ & R). destruct (R No) as (l' & rest' & c' & m' & el' & lv' & -> & G' & Hp & _ & _ & _ & Hl). destruct (Hl Hlen) as (Rr & Hlv).
    eexists _, _, _. split; [exact E|]. split; [apply st_Vinv; auto|]. split; [cbn [xlive st]; lia|]. exact Hp.
Qed.
Print Assumptions C107_no_leak.
(** assign {1,2,3}, then {7,8}; the second assignment of the second throws. *)
Definition c107_prog : prog nat := Do (OpAssign [1; 2; 3]) (Do (OpAssign [7; 8]) Stop (Do (OpErase 0 1) Stop Stop)) Stop.
Example C107_example : prog_pre 4 0 (partly 0) [] c107_prog /\ uses not_inserting c107_prog /\
  exists s, xprog env0 4 0 c107_prog (mkxs vec_nil [] [true; true; true; true; true; true; true; false] 0) = Ok s /\ contents (xv s) = Ok [2] /\ xlive s = 1%Z.
Proof.
  split; [|split].
  - cbn [prog_pre c107_prog]. unfold op_pre, partly. cbn [seq_step length].
    split; [split; [cbn; lia|exact I]|]. split; [|auto]. split; [split; [cbn; lia|exact I]|]. split; [exact I|].
    intros l' [->|(k & Hk & ->)].
    + split; [|auto]. split; cbn; lia.
    + destruct k as [|[|k]]; [| |lia]; (split; [|auto]); split; cbn; lia.
  - cbn. tauto.
  - eexists. split; [vm_compute; reflexivity|]. split; reflexivity.
Qed.

(** ** C108 *)
(** push_back of an element whose copy constructor throws, on any vector: the
    vector has counted it already.  Reading, clearing or destroying the vector
    is undefined. *)
Theorem C108_push_back_refuted {T} (e : env) (es : Z) (dflt : T) (v : vec T) (l : list T) (x : T) (el : list bool) (n : Z) :
  (0 < es)%Z -> Vinv es v l -> (es * Z.of_nat (length l + 1) <= 2 ^ 31)%Z ->
  exists s, xstep e es dflt (OpPushBack x) (mkxs v [] (false :: el) n) = Ok (s, ElementThrew) /\
    vsize (xv s) = length l + 1 /\ contents (xv s) = UB /\ x_clear s = UB /\ x_deallocate s = UB.
Proof.
  intros H0 V Hb. destruct (push_back_throw e es dflt H0 v l x el n V Hb) as (s & E & S & _ & H). exists s. split; [exact E|]. split; [exact S|]. exact (holed_bad s H).
Qed.
Print Assumptions C108_push_back_refuted.
(** insert, anywhere, the same. *)
Theorem C108_insert_refuted {T} (e : env) (es : Z) (dflt : T) (v : vec T) (l : list T) (ip : nat) (x : list T) (el : list bool) (n : Z) :
  (0 < es)%Z -> (es mod 4 = 0)%Z -> good_env e -> Vinv es v l -> op_pre es dflt l (OpInsertRange ip x) -> x <> [] ->
  exists s, xstep e es dflt (OpInsertRange ip x) (mkxs v [] (false :: el) n) = Ok (s, ElementThrew) /\
    vsize (xv s) = length l + length x /\ contents (xv s) = UB /\ x_clear s = UB /\ x_deallocate s = UB.
Proof.
  intros H0 H4 He V P Hx. pose proof (op_moves_4 es dflt H0 (OpInsertRange ip x) l H4 P) as Hm. cbn [op_moves_ok] in Hm. destruct P as (Hb & Hi). cbn [seq_step] in Hb.
  assert (Hlen : length (seq_insert l ip x) = length l + length x) by (unfold seq_insert; rewrite !app_length, firstn_length, skipn_length; lia).
  rewrite Hlen in Hb. destruct (insert_throw e es H0 He v l ip x el n V Hi Hx Hb Hm) as (s & E & S & _ & H).
  exists s. split; [exact E|]. split; [exact S|]. exact (holed_bad s H).
Qed.
Print Assumptions C108_insert_refuted.
(** resize to two or more elements more, the second of which throws: the first
    is never destroyed, even when the vector is. *)
Theorem C108_resize_refuted {T} (e : env) (es : Z) (dflt : T) (v : vec T) (l : list T) (n : nat) (x : T) (el : list bool) :
  (0 < es)%Z -> Vinv es v l -> length l + 2 <= n -> (es * Z.of_nat n <= 2 ^ 31)%Z ->
  exists s s', xstep e es dflt (OpResizeWith n x) (mkxs v [] (true :: false :: el) (Z.of_nat (length l))) = Ok (s, ElementThrew) /\
    contents (xv s) = Ok l /\ x_deallocate s = Ok (s', Returned tt) /\ xlive s' = 1%Z.
Proof. intros H0. exact (resize_leak es H0 v l n x el). Qed.
Print Assumptions C108_resize_refuted.
(** The copying constructors leak likewise. *)
Theorem C108_constructor_refuted {T} (es : Z) (a b : T) (l : list T) (el : list bool) :
  (0 < es)%Z -> (es * Z.of_nat (length (a :: b :: l)) <= 2 ^ 31)%Z ->
  x_new es (a :: b :: l) [] (true :: false :: el) = Ok (None, 1%Z).
Proof. intros H0. exact (constructor_leak es H0 a b l el). Qed.
Print Assumptions C108_constructor_refuted.
Example C108_example : exists s s', xstep env0 4 0 (OpAssign [1; 2]) (mkxs vec_nil [] [] 0) = Ok (s, Returned tt) /\
  xstep env0 4 0 (OpPushBack 3) (mkxs (xv s) [] [false] (xlive s)) = Ok (s', ElementThrew) /\ vsize (xv s') = 3 /\ x_deallocate s' = UB.
Proof. eexists _, _. split; [vm_compute; reflexivity|]. split; [vm_compute; reflexivity|]. split; vm_compute; reflexivity. Qed.
