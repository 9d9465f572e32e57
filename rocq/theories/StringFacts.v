(** * StringFacts: counterexamples and a sample history for strings. *)
From Verif Require Import Base UtilModel UtilProofs StoreModel StoreProofs VectorSpec VectorFacts MemModel MemSpec MemProofs MemRun MemFacts
  StringModel StringSpec StringProofs StringRun StringFindModel StringFindSpec StringFindProofs.
From Coq Require Import ZArith ZifyBool ZifyNat.
Local Open Scope Z_scope.

(** The empty literal, the literal "hello", and "abcdef" in an array of the caller. *)
Definition text : heap :=
  [mkblk [Some 0] 8192 Literal; mkblk (map Some [104; 101; 108; 108; 111; 0]) 8208 Literal;
   mkblk (map Some [97; 98; 99; 100; 101; 102; 0]) 8224 Foreign;
   mkblk (map Some [0; 1; 2; 3; 4; 5; 6; 7; 8; 9; 10; 11; 12; 13; 14]) 8240 Literal].
Definition nul0 : ptr := Some (0%nat, 0).
Definition hello : ptr := Some (1%nat, 0).
Definition abcdef : ptr := Some (2%nat, 0).
Definition start (k : nat) : mstate := (text, repeat (str_nil nul0) k).
Lemma text_callers : callers text.
Proof. repeat constructor; (left; reflexivity) || (right; reflexivity). Qed.
Lemma text_nul : NulBlk nul0 text.
Proof. exists 0%nat, 8192. split; reflexivity. Qed.

Lemma shrink_drops_nul : exists h m h' m',
  srun env0 nul0 (start 1) [SAssign 0 hello 5] = Ok (h, [m]) /\ shrink_to_fit env0 h m = Ok (h', m') /\
  mb_bytes h' m' = Ok (map Some [104; 101; 108; 108; 111]) /\ str_last h' m' = UB.
Proof. eexists _, _, _, _. split; [vm_compute; reflexivity|]. split; [vm_compute; reflexivity|]. split; vm_compute; reflexivity. Qed.
Lemma reserve_no_nul : exists h m m1,
  srun env0 nul0 (start 2) [SAssign 0 hello 5; SMoveOf 1 0; SReserve 0 10] = Ok (h, [m; m1]) /\
  msize m = 0 /\ str_last h m = Ok [None].
Proof. eexists _, _, _. split; [vm_compute; reflexivity|]. split; vm_compute; reflexivity. Qed.
Lemma moved_null : exists h m m1,
  srun env0 nul0 (start 2) [SAssign 0 hello 5; SMoveOf 1 0] = Ok (h, [m; m1]) /\ mptr m = None /\ str_last h m = UB.
Proof. eexists _, _, _. split; [vm_compute; reflexivity|]. split; vm_compute; reflexivity. Qed.
(** s = "hello", t = "hello": s.insert (0, t) inserts t five times. *)
Lemma insert_repeats : exists h m t h' m',
  srun env0 nul0 (start 2) [SAssign 0 hello 5; SAssign 1 hello 5] = Ok (h, [m; t]) /\
  str_insert_str env0 nul0 h m 0 t = Ok (h', m') /\ msize m' = 30.
Proof. eexists _, _, _, _, _. split; [vm_compute; reflexivity|]. split; vm_compute; reflexivity. Qed.
Lemma self_assign_sub : exists h m,
  srun env0 nul0 (start 1) [SAssign 0 hello 5; SAssignSub 0 0 2 3] = Ok (h, [m]) /\
  mb_bytes h m = Ok (map Some [108; 0; 111]).
Proof. eexists _, _. split; vm_compute; reflexivity. Qed.
Lemma self_append : srun env0 nul0 (start 1) [SAssign 0 hello 5; SAppendStr 0 0] = UB.
Proof. vm_compute. reflexivity. Qed.
Lemma erase_beyond : srun env0 nul0 (start 1) [SAssign 0 hello 5; SErase 0 7 2] = UB.
Proof. vm_compute. reflexivity. Qed.
Lemma insert_moves : exists h m l,
  srun env0 nul0 (start 1) [SAssign 0 (Some (3%nat, 0)) 14; SInsert 0 5 hello 4 1] = Ok (h, [m]) /\ mb_bytes h m = Ok l /\
  ~ agrees (get (sspec_run text [[]] [SAssign 0 (Some (3%nat, 0)) 14; SInsert 0 5 hello 4 1]) 0) l.
Proof.
  eexists _, _, _. split; [vm_compute; reflexivity|]. split; [vm_compute; reflexivity|].
  vm_compute. intros H. repeat match goal with H : Forall2 _ (_ :: _) (_ :: _) |- _ => inversion H; clear H; subst end.
  repeat match goal with H : _ \/ _ |- _ => destruct H as [H|H]; try discriminate H end.
Qed.
(** Writing into the memory a string is linked to. *)
Lemma replace_in_place : exists h m,
  srun env0 nul0 (start 1) [SOfC 0 abcdef; SReplaceFill 0 1 2 2 120] = Ok (h, [m]) /\
  load_n text abcdef 7 = Ok (map Some [97; 98; 99; 100; 101; 102; 0]) /\
  load_n h abcdef 7 = Ok (map Some [97; 120; 120; 100; 101; 102; 0]).
Proof. eexists _, _. split; [vm_compute; reflexivity|]. split; vm_compute; reflexivity. Qed.
Lemma at_in_place : exists h m,
  srun env0 nul0 (start 1) [SOfC 0 abcdef; SSet 0 0 120] = Ok (h, [m]) /\
  load_n h abcdef 7 = Ok (map Some [120; 98; 99; 100; 101; 102; 0]).
Proof. eexists _, _. split; [vm_compute; reflexivity|]. vm_compute; reflexivity. Qed.
Lemma replace_literal : srun env0 nul0 (start 1) [SOfC 0 hello; SReplaceFill 0 1 2 2 120] = UB.
Proof. vm_compute. reflexivity. Qed.

(** A history of every kind of operation that meets the hypotheses. *)
Definition sops1 : list sop :=
  [SOfC 0 hello; SCopyOf 1 0; SPushBack 1 33; SMoveOf 2 1; SAssignC 1 abcdef; SAppendStr 1 2; SInsert 1 2 hello 5 2;
   SErase 1 0 3; SReplace 1 1 4 abcdef 2 3; SSet 1 0 65; SSubstr 3 1 2 100; SResizeFill 0 8 46; SReserve 0 40;
   SInsertFill 0 4 4 45; SInsertSub 0 0 3 1 3; SReplaceStr 0 2 1 2; SReplaceFill 0 0 1 1 66; SPopBack 0; SSwap 0 3;
   SOfFill 2 3 90; SAppendC 2 abcdef; SAppendFill 2 2 48; SAssignStr 1 2; SAssignSub 1 2 4 2; SAssignFill 0 3 97; SAppend 0 hello 3;
   SAssign 0 hello 4; SResize 0 2; SClear 2].

Lemma hello_c : can_read_c text hello.
Proof.
  right. exists 1%nat, (mkblk (map Some [104; 101; 108; 108; 111; 0]) 8208 Literal), [], [104; 101; 108; 108; 111], [].
  split; [reflexivity|]. split; [reflexivity|]. split; [reflexivity|]. split; [|cbn; lia]. repeat constructor; discriminate.
Qed.
Lemma abcdef_c : can_read_c text abcdef.
Proof.
  right. exists 2%nat, (mkblk (map Some [97; 98; 99; 100; 101; 102; 0]) 8224 Foreign), [], [97; 98; 99; 100; 101; 102], [].
  split; [reflexivity|]. split; [reflexivity|]. split; [reflexivity|]. split; [|cbn; lia]. repeat constructor; discriminate.
Qed.
Ltac pre_goal :=
  cbn [sop_pre]; unfold rep_moves;
  repeat match goal with |- _ /\ _ => split end;
  match goal with
  | |- can_read_c _ _ => first [exact hello_c | exact abcdef_c]
  | |- can_read _ _ _ => eexists; vm_compute; reflexivity
  | |- ins_moves _ _ _ => first [left; vm_compute; reflexivity | right; left; vm_compute; discriminate | right; right; vm_compute; reflexivity]
  | |- del_moves _ _ _ => first [left; vm_compute; reflexivity | right; left; vm_compute; reflexivity | right; right; vm_compute; reflexivity]
  | |- _ -> _ => let H := fresh in intros H; first [vm_compute in H; discriminate H | clear H; pre_goal]
  | |- (_ < _)%nat => vm_compute; lia
  | |- _ => unfold fits, is_pos; repeat match goal with |- _ /\ _ => split end; vm_compute; congruence
  end.
Ltac pre_step :=
  match goal with |- sops_pre ?h ?s (?o :: ?l) =>
    let v := eval vm_compute in (sspec_step h s o) in change (sop_pre h s o /\ sops_pre h v l); split
  end.
Lemma sops1_pre : sops_pre text (repeat [] 4) sops1.
Proof.
  unfold sops1.
  repeat (pre_step; [solve [pre_goal]|idtac]).
  exact Logic.I.
Qed.

Lemma sops1_careful : careful env0 nul0 text (repeat [] 4) (start 4) sops1.
Proof.
  unfold sops1.
  repeat (match goal with
  | |- careful ?e ?n ?h ?ss ?s (?o :: ?t) =>
      let v := eval vm_compute in (sspec_step h ss o) in
      change (careful_op h ss (snd s) o /\ forall s', sstep e n s o = Ok s' -> careful e n h v s' t); split;
      [cbn [careful_op]; try (exact Logic.I);
       try match goal with |- match ?x with _ => _ end => let y := eval vm_compute in x in change x with y; cbn iota end; try exact Logic.I;
       try (intros m Hm; vm_compute in Hm; injection Hm as <-; vm_compute; (reflexivity || discriminate))
      |let s' := fresh "s" in let E := fresh "E" in intros s' E; vm_compute in E; injection E as <-]
  end).
  exact Logic.I.
Qed.

(** Comparing strings of more than 2^31 bytes: the length difference is
    converted to int. *)
Lemma lex_nil_r a : ~ lex a [].
Proof. intros H. inversion H. Qed.
Lemma compare_huge a : 2 ^ 31 <= ssize a < 2 ^ 32 -> str_compare a [] < 0 /\ ~ lex a [].
Proof.
  intros S. split; [|apply lex_nil_r].
  unfold str_compare. change (ssize []) with 0. rewrite Z.min_r by lia. change (Z.to_nat 0) with 0%nat. cbn [firstn memcmp].
  change (0 =? 0) with true. cbn iota. rewrite Z.sub_0_r. unfold to_int, u32, two32. rewrite Z.mod_small by lia.
  replace (ssize a <? 2 ^ 31) with false by lia. rewrite Z.sgn_neg by lia. lia.
Qed.
