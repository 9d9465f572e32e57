(** * Property C55: list. *)
From Verif Require Import Base Order RangeSpec UtilModel StoreModel VectorModel VectorSpec VectorProofs VectorFacts AssocModel AssocSpec
  ExampleOrders QsortModel QsortSpec QsortProofs ListModel ListSpec ListProofs.
From Coq Require Import ZArith.
Local Open Scope nat_scope.

(** C55.  Any history over [n] lists, from empty ones: every list always reads
    back as the sequence [list_step] gives.  [list_pre] asks for valid
    positions, 2^31 bytes at most, and, for insert, erase and splice only, an
    element size that is a multiple of four.
    Every sort gives some ascending arrangement ([Sorts]); of qsort only ISO C's
    contract is used.  Missing: those three for other sizes (refuted below). *)
Theorem C55_list_partial {T} (e : env) (es : Z) (dflt : T) (eqb lt : T -> T -> bool) (qs : (T -> T -> Z) -> list T -> list T)
    (n : nat) (ops : list (lop T)) :
  (0 < es)%Z -> good_env e -> enough_memory e -> DecEq eqb -> StrictWeak lt -> qsort_contract qs ->
  (forall srt, Sorts lt srt -> list_pres es eqb lt srt (repeat [] n) ops) ->
  exists srt, Sorts lt srt /\ exists s, run_ops (l_step e es dflt eqb lt qs) (repeat vec_nil n) ops =
    Ok (s, snd (spec_run (list_step eqb lt srt) (repeat [] n) ops)).
Proof.
  intros H0 He Hm Hq W Hs Hp. exists (srt lt qs). pose proof (srt_sorts lt qs W Hs) as S. split; [exact S|].
  apply (l_run_ok e es dflt eqb lt H0 He Hm qs); [|exact W|exact Hs|exact (Hp _ S)].
  intros x y z H. apply Hq in H. rewrite H. reflexivity.
Qed.
Print Assumptions C55_list_partial.

(** Merging sorted lists: sorted, with the elements of both. *)
Theorem C55_merge_sorted {T} (lt : T -> T -> bool) (W : StrictWeak lt) (l1 l2 : list T) :
  Permutation (merge_seq lt l1 l2) (l1 ++ l2) /\
  (Ascending lt l1 -> Ascending lt l2 -> Ascending lt (merge_seq lt l1 l2)).
Proof. exact (merge_seq_sorted lt W l1 l2). Qed.
Print Assumptions C55_merge_sorted.

Example C55_nonvacuous :
  let ops := [LAssign 0 [1; 4; 4; 6]; LAssign 1 [2; 4; 9]; LMerge 0 1; LContents 0; LUnique 0; LContents 0;
              LPushFront 0 7; LReverse 0; LRemove 0 4; LContents 0; LSplice 1 1 0 (Some 1) None; LContents 0; LContents 1;
              LPopFront 1; LRemoveIf 1 (fun x => Nat.ltb x 3); LContents 1; LSort 1; LContents 1] in
  (forall srt, list_pres 4 Nat.eqb Nat.ltb srt (repeat [] 2) ops) /\
  snd (spec_run (list_step Nat.eqb Nat.ltb (isort (fun x y => Z.of_nat x - Z.of_nat y)%Z)) (repeat [] 2) ops) =
    [[]; []; []; [1; 2; 4; 4; 4; 6; 9]; []; [1; 2; 4; 6; 9]; []; []; []; [9; 6; 2; 1; 7]; []; [9]; [2; 6; 2; 1; 7; 4; 9];
     []; []; [6; 7; 4; 9]; []; [4; 6; 7; 9]].
Proof. unfold list_pres, list_pre, fits. cbn. repeat split; try lia; try discriminate. Qed.

(** list<char>: inserting in the middle of three elements is undefined (see C54). *)
Theorem C55_list_char_refuted (e : env) qs : good_env e -> enough_memory e ->
  (16 <= malloc_at e 4)%Z -> (stack_at e < 2 ^ 62)%Z ->
  run_ops (l_step e 1 0 Nat.eqb Nat.ltb qs) [vec_nil] [LAssign 0 [1; 2; 3]; LInsert 0 1 [9]] = UB.
Proof.
  intros He Hm H1 H2. pose proof (insert_char_crash e He Hm H1 H2 1 2 3 9) as C.
  cbn [vrun vstep] in C. cbn [run_ops l_step]. unfold l_on. cbn [rd nth_error bind].
  destruct (assign e 1 0 vec_nil [1; 2; 3]) as [v| | |]; cbn [bind] in *; try discriminate; [|reflexivity].
  cbn [wr upd bind run_ops l_step rd nth_error]. unfold l_on. cbn [wr upd bind run_ops l_step rd nth_error].
  unfold insert1 in C. destruct (insert_list e 1 v 1 [9]) as [w| | |]; cbn [bind] in *; try discriminate. reflexivity.
Qed.
Print Assumptions C55_list_char_refuted.

(** l.remove (l.front()) on 1, 2, 1 leaves a 1: the value is a reference into
    the list that is being changed. *)
Theorem C55_remove_own_refuted :
  exists v v', vec_of env0 4 [1; 2; 1] = Ok v /\ l_remove_own env0 4 Nat.eqb v 0 = Ok v' /\ contents v' = Ok [2; 1].
Proof. do 2 eexists. split; [vm_compute; reflexivity|]. split; vm_compute; reflexivity. Qed.
Print Assumptions C55_remove_own_refuted.
