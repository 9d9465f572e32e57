(** * Property C220: programs with several vectors. *)
From Coq Require Import ZArith.
From Verif Require Import Base Order StoreModel VectorModel VectorSpec VectorProofs VectorFacts QsortModel QsortSpec QsortProofs ExampleOrders CtrModel CtrSpec CtrProofs MVecModel MVecSpec MVecProofs.
Local Open Scope nat_scope.

(** Any program over [n] vectors, at first empty: it runs, every value it reads and every vector at the end
    is what it would be for sequences ([mv_specs]); in particular no statement changes a vector it does not name. *)
Theorem C220_programs {T} (e : env) (es : Z) (dflt : T) (eqb lt : T -> T -> bool) qs (n : nat) (ops : list (mop T)) :
  (0 < es)%Z -> (es mod 4 = 0)%Z -> good_env e -> enough_memory e ->
  DecEq eqb -> StrictWeak lt -> qsort_contract qs ->
  mv_pres es dflt eqb lt (repeat [] n) ops ->
  exists vs ls outs, mv_run e es dflt eqb lt qs (repeat vec_nil n) ops = Ok (vs, outs) /\
    mv_specs dflt eqb lt (repeat [] n) ops ls outs /\
    Forall2 (fun v l => contents v = Ok l) vs ls.
Proof.
  intros Hes H4 He Hm Heq Hlt Hqs P.
  assert (Q : forall x y z, eqb y x = true -> eqb z y = eqb z x) by (intros x y z H; apply Heq in H; now subst).
  assert (A : All es (repeat (vec_nil : vec T) n) (repeat [] n)).
  { clear P. induction n as [|n IH]; cbn [repeat]; constructor; [apply Vinv_nil|exact IH]. }
  destruct (mv_run_ok e es dflt eqb lt qs Hes H4 He Hm Q Hlt Hqs ops _ _ A P) as (vs & ls & outs & E & A' & S).
  exists vs, ls, outs. split; [exact E|]. split; [exact S|].
  clear - A' Hes. induction A' as [|v l vs ls I A IH]; constructor; [now apply (contents_ok es Hes)|exact IH].
Qed.
Print Assumptions C220_programs.

Example C220_example :
  let ops := [MvOn 0 (CVec (OpAssign [3; 1; 2; 2])); MvCopyNew 1 0; MvOn 1 CSort; MvMoveNew 2 0; MvAppend 0 1; MvInsert 0 1 2 0 2;
              MvUniqueTo 2 0 1; MvSwap 0 2; MvCopyIf 2 1 (fun x => Nat.ltb x 2); MvTransform2 2 1 0 1 Nat.add; MvAssign 1 1;
              MvContents 0; MvContents 1; MvContents 2; MvLower 1 2; MvCount 0 2] in
  (exists vs, mv_run env0 4 0 Nat.eqb Nat.ltb isort (repeat vec_nil 3) ops =
     Ok (vs, repeat MoNothing 11 ++ [MoList [1; 2; 3; 2]; MoList [1; 2; 2; 3]; MoList [1; 2; 4; 5; 5; 3; 1]; MoPos 1; MoPos 2])) /\
  mv_pres 4 0 Nat.eqb Nat.ltb (repeat [] 3) (firstn 2 ops).
Proof.
  cbv zeta. split; [eexists; vm_compute; reflexivity|].
  cbn [mv_pres firstn repeat mv_pre cpre length]. split; [split; [lia|split; [cbn [seq_step length]; lia|exact Logic.I]]|].
  intros ls out (l' & _ & -> & ->). unfold replaced. cbn [firstn skipn app length]. split; [lia|]. intros; exact Logic.I.
Qed.

(** The whole of a program meets the preconditions. *)
Example C220_nonvacuous :
  mv_pres 4 0 Nat.eqb Nat.ltb (repeat [] 3)
    [MvOn 0 (CVec (OpAssign [3; 1; 2; 2])); MvCopyNew 1 0; MvMoveNew 2 0; MvAppend 0 1; MvInsert 0 1 2 0 2; MvOn 1 CReverse;
     MvUniqueTo 2 0 1; MvSwap 0 2; MvCopyIf 2 1 (fun x => Nat.ltb x 2); MvTransform2 2 1 0 1 Nat.add; MvAssign 1 1; MvContents 2].
Proof.
  repeat (cbn [mv_pres]; split;
    [ cbn; unfold room, op_pre; cbn;
      repeat match goal with |- _ /\ _ => split end;
      first [exact Logic.I | lia | (vm_compute; discriminate) | idtac]
    | let ls := fresh "ls" in let out := fresh "out" in intros ls out H; cbn in H;
      repeat match goal with
        | H : exists _, _ |- _ => destruct H
        | H : _ /\ _ |- _ => destruct H
        end; subst; unfold replaced, seq_insert, overwritten, slice; cbn ]).
  exact Logic.I.
Qed.
