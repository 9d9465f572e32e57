(** * AssocFacts: histories of the ordered containers, and witnesses. *)
From Verif Require Import Base Order UtilModel StoreModel VectorModel VectorSpec StoreProofs VectorProofs VectorFacts
  ArrayModel AssocModel AssocSpec AssocProofs MapProofs ExampleOrders.
From Coq Require Import ZArith ZifyBool ZifyNat.
Local Open Scope nat_scope.

Lemma set_run_ok {T} e es (comp eqb : T -> T -> bool) ops :
  (2 <= es)%Z -> good_env e -> enough_memory e -> StrictWeak comp -> EqvOf comp eqb ->
  (es * Z.of_nat (total set_inserts ops) <= 2 ^ 31)%Z ->
  exists v l, run_ops (set_step e es comp eqb) vec_nil ops = Ok (v, snd (spec_run (set_spec comp eqb) [] ops)) /\
    contents v = Ok l /\ StrictlyAscending comp l /\ Permutation l (fst (spec_run (set_spec comp eqb) [] ops)).
Proof.
  intros H2 He Hm Tot Deq Hb. assert (H0 : (0 < es)%Z) by lia.
  destruct (run_refines es (set_step e es comp eqb) (set_spec comp eqb) set_inserts (Rset es comp) H0
    (set_step_ok e es comp eqb H0 H2 He Hm Tot Deq) ops vec_nil [] (Rset_nil es comp vec_nil (Vinv_nil es)) Hb)
    as (v & E & l & I & S & P).
  exists v, l. split; [exact E|]. split; [exact (contents_ok es H0 v l I)|]. auto.
Qed.
Lemma mset_run_ok {T} e es (comp eqb : T -> T -> bool) ops :
  (0 < es)%Z -> (es mod 4 = 0)%Z -> good_env e -> enough_memory e -> StrictWeak comp -> EqvOf comp eqb ->
  (es * Z.of_nat (total set_inserts ops) <= 2 ^ 31)%Z ->
  exists v l, run_ops (mset_step e es comp eqb) vec_nil ops = Ok (v, snd (spec_run (bag_spec comp eqb) [] ops)) /\
    contents v = Ok l /\ Ascending comp l /\ Permutation l (fst (spec_run (bag_spec comp eqb) [] ops)) /\
    forall k, filter (fun y => eqb y k) l = filter (fun y => eqb y k) (fst (spec_run (bag_spec comp eqb) [] ops)).
Proof.
  intros H0 H4 He Hm Tot Deq Hb. assert (H2 : (2 <= es)%Z) by (Z.div_mod_to_equations; lia).
  destruct (run_refines es (mset_step e es comp eqb) (bag_spec comp eqb) set_inserts (Rbag es comp eqb) H0
    (mset_step_ok e es comp eqb H0 H2 He Hm Tot Deq H4) ops vec_nil [] (Rbag_nil es comp eqb vec_nil (Vinv_nil es)) Hb)
    as (v & E & l & I & S & P & F).
  exists v, l. split; [exact E|]. split; [exact (contents_ok es H0 v l I)|]. auto.
Qed.
Lemma map_run_ok {K V} e es (comp keqb : K -> K -> bool) (dflt : V) ops :
  (2 <= es)%Z -> good_env e -> enough_memory e -> StrictWeak comp -> EqvOf comp keqb ->
  (es * Z.of_nat (total map_inserts ops) <= 2 ^ 31)%Z ->
  exists v l, run_ops (map_step e es comp dflt) vec_nil ops = Ok (v, snd (spec_run (map_spec comp keqb dflt) [] ops)) /\
    contents v = Ok l /\ StrictlyAscending (fun p q => comp (fst p) (fst q)) l /\
    Permutation l (fst (spec_run (map_spec comp keqb dflt) [] ops)).
Proof.
  intros H2 He Hm Tot Deq Hb. assert (H0 : (0 < es)%Z) by lia.
  destruct (run_refines es (map_step e es comp dflt) (map_spec comp keqb dflt) map_inserts (Rmap es comp) H0
    (map_step_ok e es comp keqb dflt H0 H2 He Hm Tot Deq) ops vec_nil [] (Rmap_nil es comp vec_nil (Vinv_nil es)) Hb)
    as (v & E & l & I & S & P).
  exists v, l. split; [exact E|]. split; [exact (contents_ok es H0 v l I)|]. auto.
Qed.
Lemma mmap_run_ok {K V} e es (comp keqb : K -> K -> bool) (ops : list (mmap_op K V)) :
  (0 < es)%Z -> (es mod 4 = 0)%Z -> good_env e -> enough_memory e -> StrictWeak comp -> EqvOf comp keqb ->
  (es * Z.of_nat (total mmap_inserts ops) <= 2 ^ 31)%Z ->
  exists v l, run_ops (mmap_step e es comp) vec_nil ops = Ok (v, snd (spec_run (mmap_spec comp keqb) [] ops)) /\
    contents v = Ok l /\ Ascending (fun p q => comp (fst p) (fst q)) l /\
    Permutation l (fst (spec_run (mmap_spec comp keqb) [] ops)) /\
    forall k, filter (fun p => keqb (fst p) k) l = filter (fun p => keqb (fst p) k) (fst (spec_run (mmap_spec comp keqb) [] ops)).
Proof.
  intros H0 H4 He Hm Tot Deq Hb. assert (H2 : (2 <= es)%Z) by (Z.div_mod_to_equations; lia).
  destruct (run_refines es (mmap_step e es comp) (mmap_spec comp keqb) mmap_inserts (Rmm es comp keqb) H0
    (mmap_step_ok e es comp keqb H0 H2 He Hm Tot Deq H4) ops vec_nil [] (Rmm_nil es comp keqb vec_nil (Vinv_nil es)) Hb)
    as (v & E & l & I & S & P & F).
  exists v, l. split; [exact E|]. split; [exact (contents_ok es H0 v l I)|]. auto.
Qed.

(** set<char>: 1, 3, 4 inserted, then 2. *)
Lemma set_char_crash :
  exists ops, run_ops (set_step env0 1 Nat.ltb Nat.eqb) vec_nil ops = UB /\
    (1 * Z.of_nat (total set_inserts ops) <= 2 ^ 31)%Z.
Proof.
  exists ([SInsert 1; SInsert 3; SInsert 4] ++ [SInsert 2]). split; [|cbn; lia].
  assert (A : forall {S O R} (st : S -> O -> outcome (S * R)) a b s s' rs, run_ops st s a = Ok (s', rs) ->
    run_ops st s' b = UB -> run_ops st s (a ++ b) = UB).
  { intros S O R st a b. induction a as [|o a IH]; intros s s' rs Ha Hb; cbn [run_ops app] in *; [injection Ha as -> _; exact Hb|].
    destruct (st s o) as [[s1 r]| | |]; try discriminate. cbn [bind] in *.
    destruct (run_ops st s1 a) as [[s2 rs2]| | |] eqn:E; try discriminate. cbn [bind] in Ha. injection Ha as -> _.
    rewrite (IH s1 s' rs2 E Hb). reflexivity. }
  eapply A; [vm_compute; reflexivity|].
  cbn [run_ops set_step set_insert]. unfold set_insert.
  assert (L : s_lower Nat.ltb {| vcells := [Some 1; Some 3; Some 4; None]; vsize := 3; vcap := 4 |} 2 = Ok 1) by reflexivity.
  rewrite L. cbn [bind vsize]. change (1 =? 3) with false. cbn iota.
  assert (X : vat {| vcells := [Some 1; Some 3; Some 4; None]; vsize := 3; vcap := 4 |} 1 = Ok 3) by reflexivity.
  rewrite X. cbn [bind]. change (2 <? 3) with true. cbn iota.
  unfold insert1, insert_list, insert_hole, vreserve, vreserve_bytes, bytes. cbn [vsize vcap vcells length].
  change (3 <? 1) with false. change (1 * Z.of_nat (3 + 1) <=? 4)%Z with true. cbn iota. cbn [bind].
  cbn [vsize vcap vcells]. change (1 * Z.of_nat (3 + 1) <=? 4)%Z with true. cbn iota. cbn [bind vsize vcap vcells].
  change (3 + 1) with 4. rewrite rotate_bytes_crash; auto.
  - unfold env0; cbn [malloc_at]; lia.
  - unfold env0; cbn [malloc_at stack_at]; lia.
  - unfold env0; cbn [malloc_at stack_at]; lia.
Qed.

(** set<int> s (3): three equal elements; count (0) is 3. *)
Lemma set_sized_dup : exists v, resize env0 4 0 vec_nil 3 = Ok v /\ contents v = Ok [0; 0; 0] /\
  s_count Nat.ltb v 0 = Ok 3 /\ ~ StrictlyAscending Nat.ltb [0; 0; 0].
Proof.
  eexists. split; [vm_compute; reflexivity|]. split; [reflexivity|]. split; [reflexivity|].
  intros H. inversion H as [|? ? _ F]; subst. inversion F as [|? ? G _]; subst. discriminate.
Qed.

(** A multiset of 2-byte elements: erasing the value 2 of {1,2,2,2,3,4}. *)
Lemma mset_short_crash : run_ops (mset_step env0 2 Nat.ltb Nat.eqb) vec_nil [SAssign [1;2;2;2;3;4]; SErase 2] = UB.
Proof. vm_compute. reflexivity. Qed.
Lemma mmap_short_crash : run_ops (mmap_step env0 2 Nat.ltb) vec_nil
  [MMAssign [(1,0);(2,1);(2,2);(2,3);(3,4);(4,5)]; MMErase 2] = UB.
Proof. vm_compute. reflexivity. Qed.

Lemma eqb_dec : DecEq Nat.eqb.
Proof. intros x y. apply Nat.eqb_eq. Qed.
Lemma total_eqv {A} (lt eqb : A -> A -> bool) : StrictTotal lt -> DecEq eqb -> EqvOf lt eqb.
Proof.
  intros (Ir & _ & Eq) D x y. unfold equiv. destruct (eqb x y) eqn:E.
  - apply D in E. subst. now rewrite Ir.
  - destruct (lt x y) eqn:E1; [reflexivity|]. destruct (lt y x) eqn:E2; [reflexivity|].
    rewrite (proj2 (D x y) (Eq x y E1 E2)) in E. discriminate.
Qed.
(** Names compared by their first letter, say: a strict weak order that is not total. *)
Definition by_fst (a b : nat * nat) : bool := fst a <? fst b.
Definition same_fst (a b : nat * nat) : bool := fst a =? fst b.
Lemma by_fst_weak : StrictWeak by_fst.
Proof. unfold by_fst. split; [intros x; lia|]. split; [intros x y z; lia|]. intros x y z. lia. Qed.
Lemma same_fst_eqv : EqvOf by_fst same_fst.
Proof. intros x y. unfold same_fst, equiv, by_fst. lia. Qed.
