(** * Properties C183-C184: several sets and maps; own elements as arguments. *)
From Verif Require Import Base Order UtilModel StoreModel VectorModel VectorSpec StoreProofs VectorProofs VectorFacts
  ArrayModel AssocModel AssocSpec AssocProofs MapProofs AssocFacts ExampleOrders AssocFamModel AssocFamSpec AssocFamProofs.
From Coq Require Import ZArith ZifyBool ZifyNat.
Local Open Scope nat_scope.

(** ** C183: [n] sets, and any history that constructs, copies, moves, assigns
    (also to itself), swaps, erases by iterator, reads elements by position and
    uses the operations of C11 on any of them.  Nothing undefined happens,
    every call returns what mathematical sets say, every variable holds
    exactly its own set, strictly ascending; an operation changes only the
    variables it names ([f_spec] replaces only those). *)
Theorem C183_sets {T} (e : env) (es : Z) (dflt : T) (comp eqb : T -> T -> bool) (n : nat) (ops : list (fop (set_op T))) :
  (0 < es)%Z -> (es mod 4 = 0)%Z -> good_env e -> enough_memory e -> StrictWeak comp -> EqvOf comp eqb ->
  f_pres es (fun x => x) comp (set_spec comp eqb) set_inserts (repeat [] n) ops ->
  exists fs, run_ops (f_step e es dflt (set_step e es comp eqb)) (repeat vec_nil n) ops =
      Ok (fs, snd (f_spec_run (fun x => x) comp (set_spec comp eqb) (repeat [] n) ops)) /\
    Forall2 (fun v s => exists l, contents v = Ok l /\ StrictlyAscending comp l /\ Permutation l s) fs
      (fst (f_spec_run (fun x => x) comp (set_spec comp eqb) (repeat [] n) ops)).
Proof.
  intros H0 H4 He Hm Tot Deq Hp. assert (H2 : (2 <= es)%Z) by (Z.div_mod_to_equations; lia).
  destruct (f_run_ok e es dflt (fun x : T => x) comp (set_step e es comp eqb) (set_spec comp eqb) set_inserts H0 H4 He Hm Tot) with
    (ops := ops) (fs := repeat (@vec_nil T) n) (ss := repeat (@nil T) n) as (fs & E & F).
  - intros v s o Rv Hb. destruct (set_step_ok e es comp eqb H0 H2 He Hm Tot Deq v s o Rv Hb) as (v' & E & R' & _). eauto.
  - apply F2_nil.
  - exact Hp.
  - exists fs. split; [exact E|]. eapply F2_weaken; [|exact F]. intros v s (l & I & S & P).
    exists l. split; [exact (contents_ok es H0 v l I)|]. auto.
Qed.
Print Assumptions C183_sets.
(** The same for maps, with the operations of C13; [k]-th by key. *)
Theorem C183_maps {K V} (e : env) (es : Z) (dk : K * V) (dflt : V) (comp keqb : K -> K -> bool) (n : nat) (ops : list (fop (map_op K V))) :
  (0 < es)%Z -> (es mod 4 = 0)%Z -> good_env e -> enough_memory e -> StrictWeak comp -> EqvOf comp keqb ->
  f_pres es fst comp (map_spec comp keqb dflt) map_inserts (repeat [] n) ops ->
  exists fs, run_ops (f_step e es dk (map_step e es comp dflt)) (repeat vec_nil n) ops =
      Ok (fs, snd (f_spec_run fst comp (map_spec comp keqb dflt) (repeat [] n) ops)) /\
    Forall2 (fun v s => exists l, contents v = Ok l /\ StrictlyAscending (fun p q => comp (fst p) (fst q)) l /\ Permutation l s) fs
      (fst (f_spec_run fst comp (map_spec comp keqb dflt) (repeat [] n) ops)).
Proof.
  intros H0 H4 He Hm Tot Deq Hp. assert (H2 : (2 <= es)%Z) by (Z.div_mod_to_equations; lia).
  destruct (f_run_ok e es dk (@fst K V) comp (map_step e es comp dflt) (map_spec comp keqb dflt) map_inserts H0 H4 He Hm Tot) with
    (ops := ops) (fs := repeat (@vec_nil (K * V)) n) (ss := repeat (@nil (K * V)) n) as (fs & E & F).
  - intros v s o Rv Hb. destruct (map_step_ok e es comp keqb dflt H0 H2 He Hm Tot Deq v s o Rv Hb) as (v' & E & R' & _). eauto.
  - apply F2_nil.
  - exact Hp.
  - exists fs. split; [exact E|]. eapply F2_weaken; [|exact F]. intros v s (l & I & S & P).
    exists l. split; [exact (contents_ok es H0 v l I)|]. auto.
Qed.
Print Assumptions C183_maps.
Definition c183_ops : list (fop (set_op nat)) :=
  [FDo 0 (SInsertAll [5; 1; 3; 9]); FCopy 1 0; FDo 1 (SErase 3); FEraseAt 0 1; FElem 1 2; FSwap 0 2; FAssign 1 1; FDo 0 (SInsert 4);
   FMoveAssign 0 1; FMove 2 1; FEraseRange 0 1 3].
Example C183_example : f_pres 4 (fun x => x) Nat.ltb (set_spec Nat.ltb Nat.eqb) set_inserts (repeat [] 3) c183_ops /\
  f_spec_run (fun x => x) Nat.ltb (set_spec Nat.ltb Nat.eqb) (repeat [] 3) c183_ops =
  ([[1]; []; [4]], [FRes RNone; FNone; FRes RNone; FPos 1; FVal 9; FNone; FNone; FRes (RInsert 0 true); FNone; FNone; FPos 1]).
Proof. split; [cbn; lia|reflexivity]. Qed.

(** An element of the set itself given to insert, one or all of them, changes
    nothing and invalidates nothing; given to erase it removes that element. *)
Theorem C183_own_elements {T} (e : env) (es : Z) (comp eqb : T -> T -> bool) (ops : list (set_op T)) v rs i :
  (0 < es)%Z -> (es mod 4 = 0)%Z -> good_env e -> enough_memory e -> StrictWeak comp -> EqvOf comp eqb ->
  (es * Z.of_nat (total set_inserts ops) <= 2 ^ 31)%Z ->
  run_ops (set_step e es comp eqb) vec_nil ops = Ok (v, rs) -> i < vsize v ->
  exists l v', contents v = Ok l /\ set_insert_own e es comp v i = Ok (v, i, false) /\
    set_insert_range_own e es comp v 0 (vsize v) = Ok v /\
    set_erase_own e es comp eqb v i = Ok v' /\ contents v' = Ok (firstn i l ++ skipn (S i) l).
Proof.
  intros H0 H4 He Hm Tot Deq Hb E Hi. assert (H2 : (2 <= es)%Z) by (Z.div_mod_to_equations; lia).
  destruct (run_refines es (set_step e es comp eqb) (set_spec comp eqb) set_inserts (Rset es comp) H0
    (set_step_ok e es comp eqb H0 H2 He Hm Tot Deq) ops vec_nil [] (Rset_nil es comp vec_nil (Vinv_nil es)) Hb)
    as (v0 & E0 & l & I & S & P).
  rewrite E in E0. injection E0 as <- _. rewrite (Vinv_size es v l I) in Hi.
  destruct (set_erase_own_ok e es comp eqb H0 He Tot Deq v l i I S Hi) as (v' & Ee & I').
  exists l, v'. split; [exact (contents_ok es H0 v l I)|].
  split; [exact (set_insert_own_ok e es comp H0 Tot v l i I S Hi)|].
  split; [rewrite (Vinv_size es v l I); exact (set_insert_range_own_ok e es comp H0 Tot v l I S (length l) 0 ltac:(lia))|].
  split; [exact Ee|exact (contents_ok es H0 v' _ I')].
Qed.
Print Assumptions C183_own_elements.
Theorem C183_own_pairs {K V} (e : env) (es : Z) (dflt : V) (comp keqb : K -> K -> bool) (ops : list (map_op K V)) v rs i :
  (0 < es)%Z -> (es mod 4 = 0)%Z -> good_env e -> enough_memory e -> StrictWeak comp -> EqvOf comp keqb ->
  (es * Z.of_nat (total map_inserts ops) <= 2 ^ 31)%Z ->
  run_ops (map_step e es comp dflt) vec_nil ops = Ok (v, rs) -> i < vsize v ->
  exists l v', contents v = Ok l /\ map_insert_own e es comp v i = Ok (v, i, false) /\
    map_erase_own e es comp v i = Ok v' /\ contents v' = Ok (firstn i l ++ skipn (S i) l).
Proof.
  intros H0 H4 He Hm Tot Deq Hb E Hi. assert (H2 : (2 <= es)%Z) by (Z.div_mod_to_equations; lia).
  destruct (run_refines es (map_step e es comp dflt) (map_spec comp keqb dflt) map_inserts (Rmap es comp) H0
    (map_step_ok e es comp keqb dflt H0 H2 He Hm Tot Deq) ops vec_nil [] (Rmap_nil es comp vec_nil (Vinv_nil es)) Hb)
    as (v0 & E0 & l & I & S & P).
  rewrite E in E0. injection E0 as <- _. rewrite (Vinv_size es v l I) in Hi.
  destruct (map_erase_own_ok e es comp H0 He Tot v l i I S Hi) as (v' & Ee & I').
  exists l, v'. split; [exact (contents_ok es H0 v l I)|].
  split; [exact (map_insert_own_ok e es comp H0 Tot v l i I S Hi)|].
  split; [exact Ee|exact (contents_ok es H0 v' _ I')].
Qed.
Print Assumptions C183_own_pairs.
Example C183_own_example : exists v rs, run_ops (set_step env0 4 Nat.ltb Nat.eqb) vec_nil [SInsertAll [5; 1; 3]] = Ok (v, rs) /\
  vsize v = 3 /\ (v' <- set_erase_own env0 4 Nat.ltb Nat.eqb v 1 ;; contents v') = Ok [1; 5].
Proof. eexists _, _. split; [vm_compute; reflexivity|]. split; [reflexivity|]. vm_compute. reflexivity. Qed.

(** Given to erase of a multiset, an element of it removes all that are equal to it. *)
Theorem C183_own_multiset_erase {T} (e : env) (es : Z) (comp eqb : T -> T -> bool) (ops : list (set_op T)) v rs i x :
  (0 < es)%Z -> (es mod 4 = 0)%Z -> good_env e -> enough_memory e -> StrictWeak comp -> EqvOf comp eqb ->
  (es * Z.of_nat (total set_inserts ops) <= 2 ^ 31)%Z ->
  run_ops (mset_step e es comp eqb) vec_nil ops = Ok (v, rs) -> vat v i = Ok x -> i < vsize v ->
  exists l l' v', contents v = Ok l /\ mset_erase_own e es comp v i = Ok (v', length (filter (fun y => eqb y x) l)) /\
    contents v' = Ok l' /\ Permutation l' (filter (fun y => negb (eqb y x)) l).
Proof.
  intros H0 H4 He Hm Tot Deq Hb E Hx Hi. assert (H2 : (2 <= es)%Z) by (Z.div_mod_to_equations; lia).
  destruct (run_refines es (mset_step e es comp eqb) (bag_spec comp eqb) set_inserts (Rbag es comp eqb) H0
    (mset_step_ok e es comp eqb H0 H2 He Hm Tot Deq H4) ops vec_nil [] (Rbag_nil es comp eqb vec_nil (Vinv_nil es)) Hb)
    as (v0 & E0 & l & I & S & P & _).
  rewrite E in E0. injection E0 as <- _. rewrite (Vinv_size es v l I) in Hi.
  destruct (nth_error l i) as [y|] eqn:Ey; [|apply nth_error_None in Ey; lia].
  rewrite (vat_ok es H0 v l i y I Ey) in Hx. injection Hx as ->.
  assert (R : Rbag es comp eqb v l) by (exists l; split; [exact I|]; split; [exact S|]; split; [apply Permutation_refl|reflexivity]).
  destruct (mset_erase_ok e es comp eqb H0 He Tot Deq v l x H4 R) as (v' & Ee & l' & I' & _ & P' & _).
  exists l, l', v'. split; [exact (contents_ok es H0 v l I)|].
  split; [rewrite (mset_erase_own_ok e es comp H0 v l i x I Ey), Ee; reflexivity|].
  split; [exact (contents_ok es H0 v' l' I')|exact P'].
Qed.
Print Assumptions C183_own_multiset_erase.

(** ** C184: inserting an element of the multiset once more.  Right as long as
    the capacity suffices ... *)
Theorem C184_multiset_own_partial {T} (e : env) (es : Z) (comp eqb : T -> T -> bool) (ops : list (set_op T)) v rs i x :
  (0 < es)%Z -> (es mod 4 = 0)%Z -> good_env e -> enough_memory e -> StrictWeak comp -> EqvOf comp eqb ->
  (es * Z.of_nat (total set_inserts ops) <= 2 ^ 31)%Z ->
  run_ops (mset_step e es comp eqb) vec_nil ops = Ok (v, rs) -> vat v i = Ok x -> i < vsize v ->
  (es * Z.of_nat (vsize v + 1) <= vcap v)%Z ->
  exists r, mset_insert_own e es comp v i = Ok r /\ mset_insert e es comp v x = Ok r.
Proof.
  intros H0 H4 He Hm Tot Deq Hb E Hx Hi Hc. assert (H2 : (2 <= es)%Z) by (Z.div_mod_to_equations; lia).
  destruct (run_refines es (mset_step e es comp eqb) (bag_spec comp eqb) set_inserts (Rbag es comp eqb) H0
    (mset_step_ok e es comp eqb H0 H2 He Hm Tot Deq H4) ops vec_nil [] (Rbag_nil es comp eqb vec_nil (Vinv_nil es)) Hb)
    as (v0 & E0 & l & I & S & P & _).
  rewrite E in E0. injection E0 as <- _. rewrite (Vinv_size es v l I) in Hi, Hc.
  destruct (nth_error l i) as [y|] eqn:Ey; [|apply nth_error_None in Ey; lia].
  rewrite (vat_ok es H0 v l i y I Ey) in Hx. injection Hx as ->.
  destruct (mset_insert_own_ok e es comp H0 H4 He Hm Tot v l i x I S Ey Hc) as (E1 & r & E2).
  exists r. split; [exact E2|]. rewrite <- E1. exact E2.
Qed.
Print Assumptions C184_multiset_own_partial.
(** ... and a dangling reference whenever it does not; likewise the multimap. *)
Theorem C184_multiset_own_refuted {T} (e : env) (es : Z) (comp eqb : T -> T -> bool) (ops : list (set_op T)) v rs i :
  (0 < es)%Z -> (es mod 4 = 0)%Z -> good_env e -> enough_memory e -> StrictWeak comp -> EqvOf comp eqb ->
  (es * Z.of_nat (total set_inserts ops) <= 2 ^ 31)%Z ->
  run_ops (mset_step e es comp eqb) vec_nil ops = Ok (v, rs) -> i < vsize v ->
  (vcap v < es * Z.of_nat (vsize v + 1) <= 2 ^ 31)%Z ->
  mset_insert_own e es comp v i = UB.
Proof.
  intros H0 H4 He Hm Tot Deq Hb E Hi Hc. assert (H2 : (2 <= es)%Z) by (Z.div_mod_to_equations; lia).
  destruct (run_refines es (mset_step e es comp eqb) (bag_spec comp eqb) set_inserts (Rbag es comp eqb) H0
    (mset_step_ok e es comp eqb H0 H2 He Hm Tot Deq H4) ops vec_nil [] (Rbag_nil es comp eqb vec_nil (Vinv_nil es)) Hb)
    as (v0 & E0 & l & I & S & P & _).
  rewrite E in E0. injection E0 as <- _. rewrite (Vinv_size es v l I) in Hi, Hc.
  destruct (nth_error l i) as [y|] eqn:Ey; [|apply nth_error_None in Ey; lia].
  apply (mset_insert_own_UB e es comp H0 H4 He Hm Tot v l i y I S Ey); lia.
Qed.
Print Assumptions C184_multiset_own_refuted.
Theorem C184_multimap_own_refuted {K V} (e : env) (es : Z) (comp keqb : K -> K -> bool) (ops : list (mmap_op K V)) v rs i :
  (0 < es)%Z -> (es mod 4 = 0)%Z -> good_env e -> enough_memory e -> StrictWeak comp -> EqvOf comp keqb ->
  (es * Z.of_nat (total mmap_inserts ops) <= 2 ^ 31)%Z ->
  run_ops (mmap_step e es comp) vec_nil ops = Ok (v, rs) -> i < vsize v ->
  (vcap v < es * Z.of_nat (vsize v + 1) <= 2 ^ 31)%Z ->
  mmap_insert_own e es comp v i = UB.
Proof.
  intros H0 H4 He Hm Tot Deq Hb E Hi Hc. assert (H2 : (2 <= es)%Z) by (Z.div_mod_to_equations; lia).
  destruct (run_refines es (mmap_step e es comp) (mmap_spec comp keqb) mmap_inserts (Rmm es comp keqb) H0
    (mmap_step_ok e es comp keqb H0 H2 He Hm Tot Deq H4) ops vec_nil [] (Rmm_nil es comp keqb vec_nil (Vinv_nil es)) Hb)
    as (v0 & E0 & l & I & S & P & _).
  rewrite E in E0. injection E0 as <- _. rewrite (Vinv_size es v l I) in Hi, Hc.
  destruct (nth_error l i) as [y|] eqn:Ey; [|apply nth_error_None in Ey; lia].
  apply (mmap_insert_own_UB e es comp H0 H4 He Hm Tot v l i y I S Ey); lia.
Qed.
Print Assumptions C184_multimap_own_refuted.
(** m = {1, 3}; m.insert (m[0]); and with one more element the same call is fine. *)
Example C184_example :
  (exists v rs, run_ops (mset_step env0 4 Nat.ltb Nat.eqb) vec_nil [SInsertAll [3; 1]] = Ok (v, rs) /\
    (vcap v < 4 * Z.of_nat (vsize v + 1) <= 2 ^ 31)%Z /\ mset_insert_own env0 4 Nat.ltb v 0 = UB) /\
  (exists v rs, run_ops (mset_step env0 4 Nat.ltb Nat.eqb) vec_nil [SInsertAll [3; 1; 2]] = Ok (v, rs) /\
    (' (v', _) <- mset_insert_own env0 4 Nat.ltb v 0 ;; contents v') = Ok [1; 1; 2; 3]).
Proof.
  split; eexists _, _; (split; [vm_compute; reflexivity|]).
  - split; [cbn; lia|reflexivity].
  - vm_compute. reflexivity.
Qed.
