(** * Properties C196-C199: comparators coarser than ==, and what set and map
    inherit from vector. *)
From Verif Require Import Base Order UtilModel StoreModel VectorModel VectorSpec StoreProofs VectorProofs VectorFacts
  ArrayModel AssocModel AssocSpec AssocProofs MapProofs AssocFacts ExampleOrders AssocFamModel AssocFamSpec AssocFamProofs
  AssocVecModel AssocVecSpec AssocVecProofs.
From Coq Require Import ZArith ZifyBool ZifyNat.
Local Open Scope nat_scope.

(** ** C196: the comparator alone decides which elements are the same.  True
    of every history without find and erase (v), whatever == says ... *)
Theorem C196_without_lookup_partial {T} (e : env) (es : Z) (comp eqb : T -> T -> bool) (ops : list (set_op T)) :
  (2 <= es)%Z -> good_env e -> enough_memory e -> StrictWeak comp ->
  forallb no_eq ops = true -> (es * Z.of_nat (total set_inserts ops) <= 2 ^ 31)%Z ->
  exists v l, run_ops (set_step e es comp eqb) vec_nil ops = Ok (v, snd (spec_run (set_spec comp (equiv comp)) [] ops)) /\
    contents v = Ok l /\ StrictlyAscending comp l /\ Permutation l (fst (spec_run (set_spec comp (equiv comp)) [] ops)).
Proof.
  intros H2 He Hm W N Hb. rewrite (set_run_noeq e es comp eqb ops N vec_nil).
  apply set_run_ok; auto. intros x y. reflexivity.
Qed.
Print Assumptions C196_without_lookup_partial.
(** ... and of the multiset also with erase (v). *)
Theorem C196_multiset_without_find_partial {T} (e : env) (es : Z) (comp eqb : T -> T -> bool) (ops : list (set_op T)) :
  (0 < es)%Z -> (es mod 4 = 0)%Z -> good_env e -> enough_memory e -> StrictWeak comp ->
  forallb (fun o => match o with SFind _ => false | _ => true end) ops = true ->
  (es * Z.of_nat (total set_inserts ops) <= 2 ^ 31)%Z ->
  exists v l, run_ops (mset_step e es comp eqb) vec_nil ops = Ok (v, snd (spec_run (bag_spec comp (equiv comp)) [] ops)) /\
    contents v = Ok l /\ Ascending comp l /\ Permutation l (fst (spec_run (bag_spec comp (equiv comp)) [] ops)).
Proof.
  intros H0 H4 He Hm W N Hb. rewrite (mset_run_noeq e es comp eqb ops N vec_nil).
  destruct (mset_run_ok e es comp (equiv comp) ops H0 H4 He Hm W) as (v & l & E & C & S & P & _); auto.
  - intros x y. reflexivity.
  - exists v, l. auto.
Qed.
Print Assumptions C196_multiset_without_find_partial.
(** But whenever the set holds an element that the comparator does not tell
    from x and == does, then insert (x) says x is already there, count (x) is
    one, find (x) is end() and erase (x) removes nothing. *)
Theorem C196_set_refuted {T} (e : env) (es : Z) (comp eqb : T -> T -> bool) (ops : list (set_op T)) v rs l x y :
  (2 <= es)%Z -> good_env e -> enough_memory e -> StrictWeak comp ->
  forallb no_eq ops = true -> (es * Z.of_nat (total set_inserts ops) <= 2 ^ 31)%Z ->
  run_ops (set_step e es comp eqb) vec_nil ops = Ok (v, rs) -> contents v = Ok l ->
  In y l -> comp x y = false -> comp y x = false -> eqb y x = false ->
  (exists i, set_step e es comp eqb v (SInsert x) = Ok (v, RInsert i false)) /\
  set_step e es comp eqb v (SCount x) = Ok (v, RCount 1) /\
  set_step e es comp eqb v (SFind x) = Ok (v, RFind None) /\
  set_step e es comp eqb v (SErase x) = Ok (v, RNone).
Proof.
  intros H2 He Hm W N Hb E C Hy C1 C2 Q. assert (H0 : (0 < es)%Z) by lia.
  rewrite (set_run_noeq e es comp eqb ops N vec_nil) in E.
  destruct (run_refines es (set_step e es comp (equiv comp)) (set_spec comp (equiv comp)) set_inserts (Rset es comp) H0
    (set_step_ok e es comp (equiv comp) H0 H2 He Hm W (fun _ _ => eq_refl)) ops vec_nil [] (Rset_nil es comp vec_nil (Vinv_nil es)) Hb)
    as (v0 & E0 & l0 & I & S & P).
  rewrite E in E0. injection E0 as <- _. rewrite (contents_ok es H0 v l0 I) in C. injection C as ->.
  destruct (coarse_miss e es comp eqb H0 W v l x y I S Hy) as (E1 & E2 & E3 & i & E4); auto.
  { apply equiv_true. auto. }
  unfold set_step. rewrite E1, E2, E3, E4. cbn [bind]. unfold found. rewrite Nat.eqb_refl. eauto.
Qed.
Print Assumptions C196_set_refuted.
(** A multiset that holds x itself behind an equivalent element, for any such
    pair: count counts both and find does not find x. *)
Theorem C196_multiset_refuted {T} (e : env) (es : Z) (comp eqb : T -> T -> bool) (x y : T) :
  (0 < es)%Z -> (es mod 4 = 0)%Z -> (es <= 2 ^ 30)%Z -> good_env e -> enough_memory e -> StrictWeak comp ->
  comp x y = false -> comp y x = false -> eqb y x = false ->
  exists v, run_ops (mset_step e es comp eqb) vec_nil [SInsert y; SInsert x; SCount x; SFind x] =
    Ok (v, [RPos 0; RPos 1; RCount 2; RFind None]) /\ contents v = Ok [y; x].
Proof.
  intros H0 H4 Hs He Hm W C1 C2 Q. assert (H2 : (2 <= es)%Z) by (Z.div_mod_to_equations; lia).
  destruct (run_refines es (mset_step e es comp (equiv comp)) (bag_spec comp (equiv comp)) set_inserts (Rbag es comp (equiv comp)) H0
    (mset_step_ok e es comp (equiv comp) H0 H2 He Hm W (fun _ _ => eq_refl) H4) [SInsert y; SInsert x; SCount x] vec_nil []
    (Rbag_nil es comp (equiv comp) vec_nil (Vinv_nil es))) as (v & E & l & I & S & P & F); [cbn; lia|].
  rewrite <- (mset_run_noeq e es comp eqb [SInsert y; SInsert x; SCount x] eq_refl) in E.
  assert (Ey : equiv comp y x = true) by (apply equiv_true; auto).
  assert (Ex : equiv comp x x = true) by (apply equiv_refl; exact W).
  assert (L : l = [y; x]).
  { assert (Sx : fst (spec_run (bag_spec comp (equiv comp)) [] [SInsert y; SInsert x; SCount x]) = [y; x]) by reflexivity.
    rewrite Sx in P, F. specialize (F x). cbn [filter] in F. rewrite Ey, Ex in F. rewrite <- F. symmetry. apply filter_all.
    intros z Hz. apply (Permutation_in _ P) in Hz. destruct Hz as [<-|[<-|[]]]; auto. }
  subst l. exists v. split; [|exact (contents_ok es H0 v _ I)].
  assert (Sr : snd (spec_run (bag_spec comp (equiv comp)) [] [SInsert y; SInsert x; SCount x]) = [RPos 0; RPos 1; RCount 2]).
  { cbn [spec_run bag_spec app snd]. unfold upto, countp. cbn [filter length]. rewrite C1. cbn [negb length]. rewrite Ey, Ex. reflexivity. }
  rewrite Sr in E.
  assert (Ef : mset_step e es comp eqb v (SFind x) = Ok (v, RFind None)).
  { unfold mset_step, s_find. assert (HS : Split (fun z : T => z) comp [y; x] x [] [y; x] []).
    { split; [reflexivity|]. split; [intros z []|]. split; [|intros z []].
      intros z [<-|[<-|[]]]; [auto|]. split; apply W. }
    rewrite (s_lower_ok es comp H0 W v [y; x] I x [] [y; x] [] HS). cbn [bind length]. rewrite (Vinv_size es v _ I). cbn [length Nat.eqb].
    rewrite (vat_ok es H0 v [y; x] 0 y I eq_refl). cbn [bind]. rewrite Q. cbn [bind]. unfold found. rewrite (Vinv_size es v _ I). reflexivity. }
  clear - E Ef. cbn [run_ops] in *.
  destruct (mset_step e es comp eqb vec_nil (SInsert y)) as [[v1 r1]| | |]; cbn [bind] in *; try discriminate.
  destruct (mset_step e es comp eqb v1 (SInsert x)) as [[v2 r2]| | |]; cbn [bind] in *; try discriminate.
  destruct (mset_step e es comp eqb v2 (SCount x)) as [[v3 r3]| | |]; cbn [bind] in *; try discriminate.
  injection E as -> -> -> ->. rewrite Ef. cbn [bind]. reflexivity.
Qed.
Print Assumptions C196_multiset_refuted.
(** Names compared without regard to case: (letter, upper case?). *)
Definition ci_lt (a b : nat * bool) : bool := fst a <? fst b.
Definition ci_eq (a b : nat * bool) : bool := (fst a =? fst b) && Bool.eqb (snd a) (snd b).
Lemma ci_weak : StrictWeak ci_lt.
Proof.
  unfold ci_lt. split; [|split]; [intros [x a]|intros [x a] [y b] [z c]|intros [x a] [y b] [z c]]; cbn [fst]; rewrite ?Nat.ltb_lt, ?Nat.ltb_ge; lia.
Qed.
Example C196_example : exists v rs, run_ops (set_step env0 4 ci_lt ci_eq) vec_nil [SInsertAll [(3, false); (1, true); (2, false)]] = Ok (v, rs) /\
  contents v = Ok [(1, true); (2, false); (3, false)] /\ ci_lt (1, false) (1, true) = false /\ ci_lt (1, true) (1, false) = false /\
  ci_eq (1, true) (1, false) = false /\ set_step env0 4 ci_lt ci_eq v (SFind (1, false)) = Ok (v, RFind None).
Proof. eexists _, _. split; [vm_compute; reflexivity|]. repeat (split; [vm_compute; reflexivity|]). vm_compute. reflexivity. Qed.

(** ** C197: the set with the members it inherits and that cannot harm it:
    pop_back takes the greatest element, front and back are the least and the
    greatest, reserve, shrink_to_fit and deallocate do what they say. *)
Theorem C197_set {T} (e : env) (es : Z) (comp eqb : T -> T -> bool) (ops : list (iop (set_op T))) :
  (2 <= es)%Z -> good_env e -> enough_memory e -> StrictWeak comp -> EqvOf comp eqb ->
  i_pres es (fun x => x) comp (set_spec comp eqb) set_inserts [] ops ->
  exists v l, run_ops (i_step e es (set_step e es comp eqb)) vec_nil ops =
      Ok (v, snd (spec_run (i_spec (fun x => x) comp (set_spec comp eqb)) [] ops)) /\
    contents v = Ok l /\ StrictlyAscending comp l /\
    Permutation l (fst (spec_run (i_spec (fun x => x) comp (set_spec comp eqb)) [] ops)).
Proof.
  intros H2 He Hm W Deq Hp. assert (H0 : (0 < es)%Z) by lia.
  destruct (i_run_ok e es (fun x : T => x) comp (set_step e es comp eqb) (set_spec comp eqb) set_inserts H0 Hm W) with
    (ops := ops) (v := @vec_nil T) (s := @nil T) as (v & E & l & I & S & P).
  - intros v s o Rv Hb. destruct (set_step_ok e es comp eqb H0 H2 He Hm W Deq v s o Rv Hb) as (v' & E & R' & _). eauto.
  - exists []. split; [apply Vinv_nil|]. split; constructor.
  - exact Hp.
  - exists v, l. split; [exact E|]. split; [exact (contents_ok es H0 v l I)|]. auto.
Qed.
Print Assumptions C197_set.
Theorem C197_map {K V} (e : env) (es : Z) (dflt : V) (comp keqb : K -> K -> bool) (ops : list (iop (map_op K V))) :
  (2 <= es)%Z -> good_env e -> enough_memory e -> StrictWeak comp -> EqvOf comp keqb ->
  i_pres es fst comp (map_spec comp keqb dflt) map_inserts [] ops ->
  exists v l, run_ops (i_step e es (map_step e es comp dflt)) vec_nil ops =
      Ok (v, snd (spec_run (i_spec fst comp (map_spec comp keqb dflt)) [] ops)) /\
    contents v = Ok l /\ StrictlyAscending (fun p q => comp (fst p) (fst q)) l /\
    Permutation l (fst (spec_run (i_spec fst comp (map_spec comp keqb dflt)) [] ops)).
Proof.
  intros H2 He Hm W Deq Hp. assert (H0 : (0 < es)%Z) by lia.
  destruct (i_run_ok e es (@fst K V) comp (map_step e es comp dflt) (map_spec comp keqb dflt) map_inserts H0 Hm W) with
    (ops := ops) (v := @vec_nil (K * V)) (s := @nil (K * V)) as (v & E & l & I & S & P).
  - intros v s o Rv Hb. destruct (map_step_ok e es comp keqb dflt H0 H2 He Hm W Deq v s o Rv Hb) as (v' & E & R' & _). eauto.
  - exists []. split; [apply Vinv_nil|]. split; constructor.
  - exact Hp.
  - exists v, l. split; [exact E|]. split; [exact (contents_ok es H0 v l I)|]. auto.
Qed.
Print Assumptions C197_map.
Definition c197_ops : list (iop (set_op nat)) :=
  [IDo (SInsertAll [5; 9; 1; 3]); IBack; IPopBack; IFront; IReserve 100 true; IShrink; IDo (SInsert 4); IBack; IDo (SFind 9)].
Example C197_example : i_pres 4 (fun x => x) Nat.ltb (set_spec Nat.ltb Nat.eqb) set_inserts [] c197_ops /\
  spec_run (i_spec (fun x => x) Nat.ltb (set_spec Nat.ltb Nat.eqb)) [] c197_ops =
  ([4; 3; 1; 5], [IRes RNone; IVal 9; INone; IVal 1; INone; INone; IRes (RInsert 2 true); IVal 5; IRes (RFind None)]).
Proof. split; [cbn; repeat split; try discriminate; lia|reflexivity]. Qed.

(** ** C198: find_data (x, first, last) gives the first pair of [first, last)
    whose value is == x, and last if there is none; without first and last it
    searches the whole map. *)
Theorem C198_find_data {K V} (e : env) (es : Z) (dflt : V) (comp keqb : K -> K -> bool) (veqb : V -> V -> bool)
    (ops : list (map_op K V)) v rs l x (first last : option nat) :
  (2 <= es)%Z -> good_env e -> enough_memory e -> StrictWeak comp -> EqvOf comp keqb ->
  (es * Z.of_nat (total map_inserts ops) <= 2 ^ 31)%Z ->
  run_ops (map_step e es comp dflt) vec_nil ops = Ok (v, rs) -> contents v = Ok l ->
  let f := match first with Some i => i | None => 0 end in
  let la := match last with Some i => i | None => length l end in
  f <= la <= length l ->
  exists j, find_data veqb v x first last = Ok j /\ f <= j <= la /\
    (forall k p, f <= k < j -> nth_error l k = Some p -> veqb (snd p) x = false) /\
    (j < la -> exists p, nth_error l j = Some p /\ veqb (snd p) x = true).
Proof.
  intros H2 He Hm W Deq Hb E C f la Hf. assert (H0 : (0 < es)%Z) by lia.
  destruct (run_refines es (map_step e es comp dflt) (map_spec comp keqb dflt) map_inserts (Rmap es comp) H0
    (map_step_ok e es comp keqb dflt H0 H2 He Hm W Deq) ops vec_nil [] (Rmap_nil es comp vec_nil (Vinv_nil es)) Hb)
    as (v0 & E0 & l0 & I & S & P).
  rewrite E in E0. injection E0 as <- _. rewrite (contents_ok es H0 v l0 I) in C. injection C as ->.
  unfold find_data. rewrite (Vinv_size es v l I). cbv zeta. fold f. fold la.
  replace (la <? f) with false by lia.
  destruct (fd_loop_ok es veqb H0 v l x (la - f) I f ltac:(lia)) as (j & Ej & B & F & G).
  exists j. replace (f + (la - f)) with la in * by lia. auto.
Qed.
Print Assumptions C198_find_data.
Example C198_example : exists v rs, run_ops (map_step env0 8 Nat.ltb 0) vec_nil [MSet 5 7; MSet 1 9; MSet 3 7; MSet 8 2] = Ok (v, rs) /\
  find_data Nat.eqb v 7 None None = Ok 1 /\ find_data Nat.eqb v 7 (Some 2) None = Ok 2 /\ find_data Nat.eqb v 7 None (Some 1) = Ok 1 /\
  find_data Nat.eqb v 4 None None = Ok 4.
Proof. eexists _, _. split; [vm_compute; reflexivity|]. repeat (split; [vm_compute; reflexivity|]). vm_compute. reflexivity. Qed.

(** ** C199: a set never holds the same element twice and is always in order.
    The sized constructor gives n equal elements ... *)
Theorem C199_sized_refuted {T} (e : env) (es : Z) (dflt : T) (comp : T -> T -> bool) n :
  (0 < es)%Z -> good_env e -> enough_memory e -> StrictWeak comp -> 2 <= n -> (es * Z.of_nat n <= 2 ^ 31)%Z ->
  exists v, sized e es dflt n = Ok v /\ contents v = Ok (repeat dflt n) /\ ~ StrictlyAscending comp (repeat dflt n) /\
    s_count comp v dflt = Ok n.
Proof.
  intros H0 He Hm W Hn Hb. destruct (sized_ok e es dflt H0 Hm n Hb) as (v & E & I). exists v. split; [exact E|].
  split; [exact (contents_ok es H0 v _ I)|]. split.
  - destruct n as [|[|n]]; try lia. cbn [repeat]. intros S. inversion S as [|? ? _ F]; subst. inversion F as [|? ? D _]; subst.
    rewrite (sw_irrefl _ W) in D. discriminate.
  - assert (HS : Split (fun z : T => z) comp (repeat dflt n) dflt [] (repeat dflt n) []).
    { split; [now rewrite app_nil_r|]. split; [intros z []|]. split; [|intros z []].
      intros z Hz. apply repeat_spec in Hz. subst z. split; apply W. }
    rewrite (s_count_ok es comp H0 W v _ I dflt [] (repeat dflt n) [] HS), repeat_length. reflexivity.
Qed.
Print Assumptions C199_sized_refuted.
(** ... and every set can be put out of order, or made to hold an element
    twice, through its own non-const iterators: store any element of a set of
    two or more over its neighbour. *)
Theorem C199_store_refuted {T} (e : env) (es : Z) (comp eqb : T -> T -> bool) (ops : list (set_op T)) v rs l i x :
  (2 <= es)%Z -> good_env e -> enough_memory e -> StrictWeak comp -> EqvOf comp eqb ->
  (es * Z.of_nat (total set_inserts ops) <= 2 ^ 31)%Z ->
  run_ops (set_step e es comp eqb) vec_nil ops = Ok (v, rs) -> contents v = Ok l ->
  nth_error l i = Some x -> S i < length l ->
  exists v', poke v (S i) x = Ok v' /\ contents v' = Ok (firstn (S i) l ++ x :: skipn (S (S i)) l) /\
    ~ StrictlyAscending comp (firstn (S i) l ++ x :: skipn (S (S i)) l).
Proof.
  intros H2 He Hm W Deq Hb E C Ex Hi. assert (H0 : (0 < es)%Z) by lia.
  destruct (run_refines es (set_step e es comp eqb) (set_spec comp eqb) set_inserts (Rset es comp) H0
    (set_step_ok e es comp eqb H0 H2 He Hm W Deq) ops vec_nil [] (Rset_nil es comp vec_nil (Vinv_nil es)) Hb)
    as (v0 & E0 & l0 & I & S & P).
  rewrite E in E0. injection E0 as <- _. rewrite (contents_ok es H0 v l0 I) in C. injection C as ->.
  destruct (poke_ok es H0 v l (Datatypes.S i) x I Hi) as (v' & E' & I'). exists v'. split; [exact E'|].
  split; [exact (contents_ok es H0 v' _ I')|].
  intros A. apply StronglySorted_app_iff in A. destruct A as (_ & _ & H). 
  assert (Hx : In x (firstn (Datatypes.S i) l)).
  { apply nth_error_split in Ex. destruct Ex as (a & b & -> & <-). 
    replace (Datatypes.S (length a)) with (length (a ++ [x])) by (rewrite app_length; cbn; lia).
    replace (a ++ x :: b) with ((a ++ [x]) ++ b) by (rewrite <- app_assoc; reflexivity).
    rewrite firstn_pre. apply in_or_app. right. now left. }
  pose proof (H x x Hx ltac:(now left)) as D. rewrite (sw_irrefl _ W) in D. discriminate.
Qed.
Print Assumptions C199_store_refuted.
Example C199_example : exists v rs, run_ops (set_step env0 4 Nat.ltb Nat.eqb) vec_nil [SInsertAll [5; 1; 3]] = Ok (v, rs) /\
  contents v = Ok [1; 3; 5] /\ (v' <- poke v 0 9 ;; i <- s_find Nat.ltb Nat.eqb v' 3 ;; Ok (found v' i)) = Ok None /\
  (v' <- poke v 0 9 ;; i <- s_find Nat.ltb Nat.eqb v' 9 ;; Ok (found v' i)) = Ok None.
Proof. eexists _, _. split; [vm_compute; reflexivity|]. repeat (split; [vm_compute; reflexivity|]). vm_compute. reflexivity. Qed.
