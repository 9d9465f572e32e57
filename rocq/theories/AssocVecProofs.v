(** * AssocVecProofs: proofs about AssocVecModel. *)
From Verif Require Import Base Order UtilModel StoreModel VectorModel VectorSpec StoreProofs VectorProofs VectorFacts
  ArrayModel AssocModel AssocSpec AssocProofs MapProofs AssocFamModel AssocFamSpec AssocFamProofs AssocVecModel AssocVecSpec.
From Coq Require Import ZArith ZifyBool ZifyNat.
Local Open Scope nat_scope.

Section P.
  Context {A K O R : Type}.
  Variable e : env.
  Variable es : Z.
  Variable dflt : A.
  Variable key : A -> K.
  Variable comp : K -> K -> bool.
  Variable step : vec A -> O -> outcome (vec A * R).
  Variable spec : list A -> O -> list A * R.
  Variable cost : O -> nat.
  Hypothesis Hes : (0 < es)%Z.
  Hypothesis Henv : good_env e.
  Hypothesis Hmem : enough_memory e.
  Hypothesis W : StrictWeak comp.
  Notation lt := (klt key comp).
  Notation Rel := (Rel es key comp).
  Hypothesis Hstep : forall v s o, Rel v s -> (es * Z.of_nat (length s + cost o) <= 2 ^ 31)%Z ->
     exists v', step v o = Ok (v', snd (spec s o)) /\ Rel v' (fst (spec s o)).

  Lemma forallb_perm (p : A -> bool) l s : Permutation l s -> forallb p l = forallb p s.
  Proof.
    intros H. apply eq_true_iff_eq. rewrite !forallb_forall. split; intros F x Hx; apply F.
    - eapply Permutation_in; [symmetry; exact H|exact Hx].
    - eapply Permutation_in; [exact H|exact Hx].
  Qed.
  Lemma last_greatest a x s : StrictlyAscending lt (a ++ [x]) -> Permutation (a ++ [x]) s ->
    greatest key comp s x = true /\ (forall y, In y a -> greatest key comp s y = false).
  Proof.
    intros S P. apply StronglySorted_app_iff in S. destruct S as (_ & _ & Hab). unfold greatest. split.
    - rewrite <- (forallb_perm _ _ _ P). apply forallb_forall. intros y Hy. apply negb_true_iff. apply in_app_or in Hy.
      destruct Hy as [Hy|[<-|[]]]; [|apply W]. apply sw_asym; [exact W|]. apply (Hab y x Hy). now left.
    - intros y Hy. rewrite <- (forallb_perm _ _ _ P). destruct (forallb _ _) eqn:E; [|reflexivity].
      rewrite forallb_forall in E. pose proof (E x ltac:(apply in_or_app; right; now left)) as E1.
      pose proof (Hab y x Hy ltac:(now left)) as E2. unfold klt in E2. rewrite E2 in E1. discriminate.
  Qed.
  Lemma first_least x b s : StrictlyAscending lt (x :: b) -> Permutation (x :: b) s ->
    least key comp s x = true /\ (forall y, In y b -> least key comp s y = false).
  Proof.
    intros S P. inversion S as [|? ? Sb F]; subst. rewrite Forall_forall in F. unfold least. split.
    - rewrite <- (forallb_perm _ _ _ P). apply forallb_forall. intros y [<-|Hy]; apply negb_true_iff; [apply W|].
      apply sw_asym; [exact W|]. apply (F y Hy).
    - intros y Hy. rewrite <- (forallb_perm _ _ _ P). destruct (forallb _ _) eqn:E; [|reflexivity].
      rewrite forallb_forall in E. pose proof (E x ltac:(now left)) as E1.
      pose proof (F y Hy) as E2. unfold klt in E2. rewrite E2 in E1. discriminate.
  Qed.
  Lemma find_only (p : A -> bool) l s x : Permutation l s -> In x l -> p x = true ->
    (forall y, In y l -> p y = true -> y = x) -> find p s = Some x.
  Proof.
    intros P Hx Px U. destruct (find p s) as [y|] eqn:E.
    - apply find_some in E. destruct E as (Hy & Py). f_equal. apply U; [|exact Py].
      eapply Permutation_in; [symmetry; exact P|exact Hy].
    - exfalso. pose proof (find_none _ _ E x ltac:(eapply Permutation_in; eauto)). congruence.
  Qed.
  Lemma rel_nonempty (s l : list A) : s <> [] -> Permutation l s -> l <> [].
  Proof. intros N P ->. apply Permutation_nil in P. auto. Qed.

  Lemma i_step_ok v s o : Rel v s -> i_pre es cost s o ->
    exists v', i_step e es step v o = Ok (v', snd (i_spec key comp spec s o)) /\ Rel v' (fst (i_spec key comp spec s o)).
  Proof.
    intros HR Hp. destruct o as [o| |n b| | | |]; cbn [i_step i_spec i_pre fst snd] in *.
    - destruct (Hstep v s o HR Hp) as (v' & E & HR'). rewrite E. cbn [bind]. eauto.
    - destruct HR as (l & I & S & P). assert (N : l <> []) by (eapply rel_nonempty; eauto).
      destruct (pop_back_ok es Hes v l I N) as (v' & E & I'). rewrite E. cbn [bind]. exists v'. split; [reflexivity|].
      destruct (exists_last N) as (a & x & ->). rewrite removelast_last in I'.
      destruct (last_greatest a x s S P) as (G1 & G2). exists a. split; [exact I'|]. split.
      + apply StronglySorted_app_iff in S. apply S.
      + assert (Q : filter (fun y => negb (greatest key comp s y)) (a ++ [x]) = a).
        { rewrite filter_app. cbn [filter]. rewrite G1. cbn [negb]. rewrite app_nil_r. apply filter_all.
          intros y Hy. rewrite (G2 y Hy). reflexivity. }
        rewrite <- Q at 1. apply filter_perm. exact P.
    - destruct HR as (l & I & S & P). unfold vreserve.
      destruct (reserve_ok e es Hes Hmem v l (bytes es n) b I) as (v' & mv & E & I' & _); [exact Hp|].
      rewrite E. cbn [bind]. exists v'. split; [reflexivity|]. exists l. auto.
    - destruct HR as (l & I & S & P). destruct (shrink_ok e es Hes Hmem v l I) as (v' & E & I'). rewrite E. cbn [bind].
      exists v'. split; [reflexivity|]. exists l. auto.
    - pose proof HR as (l & I & S & P). assert (N : l <> []) by (eapply rel_nonempty; eauto).
      destruct l as [|x b]; [congruence|]. rewrite (vat_ok es Hes v (x :: b) 0 x I eq_refl). cbn [bind].
      destruct (first_least x b s S P) as (G1 & G2).
      rewrite (find_only (least key comp s) (x :: b) s x P).
      + eauto.
      + now left.
      + exact G1.
      + intros y [<-|Hy] Q; [reflexivity|rewrite (G2 y Hy) in Q; discriminate].
    - pose proof HR as (l & I & S & P). assert (N : l <> []) by (eapply rel_nonempty; eauto).
      rewrite (Vinv_size es v l I). destruct (exists_last N) as (a & x & ->). rewrite app_length. cbn [length].
      replace (length a + 1 =? 0) with false by lia. replace (length a + 1 - 1) with (length a) by lia.
      rewrite (vat_mid es Hes v a x [] I). cbn [bind]. destruct (last_greatest a x s S P) as (G1 & G2).
      rewrite (find_only (greatest key comp s) (a ++ [x]) s x P).
      + eauto.
      + apply in_or_app. right. now left.
      + exact G1.
      + intros y Hy Q. apply in_app_or in Hy. destruct Hy as [Hy|[<-|[]]]; [|reflexivity]. rewrite (G2 y Hy) in Q. discriminate.
    - destruct HR as (l & I & S & P). destruct (deallocate_ok es Hes v l I) as (v' & E & I'). rewrite E. cbn [bind].
      exists v'. split; [reflexivity|]. exists []. split; [exact I'|]. split; constructor.
  Qed.
  Lemma i_run_ok ops : forall v s, Rel v s -> i_pres es key comp spec cost s ops ->
    exists v', run_ops (i_step e es step) v ops = Ok (v', snd (spec_run (i_spec key comp spec) s ops)) /\
      Rel v' (fst (spec_run (i_spec key comp spec) s ops)).
  Proof.
    induction ops as [|o t IH]; intros v s HR Hp; cbn [run_ops spec_run]; [eauto|]. destruct Hp as (P1 & P2).
    destruct (i_step_ok v s o HR P1) as (v' & E & R'). rewrite E. cbn [bind]. destruct (i_spec key comp spec s o) as [s' r].
    cbn [fst snd] in *. destruct (IH v' s' R' P2) as (v2 & E2 & R2). rewrite E2. cbn [bind].
    destruct (spec_run (i_spec key comp spec) s' t) as [s2 rs]. cbn [fst snd] in *. eauto.
  Qed.

End P.

Section Stores.
  Context {A : Type}.
  Variable e : env.
  Variable es : Z.
  Variable dflt : A.
  Hypothesis Hes : (0 < es)%Z.
  Hypothesis Hmem : enough_memory e.
  (** *** Stores and sized construction *)
  Lemma sized_ok n : (es * Z.of_nat n <= 2 ^ 31)%Z -> exists v, sized e es dflt n = Ok v /\ Vinv es v (repeat dflt n).
  Proof.
    intros H. unfold sized, resize. destruct (resize_with_ok e es Hes Hmem vec_nil [] n dflt (Vinv_nil es) H) as (v & E & I).
    exists v. split; [exact E|]. unfold seq_resize in I. rewrite firstn_nil in I. cbn [length app] in I.
    rewrite Nat.sub_0_r in I. exact I.
  Qed.
  Lemma poke_ok v (l : list A) i (x : A) : Vinv es v l -> i < length l -> exists v', poke v i x = Ok v' /\ Vinv es v' (firstn i l ++ x :: skipn (S i) l).
  Proof.
    intros I Hi. unfold poke. rewrite (Vinv_size es v l I). replace (length l <=? i) with false by lia.
    destruct I as ((k & E) & S & L & C).
    destruct (nth_error l i) as [y|] eqn:Ey; [|apply nth_error_None in Ey; lia].
    apply nth_error_split in Ey. destruct Ey as (a & b & -> & <-).
    rewrite firstn_pre. replace (skipn (Datatypes.S (length a)) (a ++ y :: b)) with b by (rewrite <- (skipn_pre (a ++ [y]) b) at 1; rewrite app_length, Nat.add_1_r, <- app_assoc; reflexivity).
    rewrite E, map_app, <- app_assoc. cbn [map app].
    pose proof (assign_cells_ok [x] (map Some a) [y] (map Some b ++ repeat None k) eq_refl) as Q. cbn [map app] in Q.
    rewrite map_length in Q. rewrite Q. cbn [bind]. eexists. split; [reflexivity|].
    split; [|split; [|split]]; cbn [vcells vsize vcap].
    - exists k. rewrite map_app, <- app_assoc. reflexivity.
    - rewrite !app_length. reflexivity.
    - rewrite <- L, E, map_app. rewrite <- app_assoc, !app_length. cbn [length map app]. rewrite !app_length. reflexivity.
    - exact C.
  Qed.
End Stores.

Section Data.
  Context {K V : Type}.
  Variable es : Z.
  Variable veqb : V -> V -> bool.
  Hypothesis Hes : (0 < es)%Z.
  Lemma fd_loop_ok v (l : list (K * V)) x n : Vinv es v l -> forall i, i + n <= length l ->
    exists j, fd_loop veqb v x i n = Ok j /\ i <= j <= i + n /\
      (forall k p, i <= k < j -> nth_error l k = Some p -> veqb (snd p) x = false) /\
      (j < i + n -> exists p, nth_error l j = Some p /\ veqb (snd p) x = true).
  Proof.
    intros I. induction n as [|n IH]; intros i Hn; cbn [fd_loop].
    - exists i. split; [reflexivity|]. split; [lia|]. split; [intros k p Hk; lia|lia].
    - destruct (nth_error l i) as [p|] eqn:Ep; [|apply nth_error_None in Ep; lia].
      rewrite (vat_ok es Hes v l i p I Ep). cbn [bind]. destruct (veqb (snd p) x) eqn:Q.
      + exists i. split; [reflexivity|]. split; [lia|]. split; [intros k q Hk; lia|eauto].
      + destruct (IH (S i) ltac:(lia)) as (j & E & B & F & G). exists j. split; [exact E|]. split; [lia|]. split.
        * intros k q Hk Eq. destruct (Nat.eq_dec k i) as [->|N]; [congruence|]. apply (F k q); [lia|exact Eq].
        * intros Hj. apply G. lia.
  Qed.
End Data.

(** *** A comparator coarser than == *)
Section Coarse.
  Context {T : Type}.
  Variable e : env.
  Variable es : Z.
  Variable comp eqb : T -> T -> bool.
  Lemma set_step_noeq v o : no_eq o = true -> set_step e es comp eqb v o = set_step e es comp (equiv comp) v o.
  Proof. destruct o; intros H; try discriminate; reflexivity. Qed.
  Lemma mset_step_noeq v o : (forall x, o <> SFind x) -> mset_step e es comp eqb v o = mset_step e es comp (equiv comp) v o.
  Proof. destruct o; intros H; try reflexivity. exfalso. eapply H. reflexivity. Qed.
  Lemma set_run_noeq ops : forallb no_eq ops = true -> forall v,
    run_ops (set_step e es comp eqb) v ops = run_ops (set_step e es comp (equiv comp)) v ops.
  Proof.
    induction ops as [|o t IH]; intros H v; [reflexivity|]. cbn [forallb] in H. apply andb_true_iff in H. destruct H as (H1 & H2).
    cbn [run_ops]. rewrite (set_step_noeq v o H1). destruct (set_step e es comp (equiv comp) v o) as [[v' r]| | |]; cbn [bind]; try reflexivity.
    rewrite (IH H2 v'). reflexivity.
  Qed.
  Lemma mset_run_noeq ops : forallb (fun o => match o with SFind _ => false | _ => true end) ops = true -> forall v,
    run_ops (mset_step e es comp eqb) v ops = run_ops (mset_step e es comp (equiv comp)) v ops.
  Proof.
    induction ops as [|o t IH]; intros H v; [reflexivity|]. cbn [forallb] in H. apply andb_true_iff in H. destruct H as (H1 & H2).
    cbn [run_ops]. rewrite mset_step_noeq by (intros x ->; discriminate).
    destruct (mset_step e es comp (equiv comp) v o) as [[v' r]| | |]; cbn [bind]; try reflexivity.
    rewrite (IH H2 v'). reflexivity.
  Qed.
  (** The element the set holds for x is not == x. *)
  Lemma coarse_miss (Hes : (0 < es)%Z) (W : StrictWeak comp) v l x y : Vinv es v l -> StrictlyAscending comp l ->
    In y l -> equiv comp y x = true -> eqb y x = false ->
    s_find comp eqb v x = Ok (vsize v) /\ set_erase e es comp eqb v x = Ok v /\ s_count comp v x = Ok 1 /\
    exists i, set_insert e es comp v x = Ok (v, i, false).
  Proof.
    intros I S Hy Q Nq. apply equiv_true in Q. destruct Q as (Q1 & Q2).
    pose proof (strict_asc (fun x : T => x) comp W l S) as A.
    destruct (split_exists (fun x : T => x) comp W l x A) as (lo & eq & hi & HS).
    destruct (strict_eq (fun x : T => x) comp W l x lo eq hi HS S) as [->|(z & -> & Z1 & Z2)].
    - exfalso. destruct HS as (E & H1 & H2 & H3). rewrite E in Hy. cbn [app] in Hy. apply in_app_or in Hy. destruct Hy as [Hy|Hy].
      + rewrite (H1 y Hy) in Q1. discriminate.
      + rewrite (H3 y Hy) in Q2. discriminate.
    - assert (y = z) as ->.
      { destruct HS as (E & H1 & H2 & H3). rewrite E in Hy. apply in_app_or in Hy. destruct Hy as [Hy|Hy].
        - rewrite (H1 y Hy) in Q1. discriminate.
        - cbn [app] in Hy. destruct Hy as [->|Hy]; [reflexivity|]. rewrite (H3 y Hy) in Q2. discriminate. }
      assert (Ef : s_find comp eqb v x = Ok (vsize v)).
      { unfold s_find. rewrite (s_lower_ok es comp Hes W v l I x lo [z] hi HS). cbn [bind].
        destruct (Nat.eqb_spec (length lo) (vsize v)); [reflexivity|].
        destruct HS as (E & _). pose proof I as I'. rewrite E in I'. cbn [app] in I'.
        rewrite (vat_mid es Hes v lo z hi I'). cbn [bind]. rewrite Nq. reflexivity. }
      split; [exact Ef|]. split.
      { unfold set_erase. rewrite Ef. cbn [bind]. rewrite Nat.eqb_refl. reflexivity. }
      split.
      { rewrite (s_count_ok es comp Hes W v l I x lo [z] hi HS). reflexivity. }
      exists (length lo). unfold set_insert. rewrite (s_lower_ok es comp Hes W v l I x lo [z] hi HS). cbn [bind].
      destruct HS as (E & _). pose proof I as I'. rewrite E in I'. cbn [app] in I'. rewrite (Vinv_size es v l I).
      assert (EL : length l = length lo + (1 + length hi)) by (rewrite E, !app_length; reflexivity).
      replace (length lo =? length l) with false by lia.
      rewrite (vat_mid es Hes v lo z hi I'). cbn [bind]. rewrite Q2. reflexivity.
  Qed.
End Coarse.
