(** * CtrProofs *)
From Verif Require Import Base Order UtilModel StoreModel StoreProofs RangeSpec RangeModel RangeProofs ArrayModel ArrayProofs
  SortProofs PermProofs PartialSortProofs VectorModel VectorSpec VectorProofs ListModel ListProofs
  PtrAlgoModel PtrAlgoSpec PtrAlgoProofs QsortModel QsortSpec QsortProofs CtrModel CtrSpec.
From Verif Require RefArgModel RefArgProofs FunObjModel FunObjSpec FunObjProofs.
From Coq Require Import ZArith ZifyBool ZifyNat.
Local Open Scope nat_scope.

(** ** Removing positions *)
Definition kept {T} (rs : list nat) (i : nat) (l : list T) : list T :=
  map snd (filter (fun iy => negb (existsb (Nat.eqb (fst iy)) rs)) (combine (seq i (length l)) l)).
Lemma kept_cons {T} rs i (x : T) l :
  kept rs i (x :: l) = if existsb (Nat.eqb i) rs then kept rs (S i) l else x :: kept rs (S i) l.
Proof. unfold kept. cbn [length seq combine filter fst]. destruct (existsb (Nat.eqb i) rs); reflexivity. Qed.
Lemma kept_ext {T} rs rs' : forall (l : list T) i, (forall k, i <= k -> existsb (Nat.eqb k) rs = existsb (Nat.eqb k) rs') ->
  kept rs i l = kept rs' i l.
Proof.
  induction l as [|x l IH]; intros i H; [reflexivity|]. rewrite !kept_cons, (H i) by lia.
  rewrite (IH (S i)) by (intros k Hk; apply H; lia). reflexivity.
Qed.
Lemma kept_length {T} rs : forall (l : list T) i, length (kept rs i l) <= length l.
Proof.
  induction l as [|x l IH]; intros i; [cbn; lia|]. rewrite kept_cons. specialize (IH (S i)).
  destruct (existsb _ _); cbn [length]; lia.
Qed.
Lemma skip_below_spec rs i : StronglySorted le rs ->
  StronglySorted le (skip_below rs i) /\ Forall (le i) (skip_below rs i) /\
  forall k, i <= k -> existsb (Nat.eqb k) (skip_below rs i) = existsb (Nat.eqb k) rs.
Proof.
  induction rs as [|r t IH]; intros S; cbn [skip_below].
  - split; [constructor|]. split; [constructor|]. reflexivity.
  - apply StronglySorted_inv in S as [S F]. destruct (Nat.ltb_spec r i) as [L|L].
    + destruct (IH S) as (A & B & C). split; [exact A|]. split; [exact B|].
      intros k Hk. rewrite C by exact Hk. cbn [existsb]. replace (k =? r) with false by lia. reflexivity.
    + split; [now constructor|]. split; [|reflexivity]. constructor; [lia|]. eapply Forall_impl; [|exact F]. cbv beta. intros; lia.
Qed.
Lemma remove_at_spec {T} : forall (l pre junk : list T) rs, StronglySorted le rs ->
  exists junk', remove_at_loop (length l) (pre ++ junk ++ l) (length pre + length junk) (length pre) rs
    = Ok (pre ++ kept rs (length pre + length junk) l ++ junk', length pre + length (kept rs (length pre + length junk) l)) /\
    length junk' + length (kept rs (length pre + length junk) l) = length junk + length l.
Proof.
  induction l as [|x l IH]; intros pre junk rs S; cbn [remove_at_loop length].
  - exists junk. unfold kept. cbn. rewrite app_nil_r, !Nat.add_0_r. split; reflexivity.
  - set (i := length pre + length junk). destruct (skip_below_spec rs i S) as (S1 & F1 & X1).
    assert (K : kept rs i (x :: l) = if existsb (Nat.eqb i) (skip_below rs i) then kept (skip_below rs i) (Datatypes.S i) l
                                     else x :: kept (skip_below rs i) (Datatypes.S i) l).
    { rewrite kept_cons, X1 by lia. rewrite (kept_ext (skip_below rs i) rs) by (intros k Hk; apply X1; lia). reflexivity. }
    rewrite K. set (rs1 := skip_below rs i) in *. clearbody rs1. clear K X1 S rs.
    assert (Hit : existsb (Nat.eqb i) rs1 = match rs1 with r :: _ => i =? r | [] => false end).
    { destruct rs1 as [|r t]; [reflexivity|]. cbn [existsb]. destruct (Nat.eqb_spec i r) as [|N]; [reflexivity|]. cbn [orb].
      apply Forall_inv in F1. apply StronglySorted_inv in S1 as [_ F]. clear -F F1 N.
      induction t as [|z t IHt]; [reflexivity|]. cbn [existsb]. inversion F; subst. replace (i =? z) with false by lia. now apply IHt. }
    rewrite Hit.
    assert (Keep : exists junk', 
      (y <- rd (pre ++ junk ++ x :: l) i ;; a <- wr (pre ++ junk ++ x :: l) (length pre) y ;;
       remove_at_loop (length l) a (Datatypes.S i) (Datatypes.S (length pre)) rs1)
      = Ok (pre ++ (x :: kept rs1 (Datatypes.S i) l) ++ junk', length pre + length (x :: kept rs1 (Datatypes.S i) l)) /\
      length junk' + length (x :: kept rs1 (Datatypes.S i) l) = length junk + Datatypes.S (length l)).
    { assert (R : rd (pre ++ junk ++ x :: l) i = Ok x) by (rewrite app_assoc; apply rd_app'; rewrite app_length; reflexivity).
      rewrite R. cbn [bind].
      destruct junk as [|g junk].
      - cbn [app]. rewrite wr_app. cbn [bind]. destruct (IH (pre ++ [x]) [] rs1 S1) as (j & E & L).
        cbn [app length] in *. rewrite app_length in *. cbn [length] in *. rewrite <- !app_assoc in E. cbn [app] in E.
        replace (length pre + 1 + 0) with (Datatypes.S i) in * by (unfold i; cbn; lia).
        replace (length pre + 1) with (Datatypes.S (length pre)) in * by lia. rewrite E.
        exists j. split; [f_equal; f_equal; lia|lia].
      - cbn [app]. rewrite wr_app. cbn [bind]. destruct (IH (pre ++ [x]) (junk ++ [x]) rs1 S1) as (j & E & L).
        rewrite !app_length in *. cbn [length] in *. rewrite <- !app_assoc in E. cbn [app] in E.
        replace (length pre + 1 + (length junk + 1)) with (Datatypes.S i) in * by (unfold i; cbn; lia).
        replace (length pre + 1) with (Datatypes.S (length pre)) in * by lia. rewrite E.
        exists j. split; [f_equal; f_equal; lia|lia]. }
    destruct rs1 as [|r t]; [exact Keep|]. destruct (Nat.eqb_spec i r) as [Ei|N]; [|exact Keep]. clear Keep.
    destruct (IH pre (junk ++ [x]) (r :: t) S1) as (j & E & L).
    rewrite app_length in *. cbn [length] in *. rewrite <- !app_assoc in E. cbn [app] in E.
    replace (length pre + (length junk + 1)) with (Datatypes.S i) in * by (unfold i; lia).
    exists j. split; [exact E|lia].
Qed.

Section Ctr.
  Context {T : Type}.
  Variable e : env.
  Variable es : Z.
  Variable dflt : T.
  Variable eqb lt : T -> T -> bool.
  Variable qs : (T -> T -> Z) -> list T -> list T.
  Hypothesis Hes : (0 < es)%Z.
  Hypothesis H4 : (es mod 4 = 0)%Z.
  Hypothesis Henv : good_env e.
  Hypothesis Hmem : enough_memory e.
  Hypothesis Heq : forall x y z, eqb y x = true -> eqb z y = eqb z x.
  Hypothesis Hlt : StrictWeak lt.
  Hypothesis Hqs : qsort_contract qs.
  Implicit Types (v : vec T) (l : list T).

  Lemma on_elements_ok v l alg l' : Vinv es v l -> alg l = Ok l' -> length l' = length l ->
    exists v', on_elements v alg = Ok v' /\ Vinv es v' l'.
  Proof.
    intros I E L. unfold on_elements.
    destruct (in_place_ok es Hes v l (fun l => l <- alg l ;; Ok (l, tt)) l' tt I) as (v1 & E1 & I1).
    - cbv beta. rewrite E. reflexivity.
    - exact L.
    - rewrite E1. cbn [bind]. eauto.
  Qed.
  Lemma Vinv_block v l : Vinv es v l -> block_at e es (malloc_at e (vcap v)) (length l).
  Proof.
    intros ((k & C) & S & L & B). destruct (Henv (vcap v) B) as (A & P & Q & R).
    assert (es * Z.of_nat (length l) <= vcap v)%Z.
    { rewrite C, app_length, map_length in L. assert (0 <= vcap v / es)%Z by (apply Z.div_pos; lia).
      pose proof (Z.mul_div_le (vcap v) es Hes). nia. }
    unfold block_at. split; [lia|]. split; [|lia]. revert A. generalize (malloc_at e (vcap v)). intros z A. Z.div_mod_to_equations; lia.
  Qed.

  Lemma c_step_ok v l o : Vinv es v l -> cpre es dflt l o ->
    exists v' l', c_step e es dflt eqb lt qs v o = Ok v' /\ Vinv es v' l' /\ cspec dflt eqb lt l o l'.
  Proof.
    intros I P. pose proof (Vinv_block v l I) as B. destruct o; cbn [c_step cspec cpre] in *.
    - destruct (vstep_ok e es dflt Hes Henv Hmem v l o I P (op_moves_4 es dflt Hes o l H4 P)) as (v' & E & I'). eauto.
    - destruct (remove_if_vec_ok e es dflt eqb lt Hes Henv v l (fun y => eqb y x) I) as (v' & E & I'). eauto.
    - destruct (remove_if_vec_ok e es dflt eqb lt Hes Henv v l p I) as (v' & E & I'). eauto.
    - unfold c_remove_at. destruct (remove_at_spec l [] [] rs P) as (junk & E & L). cbn [app length Nat.add] in E, L.
      destruct (in_place_ok es Hes v l (fun l => remove_at_loop (length l) l 0 0 rs) _ _ I E) as (v1 & E1 & I1).
      { rewrite app_length. lia. }
      rewrite E1. cbn [bind]. destruct (erase_tail_ok e es dflt eqb lt Hes Henv v1 l _ junk I1) as (v2 & E2 & I2).
      { rewrite app_length. lia. }
      eauto.
    - destruct (unique_vec_ok e es dflt eqb lt Hes Henv v l Heq I) as (v' & E & I'). eauto.
    - destruct (reverse_vec_ok es Hes v l I) as (v' & E & I'). eauto.
    - unfold c_rotate. pose proof I as (_ & Sz & _). rewrite Sz.
      replace (Z.abs off <? Z.of_nat (length l))%Z with true by lia.
      set (k := Z.to_nat (if (0 <? off)%Z then Z.of_nat (length l) - off else - off)%Z).
      assert (Hk : k <= length l) by (unfold k; destruct (Z.ltb_spec 0 off); lia).
      destruct (on_elements_ok v l (fun l0 => rotate_cells e es (malloc_at e (vcap v)) l0 0 k (length l0))
                  (skipn k l ++ firstn k l) I) as (v' & E & I').
      + pose proof (rotate_cells_ok4 e es (malloc_at e (vcap v)) [] (firstn k l) (skipn k l) []) as R.
        cbv zeta in R. cbn [app length Nat.add] in R. rewrite !app_nil_r, firstn_skipn, firstn_length, skipn_length in R.
        replace (Nat.min k (length l)) with k in R by lia. replace (k + (length l - k)) with (length l) in R by lia.
        destruct B as (B0 & B1 & B2 & B3). apply R; auto. apply (rot_mod4_good es 0 k (length l)); auto; lia.
      + rewrite app_length, firstn_length, skipn_length. lia.
      + exists v', (skipn k l ++ firstn k l). split; [exact E|]. split; [exact I'|].
        exists (firstn k l), (skipn k l). split; [now rewrite firstn_skipn|]. split; [reflexivity|].
        rewrite firstn_length, skipn_length. unfold k. destruct (Z.ltb_spec 0 off); lia.
    - unfold c_sort. destruct (sort_ok (fun _ : unit => lt) tt qs tt [] l [] Hqs Hlt) as (r & E & Q & Pm).
      cbn [app length Nat.add] in E. rewrite !app_nil_r in E.
      destruct (on_elements_ok v l (fun l => sort (fun _ : unit => lt) (Some tt) qs l 0 (length l) tt) r I E) as (v' & E' & I').
      { now apply Permutation_length. }
      eauto 6.
    - unfold c_stable_sort. destruct (stable_sort_spec lt Hlt [] l []) as (r & E & Q & Pm & St).
      cbn [app length Nat.add] in E. rewrite !app_nil_r in E.
      assert (E' : p_stable_sort e es (malloc_at e (vcap v)) lt l 0 (length l) = Ok r).
      { unfold p_stable_sort. rewrite p_stable_sort_loop_same; auto; try lia. }
      destruct (on_elements_ok v l (fun l => p_stable_sort e es (malloc_at e (vcap v)) lt l 0 (length l)) r I E') as (v' & E2 & I').
      { now apply Permutation_length. }
      exists v', r. auto.
    - unfold c_random_shuffle. destruct (random_shuffle_spec rnd [] l []) as (r & E & Pm).
      cbn [app length Nat.add] in E. rewrite !app_nil_r in E.
      destruct (on_elements_ok v l (fun l => random_shuffle rnd l 0 (length l)) r I E) as (v' & E2 & I').
      { now apply Permutation_length. }
      eauto.
    - unfold c_replace. destruct (on_elements_ok v l (fun l => Ok (replace eqb l o n)) _ I eq_refl) as (v' & E & I').
      { rewrite replace_map. apply map_length. }
      rewrite replace_map in I'. eauto.
    - unfold c_replace_if. destruct (on_elements_ok v l (fun l => Ok (replace_if p l n)) _ I eq_refl) as (v' & E & I').
      { rewrite replace_if_map. apply map_length. }
      rewrite replace_if_map in I'. eauto.
    - unfold c_transform. destruct (on_elements_ok v l (fun l => Ok (transform op l)) _ I eq_refl) as (v' & E & I').
      { rewrite transform_map. apply map_length. }
      rewrite transform_map in I'. eauto.
    - pose proof (RefArgProofs.fill_loop_ok (RefArgModel.Val x) x l [] [] eq_refl) as F. cbn [app length] in F. rewrite !app_nil_r in F.
      unfold c_fill. destruct (on_elements_ok v l (fun l => RefArgModel.fill_loop l (RefArgModel.Val x) (length l) 0) _ I F) as (v' & E & I'); [apply repeat_length|]. eauto.
    - pose proof (FunObjProofs.generate_ok (fun k (_ : unit) => (S k, Some (g k))) l [] [] 0) as F. cbn [app length] in F. rewrite !app_nil_r in F.
      assert (Q : forall (m : list T) k, FunObjSpec.run_calls (fun k (_ : unit) => (S k, Some (g k))) k (repeat tt (length m)) = (k + length m, map g (seq k (length m)), true)).
      { clear. induction m as [|x m IH]; intros k; cbn [length repeat FunObjSpec.run_calls seq map]; [now rewrite Nat.add_0_r|]. rewrite IH. now rewrite Nat.add_succ_comm. }
      rewrite Q in F. cbn iota beta in F.
      assert (O : FunObjSpec.over (map g (seq 0 (length l))) l = map g (seq 0 (length l))).
      { unfold FunObjSpec.over. rewrite map_length, seq_length, skipn_all. apply app_nil_r. }
      rewrite app_nil_r, O in F.
      unfold c_generate. destruct (on_elements_ok v l (fun l => ' (l, _, _) <- FunObjModel.fo_generate (fun k (_ : unit) => (S k, Some (g k))) (length l) l 0 0 ;; Ok l)
        (map g (seq 0 (length l))) I) as (v' & E & I'); [rewrite F; reflexivity|rewrite map_length; apply seq_length|]. eauto.
  Qed.
  Lemma c_run_ok ops : forall v l, Vinv es v l -> cpres es dflt eqb lt l ops ->
    exists v' l', c_run e es dflt eqb lt qs v ops = Ok v' /\ Vinv es v' l' /\ cspecs dflt eqb lt l ops l'.
  Proof.
    induction ops as [|o t IH]; intros v l I P; cbn [c_run].
    - exists v, l. split; [reflexivity|]. split; [exact I|constructor].
    - destruct P as [P1 P2]. destruct (c_step_ok v l o I P1) as (v1 & l1 & E & I1 & S1). rewrite E. cbn [bind].
      destruct (IH v1 l1 I1 (P2 l1 S1)) as (v2 & l2 & E2 & I2 & S2). exists v2, l2. split; [exact E2|]. split; [exact I2|].
      econstructor; eauto.
  Qed.
End Ctr.
