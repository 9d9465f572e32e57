(** * IterProofs *)
From Verif Require Import Base UtilModel StoreModel VectorModel VectorSpec VectorProofs ListModel IterModel.
From Coq Require Import ZArith.
Local Open Scope Z_scope.

Section Iter.
  Context {A : Type}.
  Implicit Types a : list A.

  Lemma ptr_add_ok a i n : 0 <= i + n <= Z.of_nat (length a) -> ptr_add a i n = Ok (i + n).
  Proof.
    intros H. unfold ptr_add. destruct (Z.leb_spec 0 (i + n)); [|lia].
    destruct (Z.leb_spec (i + n) (Z.of_nat (length a))); [reflexivity|lia].
  Qed.
  Lemma ptr_add_out a i n : ~ (0 <= i + n <= Z.of_nat (length a)) -> ptr_add a i n = UB.
  Proof.
    intros H. unfold ptr_add. destruct (Z.leb_spec 0 (i + n)); [|reflexivity].
    destruct (Z.leb_spec (i + n) (Z.of_nat (length a))); [lia|reflexivity].
  Qed.
  Lemma rd_rev a i : (i < length a)%nat -> rd (rev a) i = rd a (length a - 1 - i).
  Proof.
    intros H. unfold rd. destruct (nth_error a (length a - 1 - i)) as [x|] eqn:E.
    - assert (nth_error (rev a) i = Some x) as ->; [|reflexivity].
      rewrite (nth_error_nth' (rev a) x) by (rewrite rev_length; lia).
      rewrite rev_nth by lia. replace (length a - S i)%nat with (length a - 1 - i)%nat by lia. f_equal. exact (nth_error_nth a _ x E).
    - apply nth_error_None in E. lia.
  Qed.
  Lemma r_read_ok a i : 0 < i <= Z.of_nat (length a) ->
    r_read a i = rd (rev a) (Z.to_nat (Z.of_nat (length a) - i)).
  Proof.
    intros H. unfold r_read. rewrite ptr_add_ok by lia. cbn [bind]. unfold ptr_read.
    destruct (Z.ltb_spec (i + -1) 0); [lia|]. rewrite rd_rev by lia. f_equal. lia.
  Qed.
  Lemma r_copy_ok a : forall fuel k, (k <= length a)%nat -> (k <= fuel)%nat ->
    r_copy fuel a (Z.of_nat k) 0 = Ok (rev (firstn k a)).
  Proof.
    intros fuel. induction fuel as [|f IH]; intros k Hk Hf.
    - assert (k = O) as -> by lia. reflexivity.
    - cbn [r_copy]. unfold r_eq. destruct (Z.eqb_spec (Z.of_nat k) 0).
      + assert (k = O) as -> by lia. reflexivity.
      + destruct k as [|k]; [lia|].
        unfold r_read, r_incr. rewrite ptr_add_ok by lia. cbn [bind].
        replace (Z.of_nat (S k) + -1) with (Z.of_nat k) by lia.
        unfold ptr_read. destruct (Z.ltb_spec (Z.of_nat k) 0); [lia|]. rewrite Nat2Z.id.
        unfold rd. destruct (nth_error a k) as [x|] eqn:E; [|apply nth_error_None in E; lia].
        cbn [bind]. rewrite IH by lia. cbn [bind].
        assert (firstn (S k) a = firstn k a ++ [x]) as ->.
        { clear -E. revert a E. induction k as [|k IH]; intros [|y t] E; cbn in *; try discriminate.
          - now injection E as ->.
          - f_equal. now apply IH. }
        now rewrite rev_app_distr.
  Qed.
  Lemma m_copy_ok a : forall fuel k, (k <= length a)%nat -> (length a - k <= fuel)%nat ->
    m_copy fuel a (Z.of_nat k) (Z.of_nat (length a)) = Ok (skipn k a).
  Proof.
    intros fuel. induction fuel as [|f IH]; intros k Hk Hf.
    - cbn [m_copy]. rewrite (proj2 (Z.eqb_eq _ _)) by lia. rewrite skipn_all2 by lia. reflexivity.
    - cbn [m_copy]. destruct (Z.eqb_spec (Z.of_nat k) (Z.of_nat (length a))).
      + rewrite skipn_all2 by lia. reflexivity.
      + unfold m_read, m_incr, ptr_read. destruct (Z.ltb_spec (Z.of_nat k) 0); [lia|]. rewrite Nat2Z.id.
        unfold rd. destruct (nth_error a k) as [x|] eqn:E; [|apply nth_error_None in E; lia].
        cbn [bind]. rewrite ptr_add_ok by lia. cbn [bind].
        replace (Z.of_nat k + 1) with (Z.of_nat (S k)) by lia. rewrite IH by lia. cbn [bind].
        f_equal. clear -E. revert a E. induction k as [|k IH]; intros [|y t] E; cbn in *; try discriminate.
        * now injection E as ->.
        * now apply IH.
  Qed.
  Lemma x_copy_n_ok a : forall (xs : list Z) base k, (k <= length xs)%nat ->
    Forall (fun x => 0 <= base + x <= Z.of_nat (length a)) xs ->
    x_copy_n a xs (length xs - k) base (Z.of_nat k) = Ok (map (Z.add base) (skipn k xs)).
  Proof.
    intros xs base k Hk HF. remember (length xs - k)%nat as n eqn:En. revert k Hk En.
    induction n as [|n IH]; intros k Hk En.
    - cbn [x_copy_n]. rewrite skipn_all2 by lia. reflexivity.
    - cbn [x_copy_n]. unfold x_read, x_incr, ptr_read. destruct (Z.ltb_spec (Z.of_nat k) 0); [lia|]. rewrite Nat2Z.id.
      unfold rd at 1. destruct (nth_error xs k) as [x|] eqn:E; [|apply nth_error_None in E; lia].
      cbn [bind]. rewrite (ptr_add_ok a base x).
      2:{ apply nth_error_In in E. rewrite Forall_forall in HF. now apply HF. }
      cbn [bind]. assert (ptr_add xs (Z.of_nat k) 1 = Ok (Z.of_nat (S k))) as ->.
      { unfold ptr_add. destruct (Z.leb_spec 0 (Z.of_nat k + 1)); [|lia].
        destruct (Z.leb_spec (Z.of_nat k + 1) (Z.of_nat (length xs))); [|lia]. cbn [andb]. f_equal. lia. }
      cbn [bind]. rewrite IH by lia. cbn [bind]. f_equal.
      clear -E. revert xs E. induction k as [|k IH]; intros [|y t] E; cbn [skipn nth_error map] in *; try discriminate.
      + now injection E as ->.
      + now apply IH.
  Qed.

  Lemma r_reverse_nothing a : a <> [] -> r_reverse a = Ok a.
  Proof.
    intros H. assert (1 <= length a)%nat as L by (destruct a; [congruence|cbn; lia]).
    unfold r_reverse, r_begin, r_end. destruct (length a) as [|n] eqn:E; [lia|].
    cbn [r_reverse_loop]. unfold r_decr. rewrite ptr_add_ok by lia. cbn [bind].
    unfold r_distance, r_diff, ptr_distance.
    destruct (Z.ltb_spec 0 (0 + 1 - Z.of_nat (S n))); [lia|reflexivity].
  Qed.
  Lemma r_lower_bound_UB lt a v : a <> [] -> Z.of_nat (length a) < 2 ^ 62 -> r_lower_bound lt a v = UB.
  Proof.
    intros H B. assert (1 <= length a)%nat as L by (destruct a; [congruence|cbn; lia]).
    unfold r_lower_bound, r_begin, r_end. rewrite Nat.add_1_r. cbn [r_lower_bound_loop]. unfold r_eq.
    destruct (Z.eqb_spec (Z.of_nat (length a)) 0); [lia|].
    unfold r_distance, r_diff, ptr_distance, u64, two64, r_plus.
    change (2 ^ 62) with 4611686018427387904 in B.
    assert ((0 - Z.of_nat (length a)) mod 18446744073709551616 = 18446744073709551616 - Z.of_nat (length a)) as ->.
    { symmetry. apply (Z.mod_unique _ _ (-1)); [left; lia|lia]. }
    rewrite ptr_add_out; [reflexivity|].
    assert (6917529027641081856 <= (18446744073709551616 - Z.of_nat (length a)) / 2).
    { apply Z.div_le_lower_bound; lia. }
    lia.
  Qed.
End Iter.

Section Insert.
  Context {T : Type}.
  Variable e : env.
  Variable es : Z.
  Hypothesis Hes : 0 < es.
  Hypothesis H4 : es mod 4 = 0.
  Hypothesis He : good_env e.
  Hypothesis Hm : enough_memory e.
  Local Open Scope nat_scope.
  Notation Vinv := (Vinv es).

  Lemma insert1_ok (v : vec T) l ip x : Vinv v l -> ip <= length l ->
    (es * Z.of_nat (length l + 1) <= 2 ^ 31)%Z ->
    exists v', insert1 e es v ip x = Ok v' /\ Vinv v' (seq_insert l ip [x]).
  Proof.
    intros I Hi Hb.
    assert (length (seq_insert l ip [x]) = length l + 1) as HL.
    { unfold seq_insert. rewrite !app_length, firstn_length, skipn_length. cbn [length]. lia. }
    apply (insert_list_ok e es Hes He Hm v l ip [x]); try assumption.
    - now rewrite HL.
    - assert (op_pre es x l (OpInsert ip x)) as P.
      { split; [cbn [seq_step]; now rewrite HL|assumption]. }
      exact (op_moves_4 es x Hes (OpInsert ip x) l H4 P).
  Qed.
  Lemma copy_back_inserter_ok l : forall (v : vec T) c, Vinv v c ->
    (es * Z.of_nat (length c + length l) <= 2 ^ 31)%Z ->
    exists v', copy_back_inserter e es v l = Ok v' /\ Vinv v' (c ++ l).
  Proof.
    induction l as [|x t IH]; intros v c I Hb; cbn [copy_back_inserter].
    - rewrite app_nil_r. now exists v.
    - cbn [length] in Hb.
      destruct (push_back_ok e es Hes Hm v c x I) as (v' & E & I'); [nia|].
      rewrite E. cbn [bind]. destruct (IH v' (c ++ [x]) I') as (v'' & E'' & I'').
      { rewrite app_length. cbn [length]. nia. }
      exists v''. split; [exact E''|]. rewrite <- app_assoc in I''. exact I''.
  Qed.
  Lemma copy_inserter_ok l : forall (v : vec T) c d, Vinv v (c ++ d) ->
    (es * Z.of_nat (length c + length d + length l) <= 2 ^ 31)%Z ->
    exists v', copy_inserter e es v (length c) l = Ok v' /\ Vinv v' (c ++ l ++ d).
  Proof.
    induction l as [|x t IH]; intros v c d I Hb; cbn [copy_inserter].
    - now exists v.
    - cbn [length] in Hb.
      destruct (insert1_ok v (c ++ d) (length c) x I) as (v' & E & I').
      { rewrite app_length. lia. }
      { rewrite app_length. nia. }
      rewrite E. cbn [bind]. unfold seq_insert in I'.
      rewrite firstn_app, Nat.sub_diag, firstn_all, app_nil_r in I'.
      rewrite skipn_app, Nat.sub_diag, skipn_all in I'. cbn [skipn firstn app] in I'.
      destruct (IH v' (c ++ [x]) d) as (v'' & E'' & I'').
      { rewrite <- app_assoc. exact I'. }
      { rewrite app_length. cbn [length]. nia. }
      rewrite app_length in E''. cbn [length] in E''. rewrite Nat.add_1_r in E''.
      exists v''. split; [exact E''|]. rewrite <- app_assoc in I''. exact I''.
  Qed.
  Lemma copy_front_inserter_ok l : forall (v : vec T) c, Vinv v c ->
    (es * Z.of_nat (length c + length l) <= 2 ^ 31)%Z ->
    exists v', copy_front_inserter e es v l = Ok v' /\ Vinv v' (rev l ++ c).
  Proof.
    induction l as [|x t IH]; intros v c I Hb; cbn [copy_front_inserter].
    - now exists v.
    - cbn [length] in Hb. unfold l_push_front.
      destruct (insert1_ok v c 0 x I) as (v' & E & I'); [lia|nia|].
      rewrite E. cbn [bind]. unfold seq_insert in I'. cbn [firstn skipn app] in I'.
      destruct (IH v' (x :: c) I') as (v'' & E'' & I'').
      { cbn [length]. nia. }
      exists v''. split; [exact E''|]. cbn [rev]. rewrite <- app_assoc. exact I''.
  Qed.
End Insert.
