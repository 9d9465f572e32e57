From Coq Require Import ZArith.
From Verif Require Import Base RawModel RawSpec.
Local Open Scope nat_scope.

Section P.
  Context {T : Type}.
  Implicit Types (cells : list (option T)) (s : @rst T).

  (** ** Cells *)
  Lemma upd_nth (a : list (option T)) i v a' : upd a i v = Some a' ->
    length a' = length a /\ nth_error a' i = Some v /\ forall j, j <> i -> nth_error a' j = nth_error a j.
  Proof.
    revert i a'. induction a as [|h t IH]; intros [|i] a' H; cbn in H; try discriminate.
    - inversion H. split; [reflexivity|]. split; [reflexivity|]. intros [|j] Hj; [congruence|reflexivity].
    - destruct (upd t i v) as [t'|] eqn:E; [|discriminate]. inversion H; subst.
      destruct (IH _ _ E) as (L & N & O). split; [cbn; now rewrite L|]. split; [exact N|].
      intros [|j] Hj; [reflexivity|]. cbn. apply O. congruence.
  Qed.
  Lemma cell_wr_ok s i c d : i < length (r_cells s) ->
    exists cells, cell_wr s (Z.of_nat i) c d = Ok (R cells (r_ans s) (r_live s + d)) /\
      length cells = length (r_cells s) /\ nth_error cells i = Some c /\
      forall j, j <> i -> nth_error cells j = nth_error (r_cells s) j.
  Proof.
    intros H. unfold cell_wr. destruct (Z.of_nat i <? 0)%Z eqn:E; [apply Z.ltb_lt in E; lia|].
    rewrite Nat2Z.id. unfold wr. destruct (upd_lt (r_cells s) i c H) as [a' Ha]. rewrite Ha. cbn [bind].
    exists a'. split; [reflexivity|]. now apply upd_nth.
  Qed.
  Lemma obj_rd_ok s i x : nth_error (r_cells s) i = Some (Some x) -> obj_rd s (Z.of_nat i) = Ok x.
  Proof.
    intros H. unfold obj_rd, cell_rd. destruct (Z.of_nat i <? 0)%Z eqn:E; [apply Z.ltb_lt in E; lia|].
    rewrite Nat2Z.id. unfold rd. rewrite H. reflexivity.
  Qed.
  Lemma nth_lt (cells : list (option T)) i c : nth_error cells i = Some c -> i < length cells.
  Proof. intros H. apply nth_error_Some. congruence. Qed.
  Lemma only_refl cells i : only_at cells cells i 0.
  Proof. split; [reflexivity|]. reflexivity. Qed.

  (** The state after [k] objects were constructed. *)
  Definition ans_after (ans : list bool) (n : nat) : list bool :=
    skipn (if returning ans n =? n then n else S (returning ans n)) ans.

  Lemma ask_cases s :
    (r_ans s = [] /\ ask s = (true, s)) \/
    (exists t, r_ans s = true :: t /\ ask s = (true, R (r_cells s) t (r_live s))) \/
    (exists t, r_ans s = false :: t /\ ask s = (false, R (r_cells s) t (r_live s))).
  Proof.
    unfold ask. destruct (r_ans s) as [|[|] t]; [left; auto|right; left; eauto|right; right; eauto].
  Qed.
  Lemma returning_nil n : returning [] n = n.
  Proof. now destruct n. Qed.
  Lemma returning_le ans n : returning ans n <= n.
  Proof. revert ans. induction n as [|n IH]; intros [|[|] t]; cbn; try lia. specialize (IH t). lia. Qed.

  (** One constructor call and what is left to do. *)
  Lemma ask_step s n :
    (fst (ask s) = true /\ r_cells (snd (ask s)) = r_cells s /\ r_live (snd (ask s)) = r_live s /\
     returning (r_ans s) (S n) = S (returning (r_ans (snd (ask s))) n) /\
     ans_after (r_ans s) (S n) = ans_after (r_ans (snd (ask s))) n) \/
    (fst (ask s) = false /\ r_cells (snd (ask s)) = r_cells s /\ r_live (snd (ask s)) = r_live s /\
     returning (r_ans s) (S n) = 0 /\ ans_after (r_ans s) (S n) = r_ans (snd (ask s))).
  Proof.
    destruct (ask_cases s) as [(E & ->)|[(t & E & ->)|(t & E & ->)]]; cbn [fst snd r_cells r_live r_ans]; rewrite E.
    - left. split; [reflexivity|]. split; [reflexivity|]. split; [reflexivity|].
      split; [now rewrite !returning_nil|]. unfold ans_after. rewrite !returning_nil, !Nat.eqb_refl. now rewrite !skipn_nil.
    - left. split; [reflexivity|]. split; [reflexivity|]. split; [reflexivity|]. split; [reflexivity|].
      unfold ans_after. cbn [returning]. change (S (returning t n) =? S n) with (returning t n =? n).
      destruct (returning t n =? n); reflexivity.
    - right. split; [reflexivity|]. split; [reflexivity|]. split; [reflexivity|]. split; reflexivity.
  Qed.

  Lemma construct_at_ok s i (x : T) : nth_error (r_cells s) i = Some None ->
    if fst (ask s) then
      exists cells, construct_at s (Z.of_nat i) x = Ok (R cells (r_ans (snd (ask s))) (r_live (snd (ask s)) + 1), true) /\
        length cells = length (r_cells s) /\ nth_error cells i = Some (Some x) /\
        forall j, j <> i -> nth_error cells j = nth_error (r_cells s) j
    else construct_at s (Z.of_nat i) x = Ok (snd (ask s), false).
  Proof.
    intros H. unfold construct_at. destruct (ask s) as [b s1] eqn:E. cbn [fst snd].
    assert (C : r_cells s1 = r_cells s).
    { destruct (ask_step s 0) as [(_ & C & _)|(_ & C & _)]; rewrite E in C; exact C. }
    destruct b; [|reflexivity].
    destruct (cell_wr_ok s1 i (Some x) 1) as (cells & W & L & N & O); [rewrite C; eauto using nth_lt|].
    rewrite W. exists cells. cbn [bind]. rewrite C in L, O. auto.
  Qed.

  (** The result of building the values [vals] from cell [i] on. *)
  Definition built s (i : nat) (vals : list T) (s' : @rst T) : Prop :=
    let n := length vals in let k := returning (r_ans s) n in
    r_ans s' = ans_after (r_ans s) n /\ (r_live s' = r_live s + Z.of_nat k)%Z /\
    objects_at (r_cells s') i (firstn k vals) /\ raw_at (r_cells s') (i + k) (n - k) /\ only_at (r_cells s) (r_cells s') i n.
  Definition all_built s (vals : list T) : bool := returning (r_ans s) (length vals) =? length vals.

  Lemma built_nil s i : built s i [] s.
  Proof.
    unfold built. cbn [length]. cbv zeta. unfold ans_after.
    replace (returning (r_ans s) 0) with 0 by (now destruct (r_ans s)). cbn [Nat.eqb skipn].
    split; [reflexivity|]. split; [lia|]. split; [intros [|j] x H; discriminate|].
    split; [intros j Hj; lia|apply only_refl].
  Qed.
  Lemma built_fail s i x vals : fst (ask s) = false -> raw_at (r_cells s) i (S (length vals)) ->
    built s i (x :: vals) (snd (ask s)) /\ all_built s (x :: vals) = false.
  Proof.
    intros F H. destruct (ask_step s (length vals)) as [(Q & _)|(_ & C & L & K & A)]; [congruence|].
    unfold built, all_built. cbn [length]. rewrite K, A, C, L. cbn [firstn Nat.eqb]. rewrite Nat.add_0_r, Nat.sub_0_r.
    split; [|reflexivity]. split; [reflexivity|]. split; [lia|]. split; [intros [|j] y Hy; discriminate|].
    split; [exact H|]. split; [reflexivity|]. reflexivity.
  Qed.
  Lemma built_cons s i x vals cells s1 s' : fst (ask s) = true ->
    s1 = R cells (r_ans (snd (ask s))) (r_live (snd (ask s)) + 1)%Z ->
    length cells = length (r_cells s) -> nth_error cells i = Some (Some x) ->
    (forall j, j <> i -> nth_error cells j = nth_error (r_cells s) j) ->
    built s1 (S i) vals s' -> built s i (x :: vals) s' /\ all_built s (x :: vals) = all_built s1 vals.
  Proof.
    intros F -> Ln Nx Ot (A' & L' & Ob & Rw & (Len & On)).
    destruct (ask_step s (length vals)) as [(_ & C & L & K & A)|(Q & _)]; [|congruence].
    unfold built, all_built. cbn [length r_ans r_live r_cells] in *. rewrite K, A.
    split; [|reflexivity].
    split; [exact A'|]. split; [rewrite L', L; lia|].
    split.
    { intros [|j] y Hy; cbn [firstn nth_error] in Hy.
      - inversion Hy; subst. rewrite Nat.add_0_r, On by lia. exact Nx.
      - replace (i + S j) with (S i + j) by lia. now apply Ob. }
    split; [intros j Hj; replace (i + S (returning (r_ans (snd (ask s))) (length vals)) + j) with
              (S i + returning (r_ans (snd (ask s))) (length vals) + j) by lia; apply Rw; lia|].
    split; [congruence|]. intros j Hj. rewrite On by lia. apply Ot. lia.
  Qed.
  Lemma raw_tail cells cells' i n : raw_at cells i (S n) -> (forall j, j <> i -> nth_error cells' j = nth_error cells j) ->
    raw_at cells' (S i) n.
  Proof.
    intros H O j Hj. rewrite O by lia. replace (S i + j) with (i + S j) by lia. apply H. lia.
  Qed.
  Lemma raw_head cells i n : raw_at cells i (S n) -> nth_error cells i = Some None.
  Proof. intros H. specialize (H 0). rewrite Nat.add_0_r in H. apply H. lia. Qed.
  Lemma objects_tail cells i (x : T) l : objects_at cells i (x :: l) -> objects_at cells (S i) l.
  Proof. intros H j y Hy. replace (S i + j) with (i + S j) by lia. now apply H. Qed.
  Lemma objects_head cells i (x : T) l : objects_at cells i (x :: l) -> nth_error cells i = Some (Some x).
  Proof. intros H. specialize (H 0 x eq_refl). now rewrite Nat.add_0_r in H. Qed.
  Lemma objects_keep cells cells' i (l : list T) r : objects_at cells i l -> nth_error cells r = Some None ->
    (forall j, j <> r -> nth_error cells' j = nth_error cells j) -> objects_at cells' i l.
  Proof.
    intros H R O j x Hx. specialize (H j x Hx). rewrite O; [exact H|]. intros Q. rewrite Q, R in H. discriminate.
  Qed.

  (** ** Copies *)
  Lemma copy_ok l : forall fuel s first result, length l < fuel ->
    objects_at (r_cells s) first l -> raw_at (r_cells s) result (length l) ->
    exists s', uninitialized_copy fuel s (Z.of_nat first) (Z.of_nat (first + length l)) (Z.of_nat result) =
        Ok (s', if all_built s l then Some (Z.of_nat (result + length l)) else None) /\
      built s result l s'.
  Proof.
    induction l as [|x t IH]; intros fuel s first result Hf Ho Hr; (destruct fuel as [|fuel]; [lia|]); cbn [uninitialized_copy].
    - cbn [length]. rewrite !Nat.add_0_r, Z.ltb_irrefl. exists s. split; [|apply built_nil].
      unfold all_built. cbn [length]. now destruct (r_ans s).
    - cbn [length] in *. destruct (Z.of_nat first <? Z.of_nat (first + S (length t)))%Z eqn:E; [|apply Z.ltb_ge in E; lia].
      rewrite (obj_rd_ok s first x) by (eapply objects_head; eassumption). rewrite bind_Ok.
      pose proof (raw_head _ _ _ Hr) as Hh.
      pose proof (construct_at_ok s result x Hh) as Hc. destruct (fst (ask s)) eqn:Fa.
      + destruct Hc as (cells & Ec & Ln & Nx & Ot). rewrite Ec, bind_Ok.
        set (s1 := R cells (r_ans (snd (ask s))) (r_live (snd (ask s)) + 1)) in *.
        destruct (IH fuel s1 (S first) (S result)) as (s' & E' & B'); [lia| | |].
        { apply objects_tail with (x := x). eapply objects_keep; eassumption. }
        { eapply raw_tail; [exact Hr|exact Ot]. }
        destruct (built_cons s result x t cells s1 s' Fa eq_refl Ln Nx Ot B') as (B & Al).
        exists s'. split; [|exact B]. rewrite Al.
        replace (Z.of_nat first + 1)%Z with (Z.of_nat (S first)) by lia.
        replace (Z.of_nat (first + S (length t))) with (Z.of_nat (S first + length t)) by lia.
        replace (Z.of_nat result + 1)%Z with (Z.of_nat (S result)) by lia.
        rewrite E'. replace (S result + length t) with (result + S (length t)) by lia. reflexivity.
      + rewrite Hc, bind_Ok. destruct (built_fail s result x t Fa Hr) as (B & Al). exists (snd (ask s)).
        split; [|exact B]. now rewrite Al.
  Qed.

  Lemma wrap_id z : (0 <= z < 2 ^ 64)%Z -> (z mod 2 ^ 64 = z)%Z.
  Proof. apply Z.mod_small. Qed.

  Lemma copy_n_eq fuel : forall s first n result, (0 <= n < 2 ^ 64 - 1)%Z ->
    copy_n_loop fuel s first (n + 1) result = uninitialized_copy fuel s first (first + n) result.
  Proof.
    induction fuel as [|fuel IH]; intros s first n result Hn; cbn [copy_n_loop uninitialized_copy]; [reflexivity|].
    rewrite Z.add_simpl_r, wrap_id by lia. destruct (n =? 0)%Z eqn:E.
    - apply Z.eqb_eq in E. subst. rewrite Z.add_0_r, Z.ltb_irrefl. reflexivity.
    - apply Z.eqb_neq in E. destruct (first <? first + n)%Z eqn:F; [|apply Z.ltb_ge in F; lia].
      destruct (obj_rd s first) as [x| | |]; [|reflexivity..]. rewrite !bind_Ok.
      destruct (construct_at s result x) as [[s1 [|]]| | |]; [|reflexivity..]. rewrite !bind_Ok.
      replace n with ((n - 1) + 1)%Z at 1 by lia. rewrite IH by lia. f_equal. lia.
  Qed.

  (** ** Moves *)
  Section Move.
  Variable mv : T -> T * T.
  Definition moved s (first result : nat) (l : list T) (s' : @rst T) : Prop :=
    let n := length l in let k := returning (r_ans s) n in
    r_ans s' = ans_after (r_ans s) n /\ (r_live s' = r_live s + Z.of_nat k)%Z /\
    objects_at (r_cells s') result (map (fun x => fst (mv x)) (firstn k l)) /\ raw_at (r_cells s') (result + k) (n - k) /\
    objects_at (r_cells s') first (map (fun x => snd (mv x)) (firstn k l) ++ skipn k l) /\
    length (r_cells s') = length (r_cells s) /\
    forall j, j < result \/ result + n <= j -> j < first \/ first + n <= j -> nth_error (r_cells s') j = nth_error (r_cells s) j.

  Lemma move_ok l : forall fuel s first result, length l < fuel ->
    objects_at (r_cells s) first l -> raw_at (r_cells s) result (length l) ->
    exists s', uninitialized_move mv fuel s (Z.of_nat first) (Z.of_nat (first + length l)) (Z.of_nat result) =
        Ok (s', if all_built s l then Some (Z.of_nat (result + length l)) else None) /\
      moved s first result l s'.
  Proof.
    induction l as [|x t IH]; intros fuel s first result Hf Ho Hr; (destruct fuel as [|fuel]; [lia|]); cbn [uninitialized_move].
    - cbn [length]. rewrite !Nat.add_0_r, Z.ltb_irrefl. exists s. split.
      { unfold all_built. cbn [length]. now destruct (r_ans s). }
      unfold moved. cbn [length]. cbv zeta. unfold ans_after.
      replace (returning (r_ans s) 0) with 0 by (now destruct (r_ans s)). cbn [Nat.eqb skipn firstn map app].
      split; [reflexivity|]. split; [lia|]. split; [intros [|j] y H; discriminate|].
      split; [intros j Hj; lia|]. split; [intros [|j] y H; discriminate|]. split; reflexivity.
    - cbn [length] in *. destruct (Z.of_nat first <? Z.of_nat (first + S (length t)))%Z eqn:E; [|apply Z.ltb_ge in E; lia].
      unfold construct_from. pose proof (objects_head _ _ _ _ Ho) as Hx. pose proof (raw_head _ _ _ Hr) as Hh.
      rewrite (obj_rd_ok s first x Hx), bind_Ok.
      destruct (ask s) as [b s0] eqn:Ea.
      pose proof (ask_step s (length t)) as As. rewrite Ea in As. cbn [fst snd] in As.
      assert (C0 : r_cells s0 = r_cells s) by (destruct As as [(_ & C & _)|(_ & C & _)]; exact C).
      destruct b.
      + destruct As as [(_ & _ & L0 & K & A)|(Q & _)]; [|discriminate].
        destruct (cell_wr_ok s0 first (Some (snd (mv x))) 0) as (c1 & W1 & Ln1 & N1 & O1); [rewrite C0; eauto using nth_lt|].
        rewrite W1, bind_Ok.
        assert (Hne : result <> first) by (intros ->; congruence).
        destruct (cell_wr_ok (R c1 (r_ans s0) (r_live s0 + 0)) result (Some (fst (mv x))) 1) as (c2 & W2 & Ln2 & N2 & O2).
        { cbn [r_cells]. rewrite Ln1, C0. eauto using nth_lt. }
        cbn [r_cells r_ans r_live] in *. rewrite W2, !bind_Ok.
        set (s1 := R c2 (r_ans s0) (r_live s0 + 0 + 1)) in *.
        assert (Ot : forall j, j <> result -> j <> first -> nth_error c2 j = nth_error (r_cells s) j).
        { intros j J1 J2. rewrite O2, O1, C0 by assumption. reflexivity. }
        destruct (IH fuel s1 (S first) (S result)) as (s' & E' & A' & L' & Ob & Rw & Src & Len & On); [lia| | |].
        { intros j y Hy. cbn [s1 r_cells]. specialize (Ho (S j) y Hy). replace (S first + j) with (first + S j) by lia.
          rewrite Ot; [exact Ho| |lia]. intros Q. rewrite Q, Hh in Ho. discriminate. }
        { intros j Hj. cbn [s1 r_cells]. specialize (Hr (S j) ltac:(lia)). replace (S result + j) with (result + S j) by lia.
          rewrite Ot; [exact Hr|lia|]. intros Q. rewrite Q, Hx in Hr. discriminate. }
        exists s'. split.
        { replace (Z.of_nat first + 1)%Z with (Z.of_nat (S first)) by lia.
          replace (Z.of_nat (first + S (length t))) with (Z.of_nat (S first + length t)) by lia.
          replace (Z.of_nat result + 1)%Z with (Z.of_nat (S result)) by lia.
          rewrite E'. unfold all_built. cbn [length s1 r_ans]. rewrite K.
          replace (S result + length t) with (result + S (length t)) by lia. reflexivity. }
        unfold moved. cbn [length s1 r_ans r_live r_cells] in *. rewrite K, A.
        (* the cells just written are kept *)
        assert (Kr : nth_error (r_cells s') result = Some (Some (fst (mv x)))).
        { destruct (le_lt_dec (S first) result) as [Le|Gt]; [destruct (le_lt_dec (S first + length t) result) as [Le2|Gt2]|].
          - rewrite On by lia. exact N2.
          - exfalso. destruct (nth_error t (result - S first)) as [y|] eqn:Ey; [|apply nth_error_None in Ey; lia].
            specialize (Ho (S (result - S first)) y Ey). replace (first + S (result - S first)) with result in Ho by lia. congruence.
          - rewrite On by lia. exact N2. }
        assert (Kf : nth_error (r_cells s') first = Some (Some (snd (mv x)))).
        { assert (Q : nth_error c2 first = Some (Some (snd (mv x)))) by (rewrite O2 by congruence; exact N1).
          destruct (le_lt_dec (S result) first) as [Le|Gt]; [destruct (le_lt_dec (S result + length t) first) as [Le2|Gt2]|].
          - rewrite On by lia. exact Q.
          - exfalso. specialize (Hr (S (first - S result)) ltac:(lia)). replace (result + S (first - S result)) with first in Hr by lia. congruence.
          - rewrite On by lia. exact Q. }
        split; [exact A'|]. split; [rewrite L', L0; lia|].
        split; [intros [|j] y Hy; cbn [firstn map nth_error] in Hy|].
        { inversion Hy. now rewrite Nat.add_0_r. }
        { replace (result + S j) with (S result + j) by lia. now apply Ob. }
        split; [intros j Hj; replace (result + S (returning (r_ans s0) (length t)) + j) with (S result + returning (r_ans s0) (length t) + j) by lia; apply Rw; lia|].
        split; [intros [|j] y Hy; cbn [firstn map skipn app nth_error] in Hy|].
        { inversion Hy. now rewrite Nat.add_0_r. }
        { replace (first + S j) with (S first + j) by lia. now apply Src. }
        split; [congruence|]. intros j J1 J2. rewrite On by lia. apply Ot; lia.
      + destruct As as [(Q & _)|(_ & _ & L0 & K & A)]; [discriminate|]. rewrite bind_Ok. exists s0.
        unfold all_built, moved. cbn [length]. rewrite K, A, C0, L0. cbn [firstn skipn map app Nat.eqb].
        rewrite Nat.add_0_r, Nat.sub_0_r. split; [reflexivity|]. split; [reflexivity|]. split; [lia|].
        split; [intros [|j] y Hy; discriminate|]. split; [exact Hr|]. split; [exact Ho|]. split; reflexivity.
  Qed.
  Lemma move_n_eq fuel : forall s first n result, (0 <= n < 2 ^ 64 - 1)%Z ->
    move_n_loop mv fuel s first (n + 1) result = uninitialized_move mv fuel s first (first + n) result.
  Proof.
    induction fuel as [|fuel IH]; intros s first n result Hn; cbn [move_n_loop uninitialized_move]; [reflexivity|].
    rewrite Z.add_simpl_r, wrap_id by lia. destruct (n =? 0)%Z eqn:E.
    - apply Z.eqb_eq in E. subst. rewrite Z.add_0_r, Z.ltb_irrefl. reflexivity.
    - apply Z.eqb_neq in E. destruct (first <? first + n)%Z eqn:F; [|apply Z.ltb_ge in F; lia].
      destruct (construct_from mv s result first) as [[s1 [|]]| | |]; [|reflexivity..]. rewrite !bind_Ok.
      replace n with ((n - 1) + 1)%Z at 1 by lia. rewrite IH by lia. f_equal. lia.
  Qed.
  End Move.

  (** ** Fills *)
  Lemma fill_ok v n : forall fuel s first, n < fuel -> raw_at (r_cells s) first n ->
    exists s', uninitialized_fill fuel s (Z.of_nat first) (Z.of_nat (first + n)) v = Ok (s', all_built s (repeat v n)) /\
      built s first (repeat v n) s'.
  Proof.
    induction n as [|n IH]; intros fuel s first Hf Hr; (destruct fuel as [|fuel]; [lia|]); cbn [uninitialized_fill repeat].
    - rewrite !Nat.add_0_r, Z.ltb_irrefl. exists s. split; [|apply built_nil].
      unfold all_built. cbn [length]. now destruct (r_ans s).
    - destruct (Z.of_nat first <? Z.of_nat (first + S n))%Z eqn:E; [|apply Z.ltb_ge in E; lia].
      pose proof (raw_head _ _ _ Hr) as Hh.
      pose proof (construct_at_ok s first v Hh) as Hc. destruct (fst (ask s)) eqn:Fa.
      + destruct Hc as (cells & Ec & Ln & Nx & Ot). rewrite Ec, bind_Ok.
        set (s1 := R cells (r_ans (snd (ask s))) (r_live (snd (ask s)) + 1)) in *.
        destruct (IH fuel s1 (S first)) as (s' & E' & B'); [lia| |].
        { eapply raw_tail; [exact Hr|exact Ot]. }
        destruct (built_cons s first v (repeat v n) cells s1 s' Fa eq_refl Ln Nx Ot B') as (B & Al).
        exists s'. split; [|exact B]. rewrite Al.
        replace (Z.of_nat first + 1)%Z with (Z.of_nat (S first)) by lia.
        replace (Z.of_nat (first + S n)) with (Z.of_nat (S first + n)) by lia. exact E'.
      + rewrite Hc, bind_Ok. destruct (built_fail s first v (repeat v n) Fa) as (B & Al); [now rewrite repeat_length|].
        exists (snd (ask s)). split; [|exact B]. now rewrite Al.
  Qed.
  Lemma fill_n_eq fuel v : forall s first n, (0 <= n < 2 ^ 64 - 1)%Z ->
    fill_n_loop fuel s first (n + 1) v =
    (' (s', ok) <- uninitialized_fill fuel s first (first + n) v ;; Ok (s', if ok : bool then Some (first + n)%Z else None)).
  Proof.
    induction fuel as [|fuel IH]; intros s first n Hn; cbn [fill_n_loop uninitialized_fill]; [reflexivity|].
    rewrite Z.add_simpl_r, wrap_id by lia. destruct (n =? 0)%Z eqn:E.
    - apply Z.eqb_eq in E. subst. rewrite Z.add_0_r, Z.ltb_irrefl. reflexivity.
    - apply Z.eqb_neq in E. destruct (first <? first + n)%Z eqn:F; [|apply Z.ltb_ge in F; lia].
      destruct (construct_at s first v) as [[s1 [|]]| | |]; [|reflexivity..]. rewrite !bind_Ok.
      replace n with ((n - 1) + 1)%Z at 1 by lia. rewrite IH by lia.
      replace (first + 1 + (n - 1))%Z with (first + n)%Z by lia. reflexivity.
  Qed.

  (** ** Loops by address *)
  Section Addr.
  Variable base es : Z.
  Hypothesis Hes : (0 < es)%Z.

  Lemma addr_id i : (- 2 ^ 63 <= base + i * es < 2 ^ 63)%Z -> addr base es i = (base + i * es)%Z.
  Proof.
    intros H. unfold addr, s64. set (x := (base + i * es)%Z) in *. clearbody x. cbv zeta.
    destruct (Z_lt_le_dec x 0) as [N|P].
    - replace (x mod 2 ^ 64)%Z with (x + 2 ^ 64)%Z.
      + destruct (x + 2 ^ 64 <? 2 ^ 63)%Z eqn:E; [apply Z.ltb_lt in E; lia|lia].
      + apply (Z.mod_unique x (2 ^ 64) (-1)); lia.
    - rewrite Z.mod_small by lia. destruct (x <? 2 ^ 63)%Z eqn:E; [reflexivity|apply Z.ltb_ge in E; lia].
  Qed.
  (** A block that lies in the lower half of the address space. *)
  Definition block_fits (n : nat) : Prop := (0 <= base /\ es <= 2 ^ 62 /\ base + Z.of_nat n * es < 2 ^ 63)%Z.
  Lemma addr_le n i j : block_fits n -> i <= n -> j <= n ->
    (addr base es (Z.of_nat i) <=? addr base es (Z.of_nat j - 1))%Z = (i <? j).
  Proof.
    intros (B0 & B1 & B2) Hi Hj.
    assert (Q : forall k, (-1 <= k <= Z.of_nat n)%Z -> addr base es k = (base + k * es)%Z).
    { intros k Hk. apply addr_id. assert (-1 * es <= k * es <= Z.of_nat n * es)%Z by nia. lia. }
    rewrite !Q by lia. destruct (i <? j) eqn:E.
    - apply Nat.ltb_lt in E. apply Z.leb_le. nia.
    - apply Nat.ltb_ge in E. apply Z.leb_gt. nia.
  Qed.

  Lemma ptr_loop_eq body (m : nat) : block_fits m -> forall fuel n s first, first + n <= m ->
    ptr_loop base es fuel body s (Z.of_nat first) (Z.of_nat (first + n) - 1) =
    match fuel with
    | O => NoFuel
    | S k => match n with
             | O => Ok (s, true)
             | S n' => ' (s, ok) <- body s (Z.of_nat first) ;;
                       if ok : bool then ptr_loop base es k body s (Z.of_nat (S first)) (Z.of_nat (S first + n') - 1) else Ok (s, false)
             end
    end.
  Proof.
    intros Hb fuel n s first H. destruct fuel as [|fuel]; cbn [ptr_loop]; [reflexivity|].
    rewrite (addr_le m) by (assumption || lia). destruct n as [|n].
    - rewrite Nat.add_0_r, Nat.ltb_irrefl. reflexivity.
    - destruct (first <? first + S n) eqn:E; [|apply Nat.ltb_ge in E; lia].
      replace (Z.of_nat first + 1)%Z with (Z.of_nat (S first)) by lia.
      replace (S first + n) with (first + S n) by lia. reflexivity.
  Qed.

  Lemma default_ok (dflt : T) n : forall fuel s first, n < fuel -> block_fits (first + n) -> raw_at (r_cells s) first n ->
    exists s', ptr_loop base es fuel (fun s i => construct_at s i dflt) s (Z.of_nat first) (Z.of_nat (first + n) - 1) =
        Ok (s', all_built s (repeat dflt n)) /\ built s first (repeat dflt n) s'.
  Proof.
    induction n as [|n IH]; intros fuel s first Hf Hb Hr; rewrite (ptr_loop_eq _ _ Hb) by lia; (destruct fuel as [|fuel]; [lia|]); cbn [repeat].
    - exists s. split; [|apply built_nil]. unfold all_built. cbn [length]. now destruct (r_ans s).
    - pose proof (raw_head _ _ _ Hr) as Hh.
      pose proof (construct_at_ok s first dflt Hh) as Hc. destruct (fst (ask s)) eqn:Fa.
      + destruct Hc as (cells & Ec & Ln & Nx & Ot). rewrite Ec, bind_Ok.
        set (s1 := R cells (r_ans (snd (ask s))) (r_live (snd (ask s)) + 1)) in *.
        destruct (IH fuel s1 (S first)) as (s' & E' & B'); [lia|now replace (S first + n) with (first + S n) by lia| |].
        { eapply raw_tail; [exact Hr|exact Ot]. }
        destruct (built_cons s first dflt (repeat dflt n) cells s1 s' Fa eq_refl Ln Nx Ot B') as (B & Al).
        exists s'. split; [|exact B]. rewrite Al. exact E'.
      + rewrite Hc, bind_Ok. destruct (built_fail s first dflt (repeat dflt n) Fa) as (B & Al); [now rewrite repeat_length|].
        exists (snd (ask s)). split; [|exact B]. now rewrite Al.
  Qed.

  Lemma zero_ok (z : T) n : forall s first, raw_at (r_cells s) first n ->
    exists cells, zero_cells z s (Z.of_nat first) n = Ok (R cells (r_ans s) (r_live s + Z.of_nat n)%Z) /\
      objects_at cells first (repeat z n) /\ only_at (r_cells s) cells first n.
  Proof.
    induction n as [|n IH]; intros s first Hr; cbn [zero_cells repeat].
    - exists (r_cells s). split; [destruct s; cbn; now rewrite Z.add_0_r|]. split; [intros [|j] x H; discriminate|apply only_refl].
    - destruct (cell_wr_ok s first (Some z) 1) as (c1 & W & Ln & N & O).
      { pose proof (raw_head _ _ _ Hr). eauto using nth_lt. }
      rewrite W, bind_Ok. replace (Z.of_nat first + 1)%Z with (Z.of_nat (S first)) by lia.
      destruct (IH (R c1 (r_ans s) (r_live s + 1)) (S first)) as (c2 & E2 & Ob & (Len & On)); [cbn [r_cells]; eapply raw_tail; eassumption|].
      exists c2. cbn [r_ans r_live r_cells] in *. rewrite E2. split; [do 2 f_equal; lia|].
      split; [intros [|j] x Hx; cbn [nth_error] in Hx|].
      { inversion Hx; subst. rewrite Nat.add_0_r, On by lia. exact N. }
      { replace (first + S j) with (S first + j) by lia. now apply Ob. }
      split; [congruence|]. intros j Hj. rewrite On by lia. apply O. lia.
  Qed.

  Lemma destroy_loop_ok l : forall fuel s first, length l < fuel -> block_fits (first + length l) -> objects_at (r_cells s) first l ->
    exists cells, ptr_loop base es fuel (fun s i => s <- destroy_at s i ;; Ok (s, true)) s (Z.of_nat first) (Z.of_nat (first + length l) - 1) =
        Ok (R cells (r_ans s) (r_live s - Z.of_nat (length l))%Z, true) /\
      raw_at cells first (length l) /\ only_at (r_cells s) cells first (length l).
  Proof.
    induction l as [|x t IH]; intros fuel s first Hf Hb Ho; rewrite (ptr_loop_eq _ _ Hb) by lia; (destruct fuel as [|fuel]; [lia|]); cbn [length] in *.
    - exists (r_cells s). split; [destruct s; cbn; now rewrite Z.sub_0_r|]. split; [intros j Hj; lia|apply only_refl].
    - pose proof (objects_head _ _ _ _ Ho) as Hx. unfold destroy_at. rewrite (obj_rd_ok _ _ _ Hx), bind_Ok.
      destruct (cell_wr_ok s first None (-1)) as (c1 & W & Ln & N & O); [eauto using nth_lt|]. rewrite W, !bind_Ok.
      destruct (IH fuel (R c1 (r_ans s) (r_live s + -1)) (S first)) as (c2 & E2 & Rw & (Len & On)); [lia| | |].
      { now replace (S first + length t) with (first + S (length t)) by lia. }
      { cbn [r_cells]. intros j y Hy. rewrite O by lia. replace (S first + j) with (first + S j) by lia. now apply Ho. }
      exists c2. cbn [r_cells r_ans r_live] in *. unfold destroy_at in E2. rewrite E2. split; [do 3 f_equal; lia|].
      split; [intros [|j] Hj|].
      { rewrite Nat.add_0_r, On by lia. exact N. }
      { replace (first + S j) with (S first + j) by lia. apply Rw. lia. }
      split; [congruence|]. intros j Hj. rewrite On by lia. apply O. lia.
  Qed.
  Lemma end_ok (l : list T) : forall s first, objects_at (r_cells s) first l ->
    exists cells, end_cells s (Z.of_nat first) (length l) = Ok (R cells (r_ans s) (r_live s - Z.of_nat (length l))%Z) /\
      raw_at cells first (length l) /\ only_at (r_cells s) cells first (length l).
  Proof.
    induction l as [|x t IH]; intros s first Ho; cbn [length end_cells] in *.
    - exists (r_cells s). split; [destruct s; cbn; now rewrite Z.sub_0_r|]. split; [intros j Hj; lia|apply only_refl].
    - pose proof (objects_head _ _ _ _ Ho) as Hx.
      destruct (cell_wr_ok s first None (-1)) as (c1 & W & Ln & N & O); [eauto using nth_lt|]. rewrite W, !bind_Ok.
      replace (Z.of_nat first + 1)%Z with (Z.of_nat (S first)) by lia.
      destruct (IH (R c1 (r_ans s) (r_live s + -1)) (S first)) as (c2 & E2 & Rw & (Len & On)).
      { cbn [r_cells]. intros j y Hy. rewrite O by lia. replace (S first + j) with (first + S j) by lia. now apply Ho. }
      exists c2. cbn [r_cells r_ans r_live] in *. rewrite E2. split; [do 2 f_equal; lia|].
      split; [intros [|j] Hj|].
      { rewrite Nat.add_0_r, On by lia. exact N. }
      { replace (first + S j) with (S first + j) by lia. apply Rw. lia. }
      split; [congruence|]. intros j Hj. rewrite On by lia. apply O. lia.
  Qed.

  (** Value construction: two constructor calls per object. *)
  Lemma value_ok (mv : T -> T * T) (dflt : T) n : forall fuel s first, n < fuel -> block_fits (first + n) -> raw_at (r_cells s) first n ->
    exists s' k, k <= n /\
      ptr_loop base es fuel (value_construct_at dflt mv) s (Z.of_nat first) (Z.of_nat (first + n) - 1) = Ok (s', k =? n) /\
      k = Nat.div2 (returning (r_ans s) (2 * n)) /\ (r_live s' = r_live s + Z.of_nat k)%Z /\
      objects_at (r_cells s') first (repeat (fst (mv dflt)) k) /\ raw_at (r_cells s') (first + k) (n - k) /\
      only_at (r_cells s) (r_cells s') first n.
  Proof.
    induction n as [|n IH]; intros fuel s first Hf Hb Hr; rewrite (ptr_loop_eq _ _ Hb) by lia; (destruct fuel as [|fuel]; [lia|]).
    - exists s, 0. split; [lia|]. split; [reflexivity|]. split; [now destruct (r_ans s)|]. split; [lia|].
      split; [intros [|j] y Hy; discriminate|]. split; [intros j Hj; lia|apply only_refl].
    - assert (Fail : forall s0, r_cells s0 = r_cells s -> r_live s0 = r_live s ->
        returning (r_ans s) (2 * S n) <= 1 ->
        exists s' k, k <= S n /\ Ok (s0, false) = Ok (s', k =? S n) /\
          k = Nat.div2 (returning (r_ans s) (2 * S n)) /\ (r_live s' = r_live s + Z.of_nat k)%Z /\
          objects_at (r_cells s') first (repeat (fst (mv dflt)) k) /\ raw_at (r_cells s') (first + k) (S n - k) /\
          only_at (r_cells s) (r_cells s') first (S n)).
      { intros s0 C L K. exists s0, 0. split; [lia|]. split; [reflexivity|].
        split; [destruct (returning (r_ans s) (2 * S n)) as [|[|?]]; [reflexivity..|lia]|].
        split; [lia|]. rewrite C. split; [intros [|j] y Hy; discriminate|]. rewrite Nat.add_0_r, Nat.sub_0_r.
        split; [exact Hr|]. split; reflexivity. }
      unfold value_construct_at at 1.
      replace (2 * S n) with (S (S (2 * n))) in * by lia.
      pose proof (ask_step s (S (2 * n))) as A1. destruct (ask s) as [b1 s1] eqn:E1. cbn [fst snd] in A1.
      destruct b1.
      2:{ destruct A1 as [(Q & _)|(_ & C & L & K & _)]; [discriminate|]. rewrite bind_Ok. apply Fail; [exact C|exact L|]. rewrite K. lia. }
      destruct A1 as [(_ & C1 & L1 & K1 & _)|(Q & _)]; [|discriminate].
      set (s2 := R (r_cells s1) (r_ans s1) (r_live s1 + 1)).
      assert (Hh : nth_error (r_cells s2) first = Some None) by (cbn [s2 r_cells]; rewrite C1; eapply raw_head; exact Hr).
      pose proof (construct_at_ok s2 first (fst (mv dflt)) Hh) as Hc.
      pose proof (ask_step s2 (2 * n)) as A2.
      destruct (fst (ask s2)) eqn:Fa.
      + destruct A2 as [(_ & C2 & L2 & K2 & _)|(Q & _)]; [|discriminate].
        destruct Hc as (cells & Ec & Ln & Nx & Ot). rewrite Ec. cbn [bind r_cells r_ans r_live].
        set (s3 := R cells (r_ans (snd (ask s2))) (r_live (snd (ask s2)) + 1 - 1)).
        destruct (IH fuel s3 (S first)) as (s' & k & Kn & E' & Kk & L' & Ob & Rw & (Len & On)); [lia|now replace (S first + n) with (first + S n) by lia| |].
        { cbn [s3 r_cells]. eapply raw_tail; [exact Hr|]. intros j Hj. rewrite Ot by assumption. cbn [s2 r_cells]. now rewrite C1. }
        exists s', (S k). split; [lia|]. split; [exact E'|].
        split; [rewrite K1; change (r_ans s1) with (r_ans s2); rewrite K2; cbn [Nat.div2]; now rewrite Kk|].
        cbn [s3 s2 r_live r_cells] in *. split; [rewrite L', L2; lia|].
        split; [intros [|j] y Hy; cbn [repeat nth_error] in Hy|].
        { inversion Hy; subst y. rewrite Nat.add_0_r, On by lia. exact Nx. }
        { replace (first + S j) with (S first + j) by lia. now apply Ob. }
        split; [intros j Hj; replace (first + S k + j) with (S first + k + j) by lia; apply Rw; lia|].
        split; [rewrite Len, Ln; congruence|]. intros j Hj. rewrite On by lia. rewrite Ot by lia. now rewrite C1.
      + destruct A2 as [(Q & _)|(_ & C2 & L2 & K2 & _)]; [discriminate|].
        rewrite Hc. cbn [bind]. apply Fail; cbn [r_cells r_live s2] in *; [congruence|lia|].
        rewrite K1. change (r_ans s1) with (r_ans s2). rewrite K2. lia.
  Qed.
  End Addr.
End P.
