(** * ListProofs: ulist.h refines sequences. *)
From Verif Require Import Base Order RangeSpec RangeModel RangeProofs UtilModel StoreModel VectorModel VectorSpec StoreProofs VectorProofs
  ArrayModel ArrayProofs SetAlgoProofs AssocModel AssocSpec QueueProofs QsortModel QsortSpec QsortProofs ListModel ListSpec.
From Coq Require Import ZArith ZifyBool ZifyNat.
Local Open Scope nat_scope.

Section F2.
  Context {A B : Type} (Q : A -> list B -> Prop).
  Lemma l2_rd s t : Forall2 Q s t -> forall i, i < length t -> exists q, rd s i = Ok q /\ Q q (lget t i).
  Proof.
    induction 1 as [|a b s t H1 H2 IH]; intros i Hi; cbn [length] in Hi; [lia|].
    destruct i as [|i]; [exists a; split; [reflexivity|exact H1]|].
    destruct (IH i ltac:(lia)) as (q & E & HQ). exists q. split; [exact E|exact HQ].
  Qed.
  Lemma l2_wr s t : Forall2 Q s t -> forall i q x, i < length t -> Q q x ->
    exists s', wr s i q = Ok s' /\ Forall2 Q s' (lput t i x).
  Proof.
    induction 1 as [|a b s t H1 H2 IH]; intros i q x Hi Hx; cbn [length] in Hi; [lia|].
    destruct i as [|i]; [exists (q :: s); split; [reflexivity|]; constructor; assumption|].
    destruct (IH i q x ltac:(lia) Hx) as (s' & E & F). exists (a :: s'). unfold wr in *. cbn [upd].
    destruct (upd s i q) as [r|]; [|discriminate]. injection E as ->. split; [reflexivity|].
    cbn [lput]. constructor; assumption.
  Qed.
  Lemma lput_length (t : list (list B)) : forall i x, length (lput t i x) = length t.
  Proof. induction t as [|b t IH]; intros [|i] x; cbn [lput length]; auto. Qed.
End F2.

Section L.
  Context {T : Type}.
  Variable e : env.
  Variable es : Z.
  Variable dflt : T.
  Variable eqb lt : T -> T -> bool.
  Hypothesis Hes : (0 < es)%Z.
  Hypothesis Henv : good_env e.
  Hypothesis Hmem : enough_memory e.
  Implicit Types (v w : vec T) (l : list T).

  Lemma in_place_ok {X} v l (alg : list T -> outcome (list T * X)) l' x : Vinv es v l -> alg l = Ok (l', x) ->
    length l' = length l -> exists v', in_place v alg = Ok (v', x) /\ Vinv es v' l'.
  Proof.
    intros I E L. unfold in_place. rewrite (contents_ok es Hes _ _ I). cbn [bind]. rewrite E. cbn [bind].
    destruct I as ((k & C) & S & Lc & B). rewrite C. pose proof (assign_cells_ok l' [] l (repeat None k) (eq_sym L)) as A. cbn [app length] in A. rewrite A. cbn [bind].
    eexists; split; [reflexivity|]. split; [exists k; reflexivity|]. cbn [vsize vcells vcap].
    split; [congruence|]. split; [|exact B]. rewrite <- Lc, C, !app_length, !map_length, L. reflexivity.
  Qed.

  Lemma copy_from_ok l : forall pre gap, length gap = length l ->
    copy_from l (pre ++ gap) (length pre) = Ok (pre ++ l).
  Proof.
    induction l as [|x l IH]; intros pre [|g gap] L; cbn [length] in L; try lia; cbn [copy_from]; [reflexivity|].
    rewrite wr_app. cbn [bind]. replace (S (length pre)) with (length (pre ++ [x])) by (rewrite app_length; cbn; lia).
    replace (pre ++ x :: gap) with ((pre ++ [x]) ++ gap) by (rewrite <- app_assoc; reflexivity).
    rewrite IH by lia. rewrite <- app_assoc. reflexivity.
  Qed.
  Lemma copy_in_self l : forall pre n, n = length l -> copy_in n (pre ++ l) (length pre) (length pre) = Ok (pre ++ l).
  Proof.
    induction l as [|x l IH]; intros pre n ->; cbn [copy_in length]; [reflexivity|].
    rewrite rd_app. cbn [bind]. rewrite wr_app. cbn [bind].
    replace (S (length pre)) with (length (pre ++ [x])) by (rewrite app_length; cbn; lia).
    replace (pre ++ x :: l) with ((pre ++ [x]) ++ l) by (rewrite <- app_assoc; reflexivity). apply IH. reflexivity.
  Qed.
  Lemma merge_in_ok fuel : forall l1 l2 pre gap first1 last1, length gap = length l2 ->
    first1 = length pre + length gap -> last1 = first1 + length l1 -> length l1 + length l2 <= fuel ->
    merge_in lt fuel (pre ++ gap ++ l1) first1 last1 l2 (length pre) = Ok (pre ++ merge_seq lt l1 l2).
  Proof.
    induction fuel as [|f IH]; intros l1 l2 pre gap first1 last1 G E1 E2 F.
    - destruct l1, l2; cbn [length] in F; try lia. destruct gap; [|discriminate]. cbn [merge_in length merge_seq].
      cbn [length] in *. replace (first1 <? last1) with false by lia. cbn [copy_from app]. reflexivity.
    - destruct l1 as [|x l1].
      + cbn [merge_in]. cbn [length] in *. replace (first1 <? last1) with false by lia. rewrite app_nil_r.
        rewrite copy_from_ok by exact G. destruct l2; reflexivity.
      + cbn [merge_in]. cbn [length] in *. replace (first1 <? last1) with true by lia. destruct l2 as [|y l2].
        * destruct gap; [|discriminate]. cbn [length app merge_seq] in *. rewrite E1, Nat.add_0_r.
          apply copy_in_self. cbn [length]. lia.
        * destruct gap as [|g gap]; [discriminate|]. cbn [length] in *.
          assert (R : rd (pre ++ (g :: gap) ++ x :: l1) first1 = Ok x).
          { rewrite app_assoc. apply rd_app'. rewrite app_length. cbn [length]. lia. }
          rewrite R. cbn [bind app]. cbn [merge_seq]. destruct (lt x y).
          -- rewrite wr_app. cbn [bind].
             replace (S (length pre)) with (length (pre ++ [x])) by (rewrite app_length; cbn; lia).
             replace (pre ++ x :: gap ++ x :: l1) with ((pre ++ [x]) ++ (gap ++ [x]) ++ l1) by (rewrite <- !app_assoc; reflexivity).
             rewrite IH; [rewrite <- app_assoc; reflexivity| | | |]; rewrite ?app_length; cbn [length]; lia.
          -- rewrite wr_app. cbn [bind].
             replace (S (length pre)) with (length (pre ++ [y])) by (rewrite app_length; cbn; lia).
             replace (pre ++ y :: gap ++ x :: l1) with ((pre ++ [y]) ++ gap ++ x :: l1) by (rewrite <- !app_assoc; reflexivity).
             rewrite IH; [rewrite <- app_assoc; reflexivity| | | |]; rewrite ?app_length; cbn [length]; lia.
  Qed.
  Lemma merge_seq_length l1 : forall l2, length (merge_seq lt l1 l2) = length l1 + length l2.
  Proof.
    induction l1 as [|x l1 IH]; [destruct l2; reflexivity|].
    induction l2 as [|y l2 IH2]; [cbn; lia|]. cbn [merge_seq]. destruct (lt x y); cbn [length].
    - rewrite IH. cbn [length]. lia.
    - cbn [merge_seq] in IH2. rewrite IH2. cbn [length]. lia.
  Qed.

  Lemma erase_tail_ok v l l' junk : Vinv es v (l' ++ junk) -> length l = length (l' ++ junk) ->
    exists v', erase e es v (length l') (vsize v - length l') = Ok v' /\ Vinv es v' l'.
  Proof.
    intros I L. pose proof I as (_ & Sz & _). rewrite Sz.
    destruct (erase_ok e es Hes Henv v _ (length l') (length (l' ++ junk) - length l') I) as (v' & E & I').
    - rewrite app_length. lia.
    - rewrite app_length. replace (length l' + (length l' + length junk - length l')) with (length l' + length junk) by lia.
      unfold rot_good. replace (_ - _ =? 0)%Z with true by lia. rewrite orb_true_r. reflexivity.
    - exists v'. split; [exact E|]. unfold seq_erase in I'.
      replace (length l' + (length (l' ++ junk) - length l')) with (length (l' ++ junk)) in I' by (rewrite app_length; lia).
      rewrite skipn_all, firstn_app, firstn_all, Nat.sub_diag in I'. cbn [firstn] in I'. rewrite !app_nil_r in I'. exact I'.
  Qed.

  Lemma remove_if_vec_ok v l p : Vinv es v l ->
    exists v', l_remove_if e es v p = Ok v' /\ Vinv es v' (filter (fun y => negb (p y)) l).
  Proof.
    intros I. unfold l_remove_if. destruct (remove_if_spec p [] l []) as (junk & E & L).
    cbn [app length Nat.add] in E. rewrite !app_nil_r in E.
    destruct (in_place_ok v l (fun l => remove_if p l 0 (length l)) _ _ I E) as (v1 & E1 & I1).
    { rewrite app_length. lia. }
    rewrite E1. cbn [bind]. apply (erase_tail_ok v1 l _ junk I1). rewrite app_length. lia.
  Qed.
  Lemma unique_vec_ok v l : (forall x y z, eqb y x = true -> eqb z y = eqb z x) -> Vinv es v l ->
    exists v', l_unique e es eqb v = Ok v' /\ Vinv es v' (run_heads eqb l).
  Proof.
    intros Q I. unfold l_unique. destruct (unique_spec eqb [] l [] Q) as (junk & E & L).
    cbn [app length Nat.add] in E. rewrite !app_nil_r in E.
    destruct (in_place_ok v l (fun l => unique eqb l 0 (length l)) _ _ I E) as (v1 & E1 & I1).
    { rewrite app_length. lia. }
    rewrite E1. cbn [bind]. apply (erase_tail_ok v1 l _ junk I1). rewrite app_length. lia.
  Qed.
  Lemma reverse_vec_ok v l : Vinv es v l -> exists v', l_reverse v = Ok v' /\ Vinv es v' (rev l).
  Proof.
    intros I. unfold l_reverse. pose proof (reverse_spec [] l []) as E. cbn [app length Nat.add] in E. rewrite !app_nil_r in E.
    destruct (in_place_ok v l (fun l => l <- reverse l 0 (length l) ;; Ok (l, tt)) (rev l) tt I) as (v1 & E1 & I1).
    - cbv beta. rewrite E. reflexivity.
    - apply rev_length.
    - rewrite E1. cbn [bind]. eauto.
  Qed.
  Lemma insert_front_ok v l x : Vinv es v l -> (es * Z.of_nat (length l + length x) <= 2 ^ 31)%Z ->
    exists v', insert_list e es v 0 x = Ok v' /\ Vinv es v' (x ++ l).
  Proof.
    intros I B. destruct (insert_list_ok e es Hes Henv Hmem v l 0 x I) as (v' & E & I'); [lia| | |].
    - unfold seq_insert. cbn [firstn skipn app]. rewrite app_length. rewrite Nat.add_comm. exact B.
    - rewrite Z.mul_0_r. apply rot_good_0; lia.
    - eauto.
  Qed.
  Lemma merge_vec_ok v w l m : Vinv es v l -> Vinv es w m -> (es * Z.of_nat (length l + length m) <= 2 ^ 31)%Z ->
    exists v', l_merge e es dflt lt v w = Ok v' /\ Vinv es v' (merge_seq lt l m).
  Proof.
    intros I J B. unfold l_merge. pose proof J as (_ & Sw & _). rewrite Sw.
    destruct (insert_front_ok v l (repeat dflt (length m)) I) as (v1 & E1 & I1); [rewrite repeat_length; exact B|].
    rewrite E1. cbn [bind]. rewrite (contents_ok es Hes _ _ J). cbn [bind].
    assert (L : length (repeat dflt (length m) ++ l) = length m + length l) by (rewrite app_length, repeat_length; reflexivity).
    pose proof (merge_in_ok (length (repeat dflt (length m) ++ l) + length m) l m [] (repeat dflt (length m)) (length m)
                  (length (repeat dflt (length m) ++ l))) as M.
    cbn [app length] in M. rewrite repeat_length in M. specialize (M eq_refl eq_refl L ltac:(lia)).
    destruct (in_place_ok v1 _ (fun l => l <- merge_in lt (length l + length m) l (length m) (length l) m 0 ;; Ok (l, tt))
      (merge_seq lt l m) tt I1) as (v2 & E2 & I2).
    - cbv beta. rewrite M. reflexivity.
    - rewrite merge_seq_length. lia.
    - rewrite E2. cbn [bind]. eauto.
  Qed.
  Lemma splice_vec_ok v w l m ip f la : Vinv es v l -> Vinv es w m -> ip <= length l ->
    from f <= upto la m -> upto la m <= length m -> (es mod 4 = 0)%Z ->
    (es * Z.of_nat (length l + (upto la m - from f)) <= 2 ^ 31)%Z ->
    exists v' w', l_splice e es v ip w f la = Ok (v', w') /\
      Vinv es v' (firstn ip l ++ slice m (from f) (upto la m) ++ skipn ip l) /\
      Vinv es w' (firstn (from f) m ++ skipn (upto la m) m).
  Proof.
    intros I J Hip Hf Hl H4 B. unfold l_splice. pose proof J as (_ & Sw & _). rewrite Sw.
    change (match f with Some i => i | None => 0 end) with (from f). change (match la with Some i => i | None => length m end) with (upto la m).
    replace ((upto la m <? from f) || (length m <? upto la m)) with false by lia.
    rewrite (contents_ok es Hes _ _ J). cbn [bind].
    assert (Ls : length (slice m (from f) (upto la m)) = upto la m - from f).
    { unfold slice. rewrite firstn_length, skipn_length. lia. }
    destruct (insert_list_ok e es Hes Henv Hmem v l ip (slice m (from f) (upto la m)) I Hip) as (v' & E & I').
    - unfold seq_insert. rewrite !app_length, firstn_length, skipn_length, Ls.
      replace (Nat.min ip (length l) + (upto la m - from f + (length l - ip))) with (length l + (upto la m - from f)) by lia. exact B.
    - destruct (rot_good_4 es (Z.of_nat ip) (Z.of_nat (length l)) (Z.of_nat (length l + length (slice m (from f) (upto la m)))) H4);
        [assumption|nia].
    - rewrite E. cbn [bind]. destruct (erase_ok e es Hes Henv w m (from f) (upto la m - from f) J) as (w' & E2 & J').
      + lia.
      + destruct (rot_good_4 es (Z.of_nat (from f)) (Z.of_nat (from f + (upto la m - from f))) (Z.of_nat (length m)) H4);
          [assumption|nia].
      + rewrite E2. cbn [bind]. exists v', w'. split; [reflexivity|]. split; [exact I'|].
        unfold seq_erase in J'. replace (from f + (upto la m - from f)) with (upto la m) in J' by lia. exact J'.
  Qed.

  Definition Linv (s : list (vec T)) (t : list (list T)) : Prop := Forall2 (Vinv es) s t.
  Lemma l_on_ok s t i f l' : Linv s t -> i < length t ->
    (forall v, Vinv es v (lget t i) -> exists v', f v = Ok v' /\ Vinv es v' l') ->
    exists s', l_on s i f = Ok (s', []) /\ Linv s' (lput t i l').
  Proof.
    intros H Hi Hf. unfold l_on. destruct (l2_rd _ _ _ H i Hi) as (v & E & I). rewrite E. cbn [bind].
    destruct (Hf v I) as (v' & E' & I'). rewrite E'. cbn [bind].
    destruct (l2_wr _ _ _ H i v' l' Hi I') as (s' & E2 & H2). rewrite E2. cbn [bind]. eauto.
  Qed.
  Variable qs : (T -> T -> Z) -> list T -> list T.
  Hypothesis Heqb : forall x y z, eqb y x = true -> eqb z y = eqb z x.
  Hypothesis W : StrictWeak lt.
  Hypothesis Hq : qsort_contract qs.
  Definition srt (l : list T) : list T := qs (qsort_adapter (fun _ : unit => lt) tt) l.
  Lemma srt_sorts : Sorts lt srt.
  Proof.
    intros l. destruct (Hq (qsort_adapter (fun _ : unit => lt) tt) l (adapter_consistent (fun _ : unit => lt) tt W)) as [P S].
    split; [exact P|]. eapply sorted_weaken; [|exact S]. intros x y H. cbv beta in H. now apply (adapter_le (fun _ : unit => lt) tt W) in H.
  Qed.
  Lemma sort_vec_ok v l : Vinv es v l -> exists v', l_sort lt qs v = Ok v' /\ Vinv es v' (srt l).
  Proof.
    intros I. unfold l_sort.
    destruct (in_place_ok v l (fun l => l <- QsortModel.sort (fun _ : unit => lt) (Some tt) qs l 0 (length l) tt ;; Ok (l, tt)) (srt l) tt I) as (v1 & E1 & I1).
    - cbv beta. unfold QsortModel.sort. rewrite Nat.leb_refl. cbn [Nat.leb andb]. cbn [firstn app]. unfold slice.
      rewrite Nat.sub_0_r. cbn [skipn]. rewrite firstn_all, skipn_all, app_nil_r. reflexivity.
    - apply Permutation_length, srt_sorts.
    - rewrite E1. cbn [bind]. eauto.
  Qed.
  Lemma l_step_ok s t o : Linv s t -> list_pre es t o ->
    exists s', l_step e es dflt eqb lt qs s o = Ok (s', snd (list_step eqb lt srt t o)) /\ Linv s' (fst (list_step eqb lt srt t o)).
  Proof.
    intros H P. unfold fits in *. destruct o as [i x|i|i x|i|i ip l|i ep n|i x|i p|i|i|i|i j|i ip j f la|i|i l|i];
      cbn [list_pre list_step l_step fst snd] in *.
    - destruct P as [P1 P2]. apply (l_on_ok s t i _ _ H P1). intros v I.
      apply (insert_front_ok v _ [x] I). rewrite Nat.add_1_r. exact P2.
    - destruct P as [P1 P2]. apply (l_on_ok s t i _ _ H P1). intros v I. unfold l_pop_front.
      destruct (lget t i) as [|y l]; [contradiction|]. cbn [tl].
      destruct (erase_ok e es Hes Henv v _ 0 1 I) as (v' & E & I'); [cbn; lia|rewrite Z.mul_0_r; apply rot_good_0; lia|].
      exists v'. split; [exact E|exact I'].
    - destruct P as [P1 P2]. apply (l_on_ok s t i _ _ H P1). intros v I.
      apply (push_back_ok e es Hes Hmem v _ x I). rewrite Nat.add_1_r. exact P2.
    - destruct P as [P1 P2]. apply (l_on_ok s t i _ _ H P1). intros v I. exact (pop_back_ok es Hes v _ I P2).
    - destruct P as (P1 & P2 & P3 & P4). apply (l_on_ok s t i _ _ H P1). intros v I.
      apply (insert_list_ok e es Hes Henv Hmem v _ ip l I P2).
      + unfold seq_insert. rewrite !app_length, firstn_length, skipn_length.
        replace (Nat.min ip (length (lget t i)) + (length l + (length (lget t i) - ip))) with (length (lget t i) + length l) by lia. exact P3.
      + destruct (rot_good_4 es (Z.of_nat ip) (Z.of_nat (length (lget t i))) (Z.of_nat (length (lget t i) + length l)) P4);
          [assumption|nia].
    - destruct P as (P1 & P2 & P3). apply (l_on_ok s t i _ _ H P1). intros v I.
      apply (erase_ok e es Hes Henv v _ ep n I P2).
      destruct (rot_good_4 es (Z.of_nat ep) (Z.of_nat (ep + n)) (Z.of_nat (length (lget t i))) P3); [assumption|nia].
    - apply (l_on_ok s t i _ _ H P). intros v I. apply (remove_if_vec_ok v _ (fun y => eqb y x) I).
    - apply (l_on_ok s t i _ _ H P). intros v I. apply (remove_if_vec_ok v _ p I).
    - apply (l_on_ok s t i _ _ H P). intros v I. apply (unique_vec_ok v _ Heqb I).
    - apply (l_on_ok s t i _ _ H P). intros v I. apply (reverse_vec_ok v _ I).
    - apply (l_on_ok s t i _ _ H P). intros v I. apply (sort_vec_ok v _ I).
    - destruct P as (P1 & P2 & P3 & P4). destruct (l2_rd _ _ _ H j P2) as (w & E & J). rewrite E. cbn [bind].
      apply (l_on_ok s t i _ _ H P1). intros v I. apply (merge_vec_ok v w _ _ I J P4).
    - destruct P as (P1 & P2 & P3 & P4 & P5 & P6 & P7 & P8).
      destruct (l2_rd _ _ _ H i P1) as (v & E & I). rewrite E. cbn [bind].
      destruct (l2_rd _ _ _ H j P2) as (w & E2 & J). rewrite E2. cbn [bind].
      destruct (splice_vec_ok v w _ _ ip f la I J P4 P5 P6 P8 P7) as (v' & w' & E3 & I' & J'). rewrite E3. cbn [bind].
      destruct (l2_wr _ _ _ H i v' _ P1 I') as (s1 & E4 & H4). rewrite E4. cbn [bind].
      destruct (l2_wr _ _ _ H4 j w' _ ltac:(rewrite lput_length; exact P2) J') as (s2 & E5 & H5). rewrite E5. cbn [bind]. eauto.
    - apply (l_on_ok s t i _ _ H P). intros v I. exact (clear_ok es Hes v _ I).
    - destruct P as [P1 P2]. apply (l_on_ok s t i _ _ H P1). intros v I. exact (assign_ok e es dflt Hes Hmem v _ l I P2).
    - destruct (l2_rd _ _ _ H i P) as (v & E & I). rewrite E. cbn [bind]. rewrite (contents_ok es Hes _ _ I). cbn [bind]. eauto.
  Qed.

  Lemma l_run_ok n ops : list_pres es eqb lt srt (repeat [] n) ops ->
    exists s, run_ops (l_step e es dflt eqb lt qs) (repeat vec_nil n) ops =
      Ok (s, snd (spec_run (list_step eqb lt srt) (repeat [] n) ops)).
  Proof.
    intros H. destruct (run_refines_pre (l_step e es dflt eqb lt qs) (list_step eqb lt srt) (list_pre es) (list_pres es eqb lt srt) Linv
      (fun s o t H => H) l_step_ok ops (repeat vec_nil n) (repeat [] n)) as (s & E & _); [|exact H|eauto].
    clear. induction n as [|n IH]; cbn [repeat]; constructor; [apply Vinv_nil|exact IH].
  Qed.
End L.

(** [merge_seq] is what ualgo.h's merge gives for separate ranges. *)
Lemma merge_loop_seq {T} (lt : T -> T -> bool) fuel : forall l1 l2 r, length l1 + length l2 <= fuel ->
  merge_loop fuel lt l1 l2 r = Ok (r ++ merge_seq lt l1 l2).
Proof.
  assert (C : forall l r, copy_out (A := T) l r = r ++ l).
  { induction l as [|x l IH]; intros r; cbn [copy_out]; [rewrite app_nil_r; reflexivity|]. rewrite IH, <- app_assoc. reflexivity. }
  induction fuel as [|f IH]; intros [|x l1] [|y l2] r F; cbn [length] in F; try lia; cbn [merge_loop merge_seq]; rewrite ?C; try reflexivity.
  - destruct (lt x y); rewrite IH by (cbn [length]; lia); rewrite <- app_assoc; reflexivity.
Qed.
Lemma merge_seq_sorted {T} (lt : T -> T -> bool) (W : StrictWeak lt) l1 l2 :
  Permutation (merge_seq lt l1 l2) (l1 ++ l2) /\ (Ascending lt l1 -> Ascending lt l2 -> Ascending lt (merge_seq lt l1 l2)).
Proof.
  destruct (merge_spec lt W l1 l2) as (r & E & P & S). unfold merge in E. rewrite merge_loop_seq in E by lia.
  cbn [app] in E. injection E as <-. auto.
Qed.
