From Coq Require Import ZArith.
From Verif Require Import Base Order RangeSpec RangeModel RangeProofs ArrayModel BoundProofs StoreModel StoreProofs VectorModel VectorSpec VectorProofs RefArgModel RefArgProofs
  ListModel ListProofs IterModel IterProofs QsortModel QsortSpec CtrModel CtrSpec CtrProofs MVecModel MVecSpec.
Local Open Scope nat_scope.

Section MVec.
  Context {T : Type}.
  Variable e : env.
  Variable es : Z.
  Variable dflt : T.
  Variable eqb lt : T -> T -> bool.
  Variable qs : (T -> T -> Z) -> list T -> list T.
  Hypothesis Hes : (0 < es)%Z.
  Hypothesis H4 : (es mod 4 = 0)%Z.
  Hypothesis Henv : good_env e.
  Hypothesis Hmem : enough_memory e.
  Hypothesis Heq : forall x y z, eqb y x = true -> eqb z y = eqb z x.
  Hypothesis Hlt : StrictWeak lt.
  Hypothesis Hqs : qsort_contract qs.

  Definition All (vs : list (vec T)) (ls : list (list T)) : Prop := Forall2 (Vinv es) vs ls.

  Lemma get vs ls i : All vs ls -> i < length ls -> exists v, rd vs i = Ok v /\ Vinv es v (nth i ls []).
  Proof.
    intros A. revert i. induction A as [|v l vs ls H A IH]; intros i L; cbn [length] in L; [lia|].
    destruct i as [|i]; [exists v; split; [reflexivity|exact H]|].
    destruct (IH i ltac:(lia)) as (w & E & I). exists w. split; [exact E|exact I].
  Qed.
  Lemma wr_all vs ls i v l : All vs ls -> i < length ls -> Vinv es v l ->
    exists vs', wr vs i v = Ok vs' /\ All vs' (replaced ls i l).
  Proof.
    intros A L I. revert i L. induction A as [|w m vs ls H A IH]; intros i L; cbn [length] in L; [lia|].
    unfold wr in *. destruct i as [|i]; cbn [upd].
    - eexists; split; [reflexivity|]. constructor; assumption.
    - destruct (IH i ltac:(lia)) as (vs' & E & A').
      destruct (upd vs i v) as [u|]; [|discriminate]. inversion E; subst u. eexists; split; [reflexivity|].
      unfold replaced. cbn [firstn skipn app]. constructor; assumption.
  Qed.
  Lemma replaced_length {X} (ls : list (list X)) i l : i < length ls -> length (replaced ls i l) = length ls.
  Proof. intros L. unfold replaced. rewrite app_length, firstn_length. cbn [length]. rewrite skipn_length. lia. Qed.
  Lemma nth_replaced_same {X} (ls : list (list X)) i l : i < length ls -> nth i (replaced ls i l) [] = l.
  Proof.
    intros L. unfold replaced. rewrite app_nth2; rewrite firstn_length; [|lia]. replace (i - Nat.min i (length ls)) with 0 by lia. reflexivity.
  Qed.
  Lemma put_ok vs ls i m v l : All vs ls -> i < length ls -> m = Ok v -> Vinv es v l ->
    exists vs', put vs i m = Ok (vs', MoNothing) /\ All vs' (replaced ls i l).
  Proof.
    intros A L -> I. unfold put. cbn [bind]. destruct (wr_all vs ls i v l A L I) as (vs' & E & A'). rewrite E. cbn [bind]. eauto.
  Qed.

  Lemma cap_room (v : vec T) l : Vinv es v l -> (es * Z.of_nat (length l) <= 2 ^ 31)%Z.
  Proof. intros I. pose proof (Vinv_cap es Hes v l I). destruct I as (_ & _ & _ & ?). lia. Qed.
  Lemma vec_copy_ok (l : list T) : (es * Z.of_nat (length l) <= 2 ^ 31)%Z -> exists v, vec_copy e es l = Ok v /\ Vinv es v l.
  Proof.
    intros B. unfold vec_copy.
    destruct (append_hole_ok e es Hes Hmem (vec_nil : vec T) ([] : list T) (length l) (Vinv_nil es) B) as (v' & mv & r & E & C & S & L & Bc & _).
    rewrite E. cbn [bind]. rewrite C. cbn [map app].
    pose proof (construct_end [] l r 0 eq_refl) as D. cbn [map app] in D. rewrite D. cbn [bind].
    eexists; split; [reflexivity|]. apply Vinv_mk; [|exact Bc]. cbn [length Nat.add] in L. exact L.
  Qed.
  Lemma insert_4 (v : vec T) l ip x : Vinv es v l -> ip <= length l -> (es * Z.of_nat (length l + length x) <= 2 ^ 31)%Z ->
    exists v', insert_list e es v ip x = Ok v' /\ Vinv es v' (seq_insert l ip x).
  Proof.
    intros I Hi B. apply (insert_list_ok e es Hes Henv Hmem v l ip x I Hi).
    - unfold seq_insert. rewrite !app_length, firstn_length, skipn_length. replace (Nat.min ip (length l) + (length x + (length l - ip))) with (length l + length x) by lia. exact B.
    - destruct (rot_good_4 es (Z.of_nat ip) (Z.of_nat (length l)) (Z.of_nat (length l + length x)) H4); [assumption|nia].
  Qed.
  Lemma source_ok (v : vec T) l a b : Vinv es v l -> a <= b <= length l -> source v a b = Ok (slice l a b).
  Proof.
    intros I H. unfold source. rewrite (contents_ok es Hes v l I). cbn [bind].
    destruct (Nat.leb_spec a b); [|lia]. destruct (Nat.leb_spec b (length l)); [|lia]. reflexivity.
  Qed.
  Lemma slice_length (l : list T) a b : b <= length l -> length (slice l a b) = b - a.
  Proof. intros H. unfold slice. rewrite firstn_length, skipn_length. lia. Qed.
  Lemma copy_from_mid (x : list T) : forall pre gap post : list T, length gap = length x ->
    copy_from x (pre ++ gap ++ post) (length pre) = Ok (pre ++ x ++ post).
  Proof.
    induction x as [|y x IH]; intros pre gap post L; destruct gap as [|g gap]; cbn [length] in L; try lia; cbn [copy_from app]; [reflexivity|].
    rewrite wr_app. cbn [bind]. replace (S (length pre)) with (length (pre ++ [y])) by (rewrite app_length; cbn; lia).
    replace (pre ++ y :: gap ++ post) with ((pre ++ [y]) ++ gap ++ post) by (rewrite <- app_assoc; reflexivity).
    rewrite (IH (pre ++ [y]) gap post ltac:(lia)). rewrite <- app_assoc. reflexivity.
  Qed.
  Lemma write_to_ok (v : vec T) l a (x : list T) : Vinv es v l -> a + length x <= length l ->
    exists v', write_to v a x = Ok v' /\ Vinv es v' (overwritten l a x).
  Proof.
    intros I L. unfold write_to.
    assert (E : copy_from x l a = Ok (overwritten l a x)).
    { pose proof (copy_from_mid x (firstn a l) (firstn (length x) (skipn a l)) (skipn (a + length x) l)) as C.
      rewrite !firstn_length, skipn_length in C. replace (Nat.min a (length l)) with a in C by lia.
      specialize (C ltac:(lia)). unfold overwritten. rewrite <- C. f_equal.
      rewrite <- (firstn_skipn a l) at 1. f_equal. rewrite <- (firstn_skipn (length x) (skipn a l)) at 1. f_equal.
      rewrite skipn_skipn. f_equal. lia. }
    destruct (in_place_ok es Hes v l (fun a0 => a1 <- copy_from x a0 a ;; Ok (a1, tt)) (overwritten l a x) tt I) as (v' & E' & I').
    - cbv beta. rewrite E. reflexivity.
    - unfold overwritten. rewrite !app_length, firstn_length, skipn_length. lia.
    - rewrite E'. cbn [bind]. eauto.
  Qed.
  Lemma neq_eqb i j : i <> j -> Nat.eqb i j = false.
  Proof. intros H. now apply Nat.eqb_neq. Qed.
  Lemma run_heads_le (l : list T) : length (run_heads eqb l) <= length l.
  Proof. destruct l as [|x l]; cbn [run_heads length]; [lia|]. apply le_n_S. rewrite map_length.
    transitivity (length (combine (x :: l) l)).
    - induction (combine (x :: l) l) as [|p q IH]; cbn [filter length]; [lia|]. destruct (negb (eqb (snd p) (fst p))); cbn [length]; lia.
    - rewrite combine_length. lia. Qed.

  Lemma filter_le (p : T -> bool) l : length (filter p l) <= length l.
  Proof. induction l as [|x l IH]; cbn [filter length]; [lia|]. destruct (p x); cbn [length]; lia. Qed.
  Lemma append_ok (v : vec T) l x : Vinv es v l -> (es * Z.of_nat (length l + length x) <= 2 ^ 31)%Z ->
    exists v', copy_back_inserter e es v x = Ok v' /\ Vinv es v' (l ++ x).
  Proof. intros I B. apply (copy_back_inserter_ok e es Hes H4 Hmem x v l I). exact B. Qed.
  Lemma room_mono n m : n <= m -> (es * Z.of_nat m <= 2 ^ 31)%Z -> (es * Z.of_nat n <= 2 ^ 31)%Z.
  Proof. intros H B. eapply Z.le_trans; [|exact B]. nia. Qed.

  Ltac src i A L v E I := destruct (get _ _ i A L) as (v & E & I); rewrite E; cbn [bind].
  Ltac cont I := rewrite (contents_ok es Hes _ _ I); cbn [bind].

  Definition Good (vs : list (vec T)) (ls : list (list T)) (o : mop T) : Prop :=
    exists vs' ls' out, mv_step e es dflt eqb lt qs vs o = Ok (vs', out) /\ All vs' ls' /\ mv_spec dflt eqb lt ls o ls' out.
  Lemma done vs ls i o m l v : All vs ls -> i < length ls -> mv_step e es dflt eqb lt qs vs o = put vs i m -> m = Ok v -> Vinv es v l ->
    mv_spec dflt eqb lt ls o (replaced ls i l) MoNothing -> Good vs ls o.
  Proof.
    intros A L E M I S. destruct (put_ok vs ls i m v l A L M I) as (vs' & E' & A').
    exists vs', (replaced ls i l), MoNothing. rewrite E. split; [exact E'|]. split; [exact A'|exact S].
  Qed.

  Lemma mv_step_ok vs ls o : All vs ls -> mv_pre es dflt lt ls o -> Good vs ls o.
  Proof.
    intros A P. destruct o as [i o|i j|i j|i j|i j|i ip j a b|i j a b|i j|i j p|i j x|i j p|i a j|i a j|i a j f|i a j k f|i x|i x|i p|i x|i p|i x|i x|i x|i]; cbn [mv_pre] in P; cbv zeta in P.
    - destruct P as (L & P). destruct (get _ _ i A L) as (v & E & I).
      destruct (c_step_ok e es dflt eqb lt qs Hes H4 Henv Hmem Heq Hlt Hqs v _ o I P) as (v' & l' & E' & I' & S).
      eapply done; [exact A|exact L| |exact E'|exact I'|].
      + cbn [mv_step]. rewrite E. reflexivity.
      + cbn [mv_spec]. cbv zeta. eauto.
    - destruct P as (L & Lj). destruct (get _ _ i A L) as (v & E & I). destruct (get _ _ j A Lj) as (w & Ew & Iw).
      destruct (Nat.eqb_spec i j) as [->|N].
      + destruct (assign_range_own_0 e es dflt Hes Hmem v _ (length (nth j ls [])) I (le_n _)) as (v' & E' & I').
        rewrite firstn_all in I'. eapply done; [exact A|exact L| |exact E'|exact I'|].
        * cbn [mv_step]. rewrite E. cbn [bind]. rewrite Nat.eqb_refl. destruct I as (_ & -> & _). reflexivity.
        * cbn [mv_spec]. cbv zeta. auto.
      + destruct (assign_ok e es dflt Hes Hmem v _ (nth j ls []) I (cap_room _ _ Iw)) as (v' & E' & I').
        eapply done; [exact A|exact L| |exact E'|exact I'|].
        * cbn [mv_step]. rewrite E. cbn [bind]. rewrite (neq_eqb i j N), Ew. cbn [bind]. cont Iw. reflexivity.
        * cbn [mv_spec]. cbv zeta. auto.
    - destruct P as (L & Lj). destruct (get _ _ i A L) as (v & E & I). destruct (get _ _ j A Lj) as (w & Ew & Iw).
      destruct (wr_all vs ls i w _ A L Iw) as (vs1 & E1 & A1).
      destruct (wr_all vs1 (replaced ls i (nth j ls [])) j v (nth i ls []) A1) as (vs2 & E2 & A2); [rewrite replaced_length; assumption|exact I|].
      exists vs2, (replaced (replaced ls i (nth j ls [])) j (nth i ls [])), MoNothing.
      split; [|split; [exact A2|cbn [mv_spec]; cbv zeta; auto]].
      cbn [mv_step]. rewrite E. cbn [bind]. rewrite Ew. cbn [bind]. rewrite E1. cbn [bind]. rewrite E2. reflexivity.
    - destruct P as (L & Lj). destruct (get _ _ i A L) as (v & E & I). destruct (get _ _ j A Lj) as (w & Ew & Iw).
      destruct (vec_copy_ok (nth j ls []) (cap_room _ _ Iw)) as (v' & E' & I').
      eapply done; [exact A|exact L| |exact E'|exact I'|].
      + cbn [mv_step]. rewrite E. cbn [bind]. rewrite Ew. cbn [bind]. cont Iw. reflexivity.
      + cbn [mv_spec]. cbv zeta. auto.
    - destruct P as (L & Lj). destruct (get _ _ j A Lj) as (w & Ew & Iw).
      destruct (wr_all vs ls j vec_nil [] A Lj (Vinv_nil es)) as (vs1 & E1 & A1).
      destruct (put_ok vs1 (replaced ls j []) i (Ok w) w (nth j ls []) A1) as (vs2 & E2 & A2); [rewrite replaced_length; assumption|reflexivity|exact Iw|].
      exists vs2, (replaced (replaced ls j []) i (nth j ls [])), MoNothing.
      split; [|split; [exact A2|cbn [mv_spec]; cbv zeta; auto]].
      cbn [mv_step]. rewrite Ew. cbn [bind]. rewrite E1. cbn [bind]. exact E2.
    - destruct P as (L & Lj & N & Hi & Hab & R). destruct (get _ _ i A L) as (v & E & I). destruct (get _ _ j A Lj) as (w & Ew & Iw).
      destruct (insert_4 v _ ip (slice (nth j ls []) a b) I Hi) as (v' & E' & I'); [rewrite slice_length by lia; exact R|].
      eapply done; [exact A|exact L| |exact E'|exact I'|].
      + cbn [mv_step]. rewrite E. cbn [bind]. rewrite (neq_eqb i j N), Ew. cbn [bind]. rewrite (source_ok w _ a b Iw Hab). reflexivity.
      + cbn [mv_spec]. cbv zeta. auto.
    - destruct P as (L & Lj & N & Hab). destruct (get _ _ i A L) as (v & E & I). destruct (get _ _ j A Lj) as (w & Ew & Iw).
      destruct (assign_ok e es dflt Hes Hmem v _ (slice (nth j ls []) a b) I) as (v' & E' & I').
      { rewrite slice_length by lia. apply (room_mono _ (length (nth j ls []))); [lia|apply (cap_room _ _ Iw)]. }
      eapply done; [exact A|exact L| |exact E'|exact I'|].
      + cbn [mv_step]. rewrite E. cbn [bind]. rewrite (neq_eqb i j N), Ew. cbn [bind]. rewrite (source_ok w _ a b Iw Hab). reflexivity.
      + cbn [mv_spec]. cbv zeta. auto.
    - destruct P as (L & Lj & N & R). destruct (get _ _ i A L) as (v & E & I). destruct (get _ _ j A Lj) as (w & Ew & Iw).
      destruct (append_ok v _ (nth j ls []) I R) as (v' & E' & I').
      eapply done; [exact A|exact L| |exact E'|exact I'|].
      + cbn [mv_step]. rewrite (neq_eqb i j N), E. cbn [bind]. rewrite Ew. cbn [bind]. cont Iw. reflexivity.
      + cbn [mv_spec]. cbv zeta. auto.
    - destruct P as (L & Lj & N & R). destruct (get _ _ i A L) as (v & E & I). destruct (get _ _ j A Lj) as (w & Ew & Iw).
      destruct (append_ok v _ (filter p (nth j ls [])) I) as (v' & E' & I').
      { apply (room_mono _ (length (nth i ls []) + length (nth j ls []))); [pose proof (filter_le p (nth j ls [])); lia|exact R]. }
      eapply done; [exact A|exact L| |exact E'|exact I'|].
      + cbn [mv_step]. rewrite (neq_eqb i j N), E. cbn [bind]. rewrite Ew. cbn [bind]. cont Iw. rewrite copy_if_filter. reflexivity.
      + cbn [mv_spec]. cbv zeta. auto.
    - destruct P as (L & Lj & N & R). destruct (get _ _ i A L) as (v & E & I). destruct (get _ _ j A Lj) as (w & Ew & Iw).
      destruct (append_ok v _ (filter (fun y => negb (eqb y x)) (nth j ls [])) I) as (v' & E' & I').
      { apply (room_mono _ (length (nth i ls []) + length (nth j ls []))); [pose proof (filter_le (fun y => negb (eqb y x)) (nth j ls [])); lia|exact R]. }
      eapply done; [exact A|exact L| |exact E'|exact I'|].
      + cbn [mv_step]. rewrite (neq_eqb i j N), E. cbn [bind]. rewrite Ew. cbn [bind]. cont Iw. rewrite remove_copy_filter. reflexivity.
      + cbn [mv_spec]. cbv zeta. auto.
    - destruct P as (L & Lj & N & R). destruct (get _ _ i A L) as (v & E & I). destruct (get _ _ j A Lj) as (w & Ew & Iw).
      destruct (append_ok v _ (filter (fun y => negb (p y)) (nth j ls [])) I) as (v' & E' & I').
      { apply (room_mono _ (length (nth i ls []) + length (nth j ls []))); [pose proof (filter_le (fun y => negb (p y)) (nth j ls [])); lia|exact R]. }
      eapply done; [exact A|exact L| |exact E'|exact I'|].
      + cbn [mv_step]. rewrite (neq_eqb i j N), E. cbn [bind]. rewrite Ew. cbn [bind]. cont Iw. rewrite remove_copy_if_filter. reflexivity.
      + cbn [mv_spec]. cbv zeta. auto.
    - destruct P as (L & Lj & N & R). destruct (get _ _ i A L) as (v & E & I). destruct (get _ _ j A Lj) as (w & Ew & Iw).
      destruct (write_to_ok v _ a (nth j ls []) I R) as (v' & E' & I').
      eapply done; [exact A|exact L| |exact E'|exact I'|].
      + cbn [mv_step]. rewrite (neq_eqb i j N), E. cbn [bind]. rewrite Ew. cbn [bind]. cont Iw. reflexivity.
      + cbn [mv_spec]. cbv zeta. auto.
    - destruct P as (L & Lj & N & R). destruct (get _ _ i A L) as (v & E & I). destruct (get _ _ j A Lj) as (w & Ew & Iw).
      destruct (write_to_ok v _ a (run_heads eqb (nth j ls [])) I) as (v' & E' & I'); [pose proof (run_heads_le (nth j ls [])); lia|].
      eapply done; [exact A|exact L| |exact E'|exact I'|].
      + cbn [mv_step]. rewrite (neq_eqb i j N), E. cbn [bind]. rewrite Ew. cbn [bind]. cont Iw. rewrite (unique_copy_heads eqb _ _ Heq). reflexivity.
      + cbn [mv_spec]. cbv zeta. auto.
    - destruct P as (L & Lj & N & R). destruct (get _ _ i A L) as (v & E & I). destruct (get _ _ j A Lj) as (w & Ew & Iw).
      destruct (write_to_ok v _ a (map f (nth j ls [])) I) as (v' & E' & I'); [rewrite map_length; exact R|].
      eapply done; [exact A|exact L| |exact E'|exact I'|].
      + cbn [mv_step]. rewrite (neq_eqb i j N), E. cbn [bind]. rewrite Ew. cbn [bind]. cont Iw. rewrite transform_map. reflexivity.
      + cbn [mv_spec]. cbv zeta. auto.
    - destruct P as (L & Lj & Lk & N & N2 & R & Rk). destruct (get _ _ i A L) as (v & E & I). destruct (get _ _ j A Lj) as (w & Ew & Iw).
      destruct (get _ _ k A Lk) as (y & Ey & Iy).
      destruct (write_to_ok v _ a (map (fun xy => f (fst xy) (snd xy)) (combine (nth j ls []) (nth k ls []))) I) as (v' & E' & I').
      { rewrite map_length, combine_length. lia. }
      eapply done; [exact A|exact L| |exact E'|exact I'|].
      + cbn [mv_step]. rewrite (neq_eqb i j N), (neq_eqb i k N2). cbn [orb]. rewrite E. cbn [bind]. rewrite Ew. cbn [bind]. rewrite Ey. cbn [bind]. cont Iw. cont Iy.
        rewrite (transform2_combine f _ _ Rk). reflexivity.
      + cbn [mv_spec]. cbv zeta. auto.
    - destruct (get _ _ i A P) as (v & E & I).
      destruct (on_elements_ok es Hes v _ (fun l => Ok (repeat x (length l))) (repeat x (length (nth i ls []))) I eq_refl) as (v' & E' & I'); [apply repeat_length|].
      eapply done; [exact A|exact P| |exact E'|exact I'|].
      + cbn [mv_step]. rewrite E. reflexivity.
      + cbn [mv_spec]. cbv zeta. auto.
    - destruct (get _ _ i A P) as (v & E & I). exists vs, ls, (MoPos (find eqb (nth i ls []) x)). split; [|split; [exact A|]].
      + cbn [mv_step]. rewrite E. cbn [bind]. cont I. reflexivity.
      + cbn [mv_spec]. cbv zeta. split; [reflexivity|]. eexists. split; [reflexivity|]. apply find_first.
    - destruct (get _ _ i A P) as (v & E & I). exists vs, ls, (MoPos (find_if p (nth i ls []))). split; [|split; [exact A|]].
      + cbn [mv_step]. rewrite E. cbn [bind]. cont I. reflexivity.
      + cbn [mv_spec]. cbv zeta. split; [reflexivity|]. eexists. split; [reflexivity|]. apply find_if_first.
    - destruct (get _ _ i A P) as (v & E & I). exists vs, ls, (MoPos (count eqb (nth i ls []) x)). split; [|split; [exact A|]].
      + cbn [mv_step]. rewrite E. cbn [bind]. cont I. reflexivity.
      + cbn [mv_spec]. cbv zeta. split; [reflexivity|]. rewrite count_countp. reflexivity.
    - destruct (get _ _ i A P) as (v & E & I). exists vs, ls, (MoPos (count_if p (nth i ls []))). split; [|split; [exact A|]].
      + cbn [mv_step]. rewrite E. cbn [bind]. cont I. reflexivity.
      + cbn [mv_spec]. cbv zeta. split; [reflexivity|]. rewrite count_if_countp. reflexivity.
    - destruct P as (L & S). destruct (get _ _ i A L) as (v & E & I).
      destruct (lower_bound_spec lt Hlt [] (nth i ls []) [] x S) as (n & Q & F). cbn [app length Nat.add] in Q. rewrite !app_nil_r in Q.
      exists vs, ls, (MoPos n). split; [|split; [exact A|]].
      + cbn [mv_step]. rewrite E. cbn [bind]. cont I. rewrite Q. reflexivity.
      + cbn [mv_spec]. cbv zeta. split; [reflexivity|]. exists n. split; [reflexivity|exact F].
    - destruct P as (L & S). destruct (get _ _ i A L) as (v & E & I).
      destruct (upper_bound_spec lt Hlt [] (nth i ls []) [] x S) as (n & Q & F). cbn [app length Nat.add] in Q. rewrite !app_nil_r in Q.
      exists vs, ls, (MoPos n). split; [|split; [exact A|]].
      + cbn [mv_step]. rewrite E. cbn [bind]. cont I. rewrite Q. reflexivity.
      + cbn [mv_spec]. cbv zeta. split; [reflexivity|]. exists n. split; [reflexivity|exact F].
    - destruct P as (L & S). destruct (get _ _ i A L) as (v & E & I).
      destruct (binary_search_spec lt Hlt [] (nth i ls []) [] x S) as (n & Q & F). cbn [app length Nat.add] in Q. rewrite !app_nil_r in Q.
      exists vs, ls, (MoBool n). split; [|split; [exact A|]].
      + cbn [mv_step]. rewrite E. cbn [bind]. cont I. rewrite Q. reflexivity.
      + cbn [mv_spec]. cbv zeta. split; [reflexivity|]. exists n. split; [reflexivity|exact F].
    - destruct (get _ _ i A P) as (v & E & I). exists vs, ls, (MoList (nth i ls [])). split; [|split; [exact A|]].
      + cbn [mv_step]. rewrite E. cbn [bind]. cont I. reflexivity.
      + cbn [mv_spec]. cbv zeta. auto.
  Qed.

  Lemma mv_run_ok ops : forall vs ls, All vs ls -> mv_pres es dflt eqb lt ls ops ->
    exists vs' ls' outs, mv_run e es dflt eqb lt qs vs ops = Ok (vs', outs) /\ All vs' ls' /\ mv_specs dflt eqb lt ls ops ls' outs.
  Proof.
    induction ops as [|o t IH]; intros vs ls A P; cbn [mv_run].
    - exists vs, ls, []. split; [reflexivity|]. split; [exact A|constructor].
    - destruct P as [P1 P2]. destruct (mv_step_ok vs ls o A P1) as (vs1 & ls1 & out & E & A1 & S1). rewrite E. cbn [bind].
      destruct (IH vs1 ls1 A1 (P2 ls1 out S1)) as (vs2 & ls2 & outs & E2 & A2 & S2). rewrite E2. cbn [bind].
      exists vs2, ls2, (out :: outs). split; [reflexivity|]. split; [exact A2|]. econstructor; eassumption.
  Qed.
End MVec.
