(** * SysProofs: mappings and descriptor flags. *)
From Verif Require Import Base FdModel SysModel SysSpec.
From Coq Require Import ZArith List Lia Bool.
Import ListNotations.
Local Open Scope Z_scope.

Definition live (k : sk) (l : link) : Prop := l <> no_link /\ fst l <> map_failed.
Record inv (v : vars) (k : sk) : Prop := {
  i_wild : sk_wild k = false;
  i_pos : forall m, In m (sk_maps k) -> 0 < fst m /\ 0 < snd m;
  i_live : forall i, (i < length v)%nat -> var v i = no_link \/ fst (var v i) = map_failed \/ In (var v i) (sk_maps k);
  i_diff : forall i j, (i < length v)%nat -> (j < length v)%nat -> i <> j -> In (var v i) (sk_maps k) -> var v i <> var v j }.
Lemma inv_same v k k' : sk_wild k' = sk_wild k -> sk_maps k' = sk_maps k -> inv v k -> inv v k'.
Proof. intros W M [A B C D]. constructor; rewrite ?W, ?M; assumption. Qed.
Lemma setvar_length v : forall i l, length (setvar v i l) = length v.
Proof. induction v as [|x v IH]; intros [|i] l; cbn; auto. Qed.
Lemma var_same v : forall i l, (i < length v)%nat -> var (setvar v i l) i = l.
Proof. induction v as [|x v IH]; intros [|i] l H; cbn in *; try lia; [reflexivity|]. apply IH. lia. Qed.
Lemma var_other v : forall i j l, i <> j -> var (setvar v i l) j = var v j.
Proof. induction v as [|x v IH]; intros [|i] [|j] l H; cbn; auto; [congruence|]. apply IH. congruence. Qed.
Lemma var_out v i : (length v <= i)%nat -> var v i = no_link.
Proof. apply nth_overflow. Qed.
Lemma setvar_out v : forall i l, (length v <= i)%nat -> setvar v i l = v.
Proof. induction v as [|x v IH]; intros [|i] l H; cbn in *; try lia; auto. f_equal. apply IH. lia. Qed.

(** Any new value that is empty or failed keeps the invariant. *)
Lemma inv_put v k i l : inv v k -> l = no_link \/ fst l = map_failed -> inv (setvar v i l) k.
Proof.
  intros [A B C D] L. destruct (Nat.lt_ge_cases i (length v)) as [I|I].
  2:{ rewrite setvar_out by assumption. now constructor. }
  assert (N : ~ In l (sk_maps k)).
  { intros Q. destruct (B l Q). destruct L as [->|L]; [cbn in *; lia|unfold map_failed in *; lia]. }
  constructor; try assumption.
  - intros j J. rewrite setvar_length in J. destruct (Nat.eq_dec i j) as [->|E].
    + rewrite var_same by assumption. destruct L; auto.
    + rewrite var_other by assumption. now apply C.
  - intros a b Ha Hb E In1. rewrite setvar_length in *. destruct (Nat.eq_dec i a) as [->|E1].
    { rewrite var_same in In1 by assumption. easy. }
    rewrite (var_other v i a) in * by assumption. destruct (Nat.eq_dec i b) as [->|E2].
    { rewrite var_same by assumption. intros Q. rewrite Q in In1. easy. }
    rewrite var_other by assumption. now apply D.
Qed.

Definition post (o : res vars) (v : vars) : Prop :=
  match o with Ret v' s' => inv v' (f_k s') /\ length v' = length v | Throw s' => inv v (f_k s') | Terminate => True end.
Lemma drop_same k : sk_wild (drop_ans k) = sk_wild k /\ sk_maps (drop_ans k) = sk_maps k.
Proof. easy. Qed.
Lemma set_throw_k s b : exists st, f_set_and_throw s b = Ret tt (mkfs st (f_ex s) (f_k s)) \/ f_set_and_throw s b = Throw (mkfs st (f_ex s) (f_k s)).
Proof. unfold f_set_and_throw. cbn [f_ex f_k f_st]. destruct (Z.land (f_ex s) b =? 0); eauto. Qed.
Lemma fcntl_k s req : exists st k rv, req (f_k s) = (k, rv) /\
  (f_fcntl s req = Ret rv (mkfs st (f_ex s) k) \/ f_fcntl s req = Throw (mkfs st (f_ex s) k)).
Proof.
  unfold f_fcntl. destruct (req (f_k s)) as [k rv]. destruct (rv <? 0).
  - destruct (set_throw_k (with_k s k) b_fail) as [st [E|E]]; rewrite E; cbn; eauto 8.
  - exists (f_st s), k, rv. split; [reflexivity|]. now left.
Qed.
Lemma setfl_same k f k' r : sys_setfl k f = (k', r) -> sk_wild k' = sk_wild k /\ sk_maps k' = sk_maps k.
Proof. unfold sys_setfl. destruct (sk_open k); [|now intros [= <- _]]. destruct (next_ans k); intros [= <- _]; easy. Qed.
Lemma mmap_ok k n k' r v : sys_mmap k n = (k', r) -> inv v k ->
  inv v k' /\ match r with
  | Some a => 0 < a /\ 0 < n /\ ~ In (a, n) (sk_maps k) /\ sk_maps k' = (a, n) :: sk_maps k
  | None => sk_maps k' = sk_maps k end.
Proof.
  intros E I. unfold sys_mmap in E. destruct (sk_open k && (0 <? n) && (Z.land (sk_flags k) O_ACCMODE =? O_RDWR)) eqn:G.
  2:{ injection E as <- <-. split; [exact I|reflexivity]. }
  destruct (next_ans k) as [a|]; [|injection E as <- <-; split; [now apply (inv_same v k)|reflexivity]].
  destruct ((0 <? a) && (a mod page =? 0) && (a + n <? 2 ^ 63) && forallb (disjoint a n) (sk_maps (drop_ans k))) eqn:Q;
    injection E as <- <-; [|split; [now apply (inv_same v k)|reflexivity]].
  apply andb_prop in Q as [Q F]. apply andb_prop in Q as [Q _]. apply andb_prop in Q as [Q _]. apply Z.ltb_lt in Q.
  apply andb_prop in G as [G _]. apply andb_prop in G as [_ G]. apply Z.ltb_lt in G.
  assert (NI : ~ In (a, n) (sk_maps k)).
  { intros X. rewrite forallb_forall in F. specialize (F _ X). unfold disjoint in F. cbn in F. lia. }
  split; [|auto]. destruct I as [A B C D]. constructor; cbn [sk_wild sk_maps drop_ans] in *.
  - exact A.
  - intros m [<-|M]; [cbn; lia|auto].
  - intros i Hi. destruct (C i Hi) as [X|[X|X]]; [now left|right; now left|right; right; now right].
  - intros i j Hi Hj N [X|X]; [|now apply D]. exfalso.
    destruct (C i Hi) as [Y|[Y|Y]]; rewrite <- X in Y; [unfold no_link in Y; injection Y; lia|cbn in Y; unfold map_failed in Y; lia|easy].
Qed.
Lemma same_map_eq a n m : same_map a n m = true <-> m = (a, n).
Proof. unfold same_map. destruct m as [x y]. cbn. rewrite andb_true_iff, !Z.eqb_eq. split; [intros [-> ->]; reflexivity|now intros [= -> ->]]. Qed.

Lemma step_post o v s : inv v (f_k s) -> post (sys_step o v s) v.
Proof.
  intros I. destruct o as [b| |i n|i|i|]; cbn [sys_step].
  - (* set_nonblock *)
    unfold f_set_nonblock. destruct (fcntl_k s sys_getfl) as (st & k & rv & E & [G|G]); rewrite G; cbn [rbind noexc]; [|exact Logic.I].
    injection E as <- _. set (f := if b then _ else _).
    destruct (fcntl_k (mkfs st (f_ex s) (f_k s)) (fun k => sys_setfl k f)) as (st' & k' & rv' & E' & [G'|G']); rewrite G'; cbn [rbind noexc post]; [|exact Logic.I].
    cbn [f_k] in *. apply setfl_same in E' as [A B]. split; [now apply (inv_same v (f_k s))|reflexivity].
  - (* ioctl *)
    unfold f_ioctl, sys_ioctl. set (kr := match next_ans (f_k s) with Some r => _ | None => _ end).
    assert (K : sk_wild (fst kr) = sk_wild (f_k s) /\ sk_maps (fst kr) = sk_maps (f_k s)) by (unfold kr; destruct (next_ans (f_k s)); easy).
    destruct kr as [k rv]. cbn [fst] in K. destruct K as [A B]. destruct (rv <? 0).
    + destruct (set_throw_k (with_k s k) b_fail) as [st [E|E]]; rewrite E; cbn; [split; [|reflexivity]|]; now apply (inv_same v (f_k s)).
    + cbn. split; [now apply (inv_same v (f_k s))|reflexivity].
  - (* mmap *)
    unfold f_mmap. destruct (sys_mmap (f_k s) n) as [k r] eqn:E. destruct (mmap_ok _ _ _ _ v E I) as [I' Q]. destruct r as [a|].
    + cbn [rbind post f_k with_k]. rewrite setvar_length. split; [|reflexivity]. destruct Q as (P1 & P2 & NI & M).
      destruct (Nat.lt_ge_cases i (length v)) as [Hi|Hi]; [|rewrite setvar_out by assumption; exact I'].
      destruct I' as [A B C D]. constructor; try assumption.
      * intros j Hj. rewrite setvar_length in Hj. destruct (Nat.eq_dec i j) as [->|Ne].
        -- rewrite var_same by assumption. right. right. rewrite M. now left.
        -- rewrite var_other by assumption. now apply C.
      * assert (V : forall j, (j < length v)%nat -> var v j <> (a, n)).
        { intros j Hj X. destruct I as [_ _ C0 _]. destruct (C0 j Hj) as [Y|[Y|Y]]; rewrite X in Y; [unfold no_link in Y; injection Y; lia|cbn in Y; unfold map_failed in Y; lia|easy]. }
        intros x y Hx Hy Ne In1. rewrite setvar_length in *. destruct (Nat.eq_dec i x) as [->|E1].
        -- rewrite var_same by assumption. rewrite var_other by assumption. intros X. apply (V y Hy). easy.
        -- rewrite (var_other v i x) in * by assumption. destruct (Nat.eq_dec i y) as [->|E2].
           ++ rewrite var_same by assumption. now apply V.
           ++ rewrite var_other by assumption. now apply D.
    + destruct (set_throw_k (with_k s k) b_fail) as [st [G|G]]; rewrite G; cbn [rbind post f_k with_k].
      * rewrite setvar_length. split; [|reflexivity]. apply inv_put; [exact I'|]. right. reflexivity.
      * exact I'.
  - (* munmap *)
    unfold f_munmap, sys_munmap.
    assert (Fail : forall k, sk_wild k = sk_wild (f_k s) -> sk_maps k = sk_maps (f_k s) ->
      post (rbind (rbind (f_set_and_throw (with_k s k) b_fail) (fun _ s0 => Ret no_link s0)) (fun l s0 => Ret (setvar v i l) s0)) v).
    { intros k A B. destruct (set_throw_k (with_k s k) b_fail) as [st [G|G]]; rewrite G; cbn [rbind post f_k with_k].
      - rewrite setvar_length. split; [|reflexivity]. apply inv_put; [|now left]. now apply (inv_same v (f_k s)).
      - now apply (inv_same v (f_k s)). }
    destruct (negb (fst (var v i) mod page =? 0) || (snd (var v i) =? 0)) eqn:G; [apply Fail; reflexivity|].
    destruct (next_ans (f_k s)) as [a|]; [|apply Fail; reflexivity].
    apply orb_false_iff in G as [G1 G2]. apply negb_false_iff, Z.eqb_eq in G1. apply Z.eqb_neq in G2.
    assert (Hi : (i < length v)%nat) by (destruct (Nat.lt_ge_cases i (length v)); [assumption|rewrite var_out in G2 by assumption; cbn in G2; lia]).
    assert (L : In (var v i) (sk_maps (f_k s))).
    { destruct (i_live _ _ I i Hi) as [X|[X|X]]; [rewrite X in G2; cbn in G2; lia|rewrite X in G1; vm_compute in G1; discriminate|exact X]. }
    assert (X : existsb (same_map (fst (var v i)) (snd (var v i))) (sk_maps (drop_ans (f_k s))) = true).
    { apply existsb_exists. exists (var v i). split; [exact L|]. apply same_map_eq. now destruct (var v i). }
    rewrite X. cbn [Z.eqb rbind post f_k with_k]. rewrite setvar_length. split; [|reflexivity].
    destruct I as [A B C D].
    assert (M : forall m, In m (filter (fun m => negb (same_map (fst (var v i)) (snd (var v i)) m)) (sk_maps (f_k s))) <-> In m (sk_maps (f_k s)) /\ m <> var v i).
    { intros m. rewrite filter_In, negb_true_iff. split; intros [Q1 Q2]; (split; [exact Q1|]).
      - intros ->. rewrite <- not_true_iff_false in Q2. apply Q2. apply same_map_eq. now destruct (var v i).
      - apply not_true_iff_false. intros Q. apply Q2. apply same_map_eq in Q. rewrite Q. now destruct (var v i). }
    constructor; cbn [sk_wild sk_maps drop_ans].
    + exact A.
    + intros m Hm. apply M in Hm as [Hm _]. auto.
    + intros j Hj. rewrite setvar_length in Hj. destruct (Nat.eq_dec i j) as [->|Ne].
      * left. now apply var_same.
      * rewrite var_other by assumption. destruct (C j Hj) as [Y|[Y|Y]]; auto. right. right. apply M. split; [exact Y|].
        apply D; auto.
    + intros x y Hx Hy Ne In1. rewrite setvar_length in *. apply M in In1 as [In1 In2]. destruct (Nat.eq_dec i x) as [->|E1].
      * rewrite var_same in In1 by assumption. destruct (B _ In1). cbn in *. lia.
      * rewrite (var_other v i x) in * by assumption. destruct (Nat.eq_dec i y) as [->|E2].
        -- rewrite var_same by assumption. intros Q. rewrite Q in In1. destruct (B _ In1). cbn in *. lia.
        -- rewrite var_other by assumption. now apply D.
  - (* msync *)
    unfold f_msync, sys_msync. set (kr := if negb (fst (var v i) mod page =? 0) then _ else _).
    assert (K : sk_wild (fst kr) = sk_wild (f_k s) /\ sk_maps (fst kr) = sk_maps (f_k s)).
    { unfold kr. destruct (negb (fst (var v i) mod page =? 0)); [easy|]. destruct (next_ans (f_k s)); easy. }
    destruct kr as [k rv]. cbn [fst] in K. destruct K as [A B]. destruct (rv =? 0).
    + cbn. split; [now apply (inv_same v (f_k s))|reflexivity].
    + destruct (set_throw_k (with_k s k) b_fail) as [st [E|E]]; rewrite E; cbn; [split; [|reflexivity]|]; now apply (inv_same v (f_k s)).
  - cbn. split; [exact I|reflexivity].
Qed.
Lemma run_inv ops : forall v s v' s', inv v (f_k s) -> sys_run ops v s = Some (v', s') -> inv v' (f_k s') /\ length v' = length v.
Proof.
  induction ops as [|o ops IH]; intros v s v' s' I E; cbn [sys_run] in E; [injection E as <- <-; auto|].
  pose proof (step_post o v s I) as P. destruct (sys_step o v s) as [v1 s1|s1|]; cbn [post] in P; [|now apply (IH v s1)|discriminate].
  destruct P as [P L]. destruct (IH v1 s1 v' s' P E) as [Q L']. split; [exact Q|congruence].
Qed.
Lemma fresh_inv v s : fresh s v -> inv v (f_k s).
Proof.
  intros (M & W & F). constructor.
  - exact W.
  - rewrite M. easy.
  - intros i Hi. left. rewrite Forall_forall in F. apply F. now apply nth_In.
  - rewrite M. easy.
Qed.

(** ** A failed link needs an error *)
Lemma lor_fail a : Z.lor a b_fail <> 0.
Proof. intros H. apply Z.lor_eq_0_iff in H as [_ H]. discriminate. Qed.
Lemma lor_zero_step a b : Z.lor a b = 0 -> a = 0.
Proof. intros H. now apply Z.lor_eq_0_iff in H as [H _]. Qed.
Definition nofail (v : vars) (s : fs) : Prop := f_st s = 0 -> forall i, fst (var v i) <> map_failed.
Lemma set_throw_st s b : match f_set_and_throw s b with Ret _ s' => f_st s' = Z.lor (f_st s) b | Throw s' => f_st s' = Z.lor (f_st s) b | Terminate => False end.
Proof. unfold f_set_and_throw. cbn [f_ex f_st f_k]. destruct (_ =? 0); reflexivity. Qed.
Lemma step_nofail o v s : o <> XClear -> inv v (f_k s) -> nofail v s ->
  match sys_step o v s with Ret v' s' => nofail v' s' | Throw s' => nofail v s' | Terminate => True end.
Proof.
  intros NC I N. destruct o as [b| |i n|i|i|]; cbn [sys_step]; [..|congruence].
  - unfold f_set_nonblock.
    assert (G : forall s req, match f_fcntl s req with Ret _ s' => f_st s' = 0 -> f_st s = 0 | Throw s' => f_st s' = 0 -> f_st s = 0 | Terminate => True end).
    { intros s0 req. unfold f_fcntl. destruct (req (f_k s0)) as [k rv]. destruct (rv <? 0); [|cbn; auto].
      pose proof (set_throw_st (with_k s0 k) b_fail) as T. destruct (f_set_and_throw (with_k s0 k) b_fail); cbn [rbind]; auto; rewrite T; intros Q; now apply lor_zero_step in Q. }
    pose proof (G s sys_getfl) as G1. destruct (f_fcntl s sys_getfl) as [g s1|s1|]; cbn [rbind noexc]; auto.
    set (f := if b then _ else _). pose proof (G s1 (fun k => sys_setfl k f)) as G2. destruct (f_fcntl s1 (fun k => sys_setfl k f)) as [g2 s2|s2|]; cbn [rbind noexc]; auto.
    intros Z0. apply N. auto.
  - unfold f_ioctl. destruct (sys_ioctl (f_k s)) as [k rv]. destruct (rv <? 0); [|exact N].
    pose proof (set_throw_st (with_k s k) b_fail) as T. destruct (f_set_and_throw (with_k s k) b_fail); cbn [rbind]; auto; intros Z0; rewrite T in Z0; now apply lor_fail in Z0.
  - unfold f_mmap. destruct (sys_mmap (f_k s) n) as [k r] eqn:E. destruct (mmap_ok _ _ _ _ v E I) as [_ Q]. destruct r as [a|].
    + cbn [rbind]. intros Z0 j. destruct (Nat.lt_ge_cases i (length v)) as [Hi|Hi]; [|rewrite setvar_out by assumption; now apply N].
      destruct (Nat.eq_dec i j) as [->|Ne]; [rewrite var_same by assumption; cbn; unfold map_failed; lia|rewrite var_other by assumption; now apply N].
    + pose proof (set_throw_st (with_k s k) b_fail) as T. destruct (f_set_and_throw (with_k s k) b_fail); cbn [rbind]; auto; intros Z0; rewrite T in Z0; now apply lor_fail in Z0.
  - unfold f_munmap. destruct (sys_munmap (f_k s) (fst (var v i)) (snd (var v i))) as [k r]. destruct (r =? 0).
    + cbn [rbind]. intros Z0 j. destruct (Nat.lt_ge_cases i (length v)) as [Hi|Hi]; [|rewrite setvar_out by assumption; now apply N].
      destruct (Nat.eq_dec i j) as [->|Ne]; [rewrite var_same by assumption; cbn; unfold map_failed; lia|rewrite var_other by assumption; now apply N].
    + pose proof (set_throw_st (with_k s k) b_fail) as T. destruct (f_set_and_throw (with_k s k) b_fail); cbn [rbind]; auto; intros Z0; rewrite T in Z0; now apply lor_fail in Z0.
  - unfold f_msync. destruct (sys_msync (f_k s) (fst (var v i)) (snd (var v i))) as [k r]. destruct (r =? 0).
    + cbn [rbind]. exact N.
    + pose proof (set_throw_st (with_k s k) b_fail) as T. destruct (f_set_and_throw (with_k s k) b_fail); cbn [rbind]; auto; intros Z0; rewrite T in Z0; now apply lor_fail in Z0.
Qed.
Lemma run_nofail ops : forall v s v' s', ~ In XClear ops -> inv v (f_k s) -> nofail v s -> sys_run ops v s = Some (v', s') -> nofail v' s'.
Proof.
  induction ops as [|o ops IH]; intros v s v' s' NC I N E; cbn [sys_run] in E; [injection E as <- <-; auto|].
  assert (N1 : o <> XClear) by (intros ->; apply NC; now left). assert (N2 : ~ In XClear ops) by (intros Q; apply NC; now right).
  pose proof (step_post o v s I) as P. pose proof (step_nofail o v s N1 I N) as Q.
  destruct (sys_step o v s) as [v1 s1|s1|]; cbn [post] in P; [destruct P as [P _]; now apply (IH v1 s1)|now apply (IH v s1)|discriminate].
Qed.

(** ** O_NONBLOCK *)
Lemma setfl_bits fl f n : 0 <= n -> Z.testbit (Z.lor (Z.ldiff fl settable) (Z.land f settable)) n =
  if (n =? 10) || (n =? 11) then Z.testbit f n else Z.testbit fl n.
Proof.
  intros Hn. rewrite Z.lor_spec, Z.ldiff_spec, Z.land_spec. change settable with (Z.lor (2 ^ 10) (2 ^ 11)).
  rewrite Z.lor_spec, !Z.pow2_bits_eqb by lia. rewrite (Z.eqb_sym 10), (Z.eqb_sym 11).
  destruct (n =? 10), (n =? 11), (Z.testbit fl n), (Z.testbit f n); reflexivity.
Qed.
