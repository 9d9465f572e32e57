(** * AtomicProofs: linearizability of calls on an atomic object, of
    compare_exchange loops and of updates under a spin lock. *)
From Verif Require Import Base AtomicModel AtomicSpec.
From Coq Require Import ZArith Permutation.
Open Scope Z_scope.

Lemma oat_app {V A R} (sem : A -> V -> V * R) o1 o2 v :
  one_at_a_time sem v (o1 ++ o2)
  = (fst (one_at_a_time sem (fst (one_at_a_time sem v o1)) o2),
     snd (one_at_a_time sem v o1) ++ snd (one_at_a_time sem (fst (one_at_a_time sem v o1)) o2)).
Proof.
  revert v; induction o1 as [|(i, a) o1 IH]; intro v; cbn [one_at_a_time app].
  - cbn [fst snd app]. apply surjective_pairing.
  - destruct (sem a v) as (v', x). rewrite IH.
    destruct (one_at_a_time sem v' o1) as (v1, xs). cbn [fst snd app]. reflexivity.
Qed.

Lemma of_thread_app {A} i (l1 l2 : list (nat * A)) : of_thread i (l1 ++ l2) = of_thread i l1 ++ of_thread i l2.
Proof. unfold of_thread. now rewrite filter_app, map_app. Qed.

Lemma of_thread_one {A} i j (x : A) : of_thread i [(j, x)] = if Nat.eqb j i then [x] else [].
Proof. unfold of_thread. cbn [filter fst]. destruct (Nat.eqb j i); reflexivity. Qed.

Lemma nth_mid {A} (p q : list A) x d i :
  nth i (p ++ x :: q) d = if Nat.eqb (length p) i then x else nth i (p ++ d :: q) d.
Proof.
  revert i; induction p as [|y p IH]; intros [|i]; cbn [app nth length Nat.eqb]; auto.
Qed.

Section Lin.
Context {V A R : Type}.
Variable sem : A -> V -> V * R.

Lemma linear_start v0 (progs : list (list A)) :
  linear sem v0 v0 progs progs (map (fun _ => []) progs).
Proof.
  split; [reflexivity|]. split; [apply map_length|].
  exists []. repeat split; auto.
  - now intros p [].
  - intro i. cbn. clear. revert i. induction progs as [|p ps IH]; intros [|i]; cbn; auto.
Qed.

Lemma linear_commit v0 v progs pl a r ql pr rs qr :
  length pl = length pr ->
  linear sem v0 v progs (pl ++ (a :: r) :: ql) (pr ++ rs :: qr) ->
  linear sem v0 (fst (sem a v)) progs (pl ++ r :: ql) (pr ++ (rs ++ [snd (sem a v)]) :: qr).
Proof.
  intros L (L1 & L2 & o & B & F & P & Q).
  split; [rewrite app_length in *; cbn [length] in *; lia|].
  split; [rewrite app_length in *; cbn [length] in *; lia|].
  exists (o ++ [(length pl, a)]).
  assert (E : one_at_a_time sem v0 (o ++ [(length pl, a)])
              = (fst (sem a v), snd (one_at_a_time sem v0 o) ++ [(length pl, snd (sem a v))])).
  { rewrite oat_app, F. cbn [one_at_a_time]. destruct (sem a v). reflexivity. }
  rewrite E. cbn [fst snd]. split; [|split; [reflexivity|split]].
  - intros p [H|[<-|[]]]%in_app_iff; auto. cbn [fst]. rewrite app_length in L1. cbn [length] in L1. lia.
  - intro i. rewrite P, of_thread_app, of_thread_one, (nth_mid pl ql (a :: r)), (nth_mid pl ql r).
    destruct (Nat.eqb (length pl) i); cbn [app]; [now rewrite <- app_assoc|now rewrite app_nil_r].
  - intro i. rewrite of_thread_app, of_thread_one, <- Q, (nth_mid pr qr (rs ++ _)), (nth_mid pr qr rs), L.
    destruct (Nat.eqb (length pr) i); cbn [app]; [reflexivity|now rewrite app_nil_r].
Qed.
End Lin.

(** ** One turn, with the thread in the middle of the list. *)
Lemma turn_cases {L} w (cd : code L) t (c : conf L) :
  (turn w cd t c = Ok c /\ (nth_error (cths c) (fst t) = None \/
      exists l, nth_error (cths c) (fst t) = Some l /\ cd l = None)) \/
  exists p l q a b k, cths c = p ++ l :: q /\ length p = fst t /\ cd l = Some (a, b, k) /\
    turn w cd t c = (m <- rd (cmem c) a ;; ' (m', r) <- exec w b (snd t) m ;;
                     mem' <- wr (cmem c) a m' ;; Ok (Conf mem' (p ++ k r :: q))).
Proof.
  unfold turn. destruct (nth_error (cths c) (fst t)) as [l|] eqn:N; [|left; eauto].
  destruct (cd l) as [((a, b), k)|] eqn:C; [|left; split; [reflexivity|right; eauto]].
  right. apply nth_error_split in N as (p & q & E & Lp).
  exists p, l, q, a, b, k. repeat split; auto.
  destruct (rd (cmem c) a) as [m| | |]; cbn [bind]; auto.
  destruct (exec w b (snd t) m) as [(m', r)| | |]; cbn [bind]; auto.
  destruct (wr (cmem c) a m') as [mem'| | |]; cbn [bind]; auto.
  rewrite E, <- Lp, wr_app by reflexivity. reflexivity.
Qed.

(** ** Calls. *)
Definition start_callers (progs : list (list acall)) := map (fun p => Caller p []) progs.

Definition caller_inv w v0 progs (c : conf caller) : Prop :=
  exists v, cmem c = [v] /\ linear (call_means w) v0 v progs (map todo (cths c)) (map got (cths c)).

Lemma exec_member w a s m : exec w (member a) s m = Ok (fst (call_means w a m), snd (call_means w a m)).
Proof.
  destruct a; cbn; try reflexivity.
  unfold exec. cbn. rewrite andb_true_r. destruct (m =? e) eqn:E; auto. apply Z.eqb_eq in E. now subst.
Qed.

Lemma caller_turn w v0 progs t c : caller_inv w v0 progs c ->
  exists c', turn w caller_code t c = Ok c' /\ caller_inv w v0 progs c'.
Proof.
  intros (v & M & I). destruct (turn_cases w caller_code t c) as [(E & _)|H]; [exists c; split; auto; now exists v|].
  destruct H as (p & l & q & a & b & k & T & _ & C & E). rewrite E, M.
  unfold caller_code in C. destruct (todo l) as [|x r] eqn:TD; [discriminate|].
  inversion C; subst a b k; clear C.
  cbn [rd nth_error bind]. rewrite exec_member. cbn [bind]. cbn [wr upd bind].
  eexists; split; [reflexivity|]. exists (fst (call_means w x v)). split; [reflexivity|].
  rewrite T, !map_app in I. cbn [map] in I. rewrite TD in I.
  cbn [cths]. rewrite !map_app. cbn [map todo got].
  apply linear_commit; [now rewrite !map_length|exact I].
Qed.

Lemma caller_turns w v0 progs sched : forall c, caller_inv w v0 progs c ->
  exists c', turns w caller_code sched c = Ok c' /\ caller_inv w v0 progs c'.
Proof.
  induction sched as [|t r IH]; intros c I; cbn [turns]; [eauto|].
  destruct (caller_turn w v0 progs t c I) as (c1 & E & I1). rewrite E. cbn [bind]. now apply IH.
Qed.

Lemma caller_start w v0 progs : caller_inv w v0 progs (Conf [v0] (start_callers progs)).
Proof.
  exists v0. split; [reflexivity|]. cbn [cths]. unfold start_callers. rewrite !map_map. cbn [todo got].
  rewrite map_id. apply linear_start.
Qed.

(** ** Sums and tickets. *)
Lemma oat_fst {V A R} (sem : A -> V -> V * R) o : forall v,
  map fst (snd (one_at_a_time sem v o)) = map fst o.
Proof.
  induction o as [|(i, a) o IH]; intro v; cbn [one_at_a_time]; [reflexivity|].
  destruct (sem a v) as (v', x). specialize (IH v').
  destruct (one_at_a_time sem v' o) as (v1, xs). cbn [snd map fst] in *. now rewrite IH.
Qed.

Lemma nil_map_concat {A B} (l : list A) : concat (map (fun _ : A => @nil B) l) = [].
Proof. induction l; cbn; auto. Qed.

Lemma of_thread_none {A} i (l : list (nat * A)) : ~ In i (map fst l) -> of_thread i l = [].
Proof.
  unfold of_thread. induction l as [|(j, x) l IH]; cbn [map filter fst]; intro H; [reflexivity|].
  cbn [In] in H. destruct (Nat.eqb_spec j i); [tauto|]. apply IH. tauto.
Qed.

Lemma threads_perm {A} n (o : list (nat * A)) : (forall p, In p o -> (fst p < n)%nat) ->
  Permutation (concat (map (fun i => of_thread i o) (seq 0 n))) (map snd o).
Proof.
  induction o as [|(j, x) o IH]; intro B.
  - cbn [map]. replace (map (fun i => of_thread i []) (seq 0 n)) with (map (fun _ : nat => @nil A) (seq 0 n)).
    + rewrite nil_map_concat. constructor.
    + now apply map_ext.
  - cbn [map snd]. rewrite <- IH by (intros p H; apply B; now right).
    assert (Hj : (j < n)%nat) by apply (B (j, x) (or_introl eq_refl)).
    assert (E : seq 0 n = seq 0 j ++ j :: seq (S j) (n - S j)).
    { replace n with (j + S (n - S j))%nat at 1 by lia. now rewrite seq_app. }
    rewrite E, !map_app, !concat_app. cbn [map concat].
    assert (F : forall s, ~ In j s -> map (fun i => of_thread i ((j, x) :: o)) s = map (fun i => of_thread i o) s).
    { intros s Hs. apply map_ext_in. intros i Hi. unfold of_thread. cbn [filter fst].
      destruct (Nat.eqb_spec j i); [subst; tauto|reflexivity]. }
    rewrite !F by (rewrite in_seq; lia).
    replace (of_thread j ((j, x) :: o)) with (x :: of_thread j o).
    + cbn [app]. symmetry. apply Permutation_middle.
    + unfold of_thread. cbn [filter fst]. now rewrite Nat.eqb_refl.
Qed.

Lemma as_nths {A} (l : list (list A)) : l = map (fun i => nth i l []) (seq 0 (length l)).
Proof.
  apply nth_ext with (d := []) (d' := []); [now rewrite map_length, seq_length|].
  intros i Hi. rewrite (nth_indep (map _ _) [] (nth i l [])) by now rewrite map_length, seq_length.
  rewrite (map_nth (fun i => nth i l []) (seq 0 (length l)) i i).
  rewrite seq_nth by assumption. reflexivity.
Qed.

(** All done: the operations of all threads, in the order found. *)
Lemma linear_done {V A R} (sem : A -> V -> V * R) v0 v progs left res :
  linear sem v0 v progs left res -> Forall (fun l => l = []) left ->
  exists o, v = fst (one_at_a_time sem v0 o) /\ Permutation (concat progs) (map snd o) /\
    Permutation (concat res) (map snd (snd (one_at_a_time sem v0 o))).
Proof.
  intros (L1 & L2 & o & B & F & P & Q) D. exists o. split; [now symmetry|].
  assert (N : forall i, nth i left [] = []).
  { intro i. destruct (nth_in_or_default i left []) as [H|H]; [|assumption].
    rewrite Forall_forall in D. now apply D. }
  split.
  - rewrite (as_nths progs). etransitivity; [|apply (threads_perm (length progs) o B)].
    apply Permutation_refl'. f_equal. apply map_ext. intro i. now rewrite P, N, app_nil_r.
  - rewrite (as_nths res), L2. etransitivity; [|apply (threads_perm (length progs))].
    + apply Permutation_refl'. f_equal. apply map_ext. exact Q.
    + intros p H. apply (in_map fst) in H. rewrite oat_fst in H. apply in_map_iff in H as (q & <- & H). now apply B.
Qed.

Lemma zsum_perm l l' : Permutation l l' -> zsum l = zsum l'.
Proof. induction 1; cbn [zsum fold_right] in *; unfold zsum in *; lia. Qed.

Lemma oat_sum w o : forall v, 0 <= v < 2 ^ w -> Forall (fun p => amount (snd p) <> None) o ->
  fst (one_at_a_time (call_means w) v o) = (v + zsum (map (fun p => amount0 (snd p)) o)) mod 2 ^ w.
Proof.
  induction o as [|(i, a) o IH]; intros v Hv F; cbn [one_at_a_time].
  - cbn [map]. unfold zsum. cbn [fold_right fst]. rewrite Z.add_0_r, Z.mod_small; auto.
  - inversion F as [|? ? Ha F']; subst. cbn [snd] in Ha.
    assert (E : fst (call_means w a v) = (v + amount0 a) mod 2 ^ w).
    { destruct a; cbn [amount] in Ha; try congruence; cbn [call_means fst]; unfold amount0; cbn [amount];
        rewrite ?Z.add_0_r, ?Z.add_opp_r; auto. now rewrite Z.mod_small. }
    destruct (call_means w a v) as (v', x). cbn [fst] in E. subst v'.
    specialize (IH ((v + amount0 a) mod 2 ^ w) ltac:(apply Z.mod_pos_bound; lia) F').
    destruct (one_at_a_time (call_means w) ((v + amount0 a) mod 2 ^ w) o) as (v1, xs). cbn [fst] in *.
    rewrite IH, Zplus_mod_idemp_l. cbn [map snd]. unfold zsum. cbn [fold_right]. f_equal. lia.
Qed.

Lemma oat_tickets w o : forall v, 0 <= v -> Forall (fun p => snd p = CFetchAdd 1) o ->
  v + Z.of_nat (length o) <= 2 ^ w ->
  map (fun p => rval (snd p)) (snd (one_at_a_time (call_means w) v o))
  = map (fun k => v + Z.of_nat k) (seq 0 (length o)).
Proof.
  induction o as [|(i, a) o IH]; intros v Hv F B; cbn [one_at_a_time]; [reflexivity|].
  inversion F as [|? ? Ha F']; subst. cbn [snd] in Ha. subst a. cbn [call_means length] in *.
  destruct o as [|y o'].
  { cbn [one_at_a_time snd map rval length seq]. now rewrite Z.add_0_r. }
  assert (Lo : (1 <= length (y :: o'))%nat) by (cbn [length]; lia).
  remember (y :: o') as o eqn:Eo. clear Eo.
  rewrite (Z.mod_small (v + 1)) by lia.
  specialize (IH (v + 1) ltac:(lia) F' ltac:(lia)).
  destruct (one_at_a_time (call_means w) (v + 1) o) as (v1, xs). cbn [snd map rval] in *.
  rewrite IH. cbn [seq map]. rewrite <- seq_shift, map_map. f_equal; [lia|]. apply map_ext. intro k. lia.
Qed.

Lemma Forall_concat {A} (P : A -> Prop) l : Forall (Forall P) l -> Forall P (concat l).
Proof. induction 1; cbn [concat]; [constructor|apply Forall_app; auto]. Qed.

Lemma Forall_map_snd {A} (P : A -> Prop) (o : list (nat * A)) : Forall P (map snd o) -> Forall (fun p => P (snd p)) o.
Proof. rewrite Forall_map. auto. Qed.

(** ** compare_exchange loops. *)
Definition start_updaters (progs : list (list (Z -> Z))) := map (fun p => Updater CasStart p []) progs.

Definition updater_inv w v0 progs (c : conf updater) : Prop :=
  exists v, cmem c = [v] /\ linear (update_means w) v0 v progs (map utodo (cths c)) (map ugot (cths c)).

Lemma updater_turn w v0 progs t c : updater_inv w v0 progs c ->
  exists c', turn w (updater_code w) t c = Ok c' /\ updater_inv w v0 progs c'.
Proof.
  intros (v & M & I). destruct (turn_cases w (updater_code w) t c) as [(E & _)|H]; [exists c; split; auto; now exists v|].
  destruct H as (p & l & q & a & b & k & T & _ & C & E). rewrite E, M.
  rewrite T, !map_app in I. cbn [map] in I.
  destruct l as [ph td gt]. unfold updater_code in C. cbn [utodo uphase ugot] in *.
  destruct td as [|f r]; [discriminate|]. destruct ph as [|e]; inversion C; subst a b k; clear C.
  - cbn [rd nth_error bind exec to_value load order_allowed negb wr upd rval].
    eexists; split; [reflexivity|]. exists v. split; [reflexivity|].
    cbn [cths]. rewrite !map_app. cbn [map utodo ugot]. exact I.
  - cbn [rd nth_error bind]. unfold exec, compare_exchange_weak. cbn [order_allowed negb andb].
    destruct (Z.eqb_spec v e) as [Ee|Ne]; [destruct (snd t)|]; cbn [andb negb bind wr upd rflag rval].
    + eexists; split; [reflexivity|]. exists v. split; [reflexivity|].
      cbn [cths]. rewrite !map_app. cbn [map utodo ugot]. exact I.
    + subst e. eexists; split; [reflexivity|]. exists (f v mod 2 ^ w). split; [reflexivity|].
      cbn [cths]. rewrite !map_app. cbn [map utodo ugot].
      apply (linear_commit (update_means w) v0 v progs (map utodo p) f r) in I; [exact I|now rewrite !map_length].
    + eexists; split; [reflexivity|]. exists v. split; [reflexivity|].
      cbn [cths]. rewrite !map_app. cbn [map utodo ugot]. exact I.
Qed.

Lemma updater_turns w v0 progs sched : forall c, updater_inv w v0 progs c ->
  exists c', turns w (updater_code w) sched c = Ok c' /\ updater_inv w v0 progs c'.
Proof.
  induction sched as [|t r IH]; intros c I; cbn [turns]; [eauto|].
  destruct (updater_turn w v0 progs t c I) as (c1 & E & I1). rewrite E. cbn [bind]. now apply IH.
Qed.

Lemma updater_start w v0 progs : updater_inv w v0 progs (Conf [v0] (start_updaters progs)).
Proof.
  exists v0. split; [reflexivity|]. cbn [cths]. unfold start_updaters. rewrite !map_map. cbn [utodo ugot].
  rewrite map_id. apply linear_start.
Qed.
