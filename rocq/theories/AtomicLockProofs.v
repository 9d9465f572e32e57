(** * AtomicLockProofs: progress of compare_exchange loops; spin locks. *)
From Verif Require Import Base AtomicModel AtomicSpec AtomicProofs.
From Coq Require Import ZArith Permutation.
Open Scope Z_scope.

(** ** Lock freedom of the compare_exchange loop. *)
Definition cost (n : nat) (v : Z) (l : updater) : nat :=
  match utodo l with
  | [] => 0
  | _ => length (utodo l) * (n + 1) + match uphase l with
                                       | CasStart => 1
                                       | CasHave e => if Z.eqb v e then 0 else 1
                                       end
  end%nat.

Definition nsum (l : list nat) : nat := fold_right Nat.add 0%nat l.

Lemma nsum_app l1 l2 : nsum (l1 ++ l2) = (nsum l1 + nsum l2)%nat.
Proof. unfold nsum. induction l1; cbn [app fold_right]; lia. Qed.

Lemma cost_other n v v' l : (cost n v' l <= cost n v l + 1)%nat.
Proof.
  unfold cost. destruct (utodo l); [lia|]. destruct (uphase l); [lia|].
  destruct (v =? e), (v' =? e); lia.
Qed.

Lemma cost_others n v v' ls : (nsum (map (cost n v') ls) <= nsum (map (cost n v) ls) + length ls)%nat.
Proof.
  induction ls as [|l ls IH]; [cbn; lia|].
  change (nsum (map (cost n v') (l :: ls))) with (cost n v' l + nsum (map (cost n v') ls))%nat.
  change (nsum (map (cost n v) (l :: ls))) with (cost n v l + nsum (map (cost n v) ls))%nat.
  pose proof (cost_other n v v' l). cbn [length]. lia.
Qed.

Definition total (n : nat) (c : conf updater) : nat := nsum (map (cost n (nth 0 (cmem c) 0)) (cths c)).

Lemma updater_decr w c t : length (cmem c) = 1%nat -> snd t = false ->
  exists c', turn w (updater_code w) t c = Ok c' /\ length (cmem c') = 1%nat /\
    length (cths c') = length (cths c) /\
    (total (length (cths c)) c' + (if unfinished (updater_code w) c (fst t) then 1 else 0) <= total (length (cths c)) c)%nat.
Proof.
  intros LM Sp. destruct (turn_cases w (updater_code w) t c) as [(E & H)|H].
  - exists c. split; [assumption|]. split; [assumption|]. split; [reflexivity|].
    unfold unfinished. destruct H as [->|(l & -> & ->)]; lia.
  - destruct H as (p & l & q & a & b & k & T & Lp & C & E). rewrite E.
    assert (U : unfinished (updater_code w) c (fst t) = true).
    { unfold unfinished. rewrite T, <- Lp, nth_error_app2, Nat.sub_diag by lia. cbn [nth_error]. now rewrite C. }
    rewrite U. clear U E. destruct (cmem c) as [|v [|]] eqn:M; cbn [length] in LM; try lia.
    destruct l as [ph td gt]. unfold updater_code in C. cbn [utodo uphase ugot] in *.
    destruct td as [|f r]; [discriminate|].
    assert (Ln : length (cths c) = (length p + S (length q))%nat) by (rewrite T, app_length; reflexivity).
    unfold total. rewrite M, T, map_app, nsum_app. cbn [nth map].
    assert (S3 : forall x xs, nsum (x :: xs) = (x + nsum xs)%nat) by reflexivity.
    rewrite S3. rewrite T, app_length in *. cbn [length] in *. set (n := (length p + S (length q))%nat) in *.
    destruct ph as [|e]; inversion C; subst a b k; clear C.
    + cbn [rd nth_error bind exec to_value load order_allowed negb wr upd rval].
      eexists; split; [reflexivity|]. cbn [cmem cths length nth].
      split; [reflexivity|]. split; [rewrite app_length; cbn [length]; lia|].
      rewrite map_app, nsum_app. cbn [map]. rewrite S3.
      unfold cost at 2 5. cbn [utodo uphase]. rewrite Z.eqb_refl. lia.
    + cbn [rd nth_error bind]. unfold exec, compare_exchange_weak. cbn [order_allowed negb]. rewrite Sp.
      cbn [negb andb]. rewrite andb_true_r.
      destruct (Z.eqb_spec v e) as [Ee|Ne]; cbn [bind wr upd rflag rval].
      * subst e. eexists; split; [reflexivity|]. cbn [cmem cths length nth].
        split; [reflexivity|]. split; [rewrite app_length; cbn [length]; lia|].
        rewrite map_app, nsum_app. cbn [map]. rewrite S3.
        pose proof (cost_others n v (f v mod 2 ^ w) p). pose proof (cost_others n v (f v mod 2 ^ w) q).
        assert (X : (cost n v (Updater (CasHave v) (f :: r) gt) = (n + 1) + length r * (n + 1))%nat).
        { unfold cost. cbn [utodo uphase length]. rewrite Z.eqb_refl. lia. }
        assert (Y : (cost n (f v mod 2 ^ w) (Updater CasStart r (gt ++ [v])) <= length r * (n + 1) + 1)%nat).
        { unfold cost. cbn [utodo uphase length]. destruct r; cbn [length]; lia. }
        lia.
      * eexists; split; [reflexivity|]. cbn [cmem cths length nth].
        split; [reflexivity|]. split; [rewrite app_length; cbn [length]; lia|].
        rewrite map_app, nsum_app. cbn [map]. rewrite S3.
        unfold cost at 2 5. cbn [utodo uphase]. rewrite Z.eqb_refl.
        destruct (Z.eqb_spec v e); [congruence|lia].
Qed.

Lemma updater_moves w n sched : forall c, length (cmem c) = 1%nat -> length (cths c) = n ->
  Forall (fun t => snd t = false) sched ->
  (moves w (updater_code w) sched c <= total n c)%nat.
Proof.
  induction sched as [|t r IH]; intros c LM Ln F; [cbn; lia|].
  inversion F; subst. cbn [moves].
  destruct (updater_decr w c t LM) as (c' & E & LM' & Ln' & D); [assumption|].
  rewrite E. specialize (IH c' LM' Ln' ltac:(assumption)). lia.
Qed.

Lemma updater_total_start w0 progs :
  (total (length progs) (Conf [w0] (start_updaters progs))
   <= length (concat progs) * (length progs + 1) + length progs)%nat.
Proof.
  unfold total, start_updaters. cbn [cmem cths nth]. rewrite map_map.
  assert (G : forall n ps, (nsum (map (fun p => cost n w0 (Updater CasStart p [])) ps)
                            <= length (concat ps) * (n + 1) + length ps)%nat).
  { intros n ps. induction ps as [|p ps IH]; [cbn; lia|]. cbn [map concat length].
    change (nsum (?x :: ?y)) with (x + nsum y)%nat. rewrite app_length.
    assert (X : (cost n w0 (Updater CasStart p []) <= length p * (n + 1) + 1)%nat)
      by (unfold cost; cbn [utodo uphase]; destruct p; cbn [length]; lia).
    change (fold_right Nat.add 0%nat) with nsum. lia. }
  apply G.
Qed.

(** ** Spin lock. *)
Definition start_lockers (progs : list (list (Z -> Z))) := map (fun p => Locker Outside p []) progs.

(** What the phase of the thread inside implies about the variable. *)
Definition phase_ok (x : Z) (l : locker) : Prop :=
  match lphase l with
  | Outside => False
  | Entered => ltodo l <> []
  | HasRead v => v = x /\ ltodo l <> []
  | Leaving => True
  end.

Definition out l := lphase l = Outside.

Definition locker_inv v0 progs (c : conf locker) : Prop :=
  exists fl x, cmem c = [fl; x] /\
    linear plain_update_means v0 x progs (map ltodo (cths c)) (map lgot (cths c)) /\
    ((fl = 0 /\ Forall out (cths c)) \/
     (fl = 1 /\ exists p l q, cths c = p ++ l :: q /\ phase_ok x l /\ Forall out p /\ Forall out q)).

Lemma locker_outside_code l a b k : out l -> locker_code l = Some (a, b, k) ->
  exists f r, ltodo l = f :: r /\ a = 0%nat /\ b = flag_test_and_set SeqCst /\
    k = (fun x => if rflag x then Locker Outside (f :: r) (lgot l) else Locker Entered (f :: r) (lgot l)).
Proof.
  unfold out. intros O C. unfold locker_code in C. rewrite O in C.
  destruct (ltodo l) as [|f r]; [discriminate|]. inversion C; subst. exists f, r. auto.
Qed.

Lemma app_two {A} (p q p' q' : list A) x y : p ++ x :: q = p' ++ y :: q' ->
  (p = p' /\ x = y /\ q = q') \/
  (exists m, p' = p ++ x :: m /\ q = m ++ y :: q') \/
  (exists m, p = p' ++ y :: m /\ q' = m ++ x :: q).
Proof.
  revert p'; induction p as [|a p IH]; intros [|b p'] E; cbn [app] in *; inversion E; subst.
  - auto.
  - right; left. eauto.
  - right; right. eauto.
  - destruct (IH p' ltac:(assumption)) as [(-> & -> & ->)|[(m & -> & ->)|(m & -> & ->)]]; auto.
    + right; left. eauto.
    + right; right. eauto.
Qed.

(** A turn of a thread that stays outside: the lock is taken. *)
Lemma map_same {A B} (f : A -> B) p q l l' : f l = f l' -> map f (p ++ l' :: q) = map f (p ++ l :: q).
Proof. intro E. rewrite !map_app. cbn [map]. now rewrite E. Qed.

Lemma locker_turn w v0 progs t c : locker_inv v0 progs c ->
  exists c', turn w locker_code t c = Ok c' /\ locker_inv v0 progs c'.
Proof.
  intros I0. destruct I0 as (fl & x & M & I & S).
  destruct (turn_cases w locker_code t c) as [(E & _)|H].
  { exists c. split; [assumption|]. exists fl, x. auto. }
  destruct H as (p & l & q & a & b & k & T & _ & C & E). rewrite E, M. clear E.
  destruct S as [(-> & F)|(-> & p0 & l0 & q0 & T0 & Ph & Fp & Fq)].
  - rewrite T in F. apply Forall_app in F as (Fp & F). apply Forall_cons_iff in F as (Fl & Fq).
    destruct (locker_outside_code l a b k Fl C) as (f & r & Tl & -> & -> & ->).
    cbn [rd nth_error bind exec flag_test_and_set order_allowed negb wr upd Z.eqb rflag].
    eexists; split; [reflexivity|]. exists 1, x. split; [reflexivity|]. cbn [cths].
    rewrite (map_same ltodo p q l), (map_same lgot p q l), <- T by (cbn [ltodo lgot]; auto).
    split; [exact I|]. right. split; [reflexivity|]. exists p, (Locker Entered (f :: r) (lgot l)), q.
    split; [reflexivity|]. split; [cbn; discriminate|auto].
  - rewrite T0 in T. destruct (app_two _ _ _ _ _ _ T) as [(-> & -> & ->)|[(m & -> & ->)|(m & -> & ->)]].
    + (* the thread inside *)
      rewrite T0, !map_app in I. cbn [map] in I.
      destruct l as [ph td gt]. unfold locker_code in C. cbn [lphase ltodo lgot] in *. unfold phase_ok in Ph; cbn [lphase ltodo] in Ph.
      destruct ph as [| |v|].
      * tauto.
      * destruct td as [|f r]; [discriminate|]. inversion C; subst a b k; clear C.
        cbn [rd nth_error bind exec order_allowed negb wr upd rval].
        eexists; split; [reflexivity|]. exists 1, x. split; [reflexivity|].
        cbn [cths]. rewrite !map_app. cbn [map ltodo lgot]. split; [exact I|].
        right. split; [reflexivity|]. eexists p, _, q. split; [reflexivity|].
        cbn [phase_ok lphase ltodo]. repeat split; auto.
      * destruct Ph as (-> & N). destruct td as [|f r]; [discriminate|]. inversion C; subst a b k; clear C.
        cbn [rd nth_error bind exec order_allowed negb wr upd rval].
        eexists; split; [reflexivity|]. exists 1, (f x). split; [reflexivity|].
        cbn [cths]. rewrite !map_app. cbn [map ltodo lgot].
        split. { apply (linear_commit plain_update_means v0 x progs (map ltodo p) f r) in I; [exact I|now rewrite !map_length]. }
        right. split; [reflexivity|]. eexists p, _, q. split; [reflexivity|]. repeat split; auto.
      * inversion C; subst a b k; clear C.
        cbn [rd nth_error bind exec flag_clear order_allowed negb wr upd rval].
        eexists; split; [reflexivity|]. exists 0, x. split; [reflexivity|].
        cbn [cths]. rewrite !map_app. cbn [map ltodo lgot]. split; [exact I|].
        left. split; [reflexivity|]. apply Forall_app. split; [assumption|]. constructor; [reflexivity|assumption].
    + (* another thread, behind the one inside *)
      apply Forall_app in Fq as (Fm & Fq'). apply Forall_cons_iff in Fq' as (Fl & Fq').
      destruct (locker_outside_code l a b k Fl C) as (f & r & Tl & -> & -> & ->).
      cbn [rd nth_error bind exec flag_test_and_set order_allowed negb wr upd Z.eqb rflag].
      eexists; split; [reflexivity|]. exists 1, x. split; [reflexivity|]. cbn [cths].
      rewrite (map_same ltodo _ q l), (map_same lgot _ q l) by (cbn [ltodo lgot]; auto).
      rewrite <- T, <- T0. split; [exact I|]. right. split; [reflexivity|].
      exists p0, l0, (m ++ Locker Outside (f :: r) (lgot l) :: q).
      split; [now rewrite <- app_assoc|]. split; [assumption|]. split; [assumption|].
      apply Forall_app. split; [assumption|]. constructor; [reflexivity|assumption].
    + apply Forall_app in Fp as (Fp' & Fm). apply Forall_cons_iff in Fm as (Fl & Fm).
      destruct (locker_outside_code l a b k Fl C) as (f & r & Tl & -> & -> & ->).
      cbn [rd nth_error bind exec flag_test_and_set order_allowed negb wr upd Z.eqb rflag].
      eexists; split; [reflexivity|]. exists 1, x. split; [reflexivity|]. cbn [cths].
      rewrite (map_same ltodo _ _ l), (map_same lgot _ _ l) by (cbn [ltodo lgot]; auto).
      rewrite <- T, <- T0. split; [exact I|]. right. split; [reflexivity|].
      exists (p ++ Locker Outside (f :: r) (lgot l) :: m), l0, q0.
      split; [now rewrite <- app_assoc|]. split; [assumption|]. split; [|assumption].
      apply Forall_app. split; [assumption|]. constructor; [reflexivity|assumption].
Qed.

Lemma locker_turns w v0 progs sched : forall c, locker_inv v0 progs c ->
  exists c', turns w locker_code sched c = Ok c' /\ locker_inv v0 progs c'.
Proof.
  induction sched as [|t r IH]; intros c I; cbn [turns]; [eauto|].
  destruct (locker_turn w v0 progs t c I) as (c1 & E & I1). rewrite E. cbn [bind]. now apply IH.
Qed.

Lemma locker_start v0 progs : locker_inv v0 progs (Conf [0; v0] (start_lockers progs)).
Proof.
  exists 0, v0. split; [reflexivity|]. cbn [cths]. unfold start_lockers. rewrite !map_map. cbn [ltodo lgot].
  rewrite map_id. split; [apply linear_start|]. left. split; [reflexivity|]. rewrite Forall_map.
  apply Forall_forall. reflexivity.
Qed.

(** Nobody gets stuck: some schedule lets every thread finish. *)
Definition lcost (l : locker) : nat :=
  match lphase l with
  | Outside => 4 * length (ltodo l)
  | Entered => 4 * length (ltodo l) - 1
  | HasRead _ => 4 * length (ltodo l) - 2
  | Leaving => 4 * length (ltodo l) + 1
  end.

Definition ltotal (c : conf locker) := nsum (map lcost (cths c)).

Lemma ltotal_mid m p l q : ltotal (Conf m (p ++ l :: q)) = (nsum (map lcost p) + lcost l + nsum (map lcost q))%nat.
Proof. unfold ltotal. cbn [cths]. rewrite map_app, nsum_app. cbn [map]. change (nsum (?x :: ?y)) with (x + nsum y)%nat. lia. Qed.

Lemma locker_progress w v0 progs c : locker_inv v0 progs c -> (0 < ltotal c)%nat ->
  exists t c', turn w locker_code t c = Ok c' /\ (ltotal c' < ltotal c)%nat.
Proof.
  intros I0 Pos. pose proof I0 as I1. destruct I0 as (fl & x & M & I & S).
  assert (K : exists p l q a b k, cths c = p ++ l :: q /\ locker_code l = Some (a, b, k) /\
             exists m r m', nth_error (cmem c) a = Some m /\ exec w b false m = Ok (m', r) /\
             (lcost (k r) < lcost l)%nat).
  { destruct S as [(-> & F)|(-> & p & l & q & T & Ph & Fp & Fq)].
    - assert (W : exists l, In l (cths c) /\ ltodo l <> []).
      { clear - F Pos. unfold ltotal in Pos. induction (cths c) as [|l ls IH]; [cbn in Pos; lia|].
        cbn [map] in Pos. change (nsum (?x :: ?y)) with (x + nsum y)%nat in Pos.
        apply Forall_cons_iff in F as (Fl & F). destruct (ltodo l) as [|f r] eqn:E.
        - unfold lcost at 1 in Pos. rewrite Fl, E in Pos. cbn [length Nat.mul] in Pos.
          change (nsum (?x :: ?y)) with (x + nsum y)%nat in Pos.
          destruct (IH F) as (l1 & H1 & H2); [cbn in Pos; exact Pos|]. exists l1. split; [now right|assumption].
        - exists l. split; [now left|congruence]. }
      destruct W as (l & Hl & N). apply in_split in Hl as (p & q & T).
      rewrite T in F. apply Forall_app in F as (_ & F). apply Forall_cons_iff in F as (Fl & _). unfold out in Fl.
      destruct (ltodo l) as [|f r] eqn:E; [congruence|].
      exists p, l, q. unfold locker_code. rewrite Fl, E. do 3 eexists. split; [assumption|]. split; [reflexivity|].
      rewrite M. cbn [nth_error]. do 3 eexists. split; [reflexivity|]. split; [reflexivity|].
      cbn [rflag negb Z.eqb]. unfold lcost. rewrite Fl, E. cbn [lphase ltodo length]. lia.
    - exists p, l, q. destruct l as [ph td gt]. unfold phase_ok in Ph; cbn [lphase ltodo] in Ph. unfold locker_code. cbn [lphase ltodo lgot].
      destruct ph as [| |v|]; [tauto| | |].
      + destruct td as [|f r]; [congruence|]. do 3 eexists. split; [assumption|]. split; [reflexivity|].
        rewrite M. cbn [nth_error]. do 3 eexists. split; [reflexivity|]. split; [reflexivity|].
        unfold lcost. cbn [lphase ltodo length rval]. lia.
      + destruct td as [|f r]; [tauto|]. do 3 eexists. split; [assumption|]. split; [reflexivity|].
        rewrite M. cbn [nth_error]. do 3 eexists. split; [reflexivity|]. split; [reflexivity|].
        unfold lcost. cbn [lphase ltodo length rval]. lia.
      + do 3 eexists. split; [assumption|]. split; [reflexivity|].
        rewrite M. cbn [nth_error]. do 3 eexists. split; [reflexivity|]. split; [reflexivity|].
        unfold lcost. cbn [lphase ltodo length rval]. lia. }
  destruct K as (p & l & q & a & b & k & T & C & m & r & m' & N & X & D).
  exists (length p, false). unfold turn. cbn [fst snd].
  rewrite T, nth_error_app2, Nat.sub_diag by lia. cbn [nth_error]. rewrite C.
  assert (R : rd (cmem c) a = Ok m) by now apply rd_nth_error.
  rewrite R. cbn [bind]. rewrite X. cbn [bind].
  assert (exists mm, wr (cmem c) a m' = Ok mm) as (mm & ->).
  { unfold wr. destruct (upd_lt (cmem c) a m') as (mm & ->); [now apply nth_error_Some; rewrite N|]. eauto. }
  cbn [bind]. rewrite wr_app. cbn [bind]. eexists; split; [reflexivity|].
  rewrite ltotal_mid. unfold ltotal. rewrite T, map_app, nsum_app. cbn [map].
  change (nsum (?x :: ?y)) with (x + nsum y)%nat. lia.
Qed.

Lemma ltotal_0 c : ltotal c = 0%nat -> Forall (fun l => ltodo l = []) (cths c).
Proof.
  unfold ltotal. induction (cths c) as [|l ls IH]; intro H; [constructor|].
  cbn [map] in H. change (nsum (?x :: ?y)) with (x + nsum y)%nat in H.
  constructor; [|apply IH; lia]. unfold lcost in H. destruct (ltodo l); [reflexivity|].
  destruct (lphase l); cbn [length] in H; lia.
Qed.

Lemma locker_finish w v0 progs : forall n c, (ltotal c <= n)%nat -> locker_inv v0 progs c ->
  exists sched c', turns w locker_code sched c = Ok c' /\ Forall (fun l => ltodo l = []) (cths c').
Proof.
  induction n as [|n IH]; intros c B I.
  - exists [], c. split; [reflexivity|]. apply ltotal_0. lia.
  - destruct (Nat.eq_dec (ltotal c) 0) as [Z0|Z0].
    + exists [], c. split; [reflexivity|]. now apply ltotal_0.
    + destruct (locker_progress w v0 progs c I) as (t & c1 & E & D); [lia|].
      destruct (locker_turn w v0 progs t c I) as (c1' & E' & I1). rewrite E in E'. inversion E'; subst c1'.
      destruct (IH c1) as (s & c2 & E2 & F2); [lia|assumption|].
      exists (t :: s), c2. cbn [turns]. rewrite E. cbn [bind]. auto.
Qed.
