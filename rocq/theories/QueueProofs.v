(** * QueueProofs: queue and stack refine FIFO and LIFO sequences. *)
From Verif Require Import Base UtilModel StoreModel VectorModel VectorSpec StoreProofs VectorProofs
  AssocModel AssocSpec QueueModel QueueSpec.
From Coq Require Import ZArith ZifyBool ZifyNat.
Local Open Scope nat_scope.

(** Histories against a specification with a precondition for each step. *)
Lemma run_refines_pre {S O R X} (step : S -> O -> outcome (S * R)) (spec : X -> O -> X * R)
  (pre : X -> O -> Prop) (pres : X -> list O -> Prop) (Rel : S -> X -> Prop) :
  (forall s o t, pres s (o :: t) -> pre s o /\ pres (fst (spec s o)) t) ->
  (forall v s o, Rel v s -> pre s o -> exists v', step v o = Ok (v', snd (spec s o)) /\ Rel v' (fst (spec s o))) ->
  forall ops v s, Rel v s -> pres s ops ->
  exists v', run_ops step v ops = Ok (v', snd (spec_run spec s ops)) /\ Rel v' (fst (spec_run spec s ops)).
Proof.
  intros Hp Hstep. induction ops as [|o t IH]; intros v s HR Hb; cbn [run_ops spec_run]; [eauto|].
  destruct (Hp _ _ _ Hb) as [P1 P2]. destruct (Hstep v s o HR P1) as (v' & E & R').
  rewrite E. cbn [bind]. destruct (spec s o) as [s' r]. cbn [fst snd] in *.
  destruct (IH v' s' R' P2) as (v2 & E2 & R2).
  rewrite E2. cbn [bind]. destruct (spec_run spec s' t) as [s2 rs]. cbn [fst snd] in *. eauto.
Qed.

Section F2.
  Context {A B : Type} (Q : A -> list B * bool -> Prop).
  Lemma f2_rd s t : Forall2 Q s t -> forall i, i < length t -> exists q, rd s i = Ok q /\ Q q (nth i t ([], false)).
  Proof.
    induction 1 as [|a b s t H1 H2 IH]; intros i Hi; cbn [length] in Hi; [lia|].
    destruct i as [|i]; [exists a; split; [reflexivity|exact H1]|].
    destruct (IH i ltac:(lia)) as (q & E & HQ). exists q. split; [exact E|exact HQ].
  Qed.
  Lemma f2_wr s t : Forall2 Q s t -> forall i q x, i < length t -> Q q x ->
    exists s', wr s i q = Ok s' /\ Forall2 Q s' (put t i x).
  Proof.
    induction 1 as [|a b s t H1 H2 IH]; intros i q x Hi Hx; cbn [length] in Hi; [lia|].
    destruct i as [|i]; [exists (q :: s); split; [reflexivity|]; constructor; assumption|].
    destruct (IH i q x ltac:(lia) Hx) as (s' & E & F). exists (a :: s'). unfold wr in *. cbn [upd].
    destruct (upd s i q) as [r|]; [|discriminate]. injection E as ->. split; [reflexivity|].
    cbn [put]. constructor; assumption.
  Qed.
  Lemma put_length (t : list (list B * bool)) : forall i x, length (put t i x) = length t.
  Proof. induction t as [|b t IH]; intros [|i] x; cbn [put length]; auto. Qed.
End F2.

Section Q.
  Context {T : Type}.
  Variable e : env.
  Variable es : Z.
  Hypothesis Hes : (0 < es)%Z.
  Hypothesis Henv : good_env e.
  Hypothesis Hmem : enough_memory e.

  (** Of the storage [d ++ l] the first part is dead; it is not longer than
      the live part. *)
  Definition Qinv (q : queue T) (x : list T * bool) : Prop :=
    exists d, Vinv es (qst q) (d ++ fst x) /\ length d = qfront q /\ length d <= length (fst x) /\
      (snd x = false -> d = []).

  Lemma Qinv_new b : Qinv q_new ([], b).
  Proof. exists []. split; [exact (Vinv_nil es)|]. cbn. repeat split; lia. Qed.
  Lemma q_of_ok l : (es * Z.of_nat (length l) <= 2 ^ 31)%Z -> exists q, q_of e es l = Ok q /\ Qinv q (l, false).
  Proof.
    intros H. destruct (vec_of_ok e es Hes Hmem l H) as (v & E & I). unfold q_of. rewrite E. cbn [bind].
    eexists; split; [reflexivity|]. exists []. cbn. repeat split; [apply I..|lia].
  Qed.
  Lemma Vinv_bytes v (l : list T) : Vinv es v l -> (es * Z.of_nat (length l) <= 2 ^ 31)%Z.
  Proof. intros H. pose proof (Vinv_cap es Hes v l H). destruct H as (_ & _ & _ & ?). lia. Qed.
  Lemma q_copy_ok q x : Qinv q x -> (snd x = false \/ fst x = []) -> exists q', q_copy e es q = Ok q' /\ Qinv q' (fst x, false).
  Proof.
    intros (d & I & F & L & C) H. assert (d = []) as ->.
    { destruct H as [H|H]; [auto|]. rewrite H in L. cbn in L. destruct d; [reflexivity|cbn in L; lia]. }
    unfold q_copy. rewrite (contents_ok es Hes _ _ I). cbn [bind app].
    destruct (vec_of_ok e es Hes Hmem (fst x)) as (v & E & I2); [exact (Vinv_bytes _ _ I)|].
    rewrite E. cbn [bind]. eexists; split; [reflexivity|]. exists []. cbn. repeat split; [apply I2..|lia].
  Qed.
  (** What a copy holds: the dead elements come back to life. *)
  Lemma q_copy_all q d l : Vinv es (qst q) (d ++ l) -> exists q', q_copy e es q = Ok q' /\ Qinv q' (d ++ l, false).
  Proof.
    intros I. unfold q_copy. rewrite (contents_ok es Hes _ _ I). cbn [bind].
    destruct (vec_of_ok e es Hes Hmem (d ++ l)) as (v & E & I2); [exact (Vinv_bytes _ _ I)|].
    rewrite E. cbn [bind]. eexists; split; [reflexivity|]. exists []. cbn. repeat split; [apply I2..|lia].
  Qed.
  Lemma q_size_ok q x : Qinv q x -> q_size q = Z.of_nat (length (fst x)).
  Proof.
    intros (d & I & F & L & C). unfold q_size. pose proof (Vinv_bytes _ _ I). destruct I as (_ & -> & _).
    rewrite app_length in *. rewrite F, Z.mod_small by nia. lia.
  Qed.
  Lemma q_front_ok q y l b : Qinv q (y :: l, b) -> q_front q = Ok y.
  Proof.
    intros (d & I & F & L & C). cbn [fst] in *. unfold q_front. eapply vat_ok; [exact Hes|exact I|].
    rewrite nth_error_app2 by lia. rewrite F, Nat.sub_diag. reflexivity.
  Qed.
  Lemma v_back_ok v (l : list T) y : Vinv es v (l ++ [y]) -> v_back v = Ok y.
  Proof.
    intros I. unfold v_back. pose proof I as (_ & S & _). rewrite app_length in S. cbn [length] in S.
    rewrite S, Nat.add_1_r. eapply vat_ok; [exact Hes|exact I|]. rewrite nth_error_app2, Nat.sub_diag by lia. reflexivity.
  Qed.
  Lemma q_back_ok q y l b : Qinv q (l ++ [y], b) -> q_back q = Ok y.
  Proof.
    intros (d & I & F & L & C). cbn [fst] in *. unfold q_back. rewrite app_assoc in I. exact (v_back_ok _ _ _ I).
  Qed.
  Lemma q_push_ok q l b y : Qinv q (l, b) -> (es * Z.of_nat (2 * length l + 1) <= 2 ^ 31)%Z ->
    exists q', q_push e es q y = Ok q' /\ Qinv q' (l ++ [y], b).
  Proof.
    intros (d & I & F & L & C) H. cbn [fst snd] in *. unfold q_push.
    destruct (push_back_ok e es Hes Hmem (qst q) (d ++ l) y I) as (v & E & I2).
    { rewrite app_length. nia. }
    rewrite E. cbn [bind]. eexists; split; [reflexivity|]. exists d. cbn [qst qfront fst snd].
    rewrite app_assoc. split; [exact I2|]. rewrite app_length. repeat split; [exact F|lia|exact C].
  Qed.
  Lemma rot_good_0 m l : (0 <= m)%Z -> rot_good 0 m l = true.
  Proof. intros H. unfold rot_good. pose proof (Z.mod_le m 4). rewrite Z.mod_0_l by lia. lia. Qed.
  Lemma q_pop_ok q y l b : Qinv q (y :: l, b) -> exists q', q_pop e es q = Ok q' /\ Qinv q' (l, true).
  Proof.
    intros (d & I & F & L & C). cbn [fst snd length] in *. unfold q_pop.
    pose proof I as (_ & S & _). rewrite S. rewrite app_length in *. cbn [length] in *.
    replace (d ++ y :: l) with ((d ++ [y]) ++ l) in I by (rewrite <- app_assoc; reflexivity).
    destruct (Nat.ltb_spec ((length d + Datatypes.S (length l)) / 2) (Datatypes.S (qfront q))) as [H|H].
    - destruct (erase_ok e es Hes Henv (qst q) _ 0 (Datatypes.S (qfront q)) I) as (v & E & I2).
      + rewrite !app_length. cbn [length]. lia.
      + rewrite Z.mul_0_r. apply rot_good_0. lia.
      + rewrite E. cbn [bind]. eexists; split; [reflexivity|]. exists []. cbn [qst qfront fst snd app length].
        unfold seq_erase in I2. cbn [firstn app Nat.add] in I2. rewrite <- F in I2.
        replace (skipn (Datatypes.S (length d)) ((d ++ [y]) ++ l)) with l in I2.
        2:{ replace (Datatypes.S (length d)) with (length (d ++ [y])) by (rewrite app_length; cbn; lia).
            rewrite skipn_app, skipn_all, Nat.sub_diag. reflexivity. }
        split; [exact I2|]. repeat split; lia.
    - eexists; split; [reflexivity|]. exists (d ++ [y]). cbn [qst qfront fst snd]. split; [exact I|].
      rewrite app_length. cbn [length]. repeat split; [lia| |discriminate].
      pose proof (Nat.div_le_upper_bound (length d + Datatypes.S (length l)) 2).
      pose proof (Nat.mul_div_le (length d + Datatypes.S (length l)) 2). lia.
  Qed.

  Definition Sinv (s : list (queue T)) (t : list (list T * bool)) : Prop := Forall2 Qinv s t.

  Lemma renew_ok s t i q x : Sinv s t -> i < length t -> Qinv q x ->
    exists s', q_renew s i q = Ok s' /\ Sinv s' (put t i x).
  Proof.
    intros H Hi Hq. unfold q_renew. destruct (f2_rd _ _ _ H i Hi) as (old & E & (d & I & _)). rewrite E. cbn [bind].
    destruct (deallocate_ok es Hes _ _ I) as (v & Ed & _). rewrite Ed. cbn [bind].
    exact (f2_wr _ _ _ H i q x Hi Hq).
  Qed.

  Lemma surj {A B} (p : A * B) : p = (fst p, snd p). Proof. destruct p; reflexivity. Qed.
  Lemma q_step_ok s t o : Sinv s t -> fifo_pre es t o /\ copy_pre t o ->
    exists s', q_step e es s o = Ok (s', snd (fifo_step t o)) /\ Sinv s' (fst (fifo_step t o)).
  Proof.
    intros H [P C]. unfold fifo in *. destruct o as [i|i l|i j|i j|i x|i|i|i|i|i|i j]; cbn [fifo_pre copy_pre fifo_step q_step fst snd] in *.
    - destruct (renew_ok s t i q_new ([], false) H P (Qinv_new false)) as (s' & E & I). rewrite E. cbn [bind]. eauto.
    - destruct P as [P1 P2]. destruct (q_of_ok l P2) as (q & Eq & Iq). rewrite Eq. cbn [bind].
      destruct (renew_ok s t i q _ H P1 Iq) as (s' & E & I). rewrite E. cbn [bind]. eauto.
    - destruct P as (P1 & P2 & P3 & P4). destruct (f2_rd _ _ _ H j P2) as (q & E & I). rewrite E. cbn [bind].
      destruct (q_copy_ok q _ I C) as (q' & Eq & Iq). rewrite Eq. cbn [bind].
      destruct (renew_ok s t i q' _ H P1 Iq) as (s' & E2 & I2). rewrite E2. cbn [bind]. eauto.
    - destruct P as (P1 & P2 & P3). destruct (f2_rd _ _ _ H j P2) as (q & E & I). rewrite E. cbn [bind].
      destruct (renew_ok s t i q _ H P1 I) as (s' & E2 & I2). rewrite E2. cbn [bind].
      destruct (f2_wr _ _ _ I2 j (mkq vec_nil 0) ([], false)) as (s'' & E3 & I3); [rewrite (put_length t); exact P2|exact (Qinv_new false)|].
      rewrite E3. cbn [bind]. eauto.
    - destruct P as [P1 P2]. destruct (f2_rd _ _ _ H i P1) as (q & E & I). rewrite E. cbn [bind].
      rewrite (surj (nth i t _)) in I. destruct (q_push_ok q _ _ x I P2) as (q' & Eq & Iq). rewrite Eq. cbn [bind].
      destruct (f2_wr _ _ _ H i q' _ P1 Iq) as (s' & E2 & I2). rewrite E2. cbn [bind]. eauto.
    - destruct P as [P1 P2]. destruct (f2_rd _ _ _ H i P1) as (q & E & I). rewrite E. cbn [bind].
      unfold get, fifo in *. destruct (nth i t _) as [[|y l] b]; [exfalso; apply P2; reflexivity|].
      destruct (q_pop_ok q _ _ _ I) as (q' & Eq & Iq). rewrite Eq. cbn [bind].
      destruct (f2_wr _ _ _ H i q' _ P1 Iq) as (s' & E2 & I2). rewrite E2. cbn [bind]. eauto.
    - destruct P as [P1 P2]. destruct (f2_rd _ _ _ H i P1) as (q & E & I). rewrite E. cbn [bind].
      unfold get, fifo in *. destruct (nth i t _) as [[|y l] b]; [exfalso; apply P2; reflexivity|].
      rewrite (q_front_ok _ _ _ _ I). cbn [bind fst]. eauto.
    - destruct P as [P1 P2]. destruct (f2_rd _ _ _ H i P1) as (q & E & I). rewrite E. cbn [bind].
      unfold get, fifo in *. destruct (nth i t _) as [l b]. cbn [fst] in *. destruct (exists_last P2) as (l' & y & ->).
      rewrite (q_back_ok _ _ _ _ I). cbn [bind]. rewrite rev_unit. eauto.
    - destruct (f2_rd _ _ _ H i P) as (q & E & I). rewrite E. cbn [bind]. rewrite (q_size_ok _ _ I). unfold get. eauto.
    - destruct (f2_rd _ _ _ H i P) as (q & E & I). rewrite E. cbn [bind]. unfold q_empty. rewrite (q_size_ok _ _ I).
      change (fst (nth i t ([], false))) with (get t i). destruct (get t i); cbn [length]; (eexists; split; [reflexivity|exact H]).
    - destruct P as [P1 P2]. destruct (f2_rd _ _ _ H i P1) as (a & E & I). rewrite E. cbn [bind].
      destruct (f2_rd _ _ _ H j P2) as (b & E2 & I2). rewrite E2. cbn [bind]. unfold q_less.
      rewrite (q_size_ok _ _ I), (q_size_ok _ _ I2).
      change (fst (nth i t ([], false))) with (get t i). change (fst (nth j t ([], false))) with (get t j).
      exists s. split; [|exact H]. do 3 f_equal. destruct (Nat.ltb_spec (length (get t i)) (length (get t j))); lia.
  Qed.

  Lemma Sinv_empty n : Sinv (repeat q_new n) (empty_queues n).
  Proof. unfold empty_queues. induction n as [|n IH]; cbn [repeat]; constructor; [apply Qinv_new|exact IH]. Qed.

  Lemma fifo_pres_and pre1 pre2 (ops : list (qop T)) : forall s, fifo_pres pre1 s ops -> fifo_pres pre2 s ops ->
    fifo_pres (fun s o => pre1 s o /\ pre2 s o) s ops.
  Proof. induction ops as [|o t IH]; intros s H1 H2; cbn [fifo_pres] in *; [exact I|]. intuition. Qed.

  Lemma q_run_ok n ops : fifo_pres (fifo_pre es) (empty_queues n) ops -> fifo_pres copy_pre (empty_queues n) ops ->
    exists s, run_ops (q_step e es) (repeat q_new n) ops = Ok (s, snd (spec_run fifo_step (empty_queues n) ops)) /\
      Sinv s (fst (spec_run fifo_step (empty_queues n) ops)).
  Proof.
    intros H1 H2. apply (run_refines_pre (q_step e es) fifo_step (fun s o => fifo_pre es s o /\ copy_pre s o)
      (fifo_pres (fun s o => fifo_pre es s o /\ copy_pre s o)) Sinv).
    - intros s o t H. exact H.
    - exact q_step_ok.
    - apply Sinv_empty.
    - apply fifo_pres_and; assumption.
  Qed.
  Lemma no_copies (ops : list (qop T)) : Forall (fun o => match o with QCopy _ _ => False | _ => True end) ops ->
    forall s, fifo_pres copy_pre s ops.
  Proof.
    induction 1 as [|o t H1 H2 IH]; intros s; cbn [fifo_pres]; [exact I|]. split; [destruct o; try exact I; contradiction|apply IH].
  Qed.

  (** The elements the storage holds, dead or alive. *)
  Lemma Sinv_dead s t i : Sinv s t -> i < length t ->
    exists q, rd s i = Ok q /\ vsize (qst q) <= 2 * length (get t i).
  Proof.
    intros H Hi. destruct (f2_rd _ _ _ H i Hi) as (q & E & (d & I & F & L & _)). exists q. split; [exact E|].
    destruct I as (_ & -> & _). rewrite app_length. change (fst (nth i t ([], false))) with (get t i) in *. lia.
  Qed.

  (** Equality. *)
  Variable eqb : T -> T -> bool.
  Hypothesis Heqb : forall x y, eqb x y = true <-> x = y.
  Lemma list_eqb_ok a : forall b, list_eqb eqb a b = true <-> a = b.
  Proof.
    induction a as [|x a IH]; intros [|y b]; cbn [list_eqb]; try (split; [discriminate|discriminate]); [tauto|].
    rewrite andb_true_iff, Heqb, IH. split; [intros [-> ->]; reflexivity|intros H; injection H as -> ->; tauto].
  Qed.
  Lemma q_eq_ok a b x y : Qinv a x -> Qinv b y -> exists r, q_eq eqb a b = Ok r /\
    (r = true -> fst x = fst y) /\ (snd x = false -> snd y = false -> fst x = fst y -> r = true).
  Proof.
    intros (d & I & F & L & C) (d' & I' & F' & L' & C'). unfold q_eq, v_eq.
    rewrite (contents_ok es Hes _ _ I), (contents_ok es Hes _ _ I'). cbn [bind]. eexists; split; [reflexivity|].
    rewrite andb_true_iff, list_eqb_ok, Nat.eqb_eq. split.
    - intros [E1 E2]. rewrite <- F, <- F' in E2. clear - E1 E2. revert d' E1 E2.
      induction d as [|u d IH]; intros [|u' d'] E1 E2; cbn [length app] in *; try lia; [exact E1|].
      injection E1 as -> E1. apply (IH d'); [exact E1|lia].
    - intros H1 H2 E. rewrite (C H1), (C' H2) in *. cbn [app length] in *. split; [exact E|lia].
  Qed.

  (** The stack. *)
  Lemma k_step_ok v (s : list T) o : Vinv es v (rev s) -> lifo_pre es s o ->
    exists v', k_step e es v o = Ok (v', snd (lifo_step s o)) /\ Vinv es v' (rev (fst (lifo_step s o))).
  Proof.
    intros I [B P]. destruct o as [l|x| | | |]; cbn [lifo_step k_step fst snd] in *.
    - destruct (deallocate_ok es Hes _ _ I) as (v0 & Ed & _). rewrite Ed. cbn [bind]. rewrite rev_length in B.
      destruct (vec_of_ok e es Hes Hmem l B) as (v' & E & I'). rewrite E. cbn [bind]. rewrite rev_involutive. eauto.
    - destruct (push_back_ok e es Hes Hmem v _ x I) as (v' & E & I').
      { rewrite rev_length. cbn [length] in B. rewrite Nat.add_1_r. exact B. }
      rewrite E. cbn [bind rev]. eauto.
    - destruct s as [|x s]; [contradiction|]. cbn [rev tl] in *. destruct (pop_back_ok es Hes v _ I) as (v' & E & I').
      { destruct (rev s); discriminate. }
      rewrite E. cbn [bind]. rewrite removelast_last in I'. eauto.
    - destruct s as [|x s]; [contradiction|]. cbn [rev] in I. rewrite (v_back_ok _ _ _ I). cbn [bind rev]. eauto.
    - pose proof I as (_ & S & _). rewrite rev_length in S. rewrite S. eauto.
    - pose proof I as (_ & S & _). rewrite rev_length in S. rewrite S. destruct s; cbn [length Nat.eqb]; eauto.
  Qed.
  Lemma k_run_ok (ops : list (kop T)) : lifo_pres es [] ops ->
    exists v, run_ops (k_step e es) vec_nil ops = Ok (v, snd (spec_run lifo_step [] ops)) /\
      contents v = Ok (rev (fst (spec_run lifo_step [] ops))).
  Proof.
    intros H. destruct (run_refines_pre (k_step e es) lifo_step (lifo_pre es) (lifo_pres es)
      (fun v s => Vinv es v (rev s)) (fun s o t H => H) k_step_ok ops vec_nil [] (Vinv_nil es) H) as (v & E & I).
    exists v. split; [exact E|]. exact (contents_ok es Hes _ _ I).
  Qed.
End Q.
