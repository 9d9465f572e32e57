(** * P_Fd: open modes and file descriptors (C95-C97). *)
From Verif Require Import Base UtilModel StreamModel FdModel FdSpec FdProofs.
From Coq Require Import ZArith.
Local Open Scope nat_scope.

(** ** C95: open modes *)
Theorem C95_open_modes m : asks m 0 = true \/ asks m 1 = true ->
  let fl := om_to_flags m in
  (may_read fl <-> asks m 0 = true) /\ (may_write fl <-> asks m 1 = true) /\
  (flag fl O_CREAT <-> asks m 1 = true /\ asks m 7 = false) /\
  (flag fl O_TRUNC <-> asks m 5 = true) /\
  (flag fl O_APPEND <-> asks m 2 = true \/ asks m 3 = true) /\
  (flag fl O_NONBLOCK <-> asks m 6 = true) /\
  (flag fl O_NOCTTY <-> asks m 8 = true).
Proof.
  intros H fl. subst fl. unfold asks in *. pose proof (om_facts m) as F. unfold om_check in F. cbv zeta in F.
  repeat rewrite Bool.andb_true_iff in F. destruct F as [[[[[A C] T] P] N] Y].
  rewrite (proj2 (Bool.orb_true_iff _ _) H) in A. apply Bool.andb_true_iff in A. destruct A as [R W].
  apply Bool.eqb_prop in R. apply Bool.eqb_prop in W.
  split. { unfold may_read. rewrite <- R, Bool.orb_true_iff, !Z.eqb_eq. reflexivity. }
  split. { unfold may_write. rewrite <- W, Bool.orb_true_iff, !Z.eqb_eq. reflexivity. }
  split. { apply flag_iff in C. rewrite C, Bool.andb_true_iff, Bool.negb_true_iff. reflexivity. }
  split; [now apply flag_iff in T|].
  split. { apply flag_iff in P. rewrite P, Bool.orb_true_iff. reflexivity. }
  split; [now apply flag_iff in N|now apply flag_iff in Y].
Qed.
Print Assumptions C95_open_modes.
(** The named modes (uios.h:38-51) ask for exactly one thing each. *)
Theorem C95_names b : (0 <= b)%Z ->
  asks om_in b = (b =? 0)%Z /\ asks om_out b = (b =? 1)%Z /\ asks om_app b = (b =? 2)%Z /\ asks om_ate b = (b =? 3)%Z /\
  asks om_binary b = (b =? 4)%Z /\ asks om_trunc b = (b =? 5)%Z /\ asks om_nonblock b = (b =? 6)%Z /\
  asks om_nocreate b = (b =? 7)%Z /\ asks om_noctty b = (b =? 8)%Z.
Proof.
  intros H. unfold asks.
  change om_in with (2 ^ 0)%Z. change om_out with (2 ^ 1)%Z. change om_app with (2 ^ 2)%Z. change om_ate with (2 ^ 3)%Z. change om_binary with (2 ^ 4)%Z.
  change om_trunc with (2 ^ 5)%Z. change om_nonblock with (2 ^ 6)%Z. change om_nocreate with (2 ^ 7)%Z. change om_noctty with (2 ^ 8)%Z.
  repeat match goal with |- _ /\ _ => split end; rewrite Z.pow2_bits_eqb by lia; apply Z.eqb_sym.
Qed.
Print Assumptions C95_names.
Example C95_example : om_to_flags (Z.lor om_out (Z.lor om_trunc om_app)) = Z.lor O_WRONLY (Z.lor O_CREAT (Z.lor O_TRUNC O_APPEND)) /\
  om_to_flags (Z.lor om_in om_out) = Z.lor O_RDWR O_CREAT /\ om_to_flags (Z.lor om_in (Z.lor om_out om_nocreate)) = O_RDWR /\ om_to_flags om_in = O_RDONLY.
Proof. repeat split; reflexivity. Qed.

(** ** C96: descriptors *)
(** At any point of any history each open fstream has a descriptor of its own,
    to a file that an fstream opened and that is still open; no file has been
    closed twice; the files of others are still open. *)
Theorem C96_descriptors_own keeps tab next opens closes n ops :
  sane tab next -> quiet keeps closes -> forgiving closes ops -> Forall (among n) ops ->
  let k := kern0 tab next opens closes in
  fd_run keeps (k, repeat fs_new n) ops = NoFuel \/
  exists k' fs, fd_run keeps (k, repeat fs_new n) ops = Ok (k', fs) /\ length fs = n /\
    holds_its_own k' fs /\ NoDup (k_closed k') /\ others_kept k k'.
Proof.
  intros [S1 S2] Q F A k. subst k. rewrite <- (repeat_length fs_new n) in A.
  destruct (fd_run_total keeps ops (kern0 tab next opens closes) (repeat fs_new n) A) as [E|(k' & fs & E & L)]; [left; exact E|right].
  exists k', fs. split; [exact E|]. rewrite repeat_length in L. split; [exact L|].
  pose proof (persists_run _ _ _ _ _ _ E) as P.
  apply fd_run_ok in E; [|now apply inv_start| |exact F].
  - destruct E as (V & _ & _). split; [now apply inv_own|]. split; [apply (v_nodup _ _ V)|]. eapply inv_others; eassumption.
  - split; [exact Q|]. right. apply Forall_forall. intros f Hf. apply repeat_spec in Hf. subst f. reflexivity.
Qed.
Print Assumptions C96_descriptors_own.

(** When the fstreams are destroyed, every file opened by any of them has been
    closed or given to the caller, exactly once. *)
Theorem C96_descriptors_accounted keeps tab next opens closes n ops :
  sane tab next -> quiet keeps closes -> forgiving closes ops -> Forall (among n) ops ->
  let k := kern0 tab next opens closes in
  fd_run keeps (k, repeat fs_new n) (ops ++ destroy_all n) = NoFuel \/
  exists k' fs, fd_run keeps (k, repeat fs_new n) (ops ++ destroy_all n) = Ok (k', fs) /\ accounted k' /\ others_kept k k'.
Proof.
  intros [S1 S2] Q F A k. subst k.
  assert (A' : Forall (among (length (repeat fs_new n))) (ops ++ destroy_all n)).
  { rewrite repeat_length. apply Forall_app. split; [exact A|]. unfold destroy_all. apply Forall_forall. intros o Ho.
    apply in_map_iff in Ho. destruct Ho as (i & <- & Hi). apply in_seq in Hi. cbn. lia. }
  destruct (fd_run_total keeps _ (kern0 tab next opens closes) (repeat fs_new n) A') as [E|(k' & fs & E & L)]; [left; exact E|right].
  exists k', fs. split; [exact E|]. rewrite repeat_length in L.
  pose proof (persists_run _ _ _ _ _ _ E) as P.
  assert (D : forall j, owner fs j = None).
  { destruct (fd_run_app _ _ _ _ _ E) as ([k1 fs1] & E1 & E2).
    assert (L1 : length fs1 = n).
    { rewrite Forall_app in A'. destruct (fd_run_total keeps ops (kern0 tab next opens closes) (repeat fs_new n) (proj1 A')) as [X|(a & b & X & Y)];
        rewrite E1 in X; [discriminate|]. injection X as <- <-. now rewrite repeat_length in Y. }
    rewrite <- L1 in E2. eapply destroyed; exact E2. }
  apply fd_run_ok in E; [|now apply inv_start| |].
  - destruct E as (V & _ & _). split; [|eapply inv_others; eassumption]. eapply inv_accounted; eassumption.
  - split; [exact Q|]. right. apply Forall_forall. intros f Hf. apply repeat_spec in Hf. subst f. reflexivity.
  - destruct F as [F|F]; [left; exact F|right]. apply Forall_app. split; [exact F|]. apply Forall_forall. intros o Ho.
    apply in_map_iff in Ho. destruct Ho as (i & <- & _). cbn. auto.
Qed.
Print Assumptions C96_descriptors_accounted.

(** A failed open is recorded in the state, and nothing is held. *)
Theorem C96_failed_open keeps k f name t : k_opens k = false :: t ->
  fs_open keeps k f name = NoFuel \/
  exists k' f' thrown, fs_open keeps k f name = Ok (k', f', thrown) /\ Z.testbit (fs_state f') 0 = true /\
    (thrown = false -> fs_fd f' = None) /\ k_mine k' = k_mine k.
Proof.
  intro H. destruct (fs_open_total keeps k f name) as [E|[[[k' f'] b] E]]; [left; exact E|right]. exists k', f', b. split; [exact E|].
  unfold fs_open, sys_open in E. rewrite H, bind_Ok in E. unfold fs_attach in E. cbv zeta in E.
  destruct (fs_throws badbit _).
  - injection E as <- <- <-. cbn. split; [reflexivity|]. split; [discriminate|reflexivity].
  - match type of E with context [fs_close keeps ?a ?b] => destruct (fs_close keeps a b) as [[[k1 f1] b1]| | |] eqn:Ec; try discriminate end.
    rewrite bind_Ok in E. destruct (fs_close_keeps _ _ _ _ _ _ Ec) as [St Mi]. cbn [fs_state fs_set k_mine] in St, Mi.
    destruct b1; injection E as <- <- <-; cbn [fs_fd fs_state].
    + split; [apply St; reflexivity|]. split; [discriminate|exact Mi].
    + split; [apply St; reflexivity|]. split; [reflexivity|exact Mi].
Qed.
Print Assumptions C96_failed_open.

(** Two fstreams, a failed open, a detached descriptor, a
    failing close, another thread, standard descriptors 0-2. *)
Example C96_example :
  let closes := [COk; CErr; COk; COk] in
  let ops := [FdOpen 0 [65%Z]; FdOther; FdOpen 1 [66%Z]; FdOpen 0 [67%Z]; FdDetach 1; FdOpen 1 [68%Z]; FdOpen 0 []; FdClose 1; FdOpen 1 []] in
  let tab := [Some 0; Some 1; Some 2] in
  sane tab 3 /\ quiet false closes /\ forgiving closes ops /\ Forall (among 2) ops /\
  (' (k, _) <- fd_run false (kern0 tab 3 [true; true; true; true; false; true] closes, repeat fs_new 2) (ops ++ destroy_all 2) ;;
   Ok (k_mine k, k_closed k, k_given k)) = Ok ([8; 7; 6; 5; 3], [8; 7; 6; 3], [5]).
Proof.
  cbv zeta. repeat split.
  - intros i j id. destruct i as [|[|[|[|i]]]], j as [|[|[|[|j]]]]; cbn [nth]; congruence.
  - intros i id. destruct i as [|[|[|[|i]]]]; cbn [nth]; intro E; try discriminate; injection E as <-; lia.
  - right. intros o H. cbn in H. intuition discriminate.
  - right. repeat constructor; cbn; auto.
  - repeat constructor.
Qed.

(** ** C97: where opening and closing fail the user *)
(** The names used below: what a history should guarantee. *)
Definition C97_accounted_always : Prop := forall keeps tab next opens closes n ops k' fs,
  sane tab next -> Forall (among n) ops ->
  fd_run keeps (kern0 tab next opens closes, repeat fs_new n) (ops ++ destroy_all n) = Ok (k', fs) ->
  accounted k' /\ others_kept (kern0 tab next opens closes) k'.
Lemma sane3 : sane [Some 0; Some 1; Some 2] 3.
Proof.
  split.
  - intros i j id. destruct i as [|[|[|[|i]]]], j as [|[|[|[|j]]]]; cbn [nth]; congruence.
  - intros i id. destruct i as [|[|[|[|i]]]]; cbn [nth]; intro E; try discriminate; injection E as <-; lia.
Qed.
(** On Linux an interrupted close has released the descriptor; the retry closes
    the descriptor that another thread got in between. *)
Theorem C97_eintr_refuted : ~ C97_accounted_always /\
  exists k' fs, fd_run false (kern0 [Some 0; Some 1; Some 2] 3 [true] [CIntr true; COk], repeat fs_new 1)
    [FdOpen 0 [65%Z]; FdClose 0] = Ok (k', fs) /\
    In 4 (k_closed k') /\ ~ In 4 (k_mine k').
Proof.
  split.
  - intro H. specialize (H false [Some 0; Some 1; Some 2] 3 [true] [CIntr true; COk] 1 [FdOpen 0 [65%Z]]).
    destruct (fd_run false (kern0 [Some 0; Some 1; Some 2] 3 [true] [CIntr true; COk], repeat fs_new 1) ([FdOpen 0 [65%Z]] ++ destroy_all 1))
      as [[k' fs]| | |] eqn:E; try (vm_compute in E; discriminate).
    destruct (H _ _ sane3 ltac:(repeat constructor) eq_refl) as [[_ A] _].
    vm_compute in E. injection E as <- <-. pose proof (proj2 (A 4)) as X. cbn in X. destruct (X (or_introl eq_refl)) as [Y|[]]. discriminate.
  - eexists. eexists. split; [vm_compute; reflexivity|]. split; [left; reflexivity|]. cbn. intros [X|[]]. discriminate.
Qed.
Print Assumptions C97_eintr_refuted.
(** With exceptions on, a close that fails while reopening leaks the new file;
    and the destructor closes the old number again, which may be someone
    else's by then. *)
Theorem C97_throw_refuted :
  exists k' fs, fd_run false (kern0 [Some 0; Some 1; Some 2] 3 [true; true] [CErr; COk], repeat fs_new 1)
    ([FdExceptions 0 1; FdOpen 0 [65%Z]; FdOpen 0 [66%Z]; FdOther] ++ destroy_all 1) = Ok (k', fs) /\
    (In 4 (k_mine k') /\ ~ In 4 (k_closed k' ++ k_given k')) /\
    (In 5 (k_closed k') /\ ~ In 5 (k_mine k')).
Proof.
  eexists. eexists. split; [vm_compute; reflexivity|]. cbn. intuition discriminate.
Qed.
Print Assumptions C97_throw_refuted.
(** Reopening an open fstream always loses the name of the new file. *)
Theorem C97_name_refuted keeps k f fd t c name :
  fs_fd f = Some fd -> k_opens k = true :: t -> k_closes k = COk :: c -> nth fd (k_tab k) None <> None ->
  exists k' f', fs_open keeps k f name = Ok (k', f', false) /\ fs_fd f' <> None /\ fs_name f' = [].
Proof.
  intros F O C N. unfold fs_open, sys_open. rewrite O, bind_Ok. unfold fs_attach. cbv zeta. unfold fs_close. cbn [fs_fd].
  rewrite F. cbn [close_loop k_closes length]. rewrite C. cbn [length close_loop]. unfold sys_close. cbn [k_closes k_tab].
  rewrite nth_put by apply lowest_free. destruct (Nat.eqb fd (lowest (k_tab k))); [|destruct (nth fd (k_tab k) None); [|congruence]].
  all: rewrite !bind_Ok; eexists; eexists; split; [reflexivity|]; cbn; split; [discriminate|reflexivity].
Qed.
Print Assumptions C97_name_refuted.
Example C97_name_example :
  (' (k, f, _) <- fs_open false (kern0 [] 0 [true; true] [COk]) fs_new [65%Z] ;; 
   ' (_, g, _) <- fs_open false k f [66%Z] ;; Ok (fs_name f, fs_name g)) = Ok ([65%Z], []).
Proof. reflexivity. Qed.
(** [ate] asks to begin at the end of the file; it makes every write go there. *)
Theorem C97_ate_refuted content o l : Z.land (om_to_flags (Z.lor om_out om_ate)) O_APPEND <> 0%Z /\
  fst (os_write_at (om_to_flags (Z.lor om_out om_ate)) content o l) = content ++ l.
Proof.
  split; [discriminate|]. unfold os_write_at. replace (Z.land _ O_APPEND =? 0)%Z with false by reflexivity. cbn [fst].
  rewrite firstn_all, Nat.sub_diag, skipn_all2 by lia. cbn [repeat app]. now rewrite app_nil_r.
Qed.
Print Assumptions C97_ate_refuted.
Example C97_ate_example : fst (os_write_at (om_to_flags (Z.lor om_out om_ate)) [1; 2; 3]%Z 0 [9]%Z) = [1; 2; 3; 9]%Z /\
  fst (os_write_at (om_to_flags om_out) [1; 2; 3]%Z 0 [9]%Z) = [9; 2; 3]%Z.
Proof. split; reflexivity. Qed.
(** A mode with neither [in] nor [out] asks for access mode 3. *)
Theorem C97_neither_refuted m : asks m 0 = false -> asks m 1 = false ->
  Z.land (om_to_flags m) O_ACCMODE = 3%Z /\ ~ may_read (om_to_flags m) /\ ~ may_write (om_to_flags m).
Proof.
  unfold asks. intros A B. pose proof (om_facts m) as F. unfold om_check in F. cbv zeta in F. rewrite A, B in F. cbn [orb] in F.
  repeat rewrite Bool.andb_true_iff in F. destruct F as [[[[[F _] _] _] _] _]. apply Z.eqb_eq in F.
  unfold may_read, may_write, O_RDONLY, O_RDWR, O_WRONLY, O_ACCMODE. rewrite F. repeat split; intros [X|X]; discriminate.
Qed.
Print Assumptions C97_neither_refuted.
Example C97_neither_example : asks om_app 0 = false /\ asks om_app 1 = false.
Proof. split; reflexivity. Qed.
