(** * P_Life: opening, closing and destroying an ofstream (C157-C160). *)
From Verif Require Import Base UtilModel StoreModel VectorSpec MemModel StringModel StreamModel FileModel FileSpec FdModel OStrModel OStrSpec OStrProofs OStrRun OStrFile P_Text LifeModel LifeSpec LifeProofs LifeKeep.
From Coq Require Import ZArith ZifyBool ZifyNat Lia.
Local Open Scope Z_scope.

Lemma new_idle e nul h l : has_nul h nul -> malloc_ok e 4096 = true -> l_new e nul h = Ok l -> Idle e nul l /\ l_done l = [].
Proof.
  intros Hn M H. unfold l_new in H. destruct (of_default_ok e nul h (mkf 0 0 [] [] []) Hn M) as (s & E & I & F & C).
  rewrite E in H. cbn [bind] in H. injection H as <-. split; [|reflexivity]. unfold Idle. cbn [l_fd l_s]. rewrite F, C.
  cbn [f_exc f_out]. split; [reflexivity|]. split; [exact I|]. split; [lia|]. auto.
Qed.
(** A stream constructed with a descriptor or with a file name that could be opened. *)
Definition constructed (e : env) (nul : ptr) (h : heap) (fd : nat) (sched : list sysres) (l : life) : Prop :=
  l_new_fd e nul h fd sched = Ok l \/ l_new_named e nul h fd sched = Ok l.
Lemma constructed_ready e nul h fd sched l : has_nul h nul -> malloc_ok e 4096 = true -> constructed e nul h fd sched l ->
  exists s, l = mkl s (Some fd) [] /\ Ready e nul sched s.
Proof.
  intros Hn M [H|H]; [unfold l_new_fd in H|unfold l_new_named, of_named in H].
  - destruct (of_default_ok e nul h (mkf 0 0 [] [] sched) Hn M) as (s & E & I & F & C). rewrite E in H. cbn [bind] in H. injection H as <-.
    exists s. split; [reflexivity|]. unfold Ready. rewrite F, C. cbn [f_state f_exc f_out f_sched]. split; [exact I|]. split; [lia|]. auto.
  - destruct (oss_default_ok e nul h (mkf 0 0 [] [] sched) Hn) as (s & E & I & F & _ & C). rewrite E in H. cbn [bind] in H. injection H as <-.
    exists s. split; [reflexivity|]. unfold Ready. rewrite F, C. cbn [f_state f_exc f_out f_sched]. split; [exact I|]. split; [lia|]. auto.
Qed.

(** ** C157: if close() returns and the stream is good, everything issued since
    the file was opened is in that file, and nothing else; whatever the answers
    of write(2) and close(2) were. *)
Theorem C157_sessions : forall e nul h fuel l ss l' rss,
  good_env e -> malloc_ok e 4096 = true -> (forall n, malloc_ok e n = true -> n <= 2 ^ 30) -> has_nul h nul -> (33 <= fuel)%nat ->
  l_new e nul h = Ok l -> Forall (fun x => moderate (ss_ops x)) ss ->
  srun e nul fuel ss l = Ok (l', rss) -> Forall closed_well rss ->
  exists Ws, length Ws = length ss /\ length rss = length ss /\
    Forall2 (fun xr W => issued (fst xr) (snd xr) W) (combine ss rss) Ws /\
    l_done l' = combine (map ss_fd ss) Ws.
Proof.
  intros e nul h fuel l ss l' rss Henv M Hlim Hn Hfu Hl HF R HC.
  destruct (new_idle e nul h l Hn M Hl) as (I & D).
  destruct (srun_ok e nul Henv Hlim fuel Hfu ss l I HF l' rss R HC) as (Ws & F2 & L1 & L2 & D' & _).
  exists Ws. rewrite D in D'. auto.
Qed.
Print Assumptions C157_sessions.
Example C157_example : exists l l' rss,
  l_new small_env lnul lit = Ok l /\
  srun small_env lnul 33 [mkss 3 [SOk 1; SIntr; SOk 9] [OWrite [1; 2]; OPut 3] [CIntr false; COk];
                          mkss 4 [SAgain; SOk 5; SOk 5] [OPut 4; OFlush; OFormat [5; 6]] [COk]] l = Ok (l', rss) /\
  Forall closed_well rss /\ l_done l' = [(3%nat, [1; 2; 3]); (4%nat, [4; 5; 6])].
Proof.
  eexists _, _, _. split; [reflexivity|]. split; [vm_compute; reflexivity|]. split; [|reflexivity].
  constructor; [|constructor; [|constructor]].
  - exists [(Val tt, 0); (Val tt, 0); (Val tt, 0)]. reflexivity.
  - exists [(Val tt, 0); (Val tt, 0); (Thrown bad_alloc, 0); (Val tt, 0)]. reflexivity.
Qed.

Theorem C157_constructed : forall e nul h fuel fd sched l ops c,
  good_env e -> malloc_ok e 4096 = true -> (forall n, malloc_ok e n = true -> n <= 2 ^ 30) -> has_nul h nul -> (33 <= fuel)%nat ->
  constructed e nul h fd sched l -> moderate ops ->
  lrun e nul fuel (map LOp ops ++ [LClose c]) l <> UB /\
  forall l' rs, lrun e nul fuel (map LOp ops ++ [LClose c]) l = Ok (l', rs ++ [(Val tt, 0)]) ->
    exists W, contributions ops (map fst rs) W /\ l_done l' = [(fd, W)] /\ l_fd l' = None.
Proof.
  intros e nul h fuel fd sched l ops c Henv M Hlim Hn Hfu Hl HF.
  destruct (constructed_ready e nul h fd sched l Hn M Hl) as (s & -> & R).
  destruct (session_body e nul Henv Hlim fuel Hfu sched s fd [] ops c R HF) as (U & B). split; [exact U|].
  intros l' rs H. destruct (B l' _ H) as (W & C & D & I); [exists rs; reflexivity|]. exists W. split; [|split; [exact D|apply I]].
  pose proof (lrun_length e nul fuel _ _ _ _ H) as L. rewrite !app_length, map_length in L. cbn [length] in L.
  assert (L' : length ops = length rs) by lia. rewrite L', firstn_app, firstn_all, Nat.sub_diag in C. cbn [firstn] in C. rewrite app_nil_r in C. exact C.
Qed.
Print Assumptions C157_constructed.
Example C157_constructed_example : exists l l' rs,
  constructed small_env lnul lit 3 [SErr; SOk 9] l /\
  lrun small_env lnul 33 (map LOp [OPut 1; OFlush; OClear] ++ [LClose [COk]]) l = Ok (l', rs ++ [(Val tt, 0)]) /\ l_done l' = [(3%nat, [1])].
Proof.
  eexists _, _, [(Val tt, 0); (Thrown bad_alloc, 0); (Val tt, 0)]. split; [right; reflexivity|]. split; [vm_compute; reflexivity|]. reflexivity.
Qed.

(** ** C158: the destructor delivers what is pending and closes the descriptor,
    if the file accepts data. *)
Theorem C158_destructor : forall e nul h fuel fd sched l ops c,
  good_env e -> malloc_ok e 4096 = true -> (forall n, malloc_ok e n = true -> n <= 2 ^ 30) -> has_nul h nul -> (33 <= fuel)%nat ->
  constructed e nul h fd sched l -> moderate ops -> accepting sched ->
  forall l' rs, lrun e nul fuel (map LOp ops) l = Ok (l', rs) ->
  exists W, contributions ops (map fst rs) W /\ l_destroy e nul fuel c l' <> UB /\
    forall l'', l_destroy e nul fuel c l' = Ok l'' ->
      l_fd l'' = None /\
      ((2 < fd)%nat -> l_done l'' = [(fd, W)]) /\
      ((fd <= 2)%nat -> l_done l'' = [] /\ f_out (s_file (l_s l'')) = W).
Proof.
  intros e nul h fuel fd sched l ops c Henv M Hlim Hn Hfu Hl HF HA.
  destruct (constructed_ready e nul h fd sched l Hn M Hl) as (s & -> & R).
  exact (destroy_body e nul Henv Hlim fuel Hfu sched s fd ops c R HF HA).
Qed.
Print Assumptions C158_destructor.
Example C158_example : exists l l' l'' rs,
  constructed small_env lnul lit 7 [SOk 2; SOk 2] l /\ accepting [SOk 2; SOk 2] /\
  lrun small_env lnul 33 (map LOp [OPut 1; OWrite [2; 3]]) l = Ok (l', rs) /\ f_out (s_file (l_s l')) <> [1; 2; 3] /\
  l_destroy small_env lnul 33 [COk] l' = Ok l'' /\ l_done l'' = [(7%nat, [1; 2; 3])].
Proof.
  eexists _, _, _, _. split; [right; reflexivity|]. split; [repeat constructor|]. split; [vm_compute; reflexivity|].
  split; [vm_compute; discriminate|]. split; [vm_compute; reflexivity|]. reflexivity.
Qed.

(** ** C159: open() that fails leaves the stream bad and without a file, or
    throws if it was asked to. *)
Lemma file_close_none c l l' : file_close c l = Ok (l', Val tt) -> l_fd l' = None /\ forall i, Z.testbit (f_state (s_file (l_s l))) i = true -> Z.testbit (f_state (s_file (l_s l'))) i = true.
Proof.
  unfold file_close. destruct (l_fd l) as [fd|] eqn:F.
  - induction c as [|a c IH]; cbn [l_fclose]; [discriminate|]. destruct a as [|o|].
    + intros H. injection H as <-. split; [reflexivity|]. intros i Hi. exact Hi.
    + exact IH.
    + cbv zeta. destruct (_ =? 0); [|discriminate]. intros H. injection H as <-. split; [reflexivity|]. intros i Hi.
      cbn [l_detach l_s on_s put_fstate sput_file s_file f_state]. rewrite Z.lor_spec, Hi. reflexivity.
  - intros H. injection H as <-. split; [exact F|]. auto.
Qed.
Theorem C159_failed_open : forall c l l' r, l_open None c l = Ok (l', r) ->
  (f_exc (s_file (l_s l)) = 0 -> r = Val tt) /\
  (r = Val tt -> Z.testbit (s_state (l_s l')) 0 = true /\ l_fd l' = None).
Proof.
  intros c l l' r H. unfold l_open, file_open in H. cbv zeta in H.
  destruct (negb (Z.land (f_exc (s_file (l_s (on_s (put_fstate 0) l)))) badbit =? 0)) eqn:Ex.
  - cbn [bind] in H. injection H as _ <-. split; [|discriminate]. intros X. cbn [on_s l_s put_fstate sput_file s_file f_exc] in Ex. rewrite X in Ex. discriminate.
  - destruct (file_close c (on_s (put_fstate badbit) (on_s (put_fstate 0) l))) as [[l1 [[]|x]]| | |] eqn:Ec; cbn [bind] in H; try discriminate.
    + destruct (file_close_none _ _ _ Ec) as (F & K). specialize (K 0 eq_refl).
      unfold on_stream, no_file in H. cbn [l_fd] in H. unfold of_clear in H. cbn [on_s l_s l_fd l_done] in H. injection H as <- <-.
      split; [reflexivity|]. intros _. cbn [l_s sput_state s_state l_fd]. split; [exact K|reflexivity].
    + injection H as _ <-. split; [|discriminate]. intros X. exfalso. unfold file_close in Ec. cbn [on_s l_fd] in Ec. destruct (l_fd l) as [fd|]; [|discriminate].
      revert Ec. induction c as [|a c IH]; cbn [l_fclose]; [discriminate|]. destruct a; [discriminate|exact IH|]. cbv zeta.
      cbn [on_s l_s put_fstate sput_file s_file f_exc]. rewrite X. cbn [Z.land Z.eqb]. discriminate.
Qed.
Print Assumptions C159_failed_open.
Example C159_example : exists l l', constructed small_env lnul lit 3 [] l /\ l_open None [COk] l = Ok (l', Val tt) /\ s_state (l_s l') = 1 /\ l_done l' = [(3%nat, [])].
Proof. eexists _, _. split; [right; reflexivity|]. split; [vm_compute; reflexivity|]. split; reflexivity. Qed.

(** ** C160: what the life of an ofstream does not guarantee. *)
(** open() without close(): what was written for the old file and not yet
    flushed goes into the new one, every operation returns and the stream is
    good. *)
Theorem C160_reopen_refuted : exists l l', constructed small_env lnul lit 3 [SOk 9] l /\
  lrun small_env lnul 33 [LOp (OWrite [1; 2]); LOpen (Some (4%nat, [SOk 9])) [COk]; LOp (OPut 3); LClose [COk]] l =
    Ok (l', repeat (Val tt, 0) 4) /\
  l_done l' = [(3%nat, []); (4%nat, [1; 2; 3])].
Proof. eexists _, _. split; [right; reflexivity|]. split; [vm_compute; reflexivity|]. reflexivity. Qed.
Print Assumptions C160_reopen_refuted.
(** What is written to a stream without a file is not reported as an error and
    goes into the file opened later. *)
Theorem C160_unopened_refuted : exists l l', l_new small_env lnul lit = Ok l /\
  lrun small_env lnul 33 [LOp (OWrite [1; 2]); LOpen (Some (4%nat, [SOk 9])) []; LOp (OPut 3); LClose [COk]] l =
    Ok (l', repeat (Val tt, 0) 4) /\
  l_done l' = [(4%nat, [1; 2; 3])].
Proof. eexists _, _. split; [reflexivity|]. split; [vm_compute; reflexivity|]. reflexivity. Qed.
Print Assumptions C160_unopened_refuted.
(** A failure of close(2) sets no state of the stream: close() returns, the
    stream is good; only the file object inside it knows. *)
Theorem C160_close_error_refuted : exists l l', constructed small_env lnul lit 3 [SOk 9] l /\
  lrun small_env lnul 33 [LOp (OWrite [1; 2]); LClose [CErr]] l = Ok (l', repeat (Val tt, 0) 2) /\
  s_state (l_s l') = 0 /\ f_state (s_file (l_s l')) = Z.lor badbit failbit.
Proof. eexists _, _. split; [right; reflexivity|]. split; [vm_compute; reflexivity|]. split; reflexivity. Qed.
Print Assumptions C160_close_error_refuted.
(** close() on a file that fails does not close it: it throws bad_alloc after
    taking all the memory, and the descriptor stays open. *)
Theorem C160_close_keeps_refuted : exists l l', constructed small_env lnul lit 3 [SErr] l /\
  lrun small_env lnul 33 [LOp (OWrite [1; 2]); LClose [COk]] l = Ok (l', [(Val tt, 0); (Thrown bad_alloc, 0)]) /\
  l_fd l' = Some 3%nat /\ l_done l' = [] /\ mcap (s_buf (l_s l')) = 4096.
Proof. eexists _, _. split; [right; reflexivity|]. split; [vm_compute; reflexivity|]. repeat split; reflexivity. Qed.
Print Assumptions C160_close_keeps_refuted.
(** The destructor does not close a file whose descriptor is 0, 1 or 2, although
    the stream opened it itself. *)
Theorem C160_low_descriptor_refuted : exists l l', l_new small_env lnul lit = Ok l /\
  (' (l, _) <- lrun small_env lnul 33 [LOpen (Some (0%nat, [SOk 9])) []; LOp (OPut 3)] l ;; l_destroy small_env lnul 33 [COk] l) = Ok l' /\
  l_done l' = [] /\ f_out (s_file (l_s l')) = [3].
Proof. eexists _, _. split; [reflexivity|]. split; [vm_compute; reflexivity|]. split; reflexivity. Qed.
Print Assumptions C160_low_descriptor_refuted.
(** flush() and close() of a stream without a file, something having been
    written, throw bad_alloc after taking all the memory, although no exceptions
    were asked for; the stream is good before and after. *)
Theorem C160_flush_unopened_refuted : exists l l' l'', l_new small_env lnul lit = Ok l /\
  lrun small_env lnul 33 [LOp (OPut 1); LOp OFlush] l = Ok (l', [(Val tt, 0); (Thrown bad_alloc, 0)]) /\
  f_state (s_file (l_s l')) = failbit /\ mcap (s_buf (l_s l')) = 4096 /\
  lrun small_env lnul 33 [LOp (OPut 1); LClose [COk]] l = Ok (l'', [(Val tt, 0); (Thrown bad_alloc, 0)]).
Proof.
  eexists _, _, _. split; [reflexivity|]. split; [vm_compute; reflexivity|]. split; [reflexivity|]. split; [reflexivity|]. vm_compute; reflexivity.
Qed.
Print Assumptions C160_flush_unopened_refuted.
(** After open() failed the stream is bad, and flush() then does nothing. *)
Example C159_flush_after_failed_open : exists l l', l_new small_env lnul lit = Ok l /\
  lrun small_env lnul 33 [LOp (OPut 1); LOpen None [COk]; LOp OFlush] l = Ok (l', [(Val tt, 0); (Val tt, 1); (Val tt, 1)]) /\ l_done l' = [].
Proof. eexists _, _. split; [reflexivity|]. split; [vm_compute; reflexivity|reflexivity]. Qed.
