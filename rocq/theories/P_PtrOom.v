(** * Properties C227-C229: shared_ptr without memory; comparisons of smart pointers. *)
From Verif Require Import Base AssocModel AssocSpec PtrModel PtrSpec PtrProofs PtrUniqProofs PtrOomModel PtrOomSpec.
From Coq Require Import ZArith Permutation Bool.

Lemma start_inv n : (Z.of_nat n < 2 ^ 64)%Z -> shinv (Sh [] (repeat None n)) (SS 0 (repeat None n)).
Proof.
  intros Hn. constructor; cbn.
  - reflexivity.
  - clear. induction n; cbn; [reflexivity|now f_equal].
  - intros g o H. apply in_groups in H as (i & H). unfold var in H. rewrite nth_repeat in H. discriminate.
  - now rewrite repeat_length.
Qed.
Lemma start_swf n : swf (SS 0 (repeat None n)).
Proof.
  split.
  - intros g o o' H. apply in_groups in H as (i & H). cbn in H. unfold var in H. rewrite nth_repeat in H. discriminate.
  - intros g o H. apply in_groups in H as (i & H). cbn in H. unfold var in H. rewrite nth_repeat in H. discriminate.
Qed.
Lemma start_owned n : owned (repeat None n) = [].
Proof.
  unfold owned, groups.
  assert (F : flat_map (fun v : option (option group) => match v with Some (Some g) => [g] | _ => [] end) (repeat None n) = [])
    by (clear; induction n; cbn; auto).
  rewrite F. reflexivity.
Qed.
Lemma mem_step_ok s a o : shinv s a -> sp_pre a (fst o) ->
  exists s', mem_step s o = Ok (s', snd (ms_step a o)) /\ shinv s' (ms_after a o).
Proof.
  intros H P. destruct o as (o, b). cbn [fst] in P. unfold ms_step, ms_after.
  assert (K : fails (o, b) = false -> mem_step s (o, b) = (' (s', r) <- sh_step s o ;; Ok (s', (r, false)))).
  { intros F. unfold mem_step. cbn [snd fst]. destruct b; [reflexivity|]. destruct o as [i|i p|i j|i j|i [p|]|i j|i j|i|i|i]; try reflexivity; discriminate F. }
  destruct (fails (o, b)) eqn:F.
  - exists s. split; [|exact H]. cbn [snd]. clear K. unfold mem_step. cbn [snd fst].
    destruct o as [i|i p|i j|i j|i [p|]|i j|i j|i|i|i], b; try discriminate F; cbn [sp_pre] in P.
    + now rewrite (sh_vacant _ _ _ H P).
    + destruct P as ((Li & Vi) & N). destruct (var (sp_vars a) i) as [v|] eqn:E; [|easy].
      rewrite (sh_live _ _ _ _ H Li E), bind_Ok, (sh_get_ok _ _ _ _ H Li E), bind_Ok.
      destruct v as [(g, [y|])|]; cbn [snd]; try reflexivity. destruct (Nat.eqb_spec p y); [now subst|reflexivity].
  - rewrite (K eq_refl). destruct (sh_step_ok s a o H P) as (s' & E & Hs). exists s'. rewrite E, bind_Ok.
    split; [|exact Hs]. cbn [fst]. destruct (sp_step a o). reflexivity.
Qed.
Lemma mem_run_ok ops : forall s a, shinv s a -> ms_pres a ops ->
  exists s', run_ops mem_step s ops = Ok (s', snd (spec_run ms_step a ops)) /\ shinv s' (fst (spec_run ms_step a ops)).
Proof.
  induction ops as [|o ops IH]; intros s a H P; cbn [run_ops spec_run ms_pres] in *.
  - now exists s.
  - destruct P as (Po & P). destruct (mem_step_ok s a o H Po) as (s1 & E1 & H1). rewrite E1, bind_Ok.
    destruct (IH s1 (ms_after a o) H1 P) as (s2 & E2 & H2). rewrite E2, bind_Ok.
    assert (Q : fst (ms_step a o) = ms_after a o).
    { unfold ms_step, ms_after, sp_step. destruct (fails o); reflexivity. }
    destruct (ms_step a o) as (a', r). cbn [fst snd] in *. subst a'.
    destruct (spec_run ms_step (ms_after a o) ops) as (a'', rs). cbn [fst snd] in *. now exists s2.
Qed.
Lemma kept_run ops : forall a, ms_pres a ops -> sp_pres a (kept ops) /\
  fst (spec_run ms_step a ops) = fst (spec_run sp_step a (kept ops)) /\
  deleted (snd (spec_run ms_step a ops)) = flat_map fst (snd (spec_run sp_step a (kept ops))).
Proof.
  unfold kept. induction ops as [|o ops IH]; intros a P; [cbn; auto|]. cbn [ms_pres] in P. destruct P as (Po & P).
  specialize (IH _ P). unfold ms_after in IH. cbn [filter spec_run]. unfold ms_step at 1 3.
  destruct (fails o) eqn:F; cbn [negb].
  - destruct IH as (A & B & C). split; [exact A|]. destruct (spec_run ms_step a ops) as (a2, rs). cbn [fst snd] in *. split; [exact B|].
    unfold deleted in *. cbn [flat_map fst app]. exact C.
  - cbn [map spec_run sp_pres]. destruct IH as (A & B & C).
    assert (Q : sp_step a (fst o) = (sp_after a (fst o), snd (sp_step a (fst o)))) by reflexivity.
    destruct (sp_step a (fst o)) as (a1, r1). cbn [fst snd] in Q. injection Q as ->.
    destruct (spec_run ms_step (sp_after a (fst o)) ops) as (a2, rs).
    destruct (spec_run sp_step (sp_after a (fst o)) (map fst (filter (fun ob => negb (fails ob)) ops))) as (a3, rs3). cbn [fst snd] in *.
    split; [split; assumption|]. split; [exact B|]. unfold deleted in *. cbn [flat_map fst]. now rewrite C.
Qed.

(** ** C227 *)
(** Every history in which any allocations fail: the failing operations throw and
    nothing else happens, the others do what C47 says. *)
Theorem C227_run n ops : (Z.of_nat n < 2 ^ 64)%Z -> ms_pres (SS 0 (repeat None n)) ops ->
  exists s, run_ops mem_step (Sh [] (repeat None n)) ops = Ok (s, snd (spec_run ms_step (SS 0 (repeat None n)) ops)).
Proof.
  intros Hn P. destruct (mem_run_ok ops _ _ (start_inv n Hn) P) as (s & E & _). now exists s.
Qed.
Print Assumptions C227_run.
(** The same objects are deleted, and the same variables own the same objects, as
    if the failed operations were not in the program. *)
Theorem C227_as_if_absent n ops : ms_pres (SS 0 (repeat None n)) ops ->
  let (a, rs) := spec_run ms_step (SS 0 (repeat None n)) ops in
  let (a', rs') := spec_run sp_step (SS 0 (repeat None n)) (kept ops) in
  a = a' /\ deleted rs = flat_map fst rs' /\
  Permutation (flat_map sh_given (kept ops)) (deleted rs ++ owned (sp_vars a)).
Proof.
  intros P. destruct (kept_run ops _ P) as (K & E1 & E2).
  pose proof (sp_conserve_run (kept ops) _ (start_swf n) K) as C. cbn [sp_vars] in C. rewrite start_owned in C. cbn [app] in C.
  destruct (spec_run ms_step (SS 0 (repeat None n)) ops) as (a, rs), (spec_run sp_step (SS 0 (repeat None n)) (kept ops)) as (a', rs').
  cbn [fst snd] in *. subst a'. split; [reflexivity|]. split; [exact E2|]. now rewrite E2.
Qed.
Print Assumptions C227_as_if_absent.
(** 8 replaces 7 only when there is memory. *)
Definition C227_history : list memop :=
  [(ShOf 0 (Some 7), true); (ShCopy 1 0, false); (ShReset 0 (Some 8), false); (ShGet 0, true); (ShReset 0 (Some 9), true); (ShDestroy 1, false)].
Example C227_example : ms_pres (SS 0 (repeat None 2)) C227_history /\
  snd (spec_run ms_step (SS 0 (repeat None 2)) C227_history) =
    [(([], PNone), false); (([], PNone), false); (([], PNone), true); (([], PPtr (Some 7)), false); (([], PNone), false); (([7], PNone), false)].
Proof.
  split; [|reflexivity]. cbn. unfold is_live, is_vacant, var; cbn. repeat split; try lia; try discriminate; try congruence.
Qed.

(** ** C228 *)
(** An object that only failed operations were given (and what make_shared made
    for them) is never deleted, however the program goes on. *)
Theorem C228_leaked_refuted n ops p : ms_pres (SS 0 (repeat None n)) ops ->
  In p (flat_map (fun ob => sh_given (fst ob)) (filter fails ops)) -> ~ In p (flat_map sh_given (kept ops)) ->
  let (a, rs) := spec_run ms_step (SS 0 (repeat None n)) ops in ~ In p (deleted rs) /\ ~ In p (owned (sp_vars a)).
Proof.
  intros P _ N. pose proof (C227_as_if_absent n ops P) as C. destruct (spec_run ms_step (SS 0 (repeat None n)) ops) as (a, rs).
  destruct (spec_run sp_step (SS 0 (repeat None n)) (kept ops)) as (a', rs'). destruct C as (_ & _ & C).
  split; intros J; apply N; apply (Permutation_in p (Permutation_sym C)); apply in_or_app; auto.
Qed.
Print Assumptions C228_leaked_refuted.
Example C228_example :
  In 8 (flat_map (fun ob => sh_given (fst ob)) (filter fails C227_history)) /\ ~ In 8 (flat_map sh_given (kept C227_history)).
Proof. split; [now left|]. cbn. intros [H|[H|[]]]; discriminate H. Qed.

(** ** C229 *)
(** A shared object, a null with a count block, a null without. *)
Definition C229_ops : list shop := [ShOf 0 (Some 7); ShOf 1 None; ShDef 2].
Example C229_ops_pres : sp_pres (SS 0 (repeat None 3)) C229_ops.
Proof. cbn. unfold is_live, is_vacant, var; cbn. repeat split; try lia; try discriminate; try congruence. Qed.
Section Cmp.
  Variable addr : obj -> Z.
  Hypothesis Hpos : forall o, (0 < addr o)%Z.
  Hypothesis Hinj : forall o o', addr o = addr o' -> o = o'.
  Lemma address_eq p q : ptr_eq addr p q = true <-> p = q.
  Proof.
    unfold ptr_eq. rewrite Z.eqb_eq. destruct p as [p|], q as [q|]; cbn [address]; split; intros H; try congruence.
    - f_equal. now apply Hinj.
    - pose proof (Hpos p). lia.
    - pose proof (Hpos q). lia.
  Qed.
(** Two shared_ptrs of any reachable program: equal if they hold the same object
    (or both none, with or without a count block), ordered by address, true if not null. *)
Theorem C229_shared_partial n ops i j : (Z.of_nat n < 2 ^ 64)%Z -> sp_pres (SS 0 (repeat None n)) ops ->
  let a := fst (spec_run sp_step (SS 0 (repeat None n)) ops) in is_live (sp_vars a) i -> is_live (sp_vars a) j ->
  exists s rs e l b, run_ops sh_step (Sh [] (repeat None n)) ops = Ok (s, rs) /\
    sh_eq addr s i j = Ok e /\ (e = true <-> points_to a i = points_to a j) /\
    sh_lt addr s i j = Ok l /\ (l = true <-> (address addr (points_to a i) < address addr (points_to a j))%Z) /\
    sh_bool addr s i = Ok b /\ (b = true <-> points_to a i <> None).
Proof.
  intros Hn P a (Li & Vi) (Lj & Vj). destruct (sh_run_ok ops _ _ (start_inv n Hn) P) as (s & E & H). fold a in H.
  destruct (var (sp_vars a) i) as [v|] eqn:Ei; [|easy]. destruct (var (sp_vars a) j) as [w|] eqn:Ej; [|easy].
  assert (Pi : points_to a i = match v with Some (_, p) => p | None => None end).
  { unfold points_to. rewrite Ei. destruct v as [(g, p)|]; reflexivity. }
  assert (Pj : points_to a j = match w with Some (_, p) => p | None => None end).
  { unfold points_to. rewrite Ej. destruct w as [(g, p)|]; reflexivity. }
  exists s, (snd (spec_run sp_step (SS 0 (repeat None n)) ops)).
  exists (ptr_eq addr (points_to a i) (points_to a j)), (ptr_lt addr (points_to a i) (points_to a j)), (ptr_bool addr (points_to a i)).
  unfold sh_eq, sh_lt, sh_bool, sh_cmp.
  rewrite (sh_live _ _ _ _ H Li Ei), !bind_Ok, (sh_live _ _ _ _ H Lj Ej), !bind_Ok, (sh_get_ok _ _ _ _ H Li Ei), !bind_Ok, (sh_get_ok _ _ _ _ H Lj Ej), !bind_Ok.
  rewrite Pi, Pj. split; [exact E|]. split; [reflexivity|]. split; [apply address_eq|]. split; [reflexivity|].
  split; [apply Z.ltb_lt|]. split; [reflexivity|]. unfold ptr_bool. rewrite negb_true_iff, Z.eqb_neq.
  destruct (match v with Some (_, p) => p | None => None end) as [o|]; cbn [address]; split; intros K; try congruence.
  pose proof (Hpos o). lia.
Qed.
Theorem C229_unique_partial p q : (ptr_eq addr p q = true <-> p = q) /\
  (ptr_lt addr p q = true <-> (address addr p < address addr q)%Z) /\ (ptr_bool addr p = true <-> p <> None).
Proof.
  split; [apply address_eq|]. split; [apply Z.ltb_lt|]. unfold ptr_bool. rewrite negb_true_iff, Z.eqb_neq.
  destruct p as [o|]; cbn [address]; split; intros K; try congruence. pose proof (Hpos o). lia.
Qed.
(** auto_ptr: of two with different objects, the one with the higher address is the smaller. *)
Theorem C229_auto_refuted p q : (address addr p < address addr q)%Z -> auto_lt addr p q = false /\ auto_lt addr q p = true.
Proof. intros H. unfold auto_lt. split; [apply Z.ltb_ge; lia|now apply Z.ltb_lt]. Qed.
End Cmp.
Print Assumptions C229_shared_partial.
Print Assumptions C229_unique_partial.
Print Assumptions C229_auto_refuted.
Example C229_example : let addr := fun o : obj => Z.of_nat (o + 1) in
  (forall o, 0 < addr o)%Z /\ (forall o o', addr o = addr o' -> o = o') /\ auto_lt addr None (Some 4) = false /\
  is_live (sp_vars (fst (spec_run sp_step (SS 0 (repeat None 3)) C229_ops))) 1 /\
  is_live (sp_vars (fst (spec_run sp_step (SS 0 (repeat None 3)) C229_ops))) 2.
Proof.
  cbv zeta. split; [intros; lia|]. split; [intros; lia|]. split; [reflexivity|]. unfold is_live. cbn. split; (split; [lia|discriminate]).
Qed.
