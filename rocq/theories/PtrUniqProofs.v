(** * PtrUniqProofs: unique ownership, and the count under concurrency. *)
From Verif Require Import Base AssocModel AssocSpec PtrModel PtrSpec PtrProofs.
From Coq Require Import ZArith Permutation.

(** ** unique_ptr, auto_ptr *)
Definition usable (f : flavour) : Prop := f <> UniqArray true.

Lemma u_reset_ok f cur p : usable f -> (forall a b, cur = Some a -> p = Some b -> a <> b) -> u_reset f cur p = Ok (p, del cur).
Proof.
  intros F H. unfold u_reset. destruct f as [| |[]]; [| |exfalso; now apply F|];
    destruct cur as [a|], p as [b|]; cbn; try reflexivity;
    (destruct (Nat.eqb_spec a b); [exfalso; now apply (H a b)|reflexivity]).
Qed.

Lemma u_step_ok f vs o : usable f -> us_pre vs o -> u_step f vs o = Ok (us_step vs o).
Proof.
  intros F Hp. destruct o as [i p|i j|i p|i j|i|i j|i|i]; cbn [u_step us_step us_pre] in *.
  - rewrite (vacant_ok _ _ Hp), bind_Ok, set_ok, bind_Ok by apply Hp. reflexivity.
  - destruct Hp as (Hi & Hj). rewrite (vacant_ok _ _ Hi), bind_Ok. apply is_live_some in Hj as (p & Hj & Ej). destruct Hi as (Hi & Ei).
    rewrite (live_ok _ _ _ Hj Ej), bind_Ok, set_ok, bind_Ok, set_ok, bind_Ok, Ej by (rewrite ?put_length; assumption). reflexivity.
  - destruct Hp as (Hi & Hp). apply is_live_some in Hi as (c & Hi & Ei). rewrite Ei in *.
    rewrite (live_ok _ _ _ Hi Ei), bind_Ok, u_reset_ok, bind_Ok, set_ok, bind_Ok; auto.
    intros a b -> ->. congruence.
  - destruct Hp as (Hi & Hj & Hp). apply is_live_some in Hi as (c & Hi & Ei). apply is_live_some in Hj as (p & Hj & Ej).
    rewrite (live_ok _ _ _ Hj Ej), bind_Ok, set_ok, bind_Ok by assumption.
    destruct (Nat.eqb_spec i j) as [<-|N].
    + rewrite (live_ok _ _ None), bind_Ok; [|now rewrite put_length|now rewrite var_put, Nat.eqb_refl].
      rewrite u_reset_ok, bind_Ok, set_ok, bind_Ok; [|now rewrite put_length|assumption|discriminate].
      rewrite put_put by assumption.
      assert (E : put vs i (Some p) = vs); [|now rewrite E].
      destruct (put_split vs i None Hi) as (a & b & _ & E & P). rewrite P. fold (var vs i) in E. rewrite Ej in E. now symmetry.
    + rewrite (live_ok _ _ c), bind_Ok; [|now rewrite put_length|rewrite var_put by assumption; destruct (Nat.eqb_spec i j); [lia|assumption]].
      specialize (Hp N). rewrite Ei, Ej in *.
      rewrite u_reset_ok, bind_Ok, set_ok, bind_Ok; auto; [now rewrite put_length|].
      intros a b -> ->. assumption.
  - apply is_live_some in Hp as (p & H & E). rewrite (live_ok _ _ _ H E), bind_Ok, set_ok, bind_Ok, E by assumption. reflexivity.
  - destruct Hp as (Hi & Hj). apply is_live_some in Hi as (c & Hi & Ei). apply is_live_some in Hj as (p & Hj & Ej).
    rewrite (live_ok _ _ _ Hi Ei), bind_Ok, (live_ok _ _ _ Hj Ej), bind_Ok, set_ok, bind_Ok, set_ok, bind_Ok, Ei, Ej
      by (rewrite ?put_length; assumption). reflexivity.
  - apply is_live_some in Hp as (p & H & E). rewrite (live_ok _ _ _ H E), bind_Ok, set_ok, bind_Ok, E by assumption. reflexivity.
  - apply is_live_some in Hp as (p & H & E). rewrite (live_ok _ _ _ H E), bind_Ok, E. reflexivity.
Qed.

Lemma u_run_ok f ops : usable f -> forall vs, us_pres vs ops -> run_ops (u_step f) vs ops = Ok (spec_run us_step vs ops).
Proof.
  intros F. induction ops as [|o ops IH]; intros vs Hp; cbn [run_ops spec_run us_pres] in *; [reflexivity|].
  destruct Hp as (Ho & Hp). rewrite (u_step_ok f vs o F Ho).
  destruct (us_step vs o) as (vs', r). rewrite bind_Ok. rewrite IH by assumption. cbn [fst] in Hp.
  destruct (spec_run us_step vs' ops). reflexivity.
Qed.

Definition h (v : option (option obj)) : list obj := match v with Some p => del p | None => [] end.
Definition cnt (l : list nat) (x : nat) := count_occ Nat.eq_dec l x.
Lemma cnt_app a b x : cnt (a ++ b) x = cnt a x + cnt b x.
Proof. apply count_occ_app. Qed.
Lemma perm_cnt a b : (forall x, cnt a x = cnt b x) -> Permutation a b.
Proof. apply (Permutation_count_occ Nat.eq_dec). Qed.

Lemma held_put {A} (f : option A -> list nat) (vs : list (option A)) i x c : i < length vs ->
  cnt (flat_map f (put vs i x)) c + cnt (f (var vs i)) c = cnt (flat_map f vs) c + cnt (f x) c.
Proof.
  intros H. destruct (put_split vs i None H) as (a & b & _ & E & P). rewrite P. fold (var vs i) in E.
  set (v := var vs i) in *. rewrite E. clear E P. rewrite !flat_map_app, !cnt_app. cbn [flat_map]. rewrite !cnt_app. lia.
Qed.

Ltac fin := unfold obj, uspec in *;
  repeat match goal with
  | |- context[cnt [] ?c] => change (cnt [] c) with 0
  | H : context[cnt [] ?c] |- _ => progress change (cnt [] c) with 0 in H
  end; lia.
Lemma us_conserve vs o : us_pre vs o ->
  Permutation (u_held vs ++ u_given o)
    (fst (snd (us_step vs o)) ++ u_released o (snd (us_step vs o)) ++ u_held (fst (us_step vs o))).
Proof.
  intros Hp. apply perm_cnt. intros c. rewrite !cnt_app. unfold u_held. change (fun v : option (option obj) => match v with Some p => del p | None => [] end) with h.
  destruct o as [i p|i j|i p|i j|i|i j|i|i]; cbn [us_step us_pre fst snd u_given u_released] in *.
  - destruct Hp as (H & E). pose proof (held_put h vs i (Some p) c H) as P. rewrite E in P. cbn [h] in P. unfold cnt in *. cbn [count_occ] in *. fin.
  - destruct Hp as ((Hi & Ei) & Hj). apply is_live_some in Hj as (p & Hj & Ej). rewrite Ej.
    pose proof (held_put h vs j (Some None) c Hj) as P1. pose proof (held_put h (put vs j (Some None)) i (Some p) c ltac:(rewrite put_length; assumption)) as P2.
    rewrite var_put in P2 by assumption. destruct (Nat.eqb_spec i j) as [->|]; [congruence|]. rewrite Ei in P2. rewrite Ej in P1.
    cbn [h del] in P1, P2. cbn [cnt count_occ] in *. change (count_occ Nat.eq_dec [] c) with 0. unfold cnt in *. cbn [count_occ] in *. fin.
  - destruct Hp as (Hi & Hp). apply is_live_some in Hi as (q & Hi & Ei). rewrite Ei in *.
    pose proof (held_put h vs i (Some p) c Hi) as P. rewrite Ei in P. cbn [h] in P. unfold cnt in *. cbn [count_occ] in *. fin.
  - destruct Hp as (Hi & Hj & _). destruct (Nat.eqb_spec i j) as [->|N]; cbn [fst snd].
    + unfold cnt. cbn [count_occ]. fin.
    + apply is_live_some in Hi as (q & Hi & Ei). apply is_live_some in Hj as (p & Hj & Ej). rewrite Ei, Ej.
      pose proof (held_put h vs j (Some None) c Hj) as P1. pose proof (held_put h (put vs j (Some None)) i (Some p) c ltac:(rewrite put_length; assumption)) as P2.
      rewrite var_put in P2 by assumption. destruct (Nat.eqb_spec i j) as [->|]; [congruence|]. rewrite Ei in P2. rewrite Ej in P1.
      cbn [h del] in P1, P2. unfold cnt in *. cbn [count_occ] in *. fin.
  - apply is_live_some in Hp as (q & Hi & Ei). rewrite Ei.
    pose proof (held_put h vs i (Some None) c Hi) as P. rewrite Ei in P. cbn [h del] in P. unfold cnt in *. cbn [count_occ] in *. fin.
  - destruct Hp as (Hi & Hj). apply is_live_some in Hi as (q & Hi & Ei). apply is_live_some in Hj as (p & Hj & Ej). rewrite Ei, Ej.
    pose proof (held_put h vs i (Some p) c Hi) as P1. pose proof (held_put h (put vs i (Some p)) j (Some q) c ltac:(rewrite put_length; assumption)) as P2.
    rewrite var_put in P2 by assumption. rewrite Ei in P1.
    destruct (Nat.eqb_spec j i) as [->|]; [assert (p = q) by congruence; subst|rewrite Ej in P2];
    cbn [h del] in P1, P2; unfold cnt in *; cbn [count_occ] in *; fin.
  - apply is_live_some in Hp as (q & Hi & Ei). rewrite Ei.
    pose proof (held_put h vs i None c Hi) as P. rewrite Ei in P. cbn [h] in P. unfold cnt in *. cbn [count_occ] in *. fin.
  - unfold cnt. cbn [count_occ]. fin.
Qed.

(** What a history released: the values its release() calls returned. *)
Lemma us_conserve_run ops : forall vs, us_pres vs ops ->
  Permutation (u_held vs ++ flat_map u_given ops)
    (flat_map fst (snd (spec_run us_step vs ops)) ++
     flat_map (fun or => u_released (fst or) (snd or)) (combine ops (snd (spec_run us_step vs ops))) ++
     u_held (fst (spec_run us_step vs ops))).
Proof.
  induction ops as [|o ops IH]; intros vs Hp; cbn [spec_run us_pres flat_map] in *.
  - cbn. now rewrite app_nil_r.
  - destruct Hp as (Ho & Hp). pose proof (us_conserve vs o Ho) as P. specialize (IH _ Hp).
    destruct (us_step vs o) as (vs', r). cbn [fst snd] in *.
    destruct (spec_run us_step vs' ops) as (vs2, rs). cbn [fst snd flat_map combine] in *.
    apply perm_cnt. intros c.
    pose proof (proj1 (Permutation_count_occ Nat.eq_dec _ _) P c) as P'.
    pose proof (proj1 (Permutation_count_occ Nat.eq_dec _ _) IH c) as I'.
    change (cnt (u_held vs ++ u_given o) c = cnt (fst r ++ u_released o r ++ u_held vs') c) in P'.
    change (cnt (u_held vs' ++ flat_map u_given ops) c =
      cnt (flat_map fst rs ++ flat_map (fun or => u_released (fst or) (snd or)) (combine ops rs) ++ u_held vs2) c) in I'.
    rewrite !cnt_app in *. lia.
Qed.

(** ** unique_resource *)
Definition rabs1 (x : ures) : nat * option nat := (r_del x, if r_on x then Some (r_res x) else None).
Definition rabs (vs : rst) : rspec := map (option_map rabs1) vs.

Lemma rabs_var vs i : var (rabs vs) i = option_map rabs1 (var vs i).
Proof. apply var_map. Qed.
Lemma rabs_length vs : length (rabs vs) = length vs.
Proof. apply map_length. Qed.
Lemma rabs_put vs i x : rabs (put vs i x) = put (rabs vs) i (option_map rabs1 x).
Proof. apply map_put. Qed.
Lemma rabs_live vs i : is_live (rabs vs) i -> exists x, i < length vs /\ var vs i = Some x.
Proof.
  intros (H & E). rewrite rabs_length in H. rewrite rabs_var in E. destruct (var vs i) as [x|]; [eauto|now contradiction E].
Qed.
Lemma rabs_vacant vs i : is_vacant (rabs vs) i -> is_vacant vs i.
Proof.
  intros (H & E). rewrite rabs_length in H. rewrite rabs_var in E. split; [assumption|]. now destruct (var vs i).
Qed.

Lemma r_reset_ok x : r_reset x = (r_release x, disposed (Some (rabs1 x))).
Proof. destruct x as [r d []]; reflexivity. Qed.

Lemma r_step_ok vs o : rs_pre (rabs vs) o ->
  exists vs', r_step vs o = Ok (vs', snd (rs_step (rabs vs) o)) /\ rabs vs' = fst (rs_step (rabs vs) o).
Proof.
  intros Hp. destruct o as [i r d on|i j|i|i r|i j|i|i]; cbn [r_step rs_step rs_pre fst snd] in *.
  - apply rabs_vacant in Hp. rewrite (vacant_ok _ _ Hp), bind_Ok, set_ok, bind_Ok by apply Hp.
    eexists. split; [reflexivity|]. rewrite rabs_put. reflexivity.
  - destruct Hp as (Hi & Hj). apply rabs_vacant in Hi. apply rabs_live in Hj as (x & Hj & Ej).
    rewrite (vacant_ok _ _ Hi), bind_Ok, (live_ok _ _ _ Hj Ej), bind_Ok. destruct Hi as (Hi & Ei).
    rewrite set_ok, bind_Ok, set_ok, bind_Ok by (rewrite ?put_length; assumption).
    eexists. split; [reflexivity|]. rewrite !rabs_put, rabs_var, Ej. reflexivity.
  - apply rabs_live in Hp as (x & H & E). rewrite (live_ok _ _ _ H E), bind_Ok, r_reset_ok, set_ok, bind_Ok by assumption.
    rewrite rabs_var, E. eexists. split; [reflexivity|]. rewrite rabs_put. reflexivity.
  - apply rabs_live in Hp as (x & H & E). rewrite (live_ok _ _ _ H E), bind_Ok, r_reset_ok, set_ok, bind_Ok by assumption.
    rewrite rabs_var, E. eexists. split; [reflexivity|]. rewrite rabs_put. reflexivity.
  - destruct Hp as (Hi & Hj). apply rabs_live in Hi as (x & Hi & Ei). apply rabs_live in Hj as (y & Hj & Ej).
    rewrite (live_ok _ _ _ Hi Ei), bind_Ok, r_reset_ok, set_ok, bind_Ok by assumption.
    rewrite rabs_var, Ei. destruct (Nat.eqb_spec i j) as [<-|N].
    + rewrite (live_ok _ _ (r_release x)), bind_Ok; [|now rewrite put_length|now rewrite var_put, Nat.eqb_refl].
      rewrite set_ok, bind_Ok by now rewrite put_length.
      rewrite (live_ok _ _ (r_release x)), bind_Ok;
        [|now rewrite !put_length by now rewrite ?put_length|rewrite var_put, Nat.eqb_refl by (now rewrite put_length); now destruct x].
      rewrite set_ok, bind_Ok by now rewrite !put_length by now rewrite ?put_length.
      eexists. split; [reflexivity|]. rewrite !put_put by (rewrite ?put_length; assumption). rewrite rabs_put.
      cbn [fst]. reflexivity.
    + assert (V : forall z, var (put vs i z) j = Some y) by (intros z; rewrite var_put by assumption; destruct (Nat.eqb_spec j i); [lia|assumption]).
      rewrite (live_ok _ _ y), bind_Ok; [|now rewrite put_length|apply V].
      rewrite set_ok, bind_Ok by now rewrite put_length. rewrite put_put by assumption.
      rewrite (live_ok _ _ y), bind_Ok; [|now rewrite put_length|apply V].
      rewrite set_ok, bind_Ok by now rewrite put_length.
      eexists. split; [reflexivity|]. rewrite !rabs_put, rabs_var, Ej. cbn [fst]. destruct y; reflexivity.
  - apply rabs_live in Hp as (x & H & E). rewrite (live_ok _ _ _ H E), bind_Ok, set_ok, bind_Ok by assumption.
    rewrite rabs_var, E. eexists. split; [reflexivity|]. rewrite rabs_put. reflexivity.
  - apply rabs_live in Hp as (x & H & E). rewrite (live_ok _ _ _ H E), bind_Ok, r_reset_ok, set_ok, bind_Ok by assumption.
    rewrite rabs_var, E. eexists. split; [reflexivity|]. rewrite rabs_put. reflexivity.
Qed.

Lemma r_run_ok ops : forall vs, rs_pres (rabs vs) ops ->
  exists vs', run_ops r_step vs ops = Ok (vs', snd (spec_run rs_step (rabs vs) ops)) /\ rabs vs' = fst (spec_run rs_step (rabs vs) ops).
Proof.
  induction ops as [|o ops IH]; intros vs Hp; cbn [run_ops spec_run rs_pres] in *; [eauto|].
  destruct Hp as (Ho & Hp). destruct (r_step_ok vs o Ho) as (vs1 & E1 & A1). rewrite E1, bind_Ok.
  destruct (rs_step (rabs vs) o) as (a1, d1). cbn [fst snd] in *. subst a1.
  destruct (IH vs1 Hp) as (vs2 & E2 & A2). rewrite E2, bind_Ok.
  destruct (spec_run rs_step (rabs vs1) ops) as (a2, d2). cbn [fst snd] in *. eauto.
Qed.

Lemma rs_conserve vs o : rs_pre vs o ->
  Permutation (r_held vs ++ r_given o)
    (map snd (snd (rs_step vs o)) ++ (match o with RRelease i => del (rd_res (var vs i)) | _ => [] end) ++ r_held (fst (rs_step vs o))).
Proof.
  intros Hp. apply perm_cnt. intros c. rewrite !cnt_app. unfold r_held.
  set (f := (fun v => del (rd_res v)) : option (nat * option nat) -> list nat). change (fun v => del (rd_res v)) with f.
  pose proof (held_put f) as HP.
  assert (D : forall v, map snd (disposed v) = f v) by (intros [(d, [r|])|]; reflexivity).
  assert (N0 : f None = []) by reflexivity. assert (N1 : forall d, f (Some (d, None)) = []) by reflexivity.
  assert (CN : cnt [] c = 0) by reflexivity.
  destruct o as [i r d on|i j|i|i r|i j|i|i]; cbn [rs_step rs_pre fst snd r_given] in *.
  - destruct Hp as (H & E). specialize (HP vs i (Some (d, if on then Some r else None)) c H). rewrite E, N0, CN in HP.
    cbn [map]. destruct on.
    + change (f (Some (d, Some r))) with [r] in HP. rewrite ?CN. fin.
    + rewrite N1 in HP. rewrite ?CN in *. fin.
  - destruct Hp as ((Hi & Ei) & (Hj & Ej)). pose proof (HP vs i (var vs j) c Hi) as P1.
    specialize (HP (put vs i (var vs j)) j (Some (rd_del (var vs j), None)) c ltac:(rewrite put_length; assumption)).
    rewrite var_put in HP by assumption. destruct (Nat.eqb_spec j i) as [->|]; [congruence|]. rewrite Ei, N0, CN in P1. rewrite N1, CN in HP.
    cbn [map]. rewrite ?CN. fin.
  - destruct Hp as (H & E). specialize (HP vs i (Some (rd_del (var vs i), None)) c H). rewrite N1, CN in HP. rewrite D, ?CN. fin.
  - destruct Hp as (H & E). specialize (HP vs i (Some (rd_del (var vs i), Some r)) c H). rewrite D, ?CN. cbn [r_given].
    change (f (Some (rd_del (var vs i), Some r))) with [r] in HP. fin.
  - destruct Hp as ((Hi & Ei) & (Hj & Ej)). destruct (Nat.eqb_spec i j) as [<-|N]; cbn [fst snd]; rewrite D, ?CN.
    + specialize (HP vs i (Some (rd_del (var vs i), None)) c Hi). rewrite N1, CN in HP. fin.
    + pose proof (HP vs i (var vs j) c Hi) as P1.
      specialize (HP (put vs i (var vs j)) j (Some (rd_del (var vs j), None)) c ltac:(rewrite put_length; assumption)).
      rewrite var_put in HP by assumption. destruct (Nat.eqb_spec j i) as [->|]; [congruence|]. rewrite N1, CN in HP. fin.
  - destruct Hp as (H & E). specialize (HP vs i (Some (rd_del (var vs i), None)) c H). rewrite N1, CN in HP.
    cbn [map]. rewrite CN. fold (f (var vs i)). fin.
  - destruct Hp as (H & E). specialize (HP vs i None c H). rewrite N0, CN in HP. rewrite D, ?CN. fin.
Qed.

Lemma rs_conserve_run ops : forall vs, rs_pres vs ops ->
  Permutation (r_held vs ++ flat_map r_given ops)
    (map snd (concat (snd (spec_run rs_step vs ops))) ++ r_released vs ops ++ r_held (fst (spec_run rs_step vs ops))).
Proof.
  induction ops as [|o ops IH]; intros vs Hp; cbn [spec_run rs_pres flat_map r_released] in *.
  - cbn. now rewrite app_nil_r.
  - destruct Hp as (Ho & Hp). pose proof (rs_conserve vs o Ho) as P. specialize (IH _ Hp).
    destruct (rs_step vs o) as (vs', r). cbn [fst snd] in *.
    destruct (spec_run rs_step vs' ops) as (vs2, rs). cbn [fst snd concat] in *. rewrite map_app.
    set (rel := match o with RRelease i => del (rd_res (var vs i)) | _ => [] end) in *.
    apply perm_cnt. intros c.
    pose proof (proj1 (Permutation_count_occ Nat.eq_dec _ _) P c) as P'.
    pose proof (proj1 (Permutation_count_occ Nat.eq_dec _ _) IH c) as I'. fold (cnt (r_held vs ++ r_given o) c) in P'.
    change (cnt (r_held vs ++ r_given o) c = cnt (map snd r ++ rel ++ r_held vs') c) in P'.
    change (cnt (r_held vs' ++ flat_map r_given ops) c = cnt (map snd (concat rs) ++ r_released vs' ops ++ r_held vs2) c) in I'.
    rewrite !cnt_app in *. lia.
Qed.

(** ** The count under concurrency *)
Lemma nth_error_put {A} (l : list A) i x j : i < length l -> nth_error (put l i x) j = if Nat.eqb j i then Some x else nth_error l j.
Proof.
  intros H. destruct l as [|d l']; [cbn in H; lia|]. set (l := d :: l') in *.
  destruct (put_split l i d H) as (a & b & La & E & P). rewrite P. set (v := nth i l d) in *. rewrite E. clear E P.
  destruct (Nat.eqb_spec j i) as [->|N].
  - rewrite nth_error_app2, La, Nat.sub_diag by lia. reflexivity.
  - destruct (Nat.lt_ge_cases j (length a)).
    + now rewrite !nth_error_app1 by assumption.
    + rewrite !nth_error_app2 by assumption. destruct (j - length a) eqn:Ej; [lia|]. reflexivity.
Qed.
Lemma total_app a b : total (a ++ b) = total a + total b.
Proof. induction a as [|x a IH]; cbn; [reflexivity|]. fold (total (a ++ b)) (total a). rewrite IH. lia. Qed.
Lemma total_put l i x th : nth_error l i = Some th -> total (put l i x) + t_own th = total l + t_own x.
Proof.
  intros E. assert (H : i < length l) by (apply nth_error_Some; congruence).
  destruct (put_split l i th H) as (a & b & _ & E' & P). rewrite P. rewrite (nth_error_nth _ _ _ E) in E'. rewrite E'. clear P E E'.
  rewrite !total_app. cbn [total fold_right]. fold (total b). lia.
Qed.
Lemma total_ge l i th : nth_error l i = Some th -> t_own th <= total l.
Proof. intros E. pose proof (total_put l i (Th 0 Idle) th E). cbn [t_own] in *. lia. Qed.

(** Holds after every schedule that has not run into undefined behaviour. *)
Record cinv (s : cst) : Prop := {
  ci_refs : k_refs s = Z.of_nat (total (k_thr s));
  ci_alive : k_deleted s = (if k_alive s then 0 else 1);
  ci_dead : k_alive s = false -> total (k_thr s) = 0;
  ci_del : forall i th, nth_error (k_thr s) i = Some th -> t_pc th = Deleting -> total (k_thr s) = 0;
  ci_leak : k_alive s = true -> total (k_thr s) = 0 -> exists i th, nth_error (k_thr s) i = Some th /\ t_pc th <> Idle
}.
(** Holds, in addition, after every serial schedule. *)
Record sinv (s : cst) : Prop := {
  cs_one : forall i j a b, nth_error (k_thr s) i = Some a -> nth_error (k_thr s) j = Some b -> t_pc a <> Idle -> t_pc b <> Idle -> i = j;
  cs_dead : k_alive s = false -> forall i th, nth_error (k_thr s) i = Some th -> t_pc th = Idle
}.

(** The effect of a step that is taken: thread [t] becomes [th']. *)
Lemma cinv_put s t th th' (al : bool) (del : nat) (rf : Z) :
  cinv s -> k_alive s = true -> nth_error (k_thr s) t = Some th ->
  rf = Z.of_nat (total (put (k_thr s) t th')) ->
  del = (if al then 0 else 1) ->
  (al = false -> total (put (k_thr s) t th') = 0) ->
  (t_pc th' = Deleting -> total (put (k_thr s) t th') = 0) ->
  (total (k_thr s) = 0 -> total (put (k_thr s) t th') = 0) ->
  (al = true -> total (put (k_thr s) t th') = 0 -> t_pc th' <> Idle) ->
  cinv (Cs rf al del (put (k_thr s) t th')).
Proof.
  intros I Al E R D A X M L. assert (H : t < length (k_thr s)) by (apply nth_error_Some; congruence).
  constructor; cbn [k_refs k_alive k_deleted k_thr]; auto.
  - intros i x. rewrite nth_error_put by assumption. destruct (Nat.eqb_spec i t) as [->|N].
    + intros Ex. injection Ex as <-. auto.
    + intros Ex Px. apply M. now apply (ci_del _ I i x).
  - intros Ea Z. exists t, th'. rewrite nth_error_put, Nat.eqb_refl by assumption. auto.
Qed.

Lemma c_step_inv s t a s' : cinv s -> c_step s t a = Ok s' -> cinv s'.
Proof.
  intros I. unfold c_step. destruct (nth_error (k_thr s) t) as [th|] eqn:E.
  2:{ unfold rd. rewrite E. discriminate. }
  assert (H : t < length (k_thr s)) by (apply nth_error_Some; congruence).
  unfold rd at 1. rewrite E, bind_Ok. pose proof (total_ge _ _ _ E) as G.
  pose proof (fun x => total_put (k_thr s) t x th E) as TP.
  pose proof (ci_refs _ I) as IR. pose proof (ci_alive _ I) as IA.
  destruct a, (t_pc th) eqn:Pc; try (intros Ex; injection Ex as <-; assumption).
  - (* Copy *)
    destruct (Nat.eqb_spec (t_own th) 0) as [O|O]; [intros Ex; injection Ex as <-; assumption|].
    destruct (k_alive s) eqn:Al; [|discriminate]. rewrite wr_put, bind_Ok by assumption. intros Ex. injection Ex as <-.
    specialize (TP (Th (t_own th + 1) Idle)). cbn [t_own] in TP.
    eapply cinv_put; eauto; cbn [t_pc]; try lia; try discriminate.
  - (* Dec *)
    destruct (Nat.eqb_spec (t_own th) 0) as [O|O]; [intros Ex; injection Ex as <-; assumption|].
    destruct (k_alive s) eqn:Al; [|discriminate]. rewrite wr_put, bind_Ok by assumption. intros Ex. injection Ex as <-.
    specialize (TP (Th (t_own th - 1) Loading)). cbn [t_own] in TP.
    eapply cinv_put; eauto; cbn [t_pc]; try lia; try discriminate.
  - (* Load *)
    destruct (k_alive s) eqn:Al; [|discriminate]. rewrite wr_put, bind_Ok by assumption. intros Ex. injection Ex as <-.
    specialize (TP (Th (t_own th) (if Z.eqb (k_refs s) 0 then Deleting else Idle))). cbn [t_own] in TP.
    eapply cinv_put; eauto; cbn [t_pc]; try lia; destruct (Z.eqb_spec (k_refs s) 0); try discriminate; lia.
  - (* Delete *)
    destruct (k_alive s) eqn:Al; [|discriminate]. rewrite wr_put, bind_Ok by assumption. intros Ex. injection Ex as <-.
    specialize (TP (Th (t_own th) Idle)). cbn [t_own] in TP.
    pose proof (ci_del _ I t th E Pc) as D0.
    eapply cinv_put; eauto; cbn [t_pc]; try lia; try discriminate.
Qed.

Lemma c_run_inv sched : forall s s', cinv s -> c_run s sched = Ok s' -> cinv s'.
Proof.
  induction sched as [|(t, a) rest IH]; intros s s' I; cbn [c_run].
  - intros E. injection E as <-. assumption.
  - destruct (c_step s t a) as [s1| | |] eqn:E1; cbn; try discriminate. intros E. eapply IH; [|eassumption]. eapply c_step_inv; eauto.
Qed.

Lemma sinv_put s t th th' (al : bool) (del : nat) (rf : Z) :
  sinv s -> nth_error (k_thr s) t = Some th ->
  (t_pc th' <> Idle -> forall i x, i <> t -> nth_error (k_thr s) i = Some x -> t_pc x = Idle) ->
  (al = false -> t_pc th' = Idle /\ forall i x, i <> t -> nth_error (k_thr s) i = Some x -> t_pc x = Idle) ->
  sinv (Cs rf al del (put (k_thr s) t th')).
Proof.
  intros S E O D. assert (H : t < length (k_thr s)) by (apply nth_error_Some; congruence).
  constructor; cbn [k_alive k_thr].
  - intros i j a b. rewrite !nth_error_put by assumption.
    destruct (Nat.eqb_spec i t) as [->|Ni], (Nat.eqb_spec j t) as [->|Nj]; intros Ea Eb Pa Pb; auto.
    + injection Ea as <-. exfalso. apply Pb. eapply O; eauto.
    + injection Eb as <-. exfalso. apply Pa. eapply O; eauto.
    + eapply (cs_one _ S); eauto.
  - intros A i x. rewrite nth_error_put by assumption. destruct (D A) as (D1 & D2).
    destruct (Nat.eqb_spec i t) as [->|Ni]; intros Ex; [injection Ex as <-; assumption|eauto].
Qed.

Lemma c_step_serial s t a : cinv s -> sinv s -> t < length (k_thr s) ->
  (a = Dec -> Forall (fun th => t_pc th <> Loading) (k_thr s)) ->
  exists s', c_step s t a = Ok s' /\ cinv s' /\ sinv s' /\ length (k_thr s') = length (k_thr s).
Proof.
  intros I S H SD.
  assert (R : exists s', c_step s t a = Ok s' /\ sinv s' /\ length (k_thr s') = length (k_thr s)).
  { unfold c_step. destruct (nth_error (k_thr s) t) as [th|] eqn:E; [|apply nth_error_None in E; lia].
    unfold rd at 1. rewrite E, bind_Ok. pose proof (total_ge _ _ _ E) as G.
    assert (AL : t_own th <> 0 \/ t_pc th <> Idle -> k_alive s = true).
    { intros X. destruct (k_alive s) eqn:Al; auto. exfalso. destruct X as [X|X].
      - pose proof (ci_dead _ I Al). lia.
      - apply X. eapply (cs_dead _ S); eauto. }
    assert (ONE : t_pc th <> Idle -> forall i x, i <> t -> nth_error (k_thr s) i = Some x -> t_pc x = Idle).
    { intros P i x N Ex. destruct (t_pc x) eqn:Px; auto; exfalso; apply N; eapply (cs_one _ S); eauto; congruence. }
    destruct a, (t_pc th) eqn:Pc; try (exists s; now split; [|split]).
    - destruct (Nat.eqb_spec (t_own th) 0) as [O|O]; [exists s; now split; [|split]|].
      rewrite AL by auto. rewrite wr_put, bind_Ok by assumption. eexists. split; [reflexivity|].
      split; [|cbn [k_thr]; now apply put_length]. apply (sinv_put s t th); [assumption|assumption|cbn [t_pc]; congruence|discriminate].
    - destruct (Nat.eqb_spec (t_own th) 0) as [O|O]; [exists s; now split; [|split]|].
      rewrite AL by auto. rewrite wr_put, bind_Ok by assumption. eexists. split; [reflexivity|].
      split; [|cbn [k_thr]; now apply put_length]. apply (sinv_put s t th); [assumption|assumption| |discriminate].
      intros _ i x N Ex. destruct (t_pc x) eqn:Px; auto; exfalso.
      + specialize (SD eq_refl). rewrite Forall_forall in SD. apply (SD x); auto. eapply nth_error_In; eauto.
      + pose proof (ci_del _ I i x Ex Px). lia.
    - rewrite AL by (right; congruence). rewrite wr_put, bind_Ok by assumption. eexists. split; [reflexivity|].
      split; [|cbn [k_thr]; now apply put_length]. apply (sinv_put s t th); [assumption|assumption| |discriminate]. intros _. apply ONE. congruence.
    - rewrite AL by (right; congruence). rewrite wr_put, bind_Ok by assumption. eexists. split; [reflexivity|].
      split; [|cbn [k_thr]; now apply put_length]. apply (sinv_put s t th); [assumption|assumption|cbn [t_pc]; congruence|].
      intros _. split; [reflexivity|]. apply ONE. congruence. }
  destruct R as (s' & E & S' & L). exists s'. split; [assumption|]. split; [eapply c_step_inv; eauto|]. auto.
Qed.

Lemma c_run_serial sched : forall s, cinv s -> sinv s -> Forall (fun ta => fst ta < length (k_thr s)) sched -> serial s sched ->
  exists s', c_run s sched = Ok s' /\ cinv s'.
Proof.
  induction sched as [|(t, a) rest IH]; intros s I S Hb Hs; cbn [c_run serial] in *; [eauto|].
  destruct Hs as (Hd & Hs). inversion Hb; subst. cbn [fst] in *.
  destruct (c_step_serial s t a I S) as (s1 & E & I1 & S1 & L1); auto. rewrite E in *. rewrite bind_Ok.
  apply IH; auto. now rewrite L1.
Qed.

Lemma started_inv owns : 0 < total (map (fun n => Th n Idle) owns) -> cinv (started owns) /\ sinv (started owns).
Proof.
  assert (A : forall i th, nth_error (map (fun n => Th n Idle) owns) i = Some th -> t_pc th = Idle).
  { intros i th E. apply nth_error_In, in_map_iff in E as (n & <- & _). reflexivity. }
  intros P. split; constructor; cbn [started k_refs k_alive k_deleted k_thr]; auto; try discriminate.
  - intros i th E X. apply A in E. congruence.
  - lia.
  - intros i j a b Ea Eb Pa. apply A in Ea. congruence.
Qed.
