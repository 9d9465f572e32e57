(** * PtrProofs. *)
From Verif Require Import Base AssocModel AssocSpec PtrModel PtrSpec.
From Coq Require Import ZArith Permutation.

(** ** Variables *)
Lemma put_length {A} (l : list A) i x : i < length l -> length (put l i x) = length l.
Proof. intros H. unfold put. rewrite app_length, firstn_length. cbn [length]. rewrite skipn_length. lia. Qed.

Lemma put_split {A} (l : list A) i d : i < length l ->
  exists a b, length a = i /\ l = a ++ nth i l d :: b /\ forall x, put l i x = a ++ x :: b.
Proof.
  intros H. exists (firstn i l), (skipn (S i) l). rewrite firstn_length. split; [lia|]. split.
  - rewrite <- (firstn_skipn i l) at 1. f_equal.
    clear -H. revert i H. induction l as [|y l IH]; intros [|i] H; cbn in *; try lia; auto. apply IH. lia.
  - reflexivity.
Qed.

Lemma put_put {A} (l : list A) i x y : i < length l -> put (put l i x) i y = put l i y.
Proof.
  intros H. destruct l as [|d l']; [cbn in H; lia|]. set (l := d :: l') in *.
  destruct (put_split l i d H) as (a & b & La & E & P). rewrite P, P. unfold put.
  rewrite firstn_app, skipn_app, La, Nat.sub_diag, <- La, firstn_all. cbn [firstn].
  rewrite skipn_all2 by lia. replace (S (length a) - length a) with 1 by lia. rewrite app_nil_r. reflexivity.
Qed.

Lemma wr_put {A} (l : list A) i x : i < length l -> wr l i x = Ok (put l i x).
Proof.
  intros H. destruct l as [|d l']; [cbn in H; lia|]. set (l := d :: l') in *.
  destruct (put_split l i d H) as (a & b & La & E & P). rewrite P, E. now apply wr_app'.
Qed.

Lemma var_put {A} (l : list (option A)) i j x : i < length l -> var (put l i x) j = if Nat.eqb j i then x else var l j.
Proof.
  intros H. destruct (put_split l i None H) as (a & b & La & E & P). rewrite P. unfold var.
  set (v := nth i l None) in *. rewrite E. clear E P.
  destruct (Nat.eqb_spec j i) as [->|N].
  - rewrite app_nth2, <- La, Nat.sub_diag by lia. reflexivity.
  - destruct (Nat.lt_ge_cases j (length a)).
    + rewrite !app_nth1 by assumption. reflexivity.
    + rewrite !app_nth2 by assumption. destruct (j - length a) eqn:Ej; [lia|]. reflexivity.
Qed.

Lemma map_put {A B} (f : A -> B) (l : list A) i x : map f (put l i x) = put (map f l) i (f x).
Proof. unfold put. rewrite map_app. cbn [map]. now rewrite firstn_map, skipn_map. Qed.

Lemma rd_var {A} (l : list (option A)) i : i < length l -> rd l i = Ok (var l i).
Proof.
  intros H. unfold rd, var. destruct (nth_error l i) eqn:E.
  - now rewrite (nth_error_nth _ _ _ E).
  - apply nth_error_None in E. lia.
Qed.
Lemma live_ok {A} (l : list (option A)) i x : i < length l -> var l i = Some x -> live l i = Ok x.
Proof. intros H E. unfold live. rewrite rd_var, bind_Ok, E by assumption. reflexivity. Qed.
Lemma vacant_ok {A} (l : list (option A)) i : is_vacant l i -> vacant l i = Ok tt.
Proof. intros (H & E). unfold vacant. rewrite rd_var, bind_Ok, E by assumption. reflexivity. Qed.
Lemma set_ok {A} (l : list (option A)) i x : i < length l -> set l i x = Ok (put l i x).
Proof. apply wr_put. Qed.
Lemma var_map {A B} (f : A -> B) (l : list (option A)) i : var (map (option_map f) l) i = option_map f (var l i).
Proof. unfold var. now rewrite <- (map_nth (option_map f)). Qed.
Lemma is_live_some {A} (l : list (option A)) i : is_live l i -> exists x, i < length l /\ var l i = Some x.
Proof. intros (H & E). destruct (var l i); [eauto|congruence]. Qed.

(** ** shared_ptr *)
Definition b2n (b : bool) := if b then 1 else 0.
Notation svars := (list (option (option group))).

Lemma owners_app a b g : owners (a ++ b) g = owners a g + owners b g.
Proof. unfold owners. now rewrite filter_app, app_length. Qed.
Lemma owners_cons v b g : owners (v :: b) g = b2n (holds g v) + owners b g.
Proof. unfold owners. cbn [filter]. destruct (holds g v); reflexivity. Qed.
Lemma owners_put (vs : svars) i x g : i < length vs ->
  owners (put vs i x) g + b2n (holds g (var vs i)) = owners vs g + b2n (holds g x).
Proof.
  intros H. destruct (put_split vs i None H) as (a & b & La & E & P). rewrite P. fold (var vs i) in E.
  set (v := var vs i) in *. rewrite E. clear E P.
  rewrite !owners_app, !owners_cons. lia.
Qed.
Lemma owners_le (vs : svars) g : owners vs g <= length vs.
Proof. unfold owners. induction vs as [|v vs IH]; cbn; [lia|]. destruct (holds g v); cbn; lia. Qed.
Lemma owners_var (vs : svars) i g o : var vs i = Some (Some (g, o)) -> 1 <= owners vs g.
Proof.
  intros E. assert (H : i < length vs).
  { destruct (Nat.lt_ge_cases i (length vs)); auto. unfold var in E. rewrite nth_overflow in E by assumption. discriminate. }
  destruct (put_split vs i None H) as (a & b & La & F & P). rewrite F, owners_app, owners_cons.
  unfold var in E. rewrite E. cbn [holds]. rewrite Nat.eqb_refl. cbn. lia.
Qed.

Lemma in_groups (vs : svars) g : In g (groups vs) <-> exists i, var vs i = Some (Some g).
Proof.
  unfold groups. rewrite nodup_In, in_flat_map. split.
  - intros (v & Hv & Hg). apply (In_nth _ _ None) in Hv as (i & _ & E). exists i. unfold var. rewrite E.
    destruct v as [[h|]|]; cbn in Hg; try tauto. destruct Hg as [->|[]]. reflexivity.
  - intros (i & E). exists (Some (Some g)). split; [|now left].
    unfold var in E. destruct (Nat.lt_ge_cases i (length vs)) as [L|L].
    + rewrite <- E. now apply nth_In.
    + rewrite nth_overflow in E by assumption. discriminate.
Qed.
Lemma owners_in (vs : svars) g : 1 <= owners vs g -> exists o, In (g, o) (groups vs).
Proof.
  unfold owners. intros H. destruct (filter (holds g) vs) as [|v l] eqn:E; [cbn in H; lia|].
  assert (In v (filter (holds g) vs)) as Hv by (rewrite E; now left).
  apply filter_In in Hv as (Hv & Hh). destruct v as [[(g', o)|]|]; cbn in Hh; try discriminate.
  apply Nat.eqb_eq in Hh as ->. exists o. apply in_groups.
  apply (In_nth _ _ None) in Hv as (i & _ & Ei). exists i. exact Ei.
Qed.

(** A group number determines its object. *)
Definition consistent (vs : svars) : Prop :=
  forall g o o', In (g, o) (groups vs) -> In (g, o') (groups vs) -> o = o'.

Lemma filter_nil {A} (p : A -> bool) (l : list A) : (forall x, In x l -> p x = false) -> filter p l = [].
Proof.
  induction l as [|y l IH]; intros H; auto. cbn [filter]. rewrite (H y) by now left. apply IH. intros x Hx. apply H. now right.
Qed.
Lemma lost_none (vs vs' : svars) : (forall g, 1 <= owners vs g -> 1 <= owners vs' g) -> lost vs vs' = [].
Proof.
  intros H. unfold lost. rewrite filter_nil; [reflexivity|].
  intros (g, o) Hg. apply in_groups in Hg as (i & Hi). apply owners_var in Hi. apply H in Hi.
  apply Nat.eqb_neq. cbn [fst]. lia.
Qed.

Lemma filter_one {A} (p : A -> bool) (l : list A) a :
  NoDup l -> (forall x, In x l -> p x = true -> x = a) ->
  In a l -> filter p l = if p a then [a] else [].
Proof.
  intros ND H Ha. destruct (filter p l) as [|x t] eqn:E.
  - destruct (p a) eqn:Pa; auto. assert (In a (filter p l)) as F by (apply filter_In; auto). rewrite E in F. destruct F.
  - assert (In x (filter p l)) as F by (rewrite E; now left). apply filter_In in F as (F & G).
    pose proof (H x F G) as ->. rewrite G. destruct t as [|y t]; auto. exfalso.
    assert (In y (filter p l)) as F' by (rewrite E; right; now left). apply filter_In in F' as (F' & G').
    pose proof (H y F' G') as ->. pose proof (NoDup_filter p ND) as N. rewrite E in N. inversion N; subst. apply H2. now left.
Qed.

Lemma lost_put (vs : svars) i x : consistent vs -> i < length vs ->
  lost vs (put vs i x) =
  match var vs i with
  | Some (Some (g, o)) => if Nat.eqb (owners (put vs i x) g) 0 then del o else []
  | _ => []
  end.
Proof.
  intros C H.
  assert (K : forall g o, In (g, o) (groups vs) -> owners (put vs i x) g = 0 -> var vs i = Some (Some (g, o))).
  { intros g o Hg Hz. pose proof Hg as Hg'. apply in_groups in Hg as (k & Hk). pose proof (owners_var _ _ _ _ Hk) as L.
    pose proof (owners_put vs i x g H) as P. rewrite Hz in P.
    destruct (var vs i) as [[(g', o')|]|] eqn:E; cbn [holds b2n] in P; try (destruct (holds g x); cbn in P; lia).
    destruct (Nat.eqb_spec g' g) as [->|]; [|cbn in P; lia]. f_equal. f_equal. f_equal.
    apply (C g); auto. apply in_groups. eauto. }
  destruct (var vs i) as [[(g, o)|]|] eqn:E.
  - unfold lost. rewrite (filter_one _ _ (g, o)).
    + cbn [fst]. destruct (Nat.eqb (owners (put vs i x) g) 0); cbn; [now rewrite app_nil_r|reflexivity].
    + apply NoDup_nodup.
    + intros (g', o') Hg Hz. apply Nat.eqb_eq in Hz. apply (K _ _ Hg) in Hz. congruence.
    + apply in_groups. eauto.
  - apply lost_none. intros g L. destruct (owners (put vs i x) g) eqn:Z; [|lia]. exfalso.
    apply owners_in in L as (o & L). specialize (K g o L Z). discriminate.
  - apply lost_none. intros g L. destruct (owners (put vs i x) g) eqn:Z; [|lia]. exfalso.
    apply owners_in in L as (o & L). specialize (K g o L Z). discriminate.
Qed.

(** The relation between code and specification. *)
Definition vmap (v : option group) : option nat := option_map fst v.
Record shinv (s : shst) (a : sspec) : Prop := {
  si_next : length (sh_conts s) = sp_next a;
  si_vars : sh_vars s = map (option_map vmap) (sp_vars a);
  si_conts : forall g o, In (g, o) (groups (sp_vars a)) ->
    g < sp_next a /\ var (sh_conts s) g = Some (C o (Z.of_nat (owners (sp_vars a) g)));
  si_size : (Z.of_nat (length (sp_vars a)) < 2 ^ 64)%Z
}.

Lemma shinv_consistent s a : shinv s a -> consistent (sp_vars a).
Proof. intros I g o o' H H'. apply (si_conts _ _ I) in H as (_ & H). apply (si_conts _ _ I) in H' as (_ & H'). congruence. Qed.

Lemma in_groups_put (vs : svars) i x g : i < length vs -> In g (groups (put vs i x)) ->
  x = Some (Some g) \/ (In g (groups vs)).
Proof.
  intros H. rewrite !in_groups. intros (k & E). rewrite var_put in E by assumption.
  destruct (Nat.eqb k i); [now left|right; eauto].
Qed.

Lemma del_option_map (v : option (option group)) g o : v = Some (Some (g, o)) -> option_map vmap v = Some (Some g).
Proof. now intros ->. Qed.

(** owners changes only for the groups of the old and the new value *)
Lemma owners_put_other (vs : svars) i x g : i < length vs -> holds g (var vs i) = false -> holds g x = false ->
  owners (put vs i x) g = owners vs g.
Proof. intros H A B. pose proof (owners_put vs i x g H) as P. rewrite A, B in P. cbn in P. lia. Qed.
Lemma holds_iff g v : holds g v = true <-> exists o, v = Some (Some (g, o)).
Proof.
  destruct v as [[(g', o')|]|]; cbn; split; try discriminate; try (intros (o & E); discriminate).
  - intros E. apply Nat.eqb_eq in E as ->. eauto.
  - intros (o & E). injection E as -> ->. apply Nat.eqb_refl.
Qed.
Lemma holds_some g g' o : holds g (Some (Some (g', o))) = Nat.eqb g' g.
Proof. reflexivity. Qed.

(** Giving up what variable [i] holds, after something else was put there. *)
Lemma unref_ok (cs : list (option cont)) (vs : svars) i x :
  i < length vs -> consistent vs ->
  (Z.of_nat (length vs) < 2 ^ 64)%Z ->
  (* [x] is not of an old group *)
  (forall g o, In (g, o) (groups vs) -> holds g x = false) ->
  (forall g o, In (g, o) (groups vs) -> g < length cs /\ var cs g = Some (C o (Z.of_nat (owners vs g)))) ->
  exists cs', unref cs (match var vs i with Some v => vmap v | None => None end) = Ok (cs', lost vs (put vs i x)) /\
    length cs' = length cs /\
    (forall g o, In (g, o) (groups vs) -> 1 <= owners (put vs i x) g -> var cs' g = Some (C o (Z.of_nat (owners (put vs i x) g)))) /\
    (forall g, holds g (var vs i) = false -> var cs' g = var cs g).
Proof.
  intros H C Sz Nx Hc. rewrite lost_put by assumption.
  destruct (var vs i) as [[(g, o)|]|] eqn:E; cbn [vmap option_map fst unref].
  - assert (In (g, o) (groups vs)) as G by (apply in_groups; eauto).
    destruct (Hc g o G) as (Lg & Vg). unfold deref. rewrite (live_ok _ _ _ Lg Vg), bind_Ok. cbn [c_refs c_obj].
    pose proof (owners_put vs i x g H) as P. rewrite E, holds_some, Nat.eqb_refl, (Nx g o G) in P. cbn [b2n] in P.
    pose proof (owners_var _ _ _ _ E) as L1. pose proof (owners_le vs g) as L2.
    rewrite Z.mod_small by lia.
    replace (Z.of_nat (owners vs g) - 1)%Z with (Z.of_nat (owners (put vs i x) g)) by lia.
    destruct (Z.eqb_spec (Z.of_nat (owners (put vs i x) g)) 0) as [Z0|Z0].
    + rewrite set_ok, bind_Ok by assumption. destruct (Nat.eqb_spec (owners (put vs i x) g) 0); [|lia].
      eexists. split; [reflexivity|]. split; [now apply put_length|]. split.
      * intros g' o' G' L'. rewrite var_put by assumption. destruct (Nat.eqb_spec g' g) as [->|]; [lia|].
        destruct (Hc g' o' G') as (_ & ->). f_equal. f_equal. f_equal. symmetry. apply owners_put_other; auto.
        -- rewrite E, holds_some. apply Nat.eqb_neq; congruence.
        -- eapply Nx; eauto.
      * intros g' Hg'. rewrite var_put by assumption. rewrite holds_some in Hg'.
        destruct (Nat.eqb_spec g' g) as [->|]; [rewrite Nat.eqb_refl in Hg'; discriminate|reflexivity].
    + rewrite set_ok, bind_Ok by assumption. destruct (Nat.eqb_spec (owners (put vs i x) g) 0); [lia|].
      eexists. split; [reflexivity|]. split; [now apply put_length|]. split.
      * intros g' o' G' L'. rewrite var_put by assumption. destruct (Nat.eqb_spec g' g) as [->|].
        -- f_equal. f_equal. now apply (C g).
        -- destruct (Hc g' o' G') as (_ & ->). f_equal. f_equal. f_equal. symmetry. apply owners_put_other; auto.
           ++ rewrite E, holds_some. apply Nat.eqb_neq; congruence.
           ++ eapply Nx; eauto.
      * intros g' Hg'. rewrite var_put by assumption. rewrite holds_some in Hg'.
        destruct (Nat.eqb_spec g' g) as [->|]; [rewrite Nat.eqb_refl in Hg'; discriminate|reflexivity].
  - exists cs. split; [reflexivity|]. split; [reflexivity|]. split; [|reflexivity].
    intros g o G L. destruct (Hc g o G) as (_ & ->). f_equal. f_equal. f_equal. symmetry. apply owners_put_other; auto.
    + now rewrite E.
    + eapply Nx; eauto.
  - exists cs. split; [reflexivity|]. split; [reflexivity|]. split; [|reflexivity].
    intros g o G L. destruct (Hc g o G) as (_ & ->). f_equal. f_equal. f_equal. symmetry. apply owners_put_other; auto.
    + now rewrite E.
    + eapply Nx; eauto.
Qed.

Lemma holds_null g : holds g (Some None) = false.
Proof. reflexivity. Qed.

Lemma var_app {A} (l : list (option A)) x g : g < length l -> var (l ++ [x]) g = var l g.
Proof. intros. unfold var. now rewrite app_nth1. Qed.
Lemma var_app_new {A} (l : list (option A)) x : var (l ++ [x]) (length l) = x.
Proof. unfold var. rewrite app_nth2, Nat.sub_diag by lia. reflexivity. Qed.

Lemma sh_get_ok s a i v : shinv s a -> i < length (sp_vars a) -> var (sp_vars a) i = Some v ->
  sh_get (sh_conts s) (vmap v) = Ok (match v with Some (_, p) => p | None => None end).
Proof.
  intros I H E. destruct v as [(g, o)|]; cbn [vmap option_map fst sh_get]; [|reflexivity].
  destruct (si_conts _ _ I g o) as (Lg & Vg); [apply in_groups; eauto|].
  unfold deref. rewrite (live_ok _ _ _ ltac:(rewrite (si_next _ _ I); exact Lg) Vg), bind_Ok. reflexivity.
Qed.

Lemma sh_live s a i v : shinv s a -> i < length (sp_vars a) -> var (sp_vars a) i = Some v -> live (sh_vars s) i = Ok (vmap v).
Proof.
  intros I H E. rewrite (si_vars _ _ I). apply live_ok; [now rewrite map_length|]. rewrite var_map, E. reflexivity.
Qed.
Lemma sh_vacant s a i : shinv s a -> is_vacant (sp_vars a) i -> vacant (sh_vars s) i = Ok tt.
Proof.
  intros I (H & E). rewrite (si_vars _ _ I). apply vacant_ok. split; [now rewrite map_length|]. now rewrite var_map, E.
Qed.
Lemma sh_set s a i x : shinv s a -> i < length (sp_vars a) ->
  set (sh_vars s) i (option_map vmap x) = Ok (map (option_map vmap) (put (sp_vars a) i x)).
Proof.
  intros I H. rewrite set_ok by (rewrite (si_vars _ _ I), map_length; assumption).
  now rewrite map_put, (si_vars _ _ I).
Qed.

(** reset, for a new value that is null, a new group, or (destroy) nothing. *)
Lemma sh_reset_ok s a i p v : shinv s a -> i < length (sp_vars a) -> var (sp_vars a) i = Some v ->
  match p, v with Some x, Some (_, Some y) => x <> y | _, _ => True end ->
  exists s', sh_reset s i p = Ok (s', lost (sp_vars a) (sp_vars (sp_after a (ShReset i p)))) /\
    shinv s' (sp_after a (ShReset i p)).
Proof.
  intros I H E Hp. unfold sh_reset. rewrite (sh_live _ _ _ _ I H E), bind_Ok, (sh_get_ok _ _ _ _ I H E), bind_Ok.
  assert ((match p, match v with Some (_, p0) => p0 | None => None end with Some x, Some y => Nat.eqb x y | _, _ => false end) = false) as ->.
  { destruct p as [x|]; auto. destruct v as [(g, [y|])|]; auto. apply Nat.eqb_neq; congruence. }
  set (nv := match p with Some q => Some (Some (sp_next a, Some q)) | None => Some None end).
  set (cs := match p with Some _ => sh_conts s ++ [Some (C p 1)] | None => sh_conts s end).
  assert (EQ : (let '(cs, np) := match p with
                   | Some _ => let (cs, c) := new_cont (sh_conts s) p in (cs, Some c)
                   | None => (sh_conts s, None) end in
    vs <- set (sh_vars s) i (Some np) ;; ' (cs', d) <- unref cs (vmap v) ;; Ok (Sh cs' vs, d)) =
    (vs <- set (sh_vars s) i (option_map vmap nv) ;; ' (cs', d) <- unref cs (vmap v) ;; Ok (Sh cs' vs, d))).
  { unfold new_cont, cs, nv. destruct p; [rewrite (si_next _ _ I)|]; reflexivity. }
  rewrite EQ, (sh_set _ _ _ _ I H), bind_Ok.
  assert (A : sp_vars (sp_after a (ShReset i p)) = put (sp_vars a) i nv) by (unfold nv; destruct p; reflexivity).
  assert (AN : sp_next (sp_after a (ShReset i p)) = length cs).
  { unfold cs. destruct p; cbn; [rewrite app_length; cbn; rewrite (si_next _ _ I); lia|symmetry; apply (si_next _ _ I)]. }
  assert (OLD : forall g o, In (g, o) (groups (sp_vars a)) -> g < length (sh_conts s)).
  { intros g o G. rewrite (si_next _ _ I). now apply (si_conts _ _ I g o). }
  destruct (unref_ok cs (sp_vars a) i nv H (shinv_consistent _ _ I) (si_size _ _ I)) as (cs' & U & L & K & F).
  { intros g o G. unfold nv. destruct p; [|reflexivity]. cbn [holds]. apply Nat.eqb_neq.
    apply (si_conts _ _ I) in G. lia. }
  { intros g o G. pose proof (OLD g o G) as Lg. destruct (si_conts _ _ I g o G) as (_ & Vg).
    unfold cs. destruct p; [|auto]. rewrite app_length, var_app by assumption. split; [lia|assumption]. }
  rewrite E in U. rewrite U, bind_Ok. eexists. split; [rewrite A; reflexivity|].
  constructor; cbn [sh_conts sh_vars].
  - now rewrite AN.
  - now rewrite A.
  - intros g o G. rewrite A in *.
    assert (1 <= owners (put (sp_vars a) i nv) g) as L1 by (apply in_groups in G as (k & Ek); eapply owners_var; eauto).
    rewrite AN. apply in_groups_put in G as [G|G]; [| |assumption].
    + unfold nv in G. destruct p as [q|]; [|discriminate]. injection G as <- <-.
      assert (NEW : sp_next a = length (sh_conts s)) by (symmetry; apply (si_next _ _ I)).
      split.
      { unfold cs. rewrite app_length. cbn. lia. }
      assert (FRESH : forall k, var (sp_vars a) k <> None -> holds (sp_next a) (var (sp_vars a) k) = false).
      { intros k _. destruct (holds (sp_next a) (var (sp_vars a) k)) eqn:Hh; auto. apply holds_iff in Hh as (o' & Eo).
        assert (In (sp_next a, o') (groups (sp_vars a))) as G' by (apply in_groups; eauto). apply OLD in G'. lia. }
      rewrite F by (apply FRESH; congruence).
      unfold cs. rewrite NEW at 1. rewrite var_app_new. f_equal. f_equal.
      assert (owners (sp_vars a) (sp_next a) = 0) as Z0.
      { destruct (owners (sp_vars a) (sp_next a)) eqn:Z1; auto. exfalso.
        destruct (owners_in (sp_vars a) (sp_next a) ltac:(lia)) as (o' & G'). apply OLD in G'. lia. }
      pose proof (owners_put (sp_vars a) i nv (sp_next a) H) as P. rewrite FRESH in P by congruence.
      unfold nv at 2 in P. rewrite holds_some, Nat.eqb_refl in P. cbn in P. fold nv in P. lia.
    + split.
      { apply OLD in G. unfold cs. destruct p; [rewrite app_length; lia|assumption]. }
      now apply K.
  - rewrite A, put_length by assumption. apply (si_size _ _ I).
Qed.

Lemma shinv_vars s a vs (vs' : svars) : shinv s a -> length vs' = length (sp_vars a) ->
  (forall g, In g (groups vs') -> In g (groups (sp_vars a))) ->
  (forall g, owners vs' g = owners (sp_vars a) g) ->
  vs = map (option_map vmap) vs' -> shinv (Sh (sh_conts s) vs) (SS (sp_next a) vs').
Proof.
  intros I L G O ->. constructor; cbn [sh_conts sh_vars sp_next sp_vars].
  - apply (si_next _ _ I).
  - reflexivity.
  - intros g o Hg. rewrite O. apply (si_conts _ _ I), G. assumption.
  - rewrite L. apply (si_size _ _ I).
Qed.

Lemma sh_step_ok s a o : shinv s a -> sp_pre a o ->
  exists s', sh_step s o = Ok (s', snd (sp_step a o)) /\ shinv s' (sp_after a o).
Proof.
  intros I Hp. unfold sp_step. cbn [snd].
  destruct o as [i|i p|i j|i j|i p|i j|i j|i|i|i]; cbn [sh_step sp_pre] in *.
  - (* ShDef *)
    destruct Hp as (H & E). rewrite (sh_vacant _ _ _ I (conj H E)), bind_Ok.
    change (Some (@None nat)) with (option_map vmap (Some None)). rewrite (sh_set _ _ _ _ I H), bind_Ok.
    cbn [sp_after sp_vars sp_value].
    assert (O : forall g, owners (put (sp_vars a) i (Some None)) g = owners (sp_vars a) g)
      by (intros; apply owners_put_other; [assumption|now rewrite E|reflexivity]).
    rewrite lost_none by (intros g; rewrite O; auto). eexists. split; [reflexivity|].
    apply shinv_vars; auto; [now apply put_length|].
    intros g G. apply in_groups_put in G as [G|G]; auto. discriminate.
  - (* ShOf *)
    destruct Hp as (H & E). rewrite (sh_vacant _ _ _ I (conj H E)), bind_Ok. unfold new_cont.
    set (nv := Some (Some (sp_next a, p))).
    replace (Some (Some (length (sh_conts s)))) with (option_map vmap nv)
      by (unfold nv; cbn; rewrite (si_next _ _ I); reflexivity).
    rewrite (sh_set _ _ _ _ I H), bind_Ok. cbn [sp_after sp_vars sp_value]. fold nv.
    assert (OLD : forall g o, In (g, o) (groups (sp_vars a)) -> g < sp_next a) by (intros g o G; now apply (si_conts _ _ I g o)).
    rewrite lost_none.
    2:{ intros g L. pose proof (owners_put (sp_vars a) i nv g H) as P. rewrite E in P. cbn [holds b2n] in P. lia. }
    eexists. split; [reflexivity|]. constructor; cbn [sh_conts sh_vars sp_next sp_vars].
    + rewrite app_length, (si_next _ _ I). cbn. lia.
    + reflexivity.
    + intros g o G. pose proof (owners_put (sp_vars a) i nv g H) as P. rewrite E in P. cbn [holds b2n] in P.
      apply in_groups_put in G as [G|G]; [| |assumption].
      * unfold nv in G. injection G as <- <-. split; [lia|].
        assert (owners (sp_vars a) (sp_next a) = 0) as Z0.
        { destruct (owners (sp_vars a) (sp_next a)) eqn:Z1; auto. exfalso.
          destruct (owners_in (sp_vars a) (sp_next a) ltac:(lia)) as (o' & G'). apply OLD in G'. lia. }
        rewrite <- (si_next _ _ I) at 1. rewrite var_app_new. f_equal. f_equal.
        unfold nv in P at 2. rewrite holds_some, Nat.eqb_refl in P. cbn [b2n] in P. rewrite Z0 in P.
        rewrite Nat.add_0_r in P. rewrite P. reflexivity.
      * pose proof (OLD g o G) as Lg. split; [lia|]. rewrite var_app by (rewrite (si_next _ _ I); assumption).
        destruct (si_conts _ _ I g o G) as (_ & ->). f_equal. f_equal. f_equal.
        unfold nv in P at 2. rewrite holds_some in P. destruct (Nat.eqb_spec (sp_next a) g); [lia|]. cbn in P. lia.
    + rewrite put_length by assumption. apply (si_size _ _ I).
  - (* ShCopy *)
    destruct Hp as ((H & E) & Hj). apply is_live_some in Hj as (v & Hj & Ej).
    rewrite (sh_vacant _ _ _ I (conj H E)), bind_Ok, (sh_live _ _ _ _ I Hj Ej), bind_Ok.
    cbn [sp_after sp_vars sp_value]. rewrite Ej.
    assert (OO : forall g, owners (put (sp_vars a) i (Some v)) g = owners (sp_vars a) g + b2n (holds g (Some v))).
    { intros g. pose proof (owners_put (sp_vars a) i (Some v) g H) as P. rewrite E in P. cbn [holds b2n] in P. cbn [holds]. lia. }
    rewrite lost_none by (intros g L; rewrite OO; lia).
    destruct v as [(g, o)|]; cbn [vmap option_map fst addref].
    + assert (G : In (g, o) (groups (sp_vars a))) by (apply in_groups; eauto).
      destruct (si_conts _ _ I g o G) as (Lg & Vg). rewrite <- (si_next _ _ I) in Lg.
      unfold deref. rewrite (live_ok _ _ _ Lg Vg), bind_Ok, set_ok, bind_Ok by assumption. cbn [c_obj c_refs].
      change (Some (Some g)) with (option_map vmap (Some (Some (g, o)))). rewrite (sh_set _ _ _ _ I H), bind_Ok.
      eexists. split; [reflexivity|]. constructor; cbn [sh_conts sh_vars sp_next sp_vars].
      * rewrite put_length by assumption. apply (si_next _ _ I).
      * reflexivity.
      * intros g' o' G'. rewrite OO. rewrite var_put by assumption.
        assert (In (g', o') (groups (sp_vars a))) as G2.
        { apply in_groups_put in G' as [G'|G']; auto. injection G' as -> ->. assumption. }
        destruct (si_conts _ _ I g' o' G2) as (Lg' & Vg'). split; [assumption|].
        rewrite holds_some. destruct (Nat.eqb_spec g' g) as [->|N].
        -- rewrite Nat.eqb_refl. cbn [b2n]. f_equal. f_equal; [now apply (shinv_consistent _ _ I g)|].
           pose proof (owners_put (sp_vars a) i (Some (Some (g, o))) g H) as P. rewrite E, holds_some, Nat.eqb_refl in P. cbn [holds b2n] in P.
           pose proof (owners_le (put (sp_vars a) i (Some (Some (g, o)))) g) as L2. rewrite put_length in L2 by assumption.
           pose proof (si_size _ _ I). rewrite Z.mod_small by lia. lia.
        -- destruct (Nat.eqb_spec g g'); [congruence|]. cbn [b2n]. rewrite Nat.add_0_r. assumption.
      * rewrite put_length by assumption. apply (si_size _ _ I).
    + rewrite bind_Ok. change (Some (@None nat)) with (option_map vmap (Some (@None group))). rewrite (sh_set _ _ _ _ I H), bind_Ok.
      eexists. split; [reflexivity|]. apply shinv_vars; auto; [now apply put_length| |].
      * intros g G. apply in_groups_put in G as [G|G]; auto. discriminate.
      * intros g. rewrite OO. cbn. lia.
  - (* ShMove *)
    destruct Hp as ((H & E) & Hj). apply is_live_some in Hj as (v & Hj & Ej).
    rewrite (sh_vacant _ _ _ I (conj H E)), bind_Ok, (sh_live _ _ _ _ I Hj Ej), bind_Ok.
    cbn [sp_after sp_vars sp_value]. rewrite Ej.
    assert (i <> j) as Nij by (intros ->; congruence).
    change (Some (vmap v)) with (option_map vmap (Some v)). rewrite (sh_set _ _ _ _ I H), bind_Ok.
    rewrite set_ok by (rewrite map_length, put_length; assumption). rewrite bind_Ok.
    change (Some (@None nat)) with (option_map vmap (Some (@None group))) at 1. rewrite <- map_put.
    assert (O : forall g, owners (put (put (sp_vars a) i (Some v)) j (Some None)) g = owners (sp_vars a) g).
    { intros g. pose proof (owners_put (sp_vars a) i (Some v) g H) as P1.
      pose proof (owners_put (put (sp_vars a) i (Some v)) j (Some None) g ltac:(rewrite put_length; assumption)) as P2.
      rewrite var_put in P2 by assumption. destruct (Nat.eqb_spec j i) as [->|]; [congruence|]. rewrite Ej in P2. rewrite E in P1.
      cbn [holds b2n] in P1, P2. lia. }
    rewrite lost_none by (intros g; rewrite O; auto).
    eexists. split; [reflexivity|]. apply shinv_vars; auto; [now rewrite !put_length by (rewrite ?put_length; assumption)|].
    intros g G. apply in_groups_put in G as [G|G]; [discriminate| |rewrite put_length; assumption].
    apply in_groups_put in G as [G|G]; auto. injection G as ->. apply in_groups. eauto.
  - (* ShReset *)
    destruct Hp as (Hi & Hp). apply is_live_some in Hi as (v & H & E). rewrite E in Hp.
    destruct (sh_reset_ok s a i p v I H E) as (s' & Es & I').
    { assumption. }
    rewrite Es, bind_Ok. eexists. split; [reflexivity|]. assumption.
  - (* ShAssignMove *)
    destruct Hp as (Hi & Hj). apply is_live_some in Hi as (v & H & E). apply is_live_some in Hj as (w & Hj & Ej).
    rewrite (sh_live _ _ _ _ I H E), bind_Ok, (sh_live _ _ _ _ I Hj Ej), bind_Ok.
    cbn [sp_after sp_vars sp_value]. rewrite Ej, E.
    change (Some (vmap w)) with (option_map vmap (Some w)). rewrite (sh_set _ _ _ _ I H), bind_Ok.
    rewrite set_ok by (rewrite map_length, put_length; assumption). rewrite bind_Ok.
    change (Some (vmap v)) with (option_map vmap (Some v)). rewrite <- map_put.
    assert (O : forall g, owners (put (put (sp_vars a) i (Some w)) j (Some v)) g = owners (sp_vars a) g).
    { intros g. pose proof (owners_put (sp_vars a) i (Some w) g H) as P1.
      pose proof (owners_put (put (sp_vars a) i (Some w)) j (Some v) g ltac:(rewrite put_length; assumption)) as P2.
      rewrite var_put in P2 by assumption. destruct (Nat.eqb_spec j i) as [->|]; rewrite ?Ej in P2; rewrite E in P1.
      - assert (v = w) by congruence. subst. lia.
      - lia. }
    rewrite lost_none by (intros g; rewrite O; auto).
    eexists. split; [reflexivity|]. apply shinv_vars; auto; [now rewrite !put_length by (rewrite ?put_length; assumption)|].
    intros g G. apply in_groups_put in G as [G|G]; [injection G as ->; apply in_groups; eauto| |rewrite put_length; assumption].
    apply in_groups_put in G as [G|G]; auto. injection G as ->. apply in_groups. eauto.
  - (* ShSwap *)
    destruct Hp as (Hi & Hj). apply is_live_some in Hi as (v & H & E). apply is_live_some in Hj as (w & Hj & Ej).
    rewrite (sh_live _ _ _ _ I H E), bind_Ok, (sh_live _ _ _ _ I Hj Ej), bind_Ok.
    cbn [sp_after sp_vars sp_value]. rewrite Ej, E.
    change (Some (vmap w)) with (option_map vmap (Some w)). rewrite (sh_set _ _ _ _ I H), bind_Ok.
    rewrite set_ok by (rewrite map_length, put_length; assumption). rewrite bind_Ok.
    change (Some (vmap v)) with (option_map vmap (Some v)). rewrite <- map_put.
    assert (O : forall g, owners (put (put (sp_vars a) i (Some w)) j (Some v)) g = owners (sp_vars a) g).
    { intros g. pose proof (owners_put (sp_vars a) i (Some w) g H) as P1.
      pose proof (owners_put (put (sp_vars a) i (Some w)) j (Some v) g ltac:(rewrite put_length; assumption)) as P2.
      rewrite var_put in P2 by assumption. destruct (Nat.eqb_spec j i) as [->|]; rewrite ?Ej in P2; rewrite E in P1.
      - assert (v = w) by congruence. subst. lia.
      - lia. }
    rewrite lost_none by (intros g; rewrite O; auto).
    eexists. split; [reflexivity|]. apply shinv_vars; auto; [now rewrite !put_length by (rewrite ?put_length; assumption)|].
    intros g G. apply in_groups_put in G as [G|G]; [injection G as ->; apply in_groups; eauto| |rewrite put_length; assumption].
    apply in_groups_put in G as [G|G]; auto. injection G as ->. apply in_groups. eauto.
  - (* ShDestroy *)
    apply is_live_some in Hp as (v & H & E).
    destruct (sh_reset_ok s a i None v I H E Logic.I) as (s' & Es & I').
    rewrite Es, bind_Ok. cbn [sp_after sp_vars sp_next sp_value] in *.
    assert (H' : i < length (put (sp_vars a) i (Some None))) by (rewrite put_length; assumption).
    pose proof (sh_set s' _ i None I' H') as St. cbn [option_map sp_vars] in St. rewrite St, bind_Ok.
    assert (PP : forall x y, put (put (sp_vars a) i x) i y = put (sp_vars a) i y).
    { intros x y. now apply put_put. }
    rewrite PP.
    assert (O : forall g, owners (put (sp_vars a) i None) g = owners (put (sp_vars a) i (Some None)) g).
    { intros g. pose proof (owners_put (sp_vars a) i None g H). pose proof (owners_put (sp_vars a) i (Some None) g H).
      cbn [holds b2n] in *. lia. }
    assert (EL : lost (sp_vars a) (put (sp_vars a) i None) = lost (sp_vars a) (put (sp_vars a) i (Some None))).
    { rewrite !lost_put by (auto; eapply shinv_consistent; eauto). destruct (var (sp_vars a) i) as [[(g, o)|]|]; auto. now rewrite O. }
    rewrite EL. eexists. split; [reflexivity|].
    apply (shinv_vars s' (SS (sp_next a) (put (sp_vars a) i (Some None)))); cbn [sp_vars]; auto.
    + now rewrite !put_length.
    + intros g G. apply in_groups in G as (k & Ek). apply in_groups. exists k.
      rewrite var_put in * by assumption. destruct (Nat.eqb_spec k i); [discriminate|assumption].
  - (* ShCount *)
    apply is_live_some in Hp as (v & H & E). rewrite (sh_live _ _ _ _ I H E), bind_Ok.
    cbn [sp_after sp_vars sp_value]. rewrite lost_none by auto. rewrite E.
    destruct v as [(g, o)|]; cbn [vmap option_map fst sh_count].
    + destruct (si_conts _ _ I g o) as (Lg & Vg); [apply in_groups; eauto|].
      unfold deref. rewrite (live_ok _ _ _ ltac:(rewrite (si_next _ _ I); exact Lg) Vg), bind_Ok. cbn [c_refs]. rewrite bind_Ok.
      eexists. split; [reflexivity|]. assumption.
    + rewrite bind_Ok. eexists. split; [reflexivity|]. assumption.
  - (* ShGet *)
    apply is_live_some in Hp as (v & H & E). rewrite (sh_live _ _ _ _ I H E), bind_Ok, (sh_get_ok _ _ _ _ I H E), bind_Ok.
    cbn [sp_after sp_vars sp_value]. rewrite lost_none by auto. rewrite E.
    eexists. split; [|eassumption]. destruct v as [(g, o)|]; reflexivity.
Qed.

Lemma sh_run_ok ops : forall s a, shinv s a -> sp_pres a ops ->
  exists s', run_ops sh_step s ops = Ok (s', snd (spec_run sp_step a ops)) /\ shinv s' (fst (spec_run sp_step a ops)).
Proof.
  induction ops as [|o ops IH]; intros s a I Hp; cbn [run_ops spec_run sp_pres] in *.
  - exists s. split; [reflexivity|assumption].
  - destruct Hp as (Ho & Hp). destruct (sh_step_ok s a o I Ho) as (s1 & E1 & I1). rewrite E1, bind_Ok.
    destruct (IH s1 (sp_after a o) I1 Hp) as (s2 & E2 & I2). rewrite E2, bind_Ok.
    destruct (sp_step a o) as (a1, r1) eqn:Ea. cbn [snd].
    assert (a1 = sp_after a o) as -> by (unfold sp_step in Ea; now injection Ea as <- <-).
    destruct (spec_run sp_step (sp_after a o) ops) as (a2, r2). cbn [fst snd] in *. eauto.
Qed.

(** Nothing is lost and nothing deleted twice. *)
Definition swf (a : sspec) : Prop :=
  consistent (sp_vars a) /\ forall g o, In (g, o) (groups (sp_vars a)) -> g < sp_next a.

Lemma sp_groups a o : sp_pre a o ->
  exists new, sp_next (sp_after a o) = sp_next a + length new /\
    (new = [] \/ exists p, new = [(sp_next a, p)]) /\
    sh_given o = flat_map (fun g => del (snd g)) new /\
    (forall g, In g new -> In g (groups (sp_vars (sp_after a o)))) /\
    (forall g, In g (groups (sp_vars (sp_after a o))) -> In g (groups (sp_vars a)) \/ In g new).
Proof.
  assert (SAME : forall i x, i < length (sp_vars a) -> x = None \/ x = Some None \/ (exists k, x = var (sp_vars a) k) ->
    forall g, In g (groups (put (sp_vars a) i x)) -> In g (groups (sp_vars a))).
  { intros i x H X g G. apply in_groups_put in G as [G|G]; auto. apply in_groups.
    destruct X as [->|[->|(k & ->)]]; [discriminate|discriminate|eauto]. }
  assert (SAME2 : forall i x j y, i < length (sp_vars a) -> j < length (sp_vars a) ->
    x = None \/ x = Some None \/ (exists k, x = var (sp_vars a) k) ->
    y = None \/ y = Some None \/ (exists k, y = var (sp_vars a) k) ->
    forall g, In g (groups (put (put (sp_vars a) i x) j y)) -> In g (groups (sp_vars a))).
  { intros i x j y H Hj X Y g G. apply in_groups_put in G as [G|G]; [| |rewrite put_length; assumption].
    - apply in_groups. destruct Y as [->|[->|(k & ->)]]; [discriminate|discriminate|eauto].
    - apply (SAME i x); assumption. }
  assert (NEW : forall i p, i < length (sp_vars a) ->
    (forall g, In g [(sp_next a, p)] -> In g (groups (put (sp_vars a) i (Some (Some (sp_next a, p)))))) /\
    (forall g, In g (groups (put (sp_vars a) i (Some (Some (sp_next a, p))))) -> In g (groups (sp_vars a)) \/ In g [(sp_next a, p)])).
  { intros i p H. split.
    - intros g [<-|[]]. apply in_groups. exists i. rewrite var_put, Nat.eqb_refl by assumption. reflexivity.
    - intros g G. apply in_groups_put in G as [G|G]; auto. right. left. congruence. }
  destruct o as [i|i p|i j|i j|i p|i j|i j|i|i|i]; cbn [sp_pre]; intros Hp.
  - exists []. cbn. split; [lia|]. split; [now left|]. split; [reflexivity|]. split; [now intros g []|].
    intros g G. left. refine (SAME i _ _ _ g G); [apply Hp|eauto].
  - exists [(sp_next a, p)]. cbn [sp_after sp_next length sh_given flat_map snd sp_vars]. split; [lia|].
    split; [right; eauto|]. split; [now rewrite app_nil_r|]. apply NEW, Hp.
  - exists []. cbn. split; [lia|]. split; [now left|]. split; [reflexivity|]. split; [now intros g []|].
    intros g G. left. refine (SAME i _ _ _ g G); [apply Hp|eauto].
  - exists []. cbn. split; [lia|]. split; [now left|]. split; [reflexivity|]. split; [now intros g []|].
    intros g G. left. refine (SAME2 i _ j _ _ _ _ _ g G); [apply Hp|apply Hp|eauto|eauto].
  - destruct Hp as ((H & _) & _). destruct p as [q|].
    + exists [(sp_next a, Some q)]. cbn [sp_after sp_next length sh_given flat_map snd sp_vars]. split; [lia|].
      split; [right; eauto|]. split; [now rewrite app_nil_r|]. now apply NEW.
    + exists []. cbn. split; [lia|]. split; [now left|]. split; [reflexivity|]. split; [now intros g []|].
      intros g G. left. refine (SAME i _ _ _ g G); [assumption|eauto].
  - exists []. cbn. split; [lia|]. split; [now left|]. split; [reflexivity|]. split; [now intros g []|].
    intros g G. left. refine (SAME2 i _ j _ _ _ _ _ g G); [apply Hp|apply Hp|eauto|eauto].
  - exists []. cbn. split; [lia|]. split; [now left|]. split; [reflexivity|]. split; [now intros g []|].
    intros g G. left. refine (SAME2 i _ j _ _ _ _ _ g G); [apply Hp|apply Hp|eauto|eauto].
  - exists []. cbn. split; [lia|]. split; [now left|]. split; [reflexivity|]. split; [now intros g []|].
    intros g G. left. refine (SAME i _ _ _ g G); [apply Hp|eauto].
  - exists []. cbn. split; [lia|]. split; [now left|]. split; [reflexivity|]. split; [now intros g []|]. tauto.
  - exists []. cbn. split; [lia|]. split; [now left|]. split; [reflexivity|]. split; [now intros g []|]. tauto.
Qed.

Lemma swf_step a o : swf a -> sp_pre a o -> swf (sp_after a o).
Proof.
  intros (C & N) Hp. destruct (sp_groups a o Hp) as (new & En & Sh & _ & _ & Out).
  assert (B : forall g o', In (g, o') new -> g = sp_next a /\ length new = 1).
  { intros g o' G. destruct Sh as [->|(p & ->)]; [destruct G|]. destruct G as [G|[]]. injection G as <- <-. auto. }
  split.
  - intros g x y Gx Gy. apply Out in Gx as [Gx|Gx], Gy as [Gy|Gy].
    + eapply C; eauto.
    + apply N in Gx. apply B in Gy. lia.
    + apply N in Gy. apply B in Gx. lia.
    + destruct Sh as [->|(p & ->)]; [destruct Gx|]. destruct Gx as [Gx|[]], Gy as [Gy|[]]. congruence.
  - intros g x G. rewrite En. apply Out in G as [G|G]; [apply N in G; lia|apply B in G; lia].
Qed.

Lemma filter_split {A} (p : A -> bool) (l : list A) : Permutation l (filter p l ++ filter (fun x => negb (p x)) l).
Proof.
  induction l as [|x l IH]; cbn [filter]; [constructor|]. destruct (p x); cbn [negb].
  - cbn. now constructor.
  - etransitivity; [apply perm_skip, IH|]. apply Permutation_middle.
Qed.

Lemma sp_conserve a o : swf a -> sp_pre a o ->
  Permutation (owned (sp_vars a) ++ sh_given o)
              (lost (sp_vars a) (sp_vars (sp_after a o)) ++ owned (sp_vars (sp_after a o))).
Proof.
  intros (C & N) Hp. pose proof (swf_step a o (conj C N) Hp) as (C' & _).
  destruct (sp_groups a o Hp) as (new & En & Sh & -> & In1 & Out).
  unfold owned, lost. rewrite <- !flat_map_app. apply Permutation_flat_map.
  set (vs := sp_vars a) in *. set (vs' := sp_vars (sp_after a o)) in *.
  set (p := fun g : group => Nat.eqb (owners vs' (fst g)) 0).
  change (Permutation (groups vs ++ new) (filter p (groups vs) ++ groups vs')).
  rewrite (filter_split p (groups vs)) at 1. rewrite <- app_assoc. apply Permutation_app_head.
  assert (NDv : NoDup (groups vs)) by apply NoDup_nodup. assert (NDv' : NoDup (groups vs')) by apply NoDup_nodup.
  apply NoDup_Permutation; [|assumption|].
  -
    assert (NN : NoDup new) by (destruct Sh as [->|(q & ->)]; repeat constructor; intros []).
    assert (DJ : forall g, In g (filter (fun x => negb (p x)) (groups vs)) -> In g new -> False).
    { intros (g, x) G1 G2. apply filter_In in G1 as (G1 & _). apply N in G1.
      destruct Sh as [->|(q & ->)]; [destruct G2|]. destruct G2 as [G2|[]]. injection G2 as <- <-. lia. }
    clear -NDv NN DJ. pose proof (NoDup_filter (fun x => negb (p x)) NDv) as ND.
    induction (filter (fun x => negb (p x)) (groups vs)) as [|y t IH]; [assumption|]. cbn. inversion ND; subst. constructor.
    + rewrite in_app_iff. intros [Y|Y]; [auto|]. eapply DJ; [now left|eassumption].
    + apply IH; auto. intros g Gt. apply DJ. now right.
  - intros (g, x). rewrite in_app_iff, filter_In. split.
    + intros [(G & P)|G]; [|now apply In1].
      apply Bool.negb_true_iff, Nat.eqb_neq in P. cbn [fst] in P.
      destruct (owners_in vs' g ltac:(lia)) as (x' & G').
      destruct (Out _ G') as [G2|G2].
      * now rewrite (C g x x' G G2).
      * exfalso. apply N in G. destruct Sh as [->|(q & ->)]; [destruct G2|]. destruct G2 as [G2|[]]. injection G2 as <- <-. lia.
    + intros G. destruct (Out _ G) as [G2|G2]; [left|now right]. split; [assumption|].
      apply Bool.negb_true_iff, Nat.eqb_neq. cbn [fst]. apply in_groups in G as (k & Ek). apply owners_var in Ek. lia.
Qed.

Lemma sp_conserve_run ops : forall a, swf a -> sp_pres a ops ->
  Permutation (owned (sp_vars a) ++ flat_map sh_given ops)
    (flat_map fst (snd (spec_run sp_step a ops)) ++ owned (sp_vars (fst (spec_run sp_step a ops)))).
Proof.
  induction ops as [|o ops IH]; intros a W Hp; cbn [spec_run sp_pres flat_map] in *.
  - cbn. now rewrite app_nil_r.
  - destruct Hp as (Ho & Hp). destruct (sp_step a o) as (a1, r1) eqn:Ea. unfold sp_step in Ea. injection Ea as <- <-.
    specialize (IH (sp_after a o) (swf_step a o W Ho) Hp). pose proof (sp_conserve a o W Ho) as P.
    destruct (spec_run sp_step (sp_after a o) ops) as (a2, r2). cbn [fst snd flat_map] in *.
    rewrite app_assoc, P, <- app_assoc, IH, app_assoc. reflexivity.
Qed.
