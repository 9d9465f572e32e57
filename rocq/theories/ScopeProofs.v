(** * ScopeProofs: invariants of guards. *)
From Verif Require Import Base ScopeModel ScopeSpec.

Definition owners (g t : nat) (l : list guard) : nat :=
  length (filter (fun x => genabled x && Nat.eqb (gid x) g && Nat.eqb (cb_tag (gcb x)) t) l).

Definition Inv (s : st) : Prop := forall g t,
  owners g t (live s) + times (Ran g t) (log s) + times (Dropped g t) (log s) = times (Made g t) (log s).

Definition is_made (e : event) : list nat := match e with Made g _ => [g] | _ => [] end.
Definition mades (l : list event) : list nat := flat_map is_made l.
Definition Fresh (s : st) : Prop := mades (log s) = seq 0 (next s).

Lemma times_app e l1 l2 : times e (l1 ++ l2) = times e l1 + times e l2.
Proof. unfold times. apply count_occ_app. Qed.
Lemma owners_app g t l1 l2 : owners g t (l1 ++ l2) = owners g t l1 + owners g t l2.
Proof. unfold owners. now rewrite filter_app, app_length. Qed.
Definition own1 (g t : nat) (x : guard) : nat :=
  if genabled x && Nat.eqb (gid x) g && Nat.eqb (cb_tag (gcb x)) t then 1 else 0.
Lemma owners_cons g t x l : owners g t (x :: l) = own1 g t x + owners g t l.
Proof. unfold owners, own1. cbn [filter]. destruct (_ && _); reflexivity. Qed.
Lemma own1_off g t i c : own1 g t (mkguard i c false) = 0.
Proof. reflexivity. Qed.
Lemma own1_on g t i c : own1 g t (mkguard i c true) = if Nat.eqb i g && Nat.eqb (cb_tag c) t then 1 else 0.
Proof. reflexivity. Qed.
Lemma split_at {A} (l : list A) k x : nth_error l k = Some x -> l = firstn k l ++ x :: skipn (S k) l.
Proof.
  revert k. induction l as [|y l IH]; intros [|k] E; try discriminate.
  - injection E as ->. reflexivity.
  - cbn [firstn skipn app]. f_equal. now apply IH.
Qed.
Lemma owners_put g t l k x y : nth_error l k = Some x ->
  owners g t (put k y l) + own1 g t x = owners g t l + own1 g t y.
Proof.
  intros E. unfold put. rewrite (split_at l k x E) at 3. rewrite !owners_app, !owners_cons. lia.
Qed.
Lemma put_length k (y : guard) l x : nth_error l k = Some x -> length (put k y l) = length l.
Proof.
  intros E. unfold put. rewrite (split_at l k x E) at 3. rewrite !app_length. cbn [length]. reflexivity.
Qed.
Lemma nth_put_eq k (y : guard) l x : nth_error l k = Some x -> nth_error (put k y l) k = Some y.
Proof.
  intros E. assert (k < length l) by (apply nth_error_Some; congruence).
  unfold put. rewrite nth_error_app2; rewrite firstn_length; [|lia]. replace (k - Nat.min k (length l)) with 0 by lia. reflexivity.
Qed.
Lemma nth_put_neq k (y : guard) l x d : nth_error l k = Some x -> d <> k -> nth_error (put k y l) d = nth_error l d.
Proof.
  intros E N. unfold put. rewrite (split_at l k x E) at 3.
  assert (L : length (firstn k l) = k). { assert (k < length l) by (apply nth_error_Some; congruence). rewrite firstn_length. lia. }
  destruct (Nat.lt_ge_cases d k).
  - rewrite !nth_error_app1 by lia. reflexivity.
  - rewrite !nth_error_app2 by lia. rewrite L. destruct (d - k) as [|n] eqn:Ed; [lia|]. reflexivity.
Qed.

Lemma times_ran g t g' t' : times (Ran g t) [Ran g' t'] = if Nat.eqb g' g && Nat.eqb t' t then 1 else 0.
Proof.
  unfold times. cbn [count_occ]. destruct (event_dec _ _) as [E|N].
  - injection E as -> ->. now rewrite !Nat.eqb_refl.
  - destruct (Nat.eqb_spec g' g) as [->|]; [|reflexivity]. destruct (Nat.eqb_spec t' t) as [->|]; [congruence|reflexivity].
Qed.
Lemma times_dropped g t g' t' : times (Dropped g t) [Dropped g' t'] = if Nat.eqb g' g && Nat.eqb t' t then 1 else 0.
Proof.
  unfold times. cbn [count_occ]. destruct (event_dec _ _) as [E|N].
  - injection E as -> ->. now rewrite !Nat.eqb_refl.
  - destruct (Nat.eqb_spec g' g) as [->|]; [|reflexivity]. destruct (Nat.eqb_spec t' t) as [->|]; [congruence|reflexivity].
Qed.
Lemma times_made g t g' t' : times (Made g t) [Made g' t'] = if Nat.eqb g' g && Nat.eqb t' t then 1 else 0.
Proof.
  unfold times. cbn [count_occ]. destruct (event_dec _ _) as [E|N].
  - injection E as -> ->. now rewrite !Nat.eqb_refl.
  - destruct (Nat.eqb_spec g' g) as [->|]; [|reflexivity]. destruct (Nat.eqb_spec t' t) as [->|]; [congruence|reflexivity].
Qed.
Lemma mades_app a b : mades (a ++ b) = mades a ++ mades b.
Proof. apply flat_map_app. Qed.

Ltac zeros := repeat match goal with
  | |- context [times (Ran ?g ?t) [?e]] => change (times (Ran g t) [e]) with 0
  | |- context [times (Dropped ?g ?t) [?e]] => change (times (Dropped g t) [e]) with 0
  | |- context [times (Made ?g ?t) [?e]] => change (times (Made g t) [e]) with 0
  end.

(** Firing a guard. *)
Lemma fire_log g lg lg' x : fire g lg = (Some lg', x) ->
  (forall i t, own1 i t g + times (Ran i t) lg = times (Ran i t) lg') /\
  (forall i t, times (Dropped i t) lg' = times (Dropped i t) lg) /\
  (forall i t, times (Made i t) lg' = times (Made i t) lg) /\ mades lg' = mades lg.
Proof.
  unfold fire. destruct g as [i c [|]]; cbn [genabled gid gcb].
  - destruct (cb_throws c); intros E; [discriminate|]. injection E as <- _.
    split; [|split; [|split]]; intros.
    + rewrite times_app, times_ran, own1_on. lia.
    + rewrite times_app. zeros. lia.
    + rewrite times_app. zeros. lia.
    + rewrite mades_app. cbn. now rewrite app_nil_r.
  - intros E. injection E as <- _. split; [|split; [|split]]; intros; reflexivity.
Qed.

Lemma unwind_ok : forall n s s' x, unwind n s = (Some s', x) -> (n <= length (live s)) ->
  (Inv s -> Inv s') /\ (Fresh s -> Fresh s') /\ live s' = skipn n (live s) /\ next s' = next s.
Proof.
  induction n as [|n IH]; intros [lv nx lg] s' x E L; cbn [unwind live log next] in *.
  - injection E as <- _. auto.
  - destruct lv as [|g l]; cbn [length] in L; [lia|].
    destruct (fire g lg) as [[lg'|] y] eqn:F; [|discriminate].
    destruct (IH _ _ _ E ltac:(cbn [live]; lia)) as (H1 & H2 & H3 & H4). cbn [live next] in *.
    destruct (fire_log _ _ _ _ F) as (F1 & F2 & F3 & F4).
    split; [|split; [|split]]; auto.
    + intros I0. apply H1. intros i t. specialize (I0 i t). cbn [live log] in *. rewrite owners_cons in I0.
      specialize (F1 i t). rewrite F2, F3. lia.
    + intros I0. apply H2. unfold Fresh in *. cbn [log next] in *. now rewrite F4.
Qed.

Lemma leave_ok h c s c' s' : leave h c s = Done c' s' -> h <= length (live s) ->
  c' = c /\ (Inv s -> Inv s') /\ (Fresh s -> Fresh s') /\ live s' = skipn (length (live s) - h) (live s) /\ length (live s') = h.
Proof.
  unfold leave. destruct (unwind _ _) as [[s1|] x] eqn:U; intros E L; [|discriminate]. injection E as <- <-.
  destruct (unwind_ok _ _ _ _ U ltac:(lia)) as (H1 & H2 & H3 & _).
  split; [reflexivity|]. split; [exact H1|]. split; [exact H2|]. split; [exact H3|]. rewrite H3, skipn_length. lia.
Qed.

Definition Keep (s s' : st) : Prop := (Inv s -> Inv s') /\ (Fresh s -> Fresh s') /\ length (live s) <= length (live s').
Lemma keep_refl s : Keep s s.
Proof. unfold Keep. auto. Qed.
Lemma keep_trans a b c : Keep a b -> Keep b c -> Keep a c.
Proof. intros (A & B & C) (A' & B' & C'). split; [auto|split; [auto|lia]]. Qed.

Lemma reset_keep k s c s' : do_reset k s = Done c s' -> Keep s s' /\ c = Normal /\
  exists g, nth_error (live s) k = Some g /\ live s' = put k (mkguard (gid g) (gcb g) false) (live s) /\ next s' = next s.
Proof.
  unfold do_reset. destruct (nth_error (live s) k) as [g|] eqn:E; [|discriminate].
  destruct (fire g (log s)) as [[lg|] x] eqn:F; [|discriminate]. intros H. injection H as <- <-.
  destruct (fire_log _ _ _ _ F) as (F1 & F2 & F3 & F4).
  split; [|split; [reflexivity|exists g; auto]].
  split; [|split]; cbn [live].
  - intros I0 i t. specialize (I0 i t). cbn [live log]. pose proof (owners_put i t (live s) k g (mkguard (gid g) (gcb g) false) E) as P.
    rewrite own1_off in P. specialize (F1 i t). rewrite F2, F3. lia.
  - unfold Fresh. cbn [log next]. now rewrite F4.
  - now rewrite (put_length _ _ _ _ E).
Qed.

Lemma seq_snoc n : seq 0 n ++ [n] = seq 0 (S n).
Proof. symmetry. apply (seq_S n 0). Qed.

Lemma exec_keep : forall p s c s', exec p s = Done c s' -> Keep s s'.
Proof.
  induction p as [|n|a IHa b IHb|x| |cb|cb|k|k j|k|k|k cb|b IH|b IHb h IHh|n b IH|b IH]; intros s c s' E; cbn [exec] in E.
  - injection E as _ <-. apply keep_refl.
  - injection E as _ <-. split; [|split]; [|unfold Fresh|]; cbn [say live log next]; auto.
    + intros I0 i t. specialize (I0 i t). cbn [say live log]. rewrite !times_app. zeros. lia.
    + rewrite mades_app. cbn. now rewrite app_nil_r.
  - destruct (exec a s) as [[| |x] s1| |] eqn:Ea; try discriminate.
    + exact (keep_trans _ _ _ (IHa _ _ _ Ea) (IHb _ _ _ E)).
    + injection E as _ <-. eauto.
    + injection E as _ <-. eauto.
  - injection E as _ <-. apply keep_refl.
  - injection E as _ <-. apply keep_refl.
  - injection E as _ <-. split; [|split]; [|unfold Fresh|]; cbn [live log next length]; auto.
    + intros I0 i t. specialize (I0 i t). cbn [live log]. rewrite !times_app, owners_cons, own1_on, times_made. zeros. lia.
    + rewrite mades_app. cbn [mades flat_map is_made app]. intros ->. apply seq_snoc.
  - injection E as _ <-. split; [|split]; [|unfold Fresh|]; cbn [live log next length]; auto.
    + intros I0 i t. specialize (I0 i t). cbn [live log].
      change [Made (next s) (cb_tag cb); Dropped (next s) (cb_tag cb)] with ([Made (next s) (cb_tag cb)] ++ [Dropped (next s) (cb_tag cb)]).
      rewrite !times_app, owners_cons, own1_off, times_made, times_dropped. zeros. lia.
    + rewrite mades_app. cbn [mades flat_map is_made app]. intros ->. apply seq_snoc.
  - unfold do_move in E. destruct (nth_error (live s) k) as [g|] eqn:Ek; [|discriminate]. injection E as _ <-.
    split; [|split]; cbn [set_live live length]; auto.
    + intros I0 i t. specialize (I0 i t). cbn [set_live live log].
      pose proof (owners_put i t (live s) k g (mkguard (gid g) (gcb g) false) Ek) as P. rewrite own1_off in P. rewrite owners_cons. lia.
    + rewrite (put_length _ _ _ _ Ek). lia.
  - unfold do_assign in E. destruct (do_reset k s) as [c1 s1| |] eqn:Er; try discriminate.
    destruct (reset_keep _ _ _ _ Er) as (K & -> & g & Eg & Es & _).
    apply (keep_trans _ _ _ K). destruct (nth_error (live s1) j) as [gj|] eqn:Ej; [|discriminate].
    assert (Ek1 : nth_error (live s1) k = Some (mkguard (gid g) (gcb g) false)) by (rewrite Es; eapply nth_put_eq; eauto).
    destruct (nth_error (put k gj (live s1)) j) as [gj'|] eqn:Ej2; [|discriminate]. injection E as _ <-.
    split; [|split]; cbn [set_live live length]; auto.
    + intros I0 i t. specialize (I0 i t). cbn [set_live live log].
      pose proof (owners_put i t _ k _ gj Ek1) as P1. rewrite own1_off in P1.
      pose proof (owners_put i t _ j _ (mkguard (gid gj') (gcb gj') false) Ej2) as P2. rewrite own1_off in P2.
      assert (gj' = gj).
      { destruct (Nat.eq_dec j k) as [->|N].
        - rewrite (nth_put_eq _ _ _ _ Ek1) in Ej2. congruence.
        - rewrite (nth_put_neq _ _ _ _ _ Ek1 N) in Ej2. congruence. }
      subst gj'. lia.
    + rewrite (put_length _ _ _ _ Ej2), (put_length _ _ _ _ Ek1). lia.
  - unfold do_release in E. destruct (nth_error (live s) k) as [g|] eqn:Ek; [|discriminate]. injection E as _ <-.
    split; [|split].
    + intros I0 i t. specialize (I0 i t).
      pose proof (owners_put i t (live s) k g (mkguard (gid g) (gcb g) false) Ek) as P. rewrite own1_off in P.
      destruct g as [gi gc [|]]; cbn [genabled gid gcb say set_live live log] in *.
      * rewrite !times_app, times_dropped. zeros. rewrite own1_on in P. lia.
      * rewrite own1_off in P. lia.
    + destruct (genabled g); [|auto]. unfold Fresh. cbn [say set_live live log next]. rewrite mades_app. cbn. now rewrite app_nil_r.
    + destruct (genabled g); cbn [say set_live live]; now rewrite (put_length _ _ _ _ Ek).
  - apply (reset_keep _ _ _ _ E).
  - unfold do_reset_to in E. destruct (do_reset k s) as [c1 s1| |] eqn:Er; try discriminate.
    destruct (reset_keep _ _ _ _ Er) as (K & -> & g & Eg & Es & _). apply (keep_trans _ _ _ K). injection E as _ <-.
    assert (Ek1 : nth_error (live s1) k = Some (mkguard (gid g) (gcb g) false)) by (rewrite Es; eapply nth_put_eq; eauto).
    split; [|split]; [|unfold Fresh|]; cbn [live log next].
    + intros I0 i t. specialize (I0 i t). cbn [live log].
      pose proof (owners_put i t _ k _ (mkguard (next s1) cb true) Ek1) as P1. rewrite own1_off, own1_on in P1.
      rewrite !times_app, times_made. zeros. lia.
    + rewrite mades_app. cbn [mades flat_map is_made app]. intros ->. apply seq_snoc.
    + now rewrite (put_length _ _ _ _ Ek1).
  - destruct (exec b s) as [c1 s1| |] eqn:Eb; try discriminate.
    destruct (IH _ _ _ Eb) as (K1 & K2 & K3). destruct (leave_ok _ _ _ _ _ E K3) as (_ & H1 & H2 & _ & H4).
    split; [auto|split; [auto|lia]].
  - destruct (exec b s) as [c1 s1| |] eqn:Eb; try discriminate.
    destruct (IHb _ _ _ Eb) as (K1 & K2 & K3).
    destruct (leave (length (live s)) c1 s1) as [c2 s2| |] eqn:El; try discriminate.
    destruct (leave_ok _ _ _ _ _ El K3) as (-> & H1 & H2 & _ & H4).
    assert (KK : Keep s s2) by (split; [auto|split; [auto|lia]]).
    destruct c1 as [| |x]; [injection E as _ <-; exact KK|injection E as _ <-; exact KK|].
    destruct (exec h s2) as [c3 s3| |] eqn:Eh; try discriminate.
    destruct (IHh _ _ _ Eh) as (L1 & L2 & L3).
    destruct (leave_ok _ _ _ _ _ E ltac:(lia)) as (_ & M1 & M2 & _ & M4).
    apply (keep_trans _ _ _ KK). split; [auto|split; [auto|lia]].
  - revert s c s' E. induction n as [|n IHn]; intros s c s' E.
    + injection E as _ <-. apply keep_refl.
    + destruct (exec b s) as [c1 s1| |] eqn:Eb; try discriminate.
      destruct (IH _ _ _ Eb) as (K1 & K2 & K3).
      destruct (leave (length (live s)) c1 s1) as [c2 s2| |] eqn:El; try discriminate.
      destruct (leave_ok _ _ _ _ _ El K3) as (-> & H1 & H2 & _ & H4).
      assert (KK : Keep s s2) by (split; [auto|split; [auto|lia]]).
      destruct c1 as [| |x]; [|injection E as _ <-; exact KK|injection E as _ <-; exact KK].
      apply (keep_trans _ _ _ KK). eapply IHn. exact E.
  - destruct (exec b s) as [c1 s1| |] eqn:Eb; try discriminate.
    destruct (IH _ _ _ Eb) as (K1 & K2 & K3). destruct (leave_ok _ _ _ _ _ E K3) as (_ & H1 & H2 & _ & H4).
    split; [auto|split; [auto|lia]].
Qed.

(** ** The whole program *)
Lemma made_times l : forall g t, times (Made g t) l <= count_occ Nat.eq_dec (mades l) g.
Proof.
  induction l as [|e l IH]; intros g t; [reflexivity|]. specialize (IH g t).
  change (e :: l) with ([e] ++ l). rewrite times_app, mades_app, count_occ_app.
  enough (times (Made g t) [e] <= count_occ Nat.eq_dec (mades [e]) g) by lia.
  destruct e as [n|g0 t0|g0 t0|g0 t0]; zeros; [lia| |lia|lia].
  rewrite times_made. cbn [mades flat_map is_made app count_occ]. destruct (Nat.eqb_spec g0 g) as [->|]; [|cbn [andb]; lia].
  destruct (Nat.eq_dec g g); [|congruence]. destruct (_ && _); lia.
Qed.

Lemma program_counts b c s : program b = Done c s -> live s = [] /\
  (forall g t, times (Ran g t) (log s) + times (Dropped g t) (log s) = times (Made g t) (log s)) /\
  (forall g t, times (Made g t) (log s) <= 1).
Proof.
  unfold program. intros E. pose proof E as E'. cbn [exec] in E'. destruct (exec b _) as [c1 s1| |] eqn:Eb; try discriminate.
  destruct (exec_keep _ _ _ _ Eb) as (_ & _ & K).
  destruct (leave_ok _ _ _ _ _ E' K) as (_ & _ & _ & _ & L). cbn in L. apply length_zero_iff_nil in L.
  split; [exact L|]. destruct (exec_keep _ _ _ _ E) as (K1 & K2 & _).
  assert (I0 : Inv s) by (apply K1; intros g t; reflexivity).
  assert (F0 : Fresh s) by (apply K2; reflexivity).
  split; intros g t.
  - specialize (I0 g t). rewrite L in I0. cbn in I0. exact I0.
  - pose proof (made_times (log s) g t) as M. rewrite F0 in M.
    pose proof (proj1 (NoDup_count_occ Nat.eq_dec (seq 0 (next s))) (seq_NoDup _ _) g). lia.
Qed.

(** ** An untouched guard stays *)
Lemma nth_skip {A} (l : list A) n d : nth_error (skipn n l) d = nth_error l (n + d).
Proof. revert l. induction n as [|n IH]; intros [|x l]; cbn [skipn]; auto; [now destruct d|cbn [Nat.add nth_error]; auto]. Qed.

Definition Stays (p : stmt) : Prop := forall s c s' d g, exec p s = Done c s' -> nth_error (live s) d = Some g -> untouched d p ->
  nth_error (live s') (length (live s') - length (live s) + d) = Some g /\
  (c = Normal -> length (live s') = declares p + length (live s)).

Lemma leave_stays h c s c' s' d g : leave h c s = Done c' s' -> h <= length (live s) ->
  nth_error (live s) (length (live s) - h + d) = Some g -> c' = c /\ length (live s') = h /\ nth_error (live s') d = Some g.
Proof.
  intros E L N. destruct (leave_ok _ _ _ _ _ E L) as (-> & _ & _ & S & Le).
  split; [reflexivity|]. split; [exact Le|]. rewrite S, nth_skip. exact N.
Qed.

Lemma stays p : Stays p.
Proof.
  induction p as [|n|a IHa b IHb|x| |cb|cb|k|k j|k|k|k cb|b IH|b IHb h IHh|n b IH|b IH]; intros s c s' d g E N U; cbn [exec untouched declares] in *.
  - injection E as <- <-. rewrite Nat.sub_diag. split; [exact N|reflexivity].
  - injection E as <- <-. cbn [say live]. rewrite Nat.sub_diag. split; [exact N|reflexivity].
  - destruct U as (Ua & Ub). destruct (exec a s) as [c1 s1| |] eqn:Ea; try discriminate.
    destruct (IHa _ _ _ _ _ Ea N Ua) as (Na & La). pose proof (exec_keep _ _ _ _ Ea) as (_ & _ & Ka).
    destruct c1 as [| |x]; [|injection E as <- <-; split; [exact Na|discriminate]|injection E as <- <-; split; [exact Na|discriminate]].
    specialize (La eq_refl). replace (length (live s1) - length (live s) + d) with (declares a + d) in Na by lia.
    destruct (IHb _ _ _ _ _ E Na Ub) as (Nb & Lb). pose proof (exec_keep _ _ _ _ E) as (_ & _ & Kb).
    split; [|intros ->; specialize (Lb eq_refl); lia].
    replace (length (live s') - length (live s) + d) with (length (live s') - length (live s1) + (declares a + d)) by lia. exact Nb.
  - injection E as <- <-. rewrite Nat.sub_diag. split; [exact N|discriminate].
  - injection E as <- <-. rewrite Nat.sub_diag. split; [exact N|discriminate].
  - injection E as <- <-. cbn [live length]. replace (S (length (live s)) - length (live s) + d) with (S d) by lia. split; [exact N|reflexivity].
  - injection E as <- <-. cbn [live length]. replace (S (length (live s)) - length (live s) + d) with (S d) by lia. split; [exact N|reflexivity].
  - unfold do_move in E. destruct (nth_error (live s) k) as [gk|] eqn:Ek; [|discriminate]. injection E as <- <-.
    cbn [set_live live length]. rewrite (put_length _ _ _ _ Ek). replace (S (length (live s)) - length (live s) + d) with (S d) by lia.
    split; [|reflexivity]. cbn [nth_error]. rewrite (nth_put_neq _ _ _ _ _ Ek); auto.
  - destruct U as (U1 & U2). unfold do_assign in E. destruct (do_reset k s) as [c1 s1| |] eqn:Er; try discriminate.
    destruct (reset_keep _ _ _ _ Er) as (_ & -> & gk & Eg & Es & _).
    destruct (nth_error (live s1) j) as [gj|] eqn:Ej; [|discriminate].
    assert (Ek1 : nth_error (live s1) k = Some (mkguard (gid gk) (gcb gk) false)) by (rewrite Es; eapply nth_put_eq; eauto).
    destruct (nth_error (put k gj (live s1)) j) as [gj'|] eqn:Ej2; [|discriminate]. injection E as <- <-. cbn [set_live live].
    assert (LL : length (live s1) = length (live s)) by (rewrite Es; eapply put_length; eauto).
    rewrite (put_length _ _ _ _ Ej2), (put_length _ _ _ _ Ek1), LL, Nat.sub_diag. split; [|reflexivity]. cbn [Nat.add].
    rewrite (nth_put_neq _ _ _ _ _ Ej2), (nth_put_neq _ _ _ _ _ Ek1) by auto. rewrite Es, (nth_put_neq _ _ _ _ _ Eg); auto.
  - unfold do_release in E. destruct (nth_error (live s) k) as [gk|] eqn:Ek; [|discriminate]. injection E as <- <-.
    assert (Q : live (if genabled gk then say (Dropped (gid gk) (cb_tag (gcb gk))) (set_live (put k (mkguard (gid gk) (gcb gk) false) (live s)) s)
      else set_live (put k (mkguard (gid gk) (gcb gk) false) (live s)) s) = put k (mkguard (gid gk) (gcb gk) false) (live s)) by (destruct (genabled gk); reflexivity).
    rewrite Q, (put_length _ _ _ _ Ek), Nat.sub_diag. split; [|reflexivity]. cbn [Nat.add]. rewrite (nth_put_neq _ _ _ _ _ Ek); auto.
  - destruct (reset_keep _ _ _ _ E) as (_ & -> & gk & Eg & Es & _). rewrite Es, (put_length _ _ _ _ Eg), Nat.sub_diag.
    split; [|reflexivity]. cbn [Nat.add]. rewrite (nth_put_neq _ _ _ _ _ Eg); auto.
  - unfold do_reset_to in E. destruct (do_reset k s) as [c1 s1| |] eqn:Er; try discriminate.
    destruct (reset_keep _ _ _ _ Er) as (_ & -> & gk & Eg & Es & _). injection E as <- <-. cbn [live].
    assert (Ek1 : nth_error (live s1) k = Some (mkguard (gid gk) (gcb gk) false)) by (rewrite Es; eapply nth_put_eq; eauto).
    rewrite (put_length _ _ _ _ Ek1), Es, (put_length _ _ _ _ Eg), Nat.sub_diag. split; [|reflexivity]. cbn [Nat.add].
    rewrite Es in Ek1. rewrite (nth_put_neq _ _ _ _ _ Ek1) by auto. rewrite (nth_put_neq _ _ _ _ _ Eg); auto.
  - destruct (exec b s) as [c1 s1| |] eqn:Eb; try discriminate. pose proof (exec_keep _ _ _ _ Eb) as (_ & _ & K).
    destruct (IH _ _ _ _ _ Eb N U) as (N1 & _). destruct (leave_stays _ _ _ _ _ _ _ E K N1) as (-> & L & N2).
    rewrite L, Nat.sub_diag. split; [exact N2|reflexivity].
  - destruct U as (Ub & Uh). destruct (exec b s) as [c1 s1| |] eqn:Eb; try discriminate. pose proof (exec_keep _ _ _ _ Eb) as (_ & _ & K).
    destruct (IHb _ _ _ _ _ Eb N Ub) as (N1 & _).
    destruct (leave (length (live s)) c1 s1) as [c2 s2| |] eqn:El; try discriminate.
    destruct (leave_stays _ _ _ _ _ _ _ El K N1) as (-> & L & N2).
    destruct c1 as [| |x]; [injection E as <- <-; rewrite L, Nat.sub_diag; auto..|].
    destruct (exec h s2) as [c3 s3| |] eqn:Eh; try discriminate. pose proof (exec_keep _ _ _ _ Eh) as (_ & _ & K3).
    destruct (IHh _ _ _ _ _ Eh N2 Uh) as (N3 & _). rewrite L in N3.
    destruct (leave_stays _ _ _ _ _ _ _ E ltac:(lia) N3) as (-> & L4 & N4). rewrite L4, Nat.sub_diag. auto.
  - revert s c s' E N. induction n as [|n IHn]; intros s c s' E N.
    + injection E as <- <-. rewrite Nat.sub_diag. auto.
    + destruct (exec b s) as [c1 s1| |] eqn:Eb; try discriminate. pose proof (exec_keep _ _ _ _ Eb) as (_ & _ & K).
      destruct (IH _ _ _ _ _ Eb N U) as (N1 & _).
      destruct (leave (length (live s)) c1 s1) as [c2 s2| |] eqn:El; try discriminate.
      destruct (leave_stays _ _ _ _ _ _ _ El K N1) as (-> & L & N2).
      destruct c1 as [| |x]; [|injection E as <- <-; rewrite L, Nat.sub_diag; split; [exact N2|discriminate]..].
      specialize (IHn _ _ _ E N2). rewrite L in IHn. exact IHn.
  - destruct (exec b s) as [c1 s1| |] eqn:Eb; try discriminate. pose proof (exec_keep _ _ _ _ Eb) as (_ & _ & K).
    destruct (IH _ _ _ _ _ Eb N U) as (N1 & _). destruct (leave_stays _ _ _ _ _ _ _ E K N1) as (-> & L & N2).
    rewrite L, Nat.sub_diag. split; [exact N2|reflexivity].
Qed.

(** ** Programs whose callbacks do not throw do not die *)
Definition calm (s : st) : Prop := Forall (fun g => cb_throws (gcb g) = None) (live s).
Definition CalmR (r : result) : Prop := match r with Done _ s => calm s | Dead _ => False | Wrong => True end.

Lemma fire_calm g lg : cb_throws (gcb g) = None -> exists lg', fire g lg = (Some lg', lg') /\
  lg' = lg ++ (if genabled g then [Ran (gid g) (cb_tag (gcb g))] else []).
Proof.
  intros E. unfold fire. rewrite E. destruct (genabled g); eexists; split; try reflexivity. now rewrite app_nil_r.
Qed.
Definition rans (l : list guard) : list event := map (fun g => Ran (gid g) (cb_tag (gcb g))) (filter genabled l).
Lemma unwind_calm : forall n s, calm s -> exists s', unwind n s = (Some s', log s') /\
  s' = mkst (skipn n (live s)) (next s) (log s ++ rans (firstn n (live s))).
Proof.
  induction n as [|n IH]; intros [lv nx lg] C; cbn [unwind live log next skipn firstn].
  - exists (mkst lv nx lg); split; [reflexivity|]. cbn. now rewrite app_nil_r.
  - destruct lv as [|g l]; cbn [skipn firstn].
    + exists (mkst [] nx lg); split; [reflexivity|]. cbn. now rewrite app_nil_r.
    + inversion C as [|? ? C1 C2]; subst. destruct (fire_calm g lg C1) as (lg' & -> & ->).
      destruct (IH (mkst l nx (lg ++ (if genabled g then [Ran (gid g) (cb_tag (gcb g))] else []))) C2) as (s' & -> & ->).
      eexists; split; [reflexivity|]. cbn [live next log]. f_equal. rewrite <- app_assoc. f_equal.
      unfold rans. cbn [filter]. destruct (genabled g); reflexivity.
Qed.
Lemma Forall_skip {A} (P : A -> Prop) n l : Forall P l -> Forall P (skipn n l).
Proof. revert l. induction n as [|n IH]; intros l F; [exact F|]. destruct F; cbn [skipn]; auto. Qed.
Lemma Forall_firstn' {A} (P : A -> Prop) n l : Forall P l -> Forall P (firstn n l).
Proof. revert l. induction n as [|n IH]; intros l F; cbn [firstn]; [constructor|]. destruct F; cbn [firstn]; constructor; auto. Qed.
Lemma calm_put k g l : Forall (fun g => cb_throws (gcb g) = None) l -> cb_throws (gcb g) = None ->
  Forall (fun g => cb_throws (gcb g) = None) (put k g l).
Proof. intros F C. unfold put. apply Forall_app. split; [now apply Forall_firstn'|]. constructor; [exact C|now apply Forall_skip]. Qed.
Lemma leave_calm h c s : calm s -> leave h c s =
  Done c (mkst (skipn (length (live s) - h) (live s)) (next s) (log s ++ rans (firstn (length (live s) - h) (live s)))).
Proof. intros C. unfold leave. destruct (unwind_calm (length (live s) - h) s C) as (s' & -> & ->). reflexivity. Qed.
Lemma calm_nth s k g : calm s -> nth_error (live s) k = Some g -> cb_throws (gcb g) = None.
Proof. intros C E. unfold calm in C. rewrite Forall_forall in C. apply C. eapply nth_error_In; eauto. Qed.
Lemma reset_calm k s : calm s -> CalmR (do_reset k s).
Proof.
  intros C. unfold do_reset. destruct (nth_error (live s) k) as [g|] eqn:E; [|exact I].
  destruct (fire_calm g (log s) (calm_nth _ _ _ C E)) as (lg & -> & _). cbn. unfold calm. cbn [live].
  apply calm_put; [exact C|]. exact (calm_nth _ _ _ C E).
Qed.
Lemma leave_calmR h c s : calm s -> exists s', leave h c s = Done c s' /\ calm s'.
Proof. intros C. rewrite (leave_calm _ _ _ C). eexists; split; [reflexivity|]. unfold calm. cbn [live]. now apply Forall_skip. Qed.

Lemma exec_calm : forall p s, quiet p -> calm s -> CalmR (exec p s).
Proof.
  induction p as [|n|a IHa b IHb|x| |cb|cb|k|k j|k|k|k cb|b IH|b IHb h IHh|n b IH|b IH]; intros s Q C; cbn [exec quiet] in *; try exact C.
  - destruct Q as (Qa & Qb). specialize (IHa s Qa C). destruct (exec a s) as [[| |x] s1| |]; cbn [CalmR] in *; try contradiction; auto.
  - cbn. constructor; [exact Q|exact C].
  - cbn. constructor; [exact Q|exact C].
  - unfold do_move. destruct (nth_error (live s) k) as [g|] eqn:E; [|exact I]. cbn. unfold calm. cbn [live].
    constructor; [exact (calm_nth _ _ _ C E)|]. apply calm_put; [exact C|exact (calm_nth _ _ _ C E)].
  - unfold do_assign. pose proof (reset_calm k s C) as R. destruct (do_reset k s) as [c1 s1| |]; cbn [CalmR] in *; try contradiction; auto.
    destruct (nth_error (live s1) j) as [g|] eqn:E; [|exact I].
    destruct (nth_error (put k g (live s1)) j) as [g'|] eqn:E'; [|exact I]. cbn. unfold calm. cbn [live set_live].
    assert (P : Forall (fun g => cb_throws (gcb g) = None) (put k g (live s1))) by (apply calm_put; [exact R|exact (calm_nth _ _ _ R E)]).
    apply calm_put; [exact P|]. rewrite Forall_forall in P. exact (P g' (nth_error_In _ _ E')).
  - unfold do_release. destruct (nth_error (live s) k) as [g|] eqn:E; [|exact I].
    assert (P : Forall (fun g => cb_throws (gcb g) = None) (put k (mkguard (gid g) (gcb g) false) (live s))) by (apply calm_put; [exact C|exact (calm_nth _ _ _ C E)]).
    cbn. unfold calm. destruct (genabled g); exact P.
  - now apply reset_calm.
  - unfold do_reset_to. pose proof (reset_calm k s C) as R. destruct (do_reset k s) as [c1 s1| |]; cbn [CalmR] in *; try contradiction; auto.
    unfold calm. cbn [live]. now apply calm_put.
  - specialize (IH s Q C). destruct (exec b s) as [c1 s1| |]; cbn [CalmR] in *; try contradiction; auto.
    destruct (leave_calmR (length (live s)) c1 s1 IH) as (s' & -> & C'). exact C'.
  - destruct Q as (Qb & Qh). specialize (IHb s Qb C). destruct (exec b s) as [c1 s1| |]; cbn [CalmR] in *; try contradiction; auto.
    destruct (leave_calmR (length (live s)) c1 s1 IHb) as (s' & -> & C'). destruct c1 as [| |x]; [exact C'|exact C'|].
    specialize (IHh s' Qh C'). destruct (exec h s') as [c2 s2| |]; cbn [CalmR] in *; try contradiction; auto.
    destruct (leave_calmR (length (live s)) c2 s2 IHh) as (s'' & -> & C''). exact C''.
  - revert s C. induction n as [|n IHn]; intros s C; [exact C|].
    specialize (IH s Q C). destruct (exec b s) as [c1 s1| |]; cbn [CalmR] in *; try contradiction; auto.
    destruct (leave_calmR (length (live s)) c1 s1 IH) as (s' & -> & C'). destruct c1 as [| |x]; [|exact C'|exact C']. now apply IHn.
  - specialize (IH s Q C). destruct (exec b s) as [c1 s1| |]; cbn [CalmR] in *; try contradiction; auto.
    destruct (leave_calmR (length (live s)) (match c1 with Returned => Normal | _ => c1 end) s1 IH) as (s' & -> & C'). exact C'.
Qed.

(** ** try { b } finally { callback } *)
Lemma rans_app a b : rans (a ++ b) = rans a ++ rans b.
Proof. unfold rans. now rewrite filter_app, map_app. Qed.
Lemma finally_ok c b s c1 s1 : quiet b -> cb_throws c = None -> calm s -> untouched 0 b ->
  let s0 := mkst (mkguard (next s) c true :: live s) (S (next s)) (log s ++ [Made (next s) (cb_tag c)]) in
  exec b s0 = Done c1 s1 ->
  exists s2, exec (Block b) s0 = Done c1 s2 /\
    exec (Block (Seq (Guard c) b)) s = Done c1 (mkst (tl (live s2)) (next s2) (log s2 ++ [Ran (next s) (cb_tag c)])).
Proof.
  intros Q T C U s0 E.
  assert (C0 : calm s0) by (constructor; [exact T|exact C]).
  pose proof (exec_calm b s0 Q C0) as C1. rewrite E in C1. cbn [CalmR] in C1.
  pose proof (exec_keep _ _ _ _ E) as (_ & _ & K). cbn [live length s0] in K.
  destruct (stays b s0 _ _ 0 (mkguard (next s) c true) E eq_refl U) as (N & _). cbn [live length s0] in N. rewrite Nat.add_0_r in N.
  cbn [exec]. fold s0. rewrite E. rewrite !(leave_calm _ _ _ C1). eexists. split; [reflexivity|]. cbn [live next log].
  change (length (live s0)) with (S (length (live s))).
  set (l1 := live s1) in *. set (n := length l1 - S (length (live s))) in *.
  replace (length l1 - length (live s)) with (n + 1) by lia.
  pose proof (split_at l1 n _ N) as Sp.
  assert (Ln : length (firstn n l1) = n) by (rewrite firstn_length; lia).
  assert (F1 : firstn (n + 1) l1 = firstn n l1 ++ [mkguard (next s) c true]).
  { rewrite Sp at 1. replace (n + 1) with (length (firstn n l1) + 1) by lia. rewrite firstn_app_2. reflexivity. }
  assert (S0 : skipn n l1 = mkguard (next s) c true :: skipn (S n) l1).
  { rewrite Sp at 1. rewrite skipn_app, Ln, Nat.sub_diag. rewrite skipn_all2 by lia. reflexivity. }
  rewrite F1, rans_app, S0. cbn [tl]. replace (n + 1) with (S n) by lia. rewrite <- app_assoc. reflexivity.
Qed.

(** A callback that throws. *)
Lemma throwing_dead c b s c1 s1 x : quiet b -> cb_throws c = Some x -> calm s -> untouched 0 b ->
  exec b (mkst (mkguard (next s) c true :: live s) (S (next s)) (log s ++ [Made (next s) (cb_tag c)])) = Done c1 s1 ->
  Forall (fun g => cb_throws (gcb g) = None) (firstn (length (live s1) - S (length (live s))) (live s1)) ->
  exists l, exec (Block (Seq (Guard c) b)) s = Dead l.
Proof.
  intros Q T C U E F. set (s0 := mkst _ _ _) in *.
  pose proof (exec_keep _ _ _ _ E) as (_ & _ & K). cbn [live length s0] in K.
  destruct (stays b s0 _ _ 0 (mkguard (next s) c true) E eq_refl U) as (N & _). cbn [live length s0] in N. rewrite Nat.add_0_r in N.
  cbn [exec]. fold s0. rewrite E. unfold leave.
  set (n := length (live s1) - S (length (live s))) in *. replace (length (live s1) - length (live s)) with (n + 1) by lia.
  clearbody s0. clear E K. clearbody n. destruct s1 as [lv nx lg]. cbn [live] in *.
  revert lv lg N F. induction n as [|n IHn]; intros lv lg N F.
  - destruct lv as [|g l]; [discriminate|]. cbn [nth_error] in N. injection N as ->. cbn [Nat.add unwind live log fire genabled gcb].
    rewrite T. eexists. reflexivity.
  - destruct lv as [|g l]; [discriminate|]. cbn [nth_error firstn] in *. inversion F as [|? ? F1 F2]; subst.
    cbn [Nat.add unwind live log next]. destruct (fire_calm g lg F1) as (lg' & -> & _). now apply IHn.
Qed.
