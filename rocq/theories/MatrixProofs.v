(** * MatrixProofs. *)
From Verif Require Import Base MatrixModel MatrixSpec.
From Coq Require Import Ring_theory Setoid Ring.

Lemma rd_some {A} (a : list A) i x : nth_error a i = Some x -> rd a i = Ok x.
Proof. unfold rd. now intros ->. Qed.

Lemma upd_nth {A} (a : list A) : forall i v, i < length a ->
  exists a', upd a i v = Some a' /\ length a' = length a /\
    forall j, nth_error a' j = if Nat.eqb j i then Some v else nth_error a j.
Proof.
  induction a as [|x t IH]; intros [|i] v H; cbn [length] in H; try lia; cbn [upd].
  - eexists; split; [reflexivity|]. split; [reflexivity|]. intros [|j]; reflexivity.
  - destruct (IH i v ltac:(lia)) as (a' & -> & L & N).
    eexists; split; [reflexivity|]. split; [cbn; lia|]. intros [|j]; cbn; [reflexivity|]. apply N.
Qed.

Lemma wr_nth {A} (a : list A) i v : i < length a ->
  exists a', wr a i v = Ok a' /\ length a' = length a /\
    forall j, nth_error a' j = if Nat.eqb j i then Some v else nth_error a j.
Proof.
  intros H. destruct (upd_nth a i v H) as (a' & E & R). exists a'. unfold wr. rewrite E. auto.
Qed.

Lemma ix_lt N r c M : r < M -> c < N -> ix N r c < M * N.
Proof. unfold ix. intros. nia. Qed.
Lemma ix_inj N r c r' c' : c < N -> c' < N -> ix N r c = ix N r' c' -> r = r' /\ c = c'.
Proof.
  unfold ix. intros H H' E.
  assert (r = r') by (destruct (Nat.lt_trichotomy r r') as [L|[L|L]]; [exfalso; nia|assumption|exfalso; nia]).
  subst. lia.
Qed.
Lemma ix_eqb N r c r' c' : c < N -> c' < N ->
  Nat.eqb (ix N r c) (ix N r' c') = Nat.eqb r r' && Nat.eqb c c'.
Proof.
  intros H H'. destruct (Nat.eqb_spec (ix N r c) (ix N r' c')) as [E|E].
  - apply ix_inj in E as (E1 & E2); [|assumption|assumption]. subst. now rewrite !Nat.eqb_refl.
  - destruct (Nat.eqb_spec r r') as [E1|], (Nat.eqb_spec c c') as [E2|]; cbn; try reflexivity. exfalso. apply E. now rewrite E1, E2.
Qed.

Lemma is_matrix_nth {T} NX NY (m : list T) f r c :
  is_matrix NX NY m f -> r < NY -> c < NX -> rd m (ix NX r c) = Ok (f r c).
Proof. intros (L & H) Hr Hc. apply rd_some, H; auto. Qed.

Section P.
  Context {T : Type} (zero one : T) (add mul : T -> T -> T).

  (** ** row, column *)
  Lemma copy_from_ok (m : list T) (g : nat -> T) : forall n i,
    (forall k, k < n -> nth_error m (i + k) = Some (g k)) ->
    exists t, copy_from m i n = Ok t /\ is_tuple n t g.
  Proof.
    intros n. revert g. induction n as [|n IH]; intros g i H; cbn [copy_from].
    - exists []. split; [reflexivity|]. split; [reflexivity|lia].
    - pose proof (H 0 ltac:(lia)) as H0. rewrite Nat.add_0_r in H0. rewrite (rd_some _ _ _ H0), bind_Ok.
      destruct (IH (fun k => g (S k)) (i + 1)) as (t & E & L & N).
      { intros k Hk. rewrite <- Nat.add_assoc. apply (H (S k)). lia. }
      rewrite E, bind_Ok. eexists. split; [reflexivity|]. split; [cbn; lia|].
      intros [|k] Hk; cbn; [reflexivity|]. apply N. lia.
  Qed.
  Lemma row_ok NX NY (m : list T) f r : is_matrix NX NY m f -> r < NY ->
    exists t, row NX m r = Ok t /\ is_tuple NX t (f r).
  Proof.
    intros (L & H) Hr. apply copy_from_ok. intros k Hk. unfold ix. rewrite Nat.add_0_r. auto.
  Qed.

  Lemma column_loop_ok NX (m : list T) : forall n (g : nat -> T) i,
    (forall k, k < n -> nth_error m (i + k * NX) = Some (g k)) ->
    exists t, column_loop NX m i n = Ok t /\ is_tuple n t g.
  Proof.
    induction n as [|n IH]; intros g i H; cbn [column_loop].
    - exists []. split; [reflexivity|]. split; [reflexivity|lia].
    - pose proof (H 0 ltac:(lia)) as H0. cbn [Nat.mul] in H0. rewrite Nat.add_0_r in H0.
      rewrite (rd_some _ _ _ H0), bind_Ok.
      destruct (IH (fun k => g (S k)) (i + NX)) as (t & E & L & N).
      { intros k Hk. rewrite <- Nat.add_assoc. apply (H (S k)). lia. }
      rewrite E, bind_Ok. eexists. split; [reflexivity|]. split; [cbn; lia|].
      intros [|k] Hk; cbn; [reflexivity|]. apply N. lia.
  Qed.
  Lemma column_ok NX NY (m : list T) f c : is_matrix NX NY m f -> c < NX ->
    exists t, column NX NY m c = Ok t /\ is_tuple NY t (fun r => f r c).
  Proof.
    intros (L & H) Hc. apply column_loop_ok. intros k Hk. rewrite Nat.add_comm. auto.
  Qed.

  (** ** load_identity *)
  Lemma ones_loop_ok NX : forall fuel (m : list T) i,
    length m <= i + fuel ->
    exists m', ones_loop one fuel NX m i = Ok m' /\ length m' = length m /\
      forall j, nth_error m' j =
        if (Nat.leb i j && Nat.ltb j (length m) && Nat.eqb ((j - i) mod (NX + 1)) 0)%bool then Some one else nth_error m j.
  Proof.
    induction fuel as [|fuel IH]; intros m i H; cbn [ones_loop].
    - assert (Nat.ltb i (length m) = false) as -> by (apply Nat.ltb_ge; lia).
      exists m. split; [reflexivity|]. split; [reflexivity|]. intros j.
      destruct (Nat.leb_spec i j), (Nat.ltb_spec j (length m)); cbn; auto. lia.
    - destruct (Nat.ltb_spec i (length m)) as [Hi|Hi].
      + destruct (wr_nth m i one Hi) as (m1 & E1 & L1 & N1). rewrite E1, bind_Ok.
        destruct (IH m1 (i + (NX + 1)) ltac:(lia)) as (m2 & E2 & L2 & N2).
        exists m2. split; [assumption|]. split; [lia|]. intros j. rewrite N2, N1, L1.
        destruct (Nat.ltb_spec j (length m)) as [Hj|Hj].
        * rewrite !andb_true_r. destruct (Nat.leb_spec (i + (NX + 1)) j).
          { destruct (Nat.leb_spec i j); [|lia]. cbn [andb].
            replace (j - i) with ((j - (i + (NX + 1))) + 1 * (NX + 1)) by lia.
            rewrite Nat.mod_add by lia.
            destruct (Nat.eqb_spec j i); [lia|reflexivity]. }
          cbn [andb]. destruct (Nat.leb_spec i j); cbn [andb].
          { rewrite Nat.mod_small by lia. destruct (Nat.eqb_spec j i), (Nat.eqb_spec (j - i) 0); auto; lia. }
          { destruct (Nat.eqb_spec j i); [lia|reflexivity]. }
        * rewrite !andb_false_r. cbn [andb]. destruct (Nat.eqb_spec j i); [lia|reflexivity].
      + exists m. split; [reflexivity|]. split; [reflexivity|]. intros j.
        destruct (Nat.leb_spec i j), (Nat.ltb_spec j (length m)); cbn; auto. lia.
  Qed.

  Lemma nth_error_repeat (x : T) : forall n i, i < n -> nth_error (repeat x n) i = Some x.
  Proof. induction n; intros [|i] H; cbn; auto; try lia. apply IHn. lia. Qed.

  Lemma diag_mod N r c : r < N -> c < N -> (r * N + c) mod (N + 1) = 0 <-> r = c.
  Proof using.
    intros Hr Hc. split.
    - intros E. apply Nat.mod_divides in E as (k & E); [|lia].
      assert (k = r).
      { destruct (Nat.lt_trichotomy k r) as [L|[L|L]]; auto; exfalso; nia. }
      subst k. nia.
    - intros ->. replace (c * N + c) with (c * (N + 1)) by lia. apply Nat.mod_mul. lia.
  Qed.

  Lemma load_identity_gen NX NY (m : list T) : length m = NY * NX ->
    exists m', load_identity zero one NX NY m = Ok m' /\ length m' = NY * NX /\
      forall j, j < NY * NX -> nth_error m' j = Some (if Nat.eqb (j mod (NX + 1)) 0 then one else zero).
  Proof.
    intros L. unfold load_identity.
    destruct (ones_loop_ok NX (length m) (repeat zero (NX * NY)) 0) as (m' & E & L' & N).
    { rewrite repeat_length. lia. }
    rewrite repeat_length in *. exists m'. split; [assumption|]. split; [lia|].
    intros j Hj. rewrite N, Nat.sub_0_r. cbn [Nat.leb andb].
    destruct (Nat.ltb_spec j (NX * NY)); [|lia]. cbn [andb].
    destruct (Nat.eqb (j mod (NX + 1)) 0); [reflexivity|]. apply nth_error_repeat. lia.
  Qed.

  Lemma load_identity_ok N (m : list T) : length m = N * N ->
    exists m', load_identity zero one N N m = Ok m' /\ is_matrix N N m' (identity zero one).
  Proof using T zero one.
    clear add mul. intros L. destruct (load_identity_gen N N m L) as (m' & E & L' & H).
    exists m'. split; [assumption|]. split; [assumption|]. intros r c Hr Hc.
    rewrite H by nia. unfold identity. f_equal.
    pose proof (diag_mod N r c Hr Hc) as D.
    destruct (Nat.eqb_spec ((r * N + c) mod (N + 1)) 0), (Nat.eqb_spec r c); auto; tauto.
  Qed.

  (** ** Products *)
  Lemma mm_dot_ok NX NY (m1 m2 : list T) f g ry rx :
    is_matrix NX NY m1 f -> is_matrix NY NX m2 g -> ry < NY -> rx < NY ->
    forall n x, x + n = NX ->
    mm_dot add mul NX NY m1 m2 ry rx n x (sum_to zero add x (fun x => mul (f ry x) (g x rx))) =
    Ok (sum_to zero add NX (fun x => mul (f ry x) (g x rx))).
  Proof.
    intros M1 M2 Hy Hx. induction n as [|n IH]; intros x E; cbn [mm_dot].
    - now replace x with NX by lia.
    - rewrite (is_matrix_nth _ _ _ _ _ _ M1), bind_Ok, (is_matrix_nth _ _ _ _ _ _ M2), bind_Ok by lia.
      rewrite <- (IH (x + 1)) by lia. rewrite Nat.add_1_r. reflexivity.
  Qed.

  Definition prodf NX (f g : nat -> nat -> T) r c := sum_to zero add NX (fun x => mul (f r x) (g x c)).

  (** Entries before (ry, rx) are those of [h]. *)
  Definition done_to (h : nat -> nat -> T) (ry rx N M : nat) (m : list T) : Prop :=
    length m = M * N /\
    forall r c, r < M -> c < N -> r < ry \/ (r = ry /\ c < rx) -> nth_error m (ix N r c) = Some (h r c).

  Lemma mm_cols_ok NX NY (m1 m2 : list T) f g ry :
    is_matrix NX NY m1 f -> is_matrix NY NX m2 g -> ry < NY ->
    forall n rx mr, rx + n = NY -> done_to (prodf NX f g) ry rx NY NY mr ->
    exists mr', mm_cols zero add mul NX NY m1 m2 ry n rx mr = Ok mr' /\ done_to (prodf NX f g) ry NY NY NY mr'.
  Proof.
    intros M1 M2 Hy. induction n as [|n IH]; intros rx mr E D; cbn [mm_cols].
    - replace rx with NY in D by lia. eauto.
    - pose proof (mm_dot_ok NX NY m1 m2 f g ry rx M1 M2 Hy ltac:(lia) NX 0 eq_refl) as Ed. cbn [sum_to] in Ed.
      rewrite Ed, bind_Ok.
      destruct D as (L & D).
      destruct (wr_nth mr (ix NY ry rx) (prodf NX f g ry rx)) as (mr' & E' & L' & N').
      { rewrite L. apply ix_lt; lia. }
      unfold prodf in E' at 1. rewrite E', bind_Ok. apply IH; [lia|].
      split; [lia|]. intros r c Hr Hc H. rewrite N', ix_eqb by lia.
      destruct (Nat.eqb_spec r ry), (Nat.eqb_spec c rx); cbn [andb]; subst; auto; apply D; auto; lia.
  Qed.

  Lemma mm_rows_ok NX NY (m1 m2 : list T) f g :
    is_matrix NX NY m1 f -> is_matrix NY NX m2 g ->
    forall n ry mr, ry + n = NY -> done_to (prodf NX f g) ry 0 NY NY mr ->
    exists mr', mm_rows zero add mul NX NY m1 m2 n ry mr = Ok mr' /\ done_to (prodf NX f g) NY 0 NY NY mr'.
  Proof.
    intros M1 M2. induction n as [|n IH]; intros ry mr E D; cbn [mm_rows].
    - replace ry with NY in D by lia. eauto.
    - destruct (mm_cols_ok NX NY m1 m2 f g ry M1 M2 ltac:(lia) NY 0 mr ltac:(lia) D) as (m' & -> & L & D').
      rewrite bind_Ok. apply IH; [lia|]. split; [assumption|]. intros r c Hr Hc H. apply D'; auto. lia.
  Qed.

  Lemma mat_mul_ok NX NY (m1 m2 : list T) f g :
    is_matrix NX NY m1 f -> is_matrix NY NX m2 g ->
    exists mr, mat_mul zero add mul NX NY m1 m2 = Ok mr /\ is_matrix NY NY mr (prodf NX f g).
  Proof.
    intros M1 M2. unfold mat_mul.
    destruct (mm_rows_ok NX NY m1 m2 f g M1 M2 NY 0 (repeat zero (NY * NY)) ltac:(lia)) as (mr & E & L & D).
    { split; [apply repeat_length|]. lia. }
    exists mr. split; [assumption|]. split; [assumption|]. intros r c Hr Hc. apply D; auto.
  Qed.

  Lemma tm_dot_ok NX NY (t m : list T) v f x :
    is_tuple NY t v -> is_matrix NX NY m f -> x < NX ->
    forall n y, y + n = NY ->
    tm_dot add mul NX t m x n y (sum_to zero add y (fun y => mul (v y) (f y x))) =
    Ok (sum_to zero add NY (fun y => mul (v y) (f y x))).
  Proof.
    intros Mt Mm Hx. induction n as [|n IH]; intros y E; cbn [tm_dot].
    - now replace y with NY by lia.
    - rewrite (rd_some t y (v y)), bind_Ok by (apply Mt; lia).
      rewrite (is_matrix_nth _ _ _ _ _ _ Mm), bind_Ok by lia.
      rewrite <- (IH (y + 1)) by lia. rewrite Nat.add_1_r. reflexivity.
  Qed.

  Lemma tm_loop_ok NX NY (t m : list T) v f :
    is_tuple NY t v -> is_matrix NX NY m f ->
    let h := fun x => sum_to zero add NY (fun y => mul (v y) (f y x)) in
    forall n x tr, x + n = NX -> length tr = NX -> (forall i, i < x -> nth_error tr i = Some (h i)) ->
    exists tr', tm_loop zero add mul NX NY t m n x tr = Ok tr' /\ is_tuple NX tr' h.
  Proof.
    intros Mt Mm h. induction n as [|n IH]; intros x tr E L D; cbn [tm_loop].
    - replace x with NX in D by lia. exists tr. split; [reflexivity|]. now split.
    - pose proof (tm_dot_ok NX NY t m v f x Mt Mm ltac:(lia) NY 0 eq_refl) as Ed. cbn [sum_to] in Ed.
      rewrite Ed, bind_Ok.
      destruct (wr_nth tr x (h x) ltac:(lia)) as (tr' & E' & L' & N').
      unfold h in E' at 1. rewrite E', bind_Ok. apply IH; [lia|lia|].
      intros i Hi. rewrite N'. destruct (Nat.eqb_spec i x); [now subst|]. apply D. lia.
  Qed.

  Lemma transform_ok NX NY (t m : list T) v f :
    is_tuple NY t v -> is_matrix NX NY m f ->
    exists tr, transform zero add mul NX NY t m = Ok tr /\
      is_tuple NX tr (fun x => sum_to zero add NY (fun y => mul (v y) (f y x))).
  Proof.
    intros Mt Mm. apply tm_loop_ok; auto; [apply repeat_length|lia].
  Qed.

  (** ** transpose *)
  Lemma mswap_ok (m : list T) i j a b :
    nth_error m i = Some a -> nth_error m j = Some b ->
    exists m', mswap m i j = Ok m' /\ length m' = length m /\
      forall k, nth_error m' k = if Nat.eqb k j then Some a else if Nat.eqb k i then Some b else nth_error m k.
  Proof.
    intros A B. unfold mswap. rewrite (rd_some _ _ _ A), bind_Ok, (rd_some _ _ _ B), bind_Ok.
    assert (i < length m) by (apply nth_error_Some; congruence).
    assert (j < length m) by (apply nth_error_Some; congruence).
    destruct (wr_nth m i b) as (m1 & -> & L1 & N1); [lia|]. rewrite bind_Ok.
    destruct (wr_nth m1 j a) as (m2 & -> & L2 & N2); [lia|].
    exists m2. split; [reflexivity|]. split; [lia|]. intros k. rewrite N2, N1. reflexivity.
  Qed.

  (** Pairs (r, c) whose smaller index is below [x], or is [x] with the larger below [y], are swapped. *)
  Definition trd (f : nat -> nat -> T) (x y r c : nat) : T :=
    if (Nat.ltb (Nat.min r c) x || (Nat.eqb (Nat.min r c) x && Nat.ltb (Nat.max r c) y))%bool then f c r else f r c.

  Lemma is_matrix_ext NX NY (m : list T) f g :
    (forall r c, r < NY -> c < NX -> f r c = g r c) -> is_matrix NX NY m f -> is_matrix NX NY m g.
  Proof. intros E (L & H). split; [assumption|]. intros r c Hr Hc. rewrite <- E by auto. auto. Qed.

  Ltac cases := repeat match goal with
    | |- context [Nat.ltb ?a ?b] => destruct (Nat.ltb_spec a b)
    | |- context [Nat.eqb ?a ?b] => destruct (Nat.eqb_spec a b) end; cbn [andb orb].

  Lemma tr_inner_ok N f x : x < N -> forall n y (m : list T), y + n = N -> x <= y ->
    is_matrix N N m (trd f x y) ->
    exists m', tr_inner N m x n y = Ok m' /\ is_matrix N N m' (trd f x N).
  Proof.
    intros Hx. induction n as [|n IH]; intros y m E Hy M; cbn [tr_inner].
    - replace y with N in M by lia. eauto.
    - pose proof M as (L & D).
      destruct (mswap_ok m (ix N x y) (ix N y x) (trd f x y x y) (trd f x y y x)) as (m' & -> & L' & N');
        [apply D; lia|apply D; lia|].
      rewrite bind_Ok. apply IH; [lia|lia|]. split; [lia|].
      intros r c Hr Hc. change (r * N + c) with (ix N r c). rewrite N', !ix_eqb by lia.
      unfold ix at 1. rewrite D by lia.
      unfold trd. rewrite (Nat.min_comm y x), (Nat.max_comm y x), (Nat.min_l x y), (Nat.max_r x y) by lia.
      cases; try reflexivity; try (exfalso; lia); try (f_equal; f_equal; lia).
  Qed.

  Lemma tr_outer_ok N f : forall n x (m : list T), x + n = N ->
    is_matrix N N m (trd f x 0) ->
    exists m', tr_outer N m n x = Ok m' /\ is_matrix N N m' (trd f N 0).
  Proof.
    induction n as [|n IH]; intros x m E M; cbn [tr_outer].
    - replace x with N in M by lia. eauto.
    - destruct (tr_inner_ok N f x ltac:(lia) (N - x) x m ltac:(lia) ltac:(lia)) as (m' & -> & M').
      + eapply is_matrix_ext; [|exact M]. intros r c Hr Hc. unfold trd.
        cases; try reflexivity; try (exfalso; lia); f_equal; lia.
      + rewrite bind_Ok. apply IH; [lia|]. eapply is_matrix_ext; [|exact M']. intros r c Hr Hc. unfold trd.
        cases; try reflexivity; exfalso; lia.
  Qed.

  Lemma transpose_ok N (m : list T) f : is_matrix N N m f ->
    exists m', transpose N m = Ok m' /\ is_matrix N N m' (fun r c => f c r).
  Proof.
    intros M. destruct (tr_outer_ok N f N 0 m ltac:(lia)) as (m' & E & M').
    - eapply is_matrix_ext; [|exact M]. intros r c Hr Hc. unfold trd. cases; try reflexivity; lia.
    - exists m'. split; [assumption|]. eapply is_matrix_ext; [|exact M']. intros r c Hr Hc. unfold trd.
      cases; try reflexivity; lia.
  Qed.

  Lemma nth_error_ext_len (l1 l2 : list T) :
    length l1 = length l2 -> (forall i, i < length l1 -> nth_error l1 i = nth_error l2 i) -> l1 = l2.
  Proof.
    revert l2. induction l1 as [|x t IH]; intros [|y u] L H; cbn in L; try lia; auto.
    pose proof (H 0 ltac:(cbn; lia)) as H0. cbn in H0. injection H0 as ->. f_equal. apply IH; [lia|].
    intros i Hi. apply (H (S i)). cbn. lia.
  Qed.

  Lemma is_matrix_eq NX NY (m m' : list T) f g :
    (forall r c, r < NY -> c < NX -> f r c = g r c) -> is_matrix NX NY m f -> is_matrix NX NY m' g -> m = m'.
  Proof.
    intros E (L & H) (L' & H'). apply nth_error_ext_len; [lia|]. intros i Hi.
    destruct (Nat.eq_dec NX 0) as [->|Hz]; [lia|].
    pose proof (Nat.div_mod i NX Hz) as D. pose proof (Nat.mod_upper_bound i NX Hz).
    assert (i / NX < NY) by (apply Nat.div_lt_upper_bound; lia).
    rewrite D, (Nat.mul_comm NX). rewrite H, H' by auto. rewrite E by auto. reflexivity.
  Qed.

  (** ** Ring laws *)
  Section Laws.
    Context (sub : T -> T -> T) (opp : T -> T) (R : ring_theory zero one add mul sub opp eq).
    Add Ring TR : R.
    Notation sum := (sum_to zero add).

    Lemma sum_ext n f g : (forall i, i < n -> f i = g i) -> sum n f = sum n g.
    Proof. induction n; cbn; intros H; auto. rewrite IHn, H; auto. Qed.
    Lemma sum_add n f g : sum n (fun i => add (f i) (g i)) = add (sum n f) (sum n g).
    Proof. induction n; cbn; [ring|]. rewrite IHn. ring. Qed.
    Lemma sum_scale n f a : sum n (fun i => mul a (f i)) = mul a (sum n f).
    Proof. induction n; cbn; [ring|]. rewrite IHn. ring. Qed.
    Lemma sum_scale_r n f a : sum n (fun i => mul (f i) a) = mul (sum n f) a.
    Proof. induction n; cbn; [ring|]. rewrite IHn. ring. Qed.
    Lemma sum_zero n : sum n (fun _ => zero) = zero.
    Proof. induction n; cbn; [reflexivity|]. rewrite IHn. ring. Qed.
    Lemma sum_swap n k f : sum n (fun i => sum k (fun j => f i j)) = sum k (fun j => sum n (fun i => f i j)).
    Proof.
      induction n; cbn; [symmetry; apply sum_zero|]. rewrite IHn, <- sum_add. reflexivity.
    Qed.
    Lemma sum_one n f i : i < n -> (forall j, j < n -> j <> i -> f j = zero) -> sum n f = f i.
    Proof.
      induction n as [|n IH]; intros Hi H; [lia|]. cbn. destruct (Nat.eq_dec i n) as [->|Hn].
      - rewrite (sum_ext n f (fun _ => zero)), sum_zero by (intros; apply H; lia). ring.
      - rewrite IH, (H n) by (try lia; intros; apply H; lia). ring.
    Qed.

    Lemma prod_assoc NX NY f g h r c :
      prodf NY (prodf NX f g) h r c = prodf NX f (prodf NY g h) r c.
    Proof.
      unfold prodf.
      rewrite (sum_ext NY _ (fun x => sum NX (fun y => mul (mul (f r y) (g y x)) (h x c))))
        by (intros; now rewrite sum_scale_r).
      rewrite sum_swap. apply sum_ext. intros y _.
      rewrite <- sum_scale. apply sum_ext. intros x _. ring.
    Qed.
    Lemma prod_id_l N f r c : r < N -> prodf N (identity zero one) f r c = f r c.
    Proof.
      intros H. unfold prodf. rewrite (sum_one N _ r H).
      - unfold identity. rewrite Nat.eqb_refl. ring.
      - intros j _ Hj. unfold identity. destruct (Nat.eqb_spec r j); [congruence|]. ring.
    Qed.
    Lemma prod_id_r N f r c : c < N -> prodf N f (identity zero one) r c = f r c.
    Proof.
      intros H. unfold prodf. rewrite (sum_one N _ c H).
      - unfold identity. rewrite Nat.eqb_refl. ring.
      - intros j _ Hj. unfold identity. destruct (Nat.eqb_spec j c); [congruence|]. ring.
    Qed.
    Lemma prod_tr N f g r c : prodf N f g c r = prodf N (fun a b => g b a) (fun a b => f b a) r c.
    Proof. unfold prodf. apply sum_ext. intros. ring. Qed.

    (** ** SSE *)
    Lemma is_matrix_4 (m : list T) f : is_matrix 4 4 m f ->
      m = [f 0 0; f 0 1; f 0 2; f 0 3; f 1 0; f 1 1; f 1 2; f 1 3;
           f 2 0; f 2 1; f 2 2; f 2 3; f 3 0; f 3 1; f 3 2; f 3 3].
    Proof.
      intros (L & H).
      do 16 (destruct m as [|? m]; [discriminate L|]). destruct m; [|discriminate L].
      repeat match goal with |- _ :: _ = _ :: _ => f_equal end; try reflexivity;
      match goal with |- _ = f ?r ?c => specialize (H r c ltac:(lia) ltac:(lia)); cbn in H; congruence end.
    Qed.
    Lemma is_tuple_4 (t : list T) v : is_tuple 4 t v -> t = [v 0; v 1; v 2; v 3].
    Proof.
      intros (L & H).
      do 4 (destruct t as [|? t]; [discriminate L|]). destruct t; [|discriminate L].
      repeat match goal with |- _ :: _ = _ :: _ => f_equal end; try reflexivity;
      match goal with |- _ = v ?r => specialize (H r ltac:(lia)); cbn in H; congruence end.
    Qed.

    (** What the code computes: in lanes 0 and 2 the factor of row 1 is t[2]. *)
    Lemma sse_vec_mul_eq (t m : list T) v f : is_tuple 4 t v -> is_matrix 4 4 m f ->
      exists tr, sse_vec_mul zero add mul t m = Ok tr /\
        is_tuple 4 tr (fun x => sum 4 (fun y =>
          mul (if Nat.eqb y 1 && Nat.even x then v 2 else v y) (f y x))).
    Proof.
      intros Mt Mm. rewrite (is_matrix_4 _ _ Mm), (is_tuple_4 _ _ Mt). eexists. split; [reflexivity|].
      split; [reflexivity|]. intros i Hi.
      do 4 (destruct i as [|i]; [cbn; f_equal; ring|]). lia.
    Qed.

    Lemma sse_rows_eq f g : forall n r result m1,
      is_matrix 4 4 m1 f -> r + n = 4 ->
      let h := fun r c => sum 4 (fun y => mul (if Nat.eqb y 1 && Nat.even c then f r 2 else f r y) (g y c)) in
      done_to h r 0 4 4 result ->
      exists result', sse_rows add mul m1 (X (g 0 0) (g 0 1) (g 0 2) (g 0 3)) (X (g 1 0) (g 1 1) (g 1 2) (g 1 3))
        (X (g 2 0) (g 2 1) (g 2 2) (g 2 3)) (X (g 3 0) (g 3 1) (g 3 2) (g 3 3)) n r result = Ok result' /\
        done_to h 4 0 4 4 result'.
    Proof.
      induction n as [|n IH]; intros r result m1 M E h D; cbn [sse_rows].
      - replace r with 4 in D by lia. eauto.
      - unfold movups.
        rewrite (is_matrix_nth _ _ _ _ _ _ M), bind_Ok by lia.
        replace (ix 4 r 0 + 1) with (ix 4 r 1) by (unfold ix; lia).
        replace (ix 4 r 0 + 2) with (ix 4 r 2) by (unfold ix; lia).
        replace (ix 4 r 0 + 3) with (ix 4 r 3) by (unfold ix; lia).
        rewrite !(is_matrix_nth _ _ _ _ _ _ M), !bind_Ok by lia.
        unfold storeups.
        replace (ix 4 r 0 + 1) with (ix 4 r 1) by (unfold ix; lia).
        replace (ix 4 r 0 + 2) with (ix 4 r 2) by (unfold ix; lia).
        replace (ix 4 r 0 + 3) with (ix 4 r 3) by (unfold ix; lia).
        set (x := sse_transform _ _ _ _ _ _ _).
        assert (l0 x = h r 0 /\ l1 x = h r 1 /\ l2 x = h r 2 /\ l3 x = h r 3) as (X0 & X1 & X2 & X3).
        { unfold x, h, sse_transform, addps, mulps, shufps, lane. cbn. repeat split; ring. }
        destruct D as (L & D).
        destruct (wr_nth result (ix 4 r 0) (l0 x)) as (s1 & -> & L1 & N1); [rewrite L; apply ix_lt; lia|]. rewrite bind_Ok.
        destruct (wr_nth s1 (ix 4 r 1) (l1 x)) as (s2 & -> & L2 & N2); [rewrite L1, L; apply ix_lt; lia|]. rewrite bind_Ok.
        destruct (wr_nth s2 (ix 4 r 2) (l2 x)) as (s3 & -> & L3 & N3); [rewrite L2, L1, L; apply ix_lt; lia|]. rewrite bind_Ok.
        destruct (wr_nth s3 (ix 4 r 3) (l3 x)) as (s4 & -> & L4 & N4); [rewrite L3, L2, L1, L; apply ix_lt; lia|]. rewrite bind_Ok.
        apply IH; [assumption|lia|]. split; [lia|]. intros r' c' Hr' Hc' H.
        rewrite N4, N3, N2, N1, !ix_eqb by lia.
        destruct (Nat.eqb_spec r' r) as [->|Hn]; cbn [andb].
        + destruct c' as [|[|[|[|c']]]]; cbn [Nat.eqb andb]; [now rewrite X0|now rewrite X1|now rewrite X2|now rewrite X3|lia].
        + apply D; auto. lia.
    Qed.

    Lemma sse_mat_mul_eq (m1 m2 : list T) f g : is_matrix 4 4 m1 f -> is_matrix 4 4 m2 g ->
      exists mr, sse_mat_mul zero add mul m1 m2 = Ok mr /\
        is_matrix 4 4 mr (fun r c => sum 4 (fun y =>
          mul (if Nat.eqb y 1 && Nat.even c then f r 2 else f r y) (g y c))).
    Proof.
      intros M1 M2. unfold sse_mat_mul, movups.
      rewrite (is_matrix_4 _ _ M2).
      cbn [rd nth_error bind Nat.add].
      destruct (sse_rows_eq f g 4 0 (repeat zero 16) m1 M1 eq_refl) as (mr & E & L & D).
      { split; [reflexivity|]. lia. }
      unfold rd. cbn [nth_error bind Nat.add].
      exists mr. split; [exact E|]. split; [assumption|]. intros r c Hr Hc. apply D; auto.
    Qed.
  End Laws.

  Lemma sse_load_identity_ok (m : list T) : length m = 16 ->
    exists m', sse_load_identity (X one zero zero zero) m = Ok m' /\ is_matrix 4 4 m' (identity zero one).
  Proof.
    intros L. do 16 (destruct m as [|? m]; [discriminate L|]). destruct m; [|discriminate L].
    eexists. split; [reflexivity|]. split; [reflexivity|]. intros r c Hr Hc.
    do 4 (destruct r as [|r]; [do 4 (destruct c as [|c]; [reflexivity|]); lia|]). lia.
  Qed.
End P.
