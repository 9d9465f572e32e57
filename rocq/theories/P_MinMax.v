(** * Properties C214-C215: min, max, clamp, minmax, VectorElement. *)
From Verif Require Import Base MinMaxModel MinMaxSpec.
From Coq Require Import ZArith List Bool Lia.
Import ListNotations.
Local Open Scope Z_scope.

(** ** C214 *)
(** min and max of two values of a type: one of them, and no larger (smaller) than either. *)
Theorem C214_min_max {A} (lt : A -> A -> bool) a b : weak_order lt ->
  (min2 lt a b = a \/ min2 lt a b = b) /\ lt a (min2 lt a b) = false /\ lt b (min2 lt a b) = false /\
  (max2 lt a b = a \/ max2 lt a b = b) /\ lt (max2 lt a b) a = false /\ lt (max2 lt a b) b = false.
Proof.
  intros (R & T & _). unfold min2, max2.
  assert (As : forall x y, lt x y = true -> lt y x = false).
  { intros x y H. destruct (lt y x) eqn:E; [|reflexivity]. rewrite <- (T x y x H E). apply R. }
  destruct (lt a b) eqn:E, (lt b a) eqn:F; rewrite ?R, ?E, ?F; auto 10; try (rewrite (As _ _ E) in F; discriminate F).
Qed.
Print Assumptions C214_min_max.
(** clamp: a value inside the bounds is kept, others become the nearer bound. *)
Theorem C214_clamp {A} (lt : A -> A -> bool) v l h : weak_order lt -> lt h l = false ->
  lt (clamp lt v l h) l = false /\ lt h (clamp lt v l h) = false /\
  (lt v l = false -> lt h v = false -> clamp lt v l h = v) /\
  (lt v l = true -> clamp lt v l h = l) /\ (lt h v = true -> clamp lt v l h = h).
Proof.
  intros (R & T & N) H. unfold clamp. destruct (lt v l) eqn:E, (lt h v) eqn:F; rewrite ?R, ?E, ?F; auto 10.
  - rewrite (T _ _ _ F E) in H. discriminate H.
  - split; [auto|]. split; [auto|]. split; [discriminate|]. split; [auto|]. discriminate.
  - split; [auto|]. split; [auto|]. split; [discriminate|]. split; [discriminate|auto].
  - split; [auto|]. split; [auto|]. split; [auto|]. split; discriminate.
Qed.
Print Assumptions C214_clamp.
(** minmax of two variables refers to both, the smaller first. *)
Theorem C214_minmax_two {A} (lt : A -> A -> bool) a b : weak_order lt ->
  (minmax2 lt a b = (a, b) \/ minmax2 lt a b = (b, a)) /\ lt (snd (minmax2 lt a b)) (fst (minmax2 lt a b)) = false.
Proof.
  intros (R & T & _). unfold minmax2. destruct (lt a b) eqn:E; cbn [fst snd]; [|auto]. split; [auto|].
  destruct (lt b a) eqn:F; [|reflexivity]. rewrite <- (T a b a E F). apply R.
Qed.
Print Assumptions C214_minmax_two.
(** minmax of a list: two elements of the list, none smaller than the first, none larger than the second. *)
Theorem C214_minmax_list {A} (lt : A -> A -> bool) l : weak_order lt -> l <> [] ->
  (exists lo hi, minmax_list lt l = Ok (lo, hi) /\ In lo l /\ In hi l /\ Forall (fun i => lt i lo = false /\ lt hi i = false) l) /\
  (exists lo hi, minmax_list_comp lt l = Ok (lo, hi) /\ In lo l /\ In hi l /\ Forall (fun i => lt i lo = false /\ lt hi i = false) l).
Proof.
  intros (R & T & N) Hl. destruct l as [|x l]; [easy|]. clear Hl.
  assert (As : forall y z, lt y z = true -> lt z y = false).
  { intros y z H. destruct (lt z y) eqn:E; [|reflexivity]. rewrite <- (T y z y H E). apply R. }
  assert (G : forall (step : A * A -> A -> A * A),
    (forall r i, (fst (step r i) = fst r \/ fst (step r i) = i) /\ (snd (step r i) = snd r \/ snd (step r i) = i) /\
       lt (fst r) (fst (step r i)) = false /\ lt i (fst (step r i)) = false /\ lt (snd (step r i)) (snd r) = false /\ lt (snd (step r i)) i = false) ->
    forall k (s : A * A), let r := fold_left step k s in
      (fst r = fst s \/ In (fst r) k) /\ (snd r = snd s \/ In (snd r) k) /\ lt (fst s) (fst r) = false /\ lt (snd r) (snd s) = false /\
      Forall (fun i => lt i (fst r) = false /\ lt (snd r) i = false) k).
  { intros step St. induction k as [|i k IH]; intros s; cbn [fold_left]; [cbv zeta; auto|].
    destruct (St s i) as (A1 & A2 & B1 & B2 & B3 & B4). destruct (IH (step s i)) as (C1 & C2 & D1 & D2 & F). cbv zeta in *. cbn [In].
    split. { destruct C1 as [->|]; [destruct A1 as [->| ->]|]; auto. }
    split. { destruct C2 as [->|]; [destruct A2 as [->| ->]|]; auto. }
    split; [exact (N _ _ _ B1 D1)|]. split; [exact (N _ _ _ D2 B3)|]. constructor; [|exact F]. split; [exact (N _ _ _ B2 D1)|exact (N _ _ _ D2 B4)]. }
  assert (W : forall step, (forall r i, (fst (step r i) = fst r \/ fst (step r i) = i) /\ (snd (step r i) = snd r \/ snd (step r i) = i) /\
       lt (fst r) (fst (step r i)) = false /\ lt i (fst (step r i)) = false /\ lt (snd (step r i)) (snd r) = false /\ lt (snd (step r i)) i = false) ->
    exists lo hi, (Ok (fold_left step (x :: l) (x, x)) : outcome (A * A)) = Ok (lo, hi) /\ In lo (x :: l) /\ In hi (x :: l) /\ Forall (fun i => lt i lo = false /\ lt hi i = false) (x :: l)).
  { intros step St. pose proof (G step St (x :: l) (x, x)) as Q. cbv zeta in Q. destruct (fold_left step (x :: l) (x, x)) as [a b].
    cbn [fst snd] in Q. destruct Q as (Q1 & Q2 & _ & _ & Q3). exists a, b. split; [reflexivity|].
    split; [destruct Q1 as [->|]; [now left|assumption]|]. split; [destruct Q2 as [->|]; [now left|assumption]|]. exact Q3. }
  split.
  - unfold minmax_list. apply W. intros [a b] i. cbn [fst snd]. unfold min2, max2.
    destruct (lt a i) eqn:E1, (lt i b) eqn:E2; rewrite ?R, ?E1, ?E2; cbn [fst snd]; repeat split; auto.
  - unfold minmax_list_comp. apply W. intros [a b] i. cbn [fst snd].
    destruct (lt i a) eqn:E1, (lt b i) eqn:E2; rewrite ?R, ?E1, ?E2; cbn [fst snd]; repeat split; auto.
Qed.
Print Assumptions C214_minmax_list.
(** VectorElement never leaves the array. *)
Theorem C214_vector_element n i : 0 < n -> 0 <= i -> 0 <= element_index n i < n /\ (i < n -> element_index n i = i).
Proof. intros Hn Hi. unfold element_index, min2. destruct (Z.ltb_spec i (n - 1)); lia. Qed.
Print Assumptions C214_vector_element.

Lemma conv_fits t v : int_type t -> fits t v -> conv t v = v.
Proof.
  unfold int_type, fits, lo, hi, conv. intros I F. assert (P : bits t = 8 \/ bits t = 16 \/ bits t = 32 \/ bits t = 64) by (cbn [In] in I; intuition).
  clear I. assert (G : forall m, v < 0 -> - m < v -> v mod m = v + m).
  { intros m L M. rewrite <- (Z.mod_small (v + m) m) by lia. replace (v + m) with (v + 1 * m) by lia. rewrite Z.mod_add by lia. reflexivity. }
  destruct (sgn t); cbn [andb].
  - destruct (Z_lt_dec v 0) as [L|L].
    + rewrite G by (destruct P as [P|[P|[P|P]]]; rewrite P in *; lia). destruct P as [P|[P|[P|P]]]; rewrite P in *;
      match goal with |- context [?x <=? ?y] => destruct (Z.leb_spec x y) end; lia.
    + rewrite Z.mod_small by (destruct P as [P|[P|[P|P]]]; rewrite P in *; lia). destruct P as [P|[P|[P|P]]]; rewrite P in *;
      match goal with |- context [?x <=? ?y] => destruct (Z.leb_spec x y) end; lia.
  - apply Z.mod_small. lia.
Qed.
Lemma conv_range t v : int_type t -> fits t (conv t v).
Proof.
  unfold int_type, fits, lo, hi, conv. intros I. assert (P : bits t = 8 \/ bits t = 16 \/ bits t = 32 \/ bits t = 64) by (cbn [In] in I; intuition).
  clear I. destruct (sgn t); cbn [andb]; destruct P as [-> |[-> |[-> | ->]]];
  match goal with |- context [v mod ?m] => pose proof (Z.mod_pos_bound v m ltac:(lia)) as B end;
    try match goal with |- context [?x <=? v mod ?y] => destruct (Z.leb_spec x (v mod y)) end; lia.
Qed.
Lemma promote_type t : int_type t -> int_type (promote t) /\ 32 <= bits (promote t) /\ forall v, fits t v -> fits (promote t) v.
Proof.
  unfold int_type, promote. intros I. destruct (Z.ltb_spec (bits t) 32) as [L|L]; [|auto].
  split; [cbn; auto|]. split; [cbn; lia|]. intros v F. unfold fits, lo, hi in *. cbn [sgn bits].
  assert (P : bits t = 8 \/ bits t = 16) by (cbn [In] in I; intuition). destruct P as [P|P]; rewrite P in F; destruct (sgn t); lia.
Qed.
Lemma common_type t u : int_type t -> int_type u -> int_type (common t u).
Proof.
  intros Ht Hu. destruct (promote_type t Ht) as (P & _). destruct (promote_type u Hu) as (Q & _).
  unfold common. destruct (_ <? _); [assumption|]. destruct (_ <? _); [assumption|]. unfold int_type in *. exact P.
Qed.
Lemma pow_split k : 1 <= k -> 2 ^ k = 2 * 2 ^ (k - 1).
Proof. intros H. rewrite <- Z.pow_succ_r by lia. f_equal. lia. Qed.
(** Both values can be represented in the common type, if they are not negative, or both types are signed or both unsigned. *)
Lemma common_fits t u a b : int_type t -> int_type u -> fits t a -> fits u b -> sgn t = sgn u \/ (0 <= a /\ 0 <= b) ->
  fits (common t u) a /\ fits (common t u) b.
Proof.
  intros Ht Hu Fa Fb H.
  destruct (promote_type t Ht) as (It & Bt & Wt). destruct (promote_type u Hu) as (Iu & Bu & Wu). pose proof (Wt a Fa) as Pa. pose proof (Wu b Fb) as Pb.
  assert (S : (sgn (promote t) = true /\ sgn (promote u) = true) \/ (sgn (promote t) = false /\ sgn (promote u) = false) \/ (0 <= a /\ 0 <= b)).
  { destruct H as [H|H]; [|auto].
    assert (U : forall w x, int_type w -> fits w x -> sgn w = false -> 0 <= x) by (intros w x _ F E; unfold fits, lo in F; rewrite E in F; lia).
    destruct (sgn t) eqn:E.
    - left. unfold promote. destruct (bits t <? 32), (bits u <? 32); cbn [sgn]; auto.
    - right. right. split; [apply (U t); auto|apply (U u); auto]. }
  clear H Wt Wu Fa Fb Ht Hu. unfold common. set (p := promote t) in *. set (q := promote u) in *. clearbody p q. clear t u.
  assert (P : bits p = 32 \/ bits p = 64) by (unfold int_type in It; cbn [In] in It; lia).
  assert (Q : bits q = 32 \/ bits q = 64) by (unfold int_type in Iu; cbn [In] in Iu; lia).
  clear It Iu Bt Bu. unfold fits, lo, hi in *. destruct p as [bp sp], q as [bq sq]. cbn [bits sgn] in *.
  destruct P as [-> | ->], Q as [-> | ->]; destruct sp, sq; cbn [Z.ltb Z.compare Pos.compare Pos.compare_cont bits sgn andb] in *; lia.
Qed.
(** min and max of two integers of any types is the smaller (larger) number, if both types are signed or both unsigned, or neither
    number is negative, and the result can be represented in the first type - which the minimum of numbers that are not
    negative always can. *)
Theorem C214_mixed_types t u a b : int_type t -> int_type u -> fits t a -> fits u b -> sgn t = sgn u \/ (0 <= a /\ 0 <= b) ->
  (fits t (Z.min a b) -> min_of t u a b = Z.min a b) /\ (fits t (Z.max a b) -> max_of t u a b = Z.max a b) /\
  (0 <= a -> 0 <= b -> min_of t u a b = Z.min a b).
Proof.
  intros Ht Hu Fa Fb H. destruct (common_fits t u a b Ht Hu Fa Fb H) as [Ca Cb]. pose proof (common_type t u Ht Hu) as Hc.
  assert (M : fits t (Z.min a b) -> min_of t u a b = Z.min a b).
  { intros F. unfold min_of. cbv zeta. rewrite !conv_fits by assumption. destruct (Z.ltb_spec a b); [lia|]. rewrite Z.min_r in * by lia. now apply conv_fits. }
  split; [exact M|]. split.
  - intros F. unfold max_of. cbv zeta. rewrite !conv_fits by assumption. destruct (Z.ltb_spec b a); [lia|]. rewrite Z.max_r in * by lia. now apply conv_fits.
  - intros A0 B0. apply M. assert (L : lo t <= 0).
    { unfold lo. destruct (sgn t); [|lia]. pose proof (Z.pow_nonneg 2 (bits t - 1)). lia. }
    unfold fits in *. destruct (Z.min_spec a b) as [[? ->]|[? ->]]; lia.
Qed.
Print Assumptions C214_mixed_types.
Example C214_example : weak_order Z.ltb /\ clamp Z.ltb 7 1 5 = 5 /\ minmax_list Z.ltb [3; 1; 4; 1; 5] = Ok (1, 5) /\
  min_of (Ity 8 false) (Ity 32 true) 200 100 = 100 /\ max_of (Ity 64 false) (Ity 32 true) 200 100 = 200 /\
  int_type (Ity 8 false) /\ fits (Ity 8 false) 200.
Proof.
  split. { split; [intros a; apply Z.ltb_irrefl|]. split; intros a b c; rewrite ?Z.ltb_lt, ?Z.ltb_ge; lia. }
  split; [reflexivity|]. split; [reflexivity|]. split; [reflexivity|]. split; [reflexivity|]. split; [cbn; auto|]. unfold fits, lo, hi. cbn. lia.
Qed.

(** ** C215 *)
(** The larger number, when the first type cannot represent it, comes out as another one. *)
Theorem C215_narrow_refuted t u a b : int_type t -> int_type u -> fits t a -> fits u b -> sgn t = sgn u \/ (0 <= a /\ 0 <= b) ->
  hi t < b -> max_of t u a b <> Z.max a b /\ max_of t u a b = conv t b.
Proof.
  intros Ht Hu Fa Fb H L. destruct (common_fits t u a b Ht Hu Fa Fb H) as [Ca Cb]. pose proof (common_type t u Ht Hu) as Hc.
  unfold max_of. cbv zeta. rewrite (conv_fits (common t u) a), (conv_fits (common t u) b) by assumption. unfold fits in Fa. destruct (Z.ltb_spec b a); [lia|]. split; [|reflexivity].
  pose proof (conv_range t b Ht) as R. unfold fits in R. lia.
Qed.
Print Assumptions C215_narrow_refuted.
(** A negative number and an unsigned one of the same width, or wider: the negative one counts as huge. *)
Theorem C215_sign_refuted t u a b : int_type t -> int_type u -> 32 <= bits u -> bits t <= bits u -> sgn t = true -> sgn u = false ->
  fits t a -> fits u b -> a < 0 -> b < a + 2 ^ bits u -> max_of t u a b = a /\ Z.max a b = b /\ a <> b /\ min_of t u a b = conv t b.
Proof.
  intros Ht Hu Bu Bt St Su Fa Fb Na L. unfold max_of, min_of. cbv zeta.
  assert (C : common t u = u).
  { unfold common, promote. replace (bits u <? 32) with false by lia. destruct (Z.ltb_spec (bits t) 32).
    - cbn [bits sgn]. destruct (Z.ltb_spec 32 (bits u)); [reflexivity|]. replace (bits u <? 32) with false by lia. rewrite Su. destruct u as [bu su]. cbn [bits sgn] in *. subst. cbn [andb]. f_equal. lia.
    - destruct (Z.ltb_spec (bits t) (bits u)); [reflexivity|]. replace (bits u <? bits t) with false by lia. rewrite Su, andb_false_r. destruct u as [bu su]. cbn [bits sgn] in *. subst. f_equal. lia. }
  rewrite C. rewrite (conv_fits u b) by assumption.
  assert (E : conv u a = a + 2 ^ bits u).
  { unfold conv. rewrite Su. cbn [andb]. assert (G : - 2 ^ bits u <= a).
    { unfold fits, lo in Fa. rewrite St in Fa. assert (2 ^ (bits t - 1) <= 2 ^ bits u) by (apply Z.pow_le_mono_r; lia). lia. }
    rewrite <- (Z.mod_small (a + 2 ^ bits u) (2 ^ bits u)) by lia. replace (a + 2 ^ bits u) with (a + 1 * 2 ^ bits u) by lia.
    rewrite Z.mod_add by (apply Z.pow_nonzero; unfold int_type in Hu; cbn [In] in Hu; lia). reflexivity. }
  rewrite E. assert (B0 : 0 <= b) by (unfold fits, lo in Fb; rewrite Su in Fb; lia).
  replace (b <? a + 2 ^ bits u) with true by lia. replace (a + 2 ^ bits u <? b) with false by lia. split; [reflexivity|]. split; [lia|]. split; [lia|reflexivity].
Qed.
Print Assumptions C215_sign_refuted.
(** Equal elements: min and max take the second, minmax exchanges the two, and of the smallest elements of a list minmax takes the last,
    with a comparison the first of the largest.  The standard: the first, in order, the first, the last. *)
Theorem C215_ties_refuted {A} (lt : A -> A -> bool) a b : (forall x y, lt x y = false) ->
  min2 lt a b = b /\ max2 lt a b = b /\ minmax2 lt a b = (b, a) /\ minmax_list lt [a; b] = Ok (b, b) /\ minmax_list_comp lt [a; b] = Ok (a, a).
Proof. intros H. unfold min2, max2, minmax2, minmax_list, minmax_list_comp. cbn [fold_left fst snd]. unfold min2, max2. rewrite !H. repeat split; rewrite ?H; reflexivity. Qed.
Print Assumptions C215_ties_refuted.
Example C215_example : max_of (Ity 8 false) (Ity 32 true) 5 300 = 44 /\ min_of (Ity 32 true) (Ity 32 false) (-1) 5 = 5.
Proof. split; reflexivity. Qed.
