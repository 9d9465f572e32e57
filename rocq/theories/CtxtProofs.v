(** * CtxtProofs: values as text. *)
From Verif Require Import Base UtilModel FmtSpec FmtProofs OStrModel OStrSpec IstrSpec CtxtModel CtxtSpec.
From Coq Require Import ZArith ZifyBool ZifyNat Lia.
Local Open Scope Z_scope.

(** ** Numbers *)
Lemma dec_loop_ok : forall k fuel n l, 0 <= n < 10 ^ Z.of_nat k -> (1 <= k <= fuel)%nat -> exists ds, dec_loop fuel n l = ds ++ l /\ decimal ds n.
Proof.
  induction k as [|k IH]; intros fuel n l Hn Hf; [lia|]. destruct fuel as [|fuel]; [lia|]. cbn [dec_loop].
  assert (Hd : is_digit (48 + n mod 10) = true). { pose proof (Z.mod_pos_bound n 10 ltac:(lia)). unfold is_digit. lia. }
  pose proof (Z.div_mod n 10 ltac:(lia)) as DM. pose proof (Z.mod_pos_bound n 10 ltac:(lia)) as MB.
  destruct (Z.eqb_spec (n / 10) 0) as [E|E].
  - exists [48 + n mod 10]. split; [reflexivity|]. split; [discriminate|]. split; [constructor; [exact Hd|constructor]|]. split; [unfold number; cbn [fold_left]; lia|].
    cbn [hd]. intros H. split; [lia|]. f_equal. lia.
  - assert (Hk : (1 <= k)%nat). { destruct k; [|lia]. change (10 ^ Z.of_nat 1) with 10 in Hn. exfalso. apply E. apply Z.div_small. lia. }
    destruct (IH fuel (n / 10) ((48 + n mod 10) :: l)) as (ds & Ed & D).
    + split; [apply Z.div_pos; lia|]. apply Z.div_lt_upper_bound; [lia|]. rewrite Nat2Z.inj_succ, Z.pow_succ_r in Hn by lia. lia.
    + lia.
    + exists (ds ++ [48 + n mod 10]). rewrite <- app_assoc. split; [exact Ed|]. destruct D as (D1 & D2 & D3 & D4).
      split; [destruct ds; discriminate|]. split; [apply Forall_app; split; [exact D2|constructor; [exact Hd|constructor]]|]. split; [rewrite number_snoc, D3; lia|].
      intros H. exfalso. destruct ds as [|d ds]; [congruence|]. cbn [app hd] in *. destruct (D4 H) as (D5 & _). congruence.
Qed.
Lemma printf_d_ok n : - 2 ^ 63 <= n < 2 ^ 64 -> integer_text (printf_d n) n.
Proof.
  intros H. unfold printf_d, integer_text. destruct (Z.ltb_spec n 0) as [L|L].
  - destruct (dec_loop_ok 20 20 (- n) []) as (ds & E & D); [change (10 ^ Z.of_nat 20) with 100000000000000000000; lia|lia|]. exists ds. rewrite E, app_nil_r. split; [|reflexivity].
    replace (Z.abs n) with (- n) by lia. exact D.
  - destruct (dec_loop_ok 20 20 n []) as (ds & E & D); [change (10 ^ Z.of_nat 20) with 100000000000000000000; lia|lia|]. exists ds. rewrite E, app_nil_r. split; [|reflexivity].
    replace (Z.abs n) with n by lia. exact D.
Qed.

(** ** The operations write the text *)
Lemma joined_loop {A} (f : A -> list oop) (R : A -> list Z -> Prop) l : Forall (fun x => R x (flat_map bytes_of (f x))) l -> forall first,
  exists ts, Forall2 R l ts /\ flat_map bytes_of (ctr_loop f first l) = (if first then [] else match ts with [] => [] | _ => [44] end) ++ joined 44 ts.
Proof.
  induction 1 as [|x l Hx Hl IH]; intros first; cbn [ctr_loop].
  - exists []. split; [constructor|]. destruct first; reflexivity.
  - destruct (IH false) as (ts & F & E). exists (flat_map bytes_of (f x) :: ts). split; [constructor; assumption|].
    rewrite !flat_map_app, E. cbn [app]. destruct first; cbn [flat_map bytes_of app]; destruct ts as [|t ts]; cbn [joined app]; rewrite ?app_nil_r; reflexivity.
Qed.
Lemma row_ok {A} (f : A -> list oop) (R : A -> list Z -> Prop) : forall k l, Forall (fun x => R x (flat_map bytes_of (f x))) l -> (S k <= length l)%nat ->
  exists ts, Forall2 R (firstn (S k) l) ts /\ flat_map bytes_of (fst (row_loop f (S k) l)) = joined 44 ts ++ [41] /\ snd (row_loop f (S k) l) = skipn (S k) l.
Proof.
  induction k as [|k IH]; intros l HF HL; (destruct l as [|x l]; [cbn [length] in HL; lia|]); inversion HF as [|? ? Hx HF']; subst.
  - cbn [row_loop firstn skipn Nat.eqb]. exists [flat_map bytes_of (f x)]. split; [repeat constructor; assumption|]. cbn [fst snd joined].
    split; [|reflexivity]. rewrite flat_map_app. reflexivity.
  - destruct (IH l HF' ltac:(cbn [length] in HL; lia)) as (ts & F & E & S').
    change (row_loop f (S (S k)) (x :: l)) with (let '(o, r) := row_loop f (S k) l in (f x ++ OPut (if (S k =? 0)%nat then 41 else 44) :: o, r)).
    destruct (row_loop f (S k) l) as (o, r). cbn [fst snd] in *. exists (flat_map bytes_of (f x) :: ts).
    change (firstn (S (S k)) (x :: l)) with (x :: firstn (S k) l). split; [constructor; assumption|]. cbn [Nat.eqb]. split; [|exact S'].
    rewrite flat_map_app. cbn [flat_map bytes_of]. rewrite E. destruct ts as [|t ts]; [destruct l; [cbn [length] in HL; lia|]; inversion F|]. cbn [joined app]. rewrite <- app_assoc. reflexivity.
Qed.
Lemma rows_ok {A} (f : A -> list oop) (R : A -> list Z -> Prop) nx : (0 < nx)%nat -> forall ny l, Forall (fun x => R x (flat_map bytes_of (f x))) l -> length l = (nx * ny)%nat ->
  exists rows, Forall2 (Forall2 R) (in_rows nx ny l) rows /\ flat_map bytes_of (rows_loop f nx ny l) = concat (map list_text rows).
Proof.
  intros Hnx. destruct nx as [|k]; [lia|]. induction ny as [|ny IH]; intros l HF HL; cbn [in_rows rows_loop].
  - exists []. split; [constructor|reflexivity].
  - destruct (row_ok f R k l HF ltac:(nia)) as (ts & F & E & S'). destruct (row_loop f (S k) l) as (o, r). cbn [fst snd] in *. subst r.
    assert (HF2 : Forall (fun x => R x (flat_map bytes_of (f x))) (skipn (S k) l)). { rewrite <- (firstn_skipn (S k) l) in HF. apply Forall_app in HF. tauto. }
    destruct (IH _ HF2) as (rows & F2 & E2); [rewrite skipn_length; nia|]. exists (ts :: rows). split; [constructor; assumption|].
    cbn [flat_map bytes_of app map concat]. rewrite flat_map_app, E, E2. unfold list_text. cbn [app]. rewrite <- !app_assoc. reflexivity.
Qed.
Lemma char_elem_ok c : - 128 <= c < 256 -> char_text c (flat_map bytes_of (char_elem c)).
Proof.
  intros H. unfold char_elem, isprint. cbn [flat_map bytes_of]. rewrite app_nil_r. destruct ((32 <=? c) && (c <=? 126))%bool eqn:E.
  - replace (c mod 256) with c by (symmetry; apply Z.mod_small; lia). constructor. lia.
  - apply char_number; [lia|]. apply printf_d_ok. lia.
Qed.
Lemma text_ops_ok : forall t v, has_columns t -> is_value t v -> text_of t v (flat_map bytes_of (text_ops t v)).
Proof.
  induction t as [| | | |a IHa b IHb|nx ny a IHa| |a IHa]; intros v Hc Hv; cbn [xval text_of text_ops is_value has_columns] in *; cbn [flat_map bytes_of app]; rewrite ?app_nil_r; try reflexivity.
  - apply printf_d_ok, Hv.
  - destruct Hc as (C1 & C2), Hv as (V1 & V2). eexists _, _. split; [apply IHa; assumption|]. split; [apply IHb; assumption|].
    rewrite !flat_map_app. cbn [flat_map bytes_of app]. rewrite !flat_map_app. unfold list_text. cbn [joined app flat_map bytes_of]. rewrite <- app_assoc. reflexivity.
  - destruct Hc as (C1 & C2), Hv as (V1 & V2).
    destruct (rows_ok (text_ops a) (text_of a) nx C1 ny v) as (rows & F & E); [|exact V1|].
    + eapply Forall_impl; [|exact V2]. intros x Hx. apply IHa; assumption.
    + exists rows. split; [exact F|]. rewrite flat_map_app, E. reflexivity.
  - destruct (joined_loop char_elem char_text v) with (first := true) as (ts & F & E).
    + eapply Forall_impl; [|exact Hv]. intros c Hx. apply char_elem_ok, Hx.
    + exists ts. split; [exact F|]. rewrite flat_map_app, E. reflexivity.
  - destruct (joined_loop (text_ops a) (text_of a) v) with (first := true) as (ts & F & E).
    + eapply Forall_impl; [|exact Hv]. intros x Hx. apply IHa; assumption.
    + exists ts. split; [exact F|]. rewrite flat_map_app, E. reflexivity.
Qed.

(** ** Different values have different texts *)
Definition stops (r : list Z) : Prop := match r with [] => True | c :: _ => is_digit c = false end.
Lemma digits_prefix : forall a b r r', Forall (fun c => is_digit c = true) a -> Forall (fun c => is_digit c = true) b -> stops r -> stops r' -> a ++ r = b ++ r' -> a = b /\ r = r'.
Proof.
  induction a as [|x a IH]; intros [|y b] r r' Ha Hb Hr Hr' E; cbn [app] in E.
  - auto.
  - inversion Hb; subst. cbn [stops] in Hr. congruence.
  - inversion Ha; subst. cbn [stops] in Hr'. congruence.
  - injection E as -> E. inversion Ha; inversion Hb; subst. destruct (IH b r r') as (-> & ->); auto.
Qed.
Lemma integer_head t n : integer_text t n -> exists c u, t = c :: u /\ ((n < 0 /\ c = 45) \/ (0 <= n /\ is_digit c = true)).
Proof.
  intros (ds & (Hne & HF & _) & ->). destruct ds as [|d ds]; [congruence|]. inversion HF; subst. destruct (Z.ltb_spec n 0); [exists 45, (d :: ds); auto|exists d, ds; auto].
Qed.
Lemma integer_prefix t t' n n' r r' : integer_text t n -> integer_text t' n' -> stops r -> stops r' -> t ++ r = t' ++ r' -> n = n' /\ r = r'.
Proof.
  intros H H' Hr Hr' E. destruct (integer_head _ _ H) as (c & u & Et & Hc). destruct (integer_head _ _ H') as (c' & u' & Et' & Hc').
  assert (c = c') as <- by (rewrite Et, Et' in E; cbn [app] in E; congruence).
  assert (S : (n < 0 /\ n' < 0) \/ (0 <= n /\ 0 <= n')).
  { destruct Hc as [(L & ->)|(L & D)], Hc' as [(L' & D')|(L' & D')]; try discriminate; try (left; lia); try (right; lia). subst c. discriminate. }
  destruct H as (ds & D & T), H' as (ds' & D' & T').
  assert (Ed : ds ++ r = ds' ++ r').
  { rewrite T, T' in E. destruct (Z.ltb_spec n 0), (Z.ltb_spec n' 0); try lia; [injection E as E; exact E|exact E]. }
  destruct (digits_prefix ds ds' r r') as (-> & ->); [apply D|apply D'|exact Hr|exact Hr'|exact Ed|]. split; [|reflexivity].
  destruct D as (_ & _ & N & _), D' as (_ & _ & N' & _). lia.
Qed.
(** A relation of values and texts that can be read back. *)
Definition prefix_free {A} (R : A -> list Z -> Prop) : Prop :=
  forall x y s s' r r', R x s -> R y s' -> stops r -> stops r' -> s ++ r = s' ++ r' -> x = y /\ r = r'.
Definition heads {A} (R : A -> list Z -> Prop) : Prop := forall x s, R x s -> exists c u, s = c :: u /\ c <> 41.
Lemma joined_tail t ts r : joined 44 (t :: ts) ++ 41 :: r = t ++ (match ts with [] => 41 :: r | _ => 44 :: joined 44 ts ++ 41 :: r end).
Proof. destruct ts as [|u ts]; [reflexivity|]. change (joined 44 (t :: u :: ts)) with (t ++ 44 :: joined 44 (u :: ts)). rewrite <- app_assoc. reflexivity. Qed.
Lemma joined_free {A} (R : A -> list Z -> Prop) : prefix_free R -> forall l l' ts ts' r r', Forall2 R l ts -> Forall2 R l' ts' -> (length l = length l' \/ heads R) ->
  joined 44 ts ++ 41 :: r = joined 44 ts' ++ 41 :: r' -> l = l' /\ r = r'.
Proof.
  intros HP. induction l as [|x l IH]; intros l' ts ts' r r' F F' Hh E.
  - inversion F; subst. destruct F' as [|y s l' ts' Hy F']; [injection E as ->; auto|]. exfalso. rewrite joined_tail in E.
    destruct Hh as [Hh|Hh]; [discriminate|]. destruct (Hh _ _ Hy) as (c & u & -> & N). cbn [joined app] in E. congruence.
  - destruct F' as [|y s' l' ts' Hy F'].
    { exfalso. inversion F as [|? s ? ts0 Hx F0]; subst. rewrite joined_tail in E. destruct Hh as [Hh|Hh]; [discriminate|]. destruct (Hh _ _ Hx) as (c & u & -> & N). cbn [joined app] in E. congruence. }
    inversion F as [|? s ? ts0 Hx F0]; subst. rewrite !joined_tail in E.
    match type of E with s ++ ?p = s' ++ ?q => destruct (HP x y s s' p q Hx Hy) as (-> & E2); [destruct ts0; reflexivity|destruct ts'; reflexivity|exact E|] end.
    destruct ts0 as [|t0 ts0], ts' as [|t1 ts'].
    + inversion F0; inversion F'; subst. injection E2 as ->. auto.
    + discriminate.
    + discriminate.
    + injection E2 as E2. destruct (IH l' (t0 :: ts0) (t1 :: ts') r r' F0 F') as (-> & ->); [|exact E2|auto]. destruct Hh as [Hh|Hh]; [left; cbn [length] in Hh; lia|right; exact Hh].
Qed.
Lemma in_rows_concat {A} nx : forall ny (l : list A), length l = (nx * ny)%nat -> concat (in_rows nx ny l) = l.
Proof.
  induction ny as [|ny IH]; intros l H; cbn [in_rows concat]; [destruct l; [reflexivity|cbn [length] in H; lia]|].
  rewrite IH by (rewrite skipn_length; nia). apply firstn_skipn.
Qed.
Lemma in_rows_len {A} nx : forall ny (l : list A), length l = (nx * ny)%nat -> Forall (fun row => length row = nx) (in_rows nx ny l).
Proof.
  induction ny as [|ny IH]; intros l H; cbn [in_rows]; [constructor|]. constructor; [rewrite firstn_length; nia|]. apply IH. rewrite skipn_length. nia.
Qed.
Lemma rows_free {A} (R : A -> list Z -> Prop) nx : prefix_free R -> forall m m' rs rs' r r', Forall2 (Forall2 R) m rs -> Forall2 (Forall2 R) m' rs' ->
  Forall (fun row => length row = nx) m -> Forall (fun row => length row = nx) m' -> length m = length m' ->
  concat (map list_text rs) ++ 41 :: r = concat (map list_text rs') ++ 41 :: r' -> m = m' /\ r = r'.
Proof.
  intros HP. induction m as [|row m IH]; intros m' rs rs' r r' F F' L L' HL E; (destruct m' as [|row' m']; [try discriminate|try discriminate]); inversion F; inversion F'; subst.
  - injection E as ->. auto.
  - cbn [map concat] in E. unfold list_text in E at 1 3. cbn [app] in E. injection E as E. rewrite <- !app_assoc in E. cbn [app] in E.
    inversion L; inversion L'; subst. match goal with A : Forall2 R row ?t, B : Forall2 R row' ?t' |- _ => match type of E with joined 44 t ++ 41 :: ?p = joined 44 t' ++ 41 :: ?q => destruct (joined_free R HP row row' t t' p q A B) as (-> & E2); [left; congruence|exact E|] end end.
    match goal with A : Forall2 _ m ?t, B : Forall2 _ m' ?t' |- _ => destruct (IH m' t t' r r' A B) as (-> & ->); auto end.
Qed.
Lemma char_free : prefix_free char_text.
Proof.
  intros x y s s' r r' H H' Hr Hr' E. destruct H as [c Hc|c t Hc Ht], H' as [c' Hc'|c' t' Hc' Ht'].
  - cbn [app] in E. injection E as -> ->. auto.
  - exfalso. destruct (integer_head _ _ Ht') as (d & u & -> & D). cbn [app] in E. injection E as <- E. destruct D as [(_ & D)|(_ & D)]; discriminate.
  - exfalso. destruct (integer_head _ _ Ht) as (d & u & -> & D). cbn [app] in E. injection E as -> E. destruct D as [(_ & D)|(_ & D)]; discriminate.
  - exact (integer_prefix _ _ _ _ _ _ Ht Ht' Hr Hr' E).
Qed.
Lemma char_heads : heads char_text.
Proof.
  intros x s [c Hc|c t Hc Ht]; [exists 39, [c; 39]; split; [reflexivity|lia]|]. destruct (integer_head _ _ Ht) as (d & u & -> & D). exists d, u. split; [reflexivity|]. unfold is_digit in D. lia.
Qed.
Definition good_text (t : xty) (v : xval t) (s : list Z) : Prop := text_of t v s /\ is_value t v.
Lemma good_forall2 t l ts : Forall2 (text_of t) l ts -> Forall (is_value t) l -> Forall2 (good_text t) l ts.
Proof. induction 1; intros H'; inversion H'; subst; constructor; [split; assumption|auto]. Qed.
Lemma text_heads t : t <> XChar -> no_strings t -> heads (good_text t).
Proof.
  intros Nc Ns v s (H & _). destruct t; cbn [text_of] in H.
  - destruct (integer_head _ _ H) as (d & u & -> & D). exists d, u. split; [reflexivity|]. unfold is_digit in D. lia.
  - subst s. destruct v; eexists _, _; (split; [reflexivity|lia]).
  - congruence.
  - destruct Ns.
  - destruct H as (s1 & s2 & _ & _ & ->). eexists _, _. split; [reflexivity|lia].
  - destruct H as (rows & _ & ->). eexists _, _. split; [reflexivity|lia].
  - destruct H as (ts & _ & ->). eexists _, _. split; [reflexivity|lia].
  - destruct H as (ts & _ & ->). eexists _, _. split; [reflexivity|lia].
Qed.
Lemma text_free : forall t, no_strings t -> prefix_free (good_text t).
Proof.
  induction t as [| | | |a IHa b IHb|nx ny a IHa| |a IHa]; intros Ns; cbn [no_strings] in Ns; intros x y s s' r r' (H & V) (H' & V') Hr Hr' E; cbn [text_of is_value] in *.
  - exact (integer_prefix _ _ _ _ _ _ H H' Hr Hr' E).
  - subst s s'. destruct x, y; cbn [app] in E; try discriminate; injection E as ->; auto.
  - subst s s'. cbn [app] in E. injection E as -> ->. auto.
  - destruct Ns.
  - destruct Ns as (N1 & N2), V as (V1 & V2), V' as (V1' & V2'). destruct H as (s1 & s2 & A1 & A2 & ->), H' as (s1' & s2' & B1 & B2 & ->).
    unfold list_text in E. cbn [joined app] in E. injection E as E. rewrite <- !app_assoc in E. cbn [app] in E.
    match type of E with s1 ++ ?p = s1' ++ ?q => destruct (IHa N1 _ _ s1 s1' p q (conj A1 V1) (conj B1 V1')) as (E1 & E2); [reflexivity|reflexivity|exact E|] end. injection E2 as E2.
    match type of E2 with s2 ++ ?p = s2' ++ ?q => destruct (IHb N2 _ _ s2 s2' p q (conj A2 V2) (conj B2 V2')) as (E3 & E4); [reflexivity|reflexivity|exact E2|] end. injection E4 as ->. destruct x, y; cbn [fst snd] in *; subst; auto.
  - destruct Ns as (N1 & N2), V as (V1 & V2), V' as (V1' & V2'). destruct H as (m & F & ->), H' as (m' & F' & ->). cbn [app] in E. injection E as E. rewrite <- !app_assoc in E. cbn [app] in E.
    assert (G : forall (l : list (xval a)) n rows, Forall (is_value a) l -> Forall2 (Forall2 (text_of a)) (in_rows nx n l) rows -> Forall2 (Forall2 (good_text a)) (in_rows nx n l) rows).
    { intros l n. revert l. induction n as [|n IHn]; intros l rows HV HF; cbn [in_rows] in *; inversion HF; subst; constructor.
      - apply good_forall2; [assumption|]. rewrite <- (firstn_skipn nx l) in HV. apply Forall_app in HV. tauto.
      - apply IHn; [|assumption]. rewrite <- (firstn_skipn nx l) in HV. apply Forall_app in HV. tauto. }
    destruct (rows_free (good_text a) nx (IHa N2) _ _ _ _ r r' (G _ _ _ V2 F) (G _ _ _ V2' F')) as (Em & ->).
    + apply in_rows_len, V1. + apply in_rows_len, V1'.
    + assert (L : forall n (l : list (xval a)), length (in_rows nx n l) = n) by (induction n; intros; cbn [in_rows length]; auto). rewrite !L. reflexivity.
    + exact E.
    + split; [|reflexivity]. exact (eq_trans (eq_sym (in_rows_concat nx ny x V1)) (eq_trans (f_equal (@concat _) Em) (in_rows_concat nx ny y V1'))).
  - destruct H as (ts & F & ->), H' as (ts' & F' & ->). unfold list_text in E. cbn [app] in E. injection E as E. rewrite <- !app_assoc in E. cbn [app] in E.
    exact (joined_free char_text char_free _ _ _ _ _ _ F F' (or_intror char_heads) E).
  - destruct Ns as (N1 & N2). destruct H as (ts & F & ->), H' as (ts' & F' & ->). unfold list_text in E. cbn [app] in E. injection E as E. rewrite <- !app_assoc in E. cbn [app] in E.
    exact (joined_free (good_text a) (IHa N2) _ _ _ _ _ _ (good_forall2 _ _ _ F V) (good_forall2 _ _ _ F' V') (or_intror (text_heads a N1 N2)) E).
Qed.
