(** * SerialTypesProofs: round trips for all storable types. *)
From Verif Require Import Base UtilModel UtilSpec UtilProofs.
From Verif Require Import StreamModel StreamSpec StreamProofs SerialModel SerialTypes SerialSpec SerialProofs Utf8Spec Utf8Proofs.
From Coq Require Import ZArith ZifyBool ZifyNat Znumtheory.
Local Open Scope Z_scope.

Lemma wrote_after s l : o_inside s -> fits s l ->
  only_wrote s (o_after s l) (zlen l) /\ firstn (Z.to_nat (zlen l)) (skipn (Z.to_nat (opos s)) (odata (o_after s l))) = l.
Proof.
  intros Hs Hf. pose proof (zlen_nonneg l) as N. assert (H0 : 0 <= opos s) by (unfold o_inside in Hs; lia).
  assert (Lf : length (firstn (Z.to_nat (opos s)) (odata s)) = Z.to_nat (opos s)) by (rewrite firstn_length; unfold o_inside in Hs; lia).
  split.
  - unfold only_wrote. split; [reflexivity|]. split; [reflexivity|]. split; [reflexivity|]. split; [reflexivity|].
    split; [now apply o_after_length|]. cbn [o_after odata]. split.
    + rewrite firstn_app, Lf, Nat.sub_diag, firstn_O, app_nil_r, firstn_firstn, Nat.min_id. reflexivity.
    + replace (Z.to_nat (opos s + zlen l)) with (Z.to_nat (opos s) + length l)%nat by (unfold zlen; lia).
      rewrite skipn_app, Lf. rewrite skipn_all2 by lia. cbn [app].
      replace (Z.to_nat (opos s) + length l - Z.to_nat (opos s))%nat with (length l) by lia.
      rewrite skipn_app, skipn_all, Nat.sub_diag. reflexivity.
  - cbn [o_after odata]. rewrite skipn_app, Lf, Nat.sub_diag. rewrite skipn_all2 by lia. cbn [app skipn].
    unfold zlen. rewrite Nat2Z.id, firstn_app, firstn_all, Nat.sub_diag, firstn_O, app_nil_r. reflexivity.
Qed.
Lemma splits data p l st exc : 0 <= p -> p + zlen l <= Z.of_nat (length data) -> Z.of_nat (length data) < 2 ^ 63 ->
  firstn (Z.to_nat (zlen l)) (skipn (Z.to_nat p) data) = l ->
  exists pre post, zlen pre = p /\ zlen (pre ++ l ++ post) < 2 ^ 63 /\
    mkis data p st exc = rdr pre (l ++ post) st exc /\ mkis data (p + zlen l) st exc = rdr (pre ++ l) post st exc.
Proof.
  intros H0 Hfit Hd Heq. set (pre := firstn (Z.to_nat p) data). set (post := skipn (Z.to_nat (p + zlen l)) data).
  pose proof (zlen_nonneg l) as N.
  assert (Lp : zlen pre = p) by (unfold zlen, pre; rewrite firstn_length; unfold zlen in *; lia).
  assert (D : data = pre ++ l ++ post).
  { unfold pre, post. rewrite <- (firstn_skipn (Z.to_nat p) data) at 1. f_equal.
    rewrite <- (firstn_skipn (Z.to_nat (zlen l)) (skipn (Z.to_nat p) data)) at 1. rewrite Heq. f_equal.
    rewrite skipn_skipn. f_equal. lia. }
  exists pre, post. split; [exact Lp|]. split; [rewrite <- D; exact Hd|]. unfold rdr.
  split; [now rewrite Lp, <- D|]. rewrite zlen_app, Lp, <- app_assoc, <- D. reflexivity.
Qed.
Lemma round_trip_good {T} (c : codec T) ok enc ap B x s : good c ok enc ap B -> ok x -> o_inside s -> oaddr s mod B = 0 ->
  opos s mod ap = 0 -> fits s (enc (opos s) x) -> round_trip c x s (zlen (enc (opos s) x)).
Proof.
  intros Hg Hx Hs Hb Hp Hf. set (l := enc (opos s) x) in *. exists (o_after s l).
  split; [exact (g_write Hg x s Hx Hs Hb Hp Hf)|].
  destruct (wrote_after s l Hs Hf) as [W F]. split; [exact W|].
  intros old data st exc (Hd & Hfit & Heq). rewrite F in Heq.
  destruct (splits data (opos s) l st exc ltac:(unfold o_inside in Hs; lia) Hfit Hd Heq) as (pre & post & Lp & Lt & E1 & E2).
  rewrite E1, E2. unfold l in *. rewrite <- Lp in *. apply (g_read Hg); auto.
Qed.

(** ** The language of types *)
Fixpoint enc_of (dbg : bool) (t : ty) : Z -> val t -> list Z :=
  match t return Z -> val t -> list Z with
  | TInt w => int_enc w
  | TStr => str_enc
  | TVec t => ctr_enc (codec_of dbg t) (enc_of dbg t)
  | TPair a b => pair_enc (codec_of dbg a) (enc_of dbg a) (codec_of dbg b) (enc_of dbg b)
  | TArr _ _ t => encs (enc_of dbg t)
  end.
Fixpoint ap_of (t : ty) : Z :=
  match t with
  | TArr _ _ t => ap_of t
  | TPair a b => Z.max (align_of a) (align_of b)
  | _ => align_of t
  end.
Lemma valid_ok t : valid t = (match t return val t -> Prop with
  | TInt w => int_ok w | TStr => str_ok | TVec t => ctr_ok (valid t) | TPair a b => pair_ok (valid a) (valid b)
  | TArr _ n t => arr_ok (valid t) n end).
Proof. now destruct t. Qed.
Lemma calign_of dbg t : calign (codec_of dbg t) = align_of t.
Proof. induction t as [| | | |[|] n t IH]; try reflexivity. exact IH. Qed.
Lemma storable_arr tup n t : storable (TArr tup n t) = true -> storable t = true /\ (tup = false -> wide t = false).
Proof. cbn [storable]. rewrite andb_true_iff. intros [A B]. split; [exact A|]. intros ->. now apply negb_true_iff. Qed.
Lemma align_le t : storable t = true -> wide t = false -> align_of t <= 4.
Proof.
  induction t as [| | | |[|] n t IH]; intros S W; try (cbn [align_of storable wide] in *; lia).
Qed.
Lemma calign_le dbg t : storable t = true -> wide t = false -> calign (codec_of dbg t) <= 4.
Proof. rewrite calign_of. apply align_le. Qed.
Lemma storable_pair a b : storable (TPair a b) = true ->
  storable a = true /\ storable b = true /\ wide a = false /\ wide b = false /\
  (align_of b < align_of a -> whole a = true) /\ (align_of a < align_of b -> whole b = true).
Proof.
  cbn [storable]. rewrite !andb_true_iff, !orb_true_iff, !andb_true_iff, !negb_true_iff. intros ((((H1 & H2) & H3) & H4) & H5).
  rewrite Z.eqb_eq, !Z.ltb_lt in H5. split; [exact H1|]. split; [exact H2|]. split; [exact H3|]. split; [exact H4|].
  split; intros L; destruct H5 as [[H5 | [H5 H6]] | [H5 H6]]; first [exact H6 | lia].
Qed.
Lemma grain_al t : storable t = true -> grain (align_of t).
Proof.
  induction t as [| | | |[|] n t IH]; intros S; [cbn [align_of storable] in *; unfold grain; lia|unfold grain; cbn [align_of]; lia..| |unfold grain; cbn [align_of]; lia].
  apply IH. apply (storable_arr _ _ _ S).
Qed.
Lemma ap_al t : storable t = true -> (ap_of t | align_of t).
Proof.
  induction t as [w | | t _ | a _ b _ | tup n t IH]; intros H; try apply Z.divide_refl.
  - cbn [ap_of]. change (align_of (TPair a b)) with 4.
    destruct (storable_pair a b H) as (Sa & Sb & Wa & Wb & _). pose proof (align_le a Sa Wa). pose proof (align_le b Sb Wb).
    apply divide4; [|lia]. destruct (Z.max_spec (align_of a) (align_of b)) as [[_ ->] | [_ ->]]; now apply grain_al.
  - destruct (storable_arr _ _ _ H) as [S W]. specialize (IH S). cbn [ap_of]. destruct tup; [exact IH|].
    cbn [align_of]. apply (Z.divide_trans _ (align_of t)); [exact IH|]. apply divide4; [now apply grain_al|]. apply align_le; auto.
Qed.
(** A whole type takes multiples of its alignment. *)
Definition wholly dbg t : Prop := whole t = true -> forall x p, valid t x -> 0 <= p -> p mod ap_of t = 0 -> zlen (enc_of dbg t p x) mod align_of t = 0.
Lemma whole_ok dbg t B : (forall tup n u, t <> TArr tup n u) -> storable t = true -> whole t = true ->
  elem (codec_of dbg t) (valid t) (enc_of dbg t) (ap_of t) B ->
  forall x p, valid t x -> 0 <= p -> p mod ap_of t = 0 -> zlen (enc_of dbg t p x) mod align_of t = 0.
Proof.
  intros NA Ht Hw He x p Hx H0 Hp.
  assert (Same : ap_of t = align_of t -> zlen (enc_of dbg t p x) mod align_of t = 0).
  { intros E. pose proof (g_pos (e_good He) x p Hx H0 Hp) as G. rewrite E in *. pose proof (grain_pos _ (grain_al t Ht)) as P.
    apply Z.mod_divide in G; [|lia]. apply Z.mod_divide in Hp; [|lia]. apply Z.mod_divide; [lia|].
    replace (zlen (enc_of dbg t p x)) with ((p + zlen (enc_of dbg t p x)) - p) by lia. now apply Z.divide_sub_r. }
  destruct t as [w | | t | a b | tup n t]; try (apply Same; reflexivity); [|exfalso; exact (NA _ _ _ eq_refl)].
  cbn [whole] in Hw. cbv zeta in Hw. apply orb_true_iff in Hw. destruct Hw as [Hw | Hw].
  { apply Same. cbn [ap_of align_of]. lia. }
  rewrite !andb_true_iff in Hw. destruct Hw as [[Ia Ib] Hm]. destruct a as [w| | | |]; try discriminate. destruct b as [w'| | | |]; try discriminate.
  rewrite (e_exact He x p Hx H0 Hp).
  - cbn [ap_of align_of] in *. assert (Hm' : Z.max (Z.of_nat w) (Z.of_nat w') = 2) by lia.
    destruct (storable_pair _ _ Ht) as (Sa & Sb & _). cbn [storable] in Sa, Sb.
    assert (C : (w = 1 /\ w' = 2 \/ w = 2 /\ w' = 1 \/ w = 2 /\ w' = 2)%nat) by lia.
    destruct x as [x y]. destruct C as [[-> ->] | [[-> ->] | [-> ->]]]; vm_compute; reflexivity.
  - destruct x as [x y]. cbn [enc_of]. unfold pair_enc. cbn [fst snd]. rewrite !zlen_app. unfold int_enc. rewrite !bytes_zlen.
    destruct (storable_pair _ _ Ht) as (Sa & Sb & _).
    rewrite !pad_len by (rewrite calign_of; apply grain_pos; now apply grain_al). rewrite !calign_of.
    match goal with |- context [?u mod align_of (TInt w')] => pose proof (Z.mod_pos_bound u _ (grain_pos _ (grain_al _ Sb))) end.
    match goal with |- context [?u mod align_of (TInt w)] => pose proof (Z.mod_pos_bound u _ (grain_pos _ (grain_al _ Sa))) end.
    clear - H H1 Sa Sb. cbn [align_of storable] in *. lia.
Qed.
Lemma whole_arr dbg tup n t B : storable (TArr tup n t) = true -> elem (codec_of dbg t) (valid t) (enc_of dbg t) (ap_of t) B ->
  wholly dbg t -> wholly dbg (TArr tup n t).
Proof.
  intros S E W H x p (Hx & Hn) H0 Hp. cbn [enc_of ap_of] in *. destruct (storable_arr _ _ _ S) as [St Wt].
  assert (K : forall g, 0 < g -> (g | align_of t) -> whole t = true -> zlen (encs (enc_of dbg t) p x) mod g = 0).
  { intros g Hg D Wh. apply (encs_whole (codec_of dbg t) (valid t) (enc_of dbg t) (ap_of t) B E g x Hg); auto.
    intros y q Hy Hq0 Hq. apply (mod_mod_div _ _ (align_of t)); [exact Hg|exact D|]. exact (W Wh y q Hy Hq0 Hq). }
  destruct tup.
  - apply K; [apply grain_pos; now apply grain_al|apply Z.divide_refl|exact H].
  - cbn [align_of]. destruct t as [w | | t | a b | tup m t];
      try (cbn [whole] in H; apply andb_true_iff in H; destruct H as [H1 H2]; apply Z.eqb_eq in H1; apply K; [lia|rewrite H1; apply Z.divide_refl|exact H2]).
    cbn [whole] in H. apply Z.eqb_eq in H. rewrite <- Hn in H.
    assert (L : forall q, zlen (encs (enc_of dbg (TInt w)) q x) = Z.of_nat (length x) * Z.of_nat w).
    { clear. change (list Z) in x. induction x as [|y t IH]; intros q; cbn [encs length]; [reflexivity|].
      rewrite zlen_app, IH. cbn [enc_of]. unfold int_enc. rewrite bytes_zlen. lia. }
    rewrite L. exact H.
Qed.
Lemma elem_of_both dbg t B : (8 | B) -> storable t = true ->
  elem (codec_of dbg t) (valid t) (enc_of dbg t) (ap_of t) B /\ wholly dbg t.
Proof.
  intros HB. assert (H4 : (4 | B)) by (apply (Z.divide_trans _ 8); [exists 2; reflexivity|exact HB]).
  induction t as [w | | t IH | a IHa b IHb | tup n t IH]; intros H.
  5: { destruct (storable_arr _ _ _ H) as [S W]. destruct (IH S) as [E Wh]. split; [|now apply (whole_arr dbg tup n t B)].
    change (valid (TArr tup n t)) with (arr_ok (valid t) n). cbn [codec_of enc_of ap_of].
    apply elem_array; [exact E| |]; intros ->; rewrite ?calign_of.
    - now apply ap_al.
    - apply (Z.divide_trans _ (align_of t)); [now apply ap_al|]. apply divide4; [now apply grain_al|]. apply align_le; auto. }
  all: match goal with |- ?E /\ ?W => cut E; [intros E0; split; [exact E0|]; intros Hw x p;
    apply (whole_ok dbg _ B); [discriminate|exact H|exact Hw|exact E0]|] end.
  - change (valid (TInt w)) with (int_ok w). cbn [codec_of enc_of ap_of align_of].
    assert (Hw : In w [1; 2; 4; 8]%nat) by (cbn [storable] in H; cbn [In]; lia).
    apply elem_int; auto. apply (Z.divide_trans _ 8); [|exact HB].
    destruct Hw as [<- | [<- | [<- | [<- | []]]]]; [exists 8|exists 4|exists 2|exists 1]; reflexivity.
  - apply elem_string. exact H4.
  - cbn [storable] in H. apply andb_true_iff in H. destruct H as [H1 H2]. apply negb_true_iff in H2.
    change (valid (TVec t)) with (ctr_ok (valid t)). cbn [codec_of enc_of ap_of align_of].
    apply (elem_container dbg (codec_of dbg t) (valid t) (enc_of dbg t) (ap_of t) B (proj1 (IH H1))). now apply calign_le.
  - change (valid (TPair a b)) with (pair_ok (valid a) (valid b)). cbn [codec_of enc_of ap_of].
    destruct (storable_pair a b H) as (Sa & Sb & Na & Nb & Wa & Wb). destruct (IHa Sa) as [Ea Va]. destruct (IHb Sb) as [Eb Vb].
    rewrite <- (calign_of dbg a), <- (calign_of dbg b).
    apply elem_pair_words with (apa := ap_of a) (apb := ap_of b); auto; rewrite ?calign_of.
    + now apply align_le.
    + now apply align_le.
    + now apply ap_al.
    + now apply ap_al.
    + intros L x p. apply (Va (Wa L)).
    + intros L x p. apply (Vb (Wb L)).
Qed.
Lemma elem_of dbg t B : (8 | B) -> storable t = true -> elem (codec_of dbg t) (valid t) (enc_of dbg t) (ap_of t) B.
Proof. intros HB H. exact (proj1 (elem_of_both dbg t B HB H)). Qed.
(** Sizes are bounded by the memory footprint. *)
Lemma pad_le p g : grain g -> zlen (pad p g) <= 7.
Proof. intros H. rewrite pad_len by now apply grain_pos. pose proof (Z.mod_pos_bound (- p) g (grain_pos _ H)). unfold grain in H. lia. Qed.
Lemma grain_of dbg t : storable t = true -> grain (calign (codec_of dbg t)).
Proof. rewrite calign_of. apply grain_al. Qed.
Lemma foot_nonneg t x : 0 <= footprint t x.
Proof.
  induction t as [w | | t IH | a IHa b IHb | tup n t IH]; cbn [footprint]; try lia.
  - assert (0 <= fold_right (fun y n => footprint t y + n) 0 x); [|lia].
    induction x as [|y t' IH']; cbn [fold_right]; [lia|]. specialize (IH y). lia.
  - specialize (IHa (fst x)). specialize (IHb (snd x)). lia.
  - induction x as [|y t' IH']; cbn [fold_right]; [lia|]. specialize (IH y). lia.
Qed.
Lemma enc_foot dbg t : storable t = true -> forall x p, valid t x -> zlen (enc_of dbg t p x) <= footprint t x.
Proof.
  induction t as [w | | t IH | a IHa b IHb | tup n t IH]; intros H x p Hx; cbn [enc_of footprint].
  5: { destruct Hx as [Hx _]. specialize (IH (proj1 (storable_arr _ _ _ H))). clear H. revert p. induction Hx as [|y x' Hy Hx IHx]; intros p; cbn [encs fold_right]; [change (zlen (@nil Z)) with 0; lia|].
    rewrite zlen_app. specialize (IH y p Hy). specialize (IHx (p + zlen (enc_of dbg t p y))). lia. }
  - unfold int_enc. rewrite bytes_zlen. cbn [storable] in H. lia.
  - unfold str_enc. rewrite zlen_app. pose proof (encode_length (zlen x) (len_char x Hx)) as L.
    assert (len_of (zlen x) <= 8) by (unfold len_of; repeat match goal with |- context [if ?b then _ else _] => destruct b end; lia).
    unfold zlen in *. lia.
  - cbn [storable] in H. apply andb_true_iff in H. destruct H as [H1 H2]. apply negb_true_iff in H2.
    unfold ctr_enc, ctr_body. rewrite !zlen_app, bytes_zlen. change (Z.of_nat 4) with 4.
    assert (G : gap (codec_of dbg t) (p + 4) = []).
    { unfold gap. pose proof (calign_le dbg t H1 H2). destruct (Z.ltb_spec 4 (calign (codec_of dbg t))); [lia|reflexivity]. }
    rewrite G. change (zlen (@nil Z)) with 0.
    pose proof (pad_le (p + 4 + (0 + zlen (encs (enc_of dbg t) (p + 4 + 0) x))) 4 ltac:(unfold grain; auto)).
    assert (S : forall q, zlen (encs (enc_of dbg t) q x) <= fold_right (fun y n => footprint t y + n) 0 x).
    { destruct Hx as [Hx _]. induction x as [|y x' IHx]; intros q; cbn [encs fold_right]; [change (zlen (@nil Z)) with 0; lia|].
      inversion Hx as [|y' t' Hy Ht]; subst. rewrite zlen_app. specialize (IH H1 y q Hy).
      assert (zlen (encs (enc_of dbg t) (q + zlen (enc_of dbg t q y)) x') <= fold_right (fun y n => footprint t y + n) 0 x') by (apply IHx; [exact Ht|]; apply pad_le; unfold grain; auto). lia. }
    specialize (S (p + 4 + 0)). lia.
  - destruct x as [x y]. destruct Hx as [Hx Hy]. cbn [fst snd] in *.
    assert (Hab : storable a = true /\ storable b = true) by (pose proof (storable_pair a b H); tauto).
    destruct Hab as [Sa Sb]. unfold pair_enc. cbn [fst snd]. rewrite !zlen_app.
    pose proof (IHa Sa x p Hx). pose proof (IHb Sb y (p2 (enc_of dbg a) (codec_of dbg b) p x) Hy).
    pose proof (pad_le (p1 (enc_of dbg a) p x) _ (grain_of dbg b Sb)).
    pose proof (pad_le (p3 (enc_of dbg a) (codec_of dbg b) (enc_of dbg b) p x y) _ (grain_of dbg a Sa)). lia.
Qed.

(** ** Theorems for all storable types *)
Lemma ap_div8 t : storable t = true -> (ap_of t | 8) /\ (wide t = false -> (ap_of t | 4)).
Proof.
  intros H. pose proof (ap_al t H) as D. pose proof (grain_al t H) as G. split; [|intros W].
  - apply (Z.divide_trans _ (align_of t)); [exact D|]. apply grain_div; [exact G|unfold grain; auto|unfold grain in G; lia].
  - apply (Z.divide_trans _ (align_of t)); [exact D|]. apply divide4; [exact G|now apply align_le].
Qed.
Lemma storable_trip dbg t x s : storable t = true -> valid t x -> footprint t x < 2 ^ 62 ->
  o_inside s -> oaddr s mod 8 = 0 -> opos s mod (if wide t then 8 else 4) = 0 ->
  opos s + csize (codec_of dbg t) x <= Z.of_nat (length (odata s)) ->
  round_trip (codec_of dbg t) x s (csize (codec_of dbg t) x).
Proof.
  intros Ht Hx Hf Hs Hb Hp Hr. pose proof (elem_of dbg t 8 (Z.divide_refl 8) Ht) as E.
  destruct (ap_div8 t Ht) as [D8 D4].
  assert (Ha : opos s mod ap_of t = 0).
  { pose proof (g_ap (e_good E)). destruct (wide t); [apply (mod_mod_div _ _ 8)|apply (mod_mod_div _ _ 4)]; auto. }
  assert (H0 : 0 <= opos s) by (unfold o_inside in Hs; lia).
  pose proof (enc_foot dbg t Ht x (opos s) Hx) as Fo.
  pose proof (e_exact E x (opos s) Hx H0 Ha ltac:(lia)) as Ex. rewrite <- Ex in *.
  eapply round_trip_good; eauto. exact (e_good E).
Qed.
