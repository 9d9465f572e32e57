(** * OwnProofs: reference counting follows the pointers. *)
From Verif Require Import Base OwnModel OwnSpec.

(** ** Lists *)
Definition sumf {A} (f : A -> nat) (l : list A) : nat := fold_right (fun x n => f x + n) 0 l.
Lemma sumf_app {A} (f : A -> nat) a b : sumf f (a ++ b) = sumf f a + sumf f b.
Proof. induction a as [|x a IH]; cbn; [reflexivity|]. unfold sumf in *. lia. Qed.
Lemma lset_at {A} (l : list A) i x y : nth_error l i = Some x -> exists pre post, l = pre ++ x :: post /\ length pre = i /\ lset l i y = pre ++ y :: post.
Proof.
  intros H. destruct (nth_error_split _ _ H) as (pre & post & -> & L). exists pre, post. split; [reflexivity|]. split; [exact L|].
  unfold lset. subst i. rewrite firstn_app, Nat.sub_diag, firstn_all, firstn_O, app_nil_r. f_equal. f_equal.
  replace (S (length pre)) with (length (pre ++ [x])) by (rewrite app_length; cbn; lia).
  replace (pre ++ x :: post) with ((pre ++ [x]) ++ post) by (rewrite <- app_assoc; reflexivity).
  rewrite skipn_app, Nat.sub_diag, skipn_all. reflexivity.
Qed.
Lemma sumf_lset {A} (f : A -> nat) l i x y : nth_error l i = Some x -> sumf f (lset l i y) + f x = sumf f l + f y.
Proof. intros H. destruct (lset_at l i x y H) as (pre & post & -> & L & ->). rewrite !sumf_app. cbn. fold (sumf f post). lia. Qed.
Lemma lset_length {A} (l : list A) i x y : nth_error l i = Some x -> length (lset l i y) = length l.
Proof. intros H. destruct (lset_at l i x y H) as (pre & post & -> & L & ->). rewrite !app_length. reflexivity. Qed.
Lemma lset_nth {A} (l : list A) i x y d : nth_error l i = Some x ->
  nth_error (lset l i y) d = if Nat.eqb d i then Some y else nth_error l d.
Proof.
  intros H. destruct (lset_at l i x y H) as (pre & post & -> & L & ->). destruct (Nat.eqb_spec d i) as [->|N].
  - subst i. rewrite nth_error_app2, Nat.sub_diag by lia. reflexivity.
  - destruct (Nat.lt_ge_cases d (length pre)) as [Q|Q].
    + rewrite !nth_error_app1 by lia. reflexivity.
    + rewrite !nth_error_app2 by lia. destruct (d - length pre) as [|m] eqn:E; [lia|]. reflexivity.
Qed.
Lemma wr_lset {A} (l : list A) i x y : nth_error l i = Some x -> wr l i y = Ok (lset l i y).
Proof. intros H. destruct (lset_at l i x y H) as (pre & post & -> & L & ->). now apply wr_app'. Qed.
Lemma rd_at {A} (l : list A) i x : nth_error l i = Some x -> rd l i = Ok x.
Proof. intros H. unfold rd. now rewrite H. Qed.
Lemma nodup_cat {A} (a b : list A) : NoDup a -> NoDup b -> (forall x, In x a -> ~ In x b) -> NoDup (a ++ b).
Proof.
  intros Ha Hb D. induction a as [|x a IH]; [exact Hb|]. inversion Ha as [|? ? N Ha']; subst. cbn. constructor.
  - rewrite in_app_iff. intros [Q|Q]; [tauto|]. exact (D x (or_introl eq_refl) Q).
  - apply IH; [assumption|]. intros y Q. apply D. now right.
Qed.

(** ** The invariant: every count is the number of pointers. *)
Definition isd (d : nat) (p : option nat) : nat := match p with Some e => if Nat.eqb e d then 1 else 0 | None => 0 end.
Definition cf (x : option cell) : list (option nat) := match x with Some k => fields k | None => [] end.
Definition refs_at (cs : cells) (d : nat) : nat := match nth_error cs d with Some (Some k) => refs k | _ => 0 end.
Definition inv (cs : cells) (ptrs : list (option nat)) : Prop :=
  forall d, sumf (isd d) ptrs + sumf (fun x => sumf (isd d) (cf x)) cs = refs_at cs d.
Definition busy (x : option cell) : nat := match x with Some (Cell (S _) _) => 1 | _ => 0 end.
Definition alive (cs : cells) : nat := sumf busy cs.

(** What may happen to cell d. *)
Definition fr (tr : list nat) (d : nat) (cs cs' : cells) : Prop :=
  match nth_error cs d with
  | Some (Some k) =>
      (refs k = 0 -> nth_error cs' d = Some (Some k) /\ ~ In d tr) /\
      (0 < refs k -> (In d tr /\ nth_error cs' d = Some None) \/
                     (~ In d tr /\ exists r, 0 < r /\ nth_error cs' d = Some (Some (Cell r (fields k)))))
  | x => nth_error cs' d = x /\ ~ In d tr
  end.
Lemma fr_refl d cs : fr [] d cs cs.
Proof.
  unfold fr. destruct (nth_error cs d) as [[k|]|] eqn:E; try (split; [reflexivity|intros []]).
  split; [intros; split; [reflexivity|intros []]|]. intros R. right. split; [intros []|]. exists (refs k). destruct k; auto.
Qed.
Lemma fr_trans a b d cs cs1 cs2 : fr a d cs cs1 -> fr b d cs1 cs2 -> fr (a ++ b) d cs cs2.
Proof.
  unfold fr. intros H1 H2. destruct (nth_error cs d) as [[k|]|] eqn:E.
  - destruct H1 as (Z1 & P1). split.
    + intros R. destruct (Z1 R) as (E1 & N1). rewrite E1 in H2. destruct H2 as (Z2 & _). destruct (Z2 R) as (E2 & N2).
      split; [exact E2|]. rewrite in_app_iff. tauto.
    + intros R. destruct (P1 R) as [(I1 & E1)|(N1 & r & R1 & E1)]; rewrite E1 in H2.
      * left. rewrite in_app_iff. tauto.
      * cbn [refs fields] in H2. destruct H2 as (_ & P2). destruct (P2 R1) as [(I2 & E2)|(N2 & r2 & R2 & E2)].
        -- left. rewrite in_app_iff. tauto.
        -- right. rewrite in_app_iff. split; [tauto|]. exists r2. auto.
  - destruct H1 as (E1 & N1). rewrite E1 in H2. rewrite in_app_iff. tauto.
  - destruct H1 as (E1 & N1). rewrite E1 in H2. rewrite in_app_iff. tauto.
Qed.
Lemma fr_gone tr d cs cs' : fr tr d cs cs' -> In d tr -> nth_error cs' d = Some None.
Proof.
  unfold fr. destruct (nth_error cs d) as [[k|]|]; try tauto. intros (Zk & P) Hi.
  destruct (refs k) eqn:R; [destruct (Zk eq_refl); tauto|]. destruct P as [(_ & E)|(N & _)]; [lia|exact E|tauto].
Qed.
Lemma fr_dead tr d cs cs' : fr tr d cs cs' -> nth_error cs d = Some None -> ~ In d tr.
Proof. unfold fr. intros H E. rewrite E in H. tauto. Qed.
Lemma fr_eq a d cs cs1 cs' : nth_error cs d = nth_error cs1 d -> fr a d cs1 cs' -> fr a d cs cs'.
Proof. unfold fr. now intros ->. Qed.
Lemma fr_eq' a d cs cs1 cs' : nth_error cs' d = nth_error cs1 d -> fr a d cs cs1 -> fr a d cs cs'.
Proof. unfold fr. now intros ->. Qed.

(** Object d can be reached from object c. *)
Inductive from (cs : cells) : nat -> nat -> Prop :=
| from_here c : from cs c c
| from_member c k e d : nth_error cs c = Some (Some k) -> In (Some e) (fields k) -> from cs e d -> from cs c d.
Lemma from_less cs cs' : (forall c k, nth_error cs' c = Some (Some k) -> exists k0, nth_error cs c = Some (Some k0) /\ forall e, In (Some e) (fields k) -> In (Some e) (fields k0)) ->
  forall c d, from cs' c d -> from cs c d.
Proof.
  intros H c d. induction 1 as [c|c k e d E Q _ IH]; [constructor|]. destruct (H c k E) as (k0 & E0 & I0). econstructor; eauto.
Qed.
Lemma fr_less tr d cs cs' k : fr tr d cs cs' -> nth_error cs' d = Some (Some k) -> exists k0, nth_error cs d = Some (Some k0) /\ fields k0 = fields k.
Proof.
  unfold fr. destruct (nth_error cs d) as [[k0|]|]; intros H E; [|destruct H; congruence|destruct H; congruence].
  exists k0. split; [reflexivity|]. destruct H as (Zk & P). destruct (refs k0) eqn:R.
  - destruct (Zk eq_refl) as (Q & _). congruence.
  - destruct P as [(_ & Q)|(_ & r & _ & Q)]; [lia|congruence|]. rewrite Q in E. now injection E as <-.
Qed.

Definition released (cs : cells) (ptrs : list (option nat)) (cs' : cells) (tr : list nat) : Prop :=
  inv cs' ptrs /\ (forall d, fr tr d cs cs') /\ NoDup tr /\ alive cs' <= alive cs /\ length cs' = length cs.
Definition rel_ok (rel : cells -> nat -> outcome (cells * list nat)) (f : nat) : Prop :=
  forall cs c ptrs, inv cs (Some c :: ptrs) -> alive cs < f ->
  exists cs' tr, rel cs c = Ok (cs', tr) /\ released cs ptrs cs' tr /\ forall d, In d tr -> from cs c d.

Lemma refs_lset cs c x y d : nth_error cs c = Some x ->
  refs_at (lset cs c y) d = if Nat.eqb d c then match y with Some k => refs k | None => 0 end else refs_at cs d.
Proof. intros H. unfold refs_at. rewrite (lset_nth _ _ _ _ _ H). destruct (Nat.eqb_spec d c); [|reflexivity]. destruct y; reflexivity. Qed.

Lemma drop_ok rel f : rel_ok rel f -> forall j cs c ptrs fs, nth_error cs c = Some (Some (Cell 0 fs)) -> j <= length fs ->
  inv cs ptrs -> alive cs < f ->
  exists cs' tr fs', drop_fields rel cs c j = Ok (cs', tr) /\ inv cs' ptrs /\ (forall d, d <> c -> fr tr d cs cs') /\ NoDup tr /\
    ~ In c tr /\ alive cs' <= alive cs /\ length cs' = length cs /\ nth_error cs' c = Some (Some (Cell 0 fs')) /\
    length fs' = length fs /\ (forall i, nth i fs' None = if i <? j then None else nth i fs None) /\ (forall d, In d tr -> from cs c d).
Proof.
  intros HR. induction j as [|j IH]; intros cs c ptrs fs Hc Hj Hi Ha.
  - exists cs, [], fs. split; [reflexivity|]. split; [exact Hi|]. split; [intros; apply fr_refl|]. split; [constructor|].
    split; [intros []|]. split; [lia|]. split; [reflexivity|]. split; [exact Hc|]. split; [reflexivity|]. split; [intros i; reflexivity|intros d []].
  - cbn [drop_fields]. unfold cell_at. rewrite (rd_at _ _ _ Hc). cbn [bind fields refs].
    destruct (nth_error fs j) as [p|] eqn:Ep; [|apply nth_error_None in Ep; lia].
    rewrite (rd_at _ _ _ Ep), (wr_lset _ _ _ None Ep). cbn [bind].
    set (fs1 := lset fs j None). rewrite (wr_lset _ _ _ (Some (Cell 0 fs1)) Hc). cbn [bind].
    set (cs1 := lset cs c (Some (Cell 0 fs1))).
    assert (H1 : nth_error cs1 c = Some (Some (Cell 0 fs1))) by (unfold cs1; rewrite (lset_nth _ _ _ _ _ Hc), Nat.eqb_refl; reflexivity).
    assert (L1 : length cs1 = length cs) by (unfold cs1; eapply lset_length; exact Hc).
    assert (Lf : length fs1 = length fs) by (unfold fs1; eapply lset_length; exact Ep).
    assert (A1 : alive cs1 = alive cs).
    { pose proof (sumf_lset busy cs c _ (Some (Cell 0 fs1)) Hc) as Q. cbn [busy] in Q. unfold alive, cs1. lia. }
    assert (I1 : inv cs1 (p :: ptrs)).
    { intros d. unfold cs1. rewrite (refs_lset _ _ _ _ _ Hc). specialize (Hi d).
      pose proof (sumf_lset (fun x => sumf (isd d) (cf x)) cs c _ (Some (Cell 0 fs1)) Hc) as Q. cbn [cf fields] in Q.
      pose proof (sumf_lset (isd d) fs j _ None Ep) as Q2. fold fs1 in Q2. cbn [isd] in Q2.
      assert (R : (if Nat.eqb d c then 0 else refs_at cs d) = refs_at cs d).
      { destruct (Nat.eqb_spec d c) as [->|]; [|reflexivity]. unfold refs_at. rewrite Hc. reflexivity. }
      cbn [refs]. rewrite R. cbn [sumf fold_right]. fold (sumf (isd d) ptrs). lia. }
    assert (F1 : forall d, d <> c -> nth_error cs1 d = nth_error cs d).
    { intros d N. unfold cs1. rewrite (lset_nth _ _ _ _ _ Hc). destruct (Nat.eqb_spec d c); [tauto|reflexivity]. }
    assert (X : exists cs2 tr, match p with None => Ok (cs1, []) | Some d => rel cs1 d end = Ok (cs2, tr) /\ released cs1 ptrs cs2 tr /\ forall e, In e tr -> exists d, p = Some d /\ from cs1 d e).
    { destruct p as [d|].
      - destruct (HR cs1 d ptrs I1 ltac:(lia)) as (cs2 & tr & Er & Rr & Fr). exists cs2, tr. split; [exact Er|]. split; [exact Rr|].
        intros e Q. exists d. auto.
      - exists cs1, []. split; [reflexivity|]. split; [|intros e []]. split; [intros d; exact (I1 d)|]. split; [intros; apply fr_refl|]. split; [constructor|]. split; reflexivity. }
    destruct X as (cs2 & tr & -> & (I2 & F2 & N2 & A2 & L2) & W2). cbn [bind].
    assert (Less1 : forall x e, from cs1 x e -> from cs x e).
    { apply from_less. intros x k E. destruct (Nat.eq_dec x c) as [->|Nx].
      - rewrite H1 in E. injection E as <-. exists (Cell 0 fs). split; [exact Hc|]. cbn [fields]. intros e Q. unfold fs1 in Q.
        destruct (lset_at fs j p None Ep) as (pre & post & Efs & _ & Els). rewrite Els in Q. rewrite Efs. rewrite in_app_iff in *. cbn in *. intuition discriminate.
      - exists k. rewrite (F1 x Nx) in E. auto. }
    assert (Less2 : forall x e, from cs2 x e -> from cs1 x e).
    { apply from_less. intros x k E. destruct (fr_less _ _ _ _ _ (F2 x) E) as (k0 & E0 & Ef). exists k0. rewrite Ef. auto. }
    assert (H2 : nth_error cs2 c = Some (Some (Cell 0 fs1)) /\ ~ In c tr).
    { pose proof (F2 c) as Q. unfold fr in Q. rewrite H1 in Q. destruct Q as (Q & _). apply Q. reflexivity. }
    destruct H2 as (H2 & T2).
    destruct (IH cs2 c ptrs fs1 H2 ltac:(lia) I2 ltac:(lia)) as (cs3 & tr3 & fs3 & -> & I3 & F3 & N3 & T3 & A3 & L3 & H3 & Lf3 & Nf3 & W3).
    cbn [bind]. exists cs3, (tr ++ tr3), fs3. split; [reflexivity|]. split; [exact I3|]. split.
    { intros d Hd. apply fr_trans with cs2; [|now apply F3]. apply fr_eq with cs1; [symmetry; now apply F1|apply F2]. }
    split. { apply nodup_cat; [exact N2|exact N3|]. intros d Q Q3. destruct (Nat.eq_dec d c) as [->|Hd]; [tauto|].
      exact (fr_dead _ _ _ _ (F3 d Hd) (fr_gone _ _ _ _ (F2 d) Q) Q3). }
    split; [rewrite in_app_iff; tauto|]. split; [lia|]. split; [lia|]. split; [exact H3|]. split; [lia|].
    split; [|intros e; rewrite in_app_iff; intros [Q|Q]; [|apply Less1, Less2; now apply W3];
             destruct (W2 e Q) as (d & -> & Fd); apply from_member with (Cell 0 fs) d; [exact Hc|eapply nth_error_In; exact Ep|now apply Less1]].
    intros i. rewrite Nf3. destruct (lset_at fs j p None Ep) as (pre & post & Efs & Lp & Els). unfold fs1.
    destruct (Nat.ltb_spec i j), (Nat.ltb_spec i (S j)); try lia; try reflexivity.
    + assert (i = j) by lia. subst i. rewrite Els, app_nth2, <- Lp, Nat.sub_diag by lia. reflexivity.
    + rewrite Els, Efs, !app_nth2 by lia. destruct (i - length pre) as [|m] eqn:Em; [lia|]. reflexivity.
Qed.

Lemma all_none (fs : list (option nat)) d : (forall i, nth i fs None = None) -> sumf (isd d) fs = 0.
Proof.
  induction fs as [|p fs IH]; intros H; [reflexivity|]. pose proof (H 0) as Q. cbn in Q. subst p. cbn.
  apply IH. intros i. exact (H (S i)).
Qed.

Lemma release_ok : forall f, rel_ok (release f) f.
Proof.
  induction f as [|f IH]; intros cs c ptrs Hi Ha; [lia|]. cbn [release]. unfold cell_at.
  pose proof (Hi c) as Hc. cbn [sumf fold_right isd] in Hc. rewrite Nat.eqb_refl in Hc. unfold refs_at in Hc.
  destruct (nth_error cs c) as [[[r fs]|]|] eqn:Ec; [|lia|lia]. rewrite (rd_at _ _ _ Ec). cbn [bind refs fields]. cbn [refs] in Hc.
  destruct r as [|[|r]]; [lia| |].
  - rewrite (wr_lset _ _ _ (Some (Cell 0 fs)) Ec). cbn [bind]. set (cs1 := lset cs c (Some (Cell 0 fs))).
    assert (H1 : nth_error cs1 c = Some (Some (Cell 0 fs))) by (unfold cs1; rewrite (lset_nth _ _ _ _ _ Ec), Nat.eqb_refl; reflexivity).
    assert (L1 : length cs1 = length cs) by (unfold cs1; eapply lset_length; exact Ec).
    assert (A1 : alive cs1 + 1 = alive cs).
    { pose proof (sumf_lset busy cs c _ (Some (Cell 0 fs)) Ec) as Q. cbn [busy] in Q. unfold alive, cs1. lia. }
    assert (I1 : inv cs1 ptrs).
    { intros d. unfold cs1. rewrite (refs_lset _ _ _ _ _ Ec). specialize (Hi d).
      pose proof (sumf_lset (fun x => sumf (isd d) (cf x)) cs c _ (Some (Cell 0 fs)) Ec) as Q. cbn [cf fields] in Q.
      cbn [sumf fold_right isd] in Hi. fold (sumf (isd d) ptrs) in Hi. cbn [refs].
      destruct (Nat.eqb_spec d c) as [->|N].
      - rewrite Nat.eqb_refl in Hi. unfold refs_at in Hi. rewrite Ec in Hi. cbn [refs] in Hi. lia.
      - destruct (Nat.eqb_spec c d); [congruence|]. lia. }
    assert (F1 : forall d, d <> c -> nth_error cs1 d = nth_error cs d).
    { intros d N. unfold cs1. rewrite (lset_nth _ _ _ _ _ Ec). destruct (Nat.eqb_spec d c); [tauto|reflexivity]. }
    destruct (drop_ok (release f) f IH (length fs) cs1 c ptrs fs H1 (le_n _) I1 ltac:(lia))
      as (cs2 & tr & fs2 & -> & I2 & F2 & N2 & T2 & A2 & L2 & H2 & Lf2 & Nf2 & W2).
    cbn [bind]. rewrite (wr_lset _ _ _ None H2). cbn [bind]. exists (lset cs2 c None), (tr ++ [c]). split; [reflexivity|].
    split; [|intros d; rewrite in_app_iff; intros [Q|[<-|[]]]; [|constructor];
             apply (from_less cs cs1); [|now apply W2];
             intros x k E; destruct (Nat.eq_dec x c) as [->|Nx];
             [rewrite H1 in E; injection E as <-; exists (Cell 1 fs); auto|exists k; rewrite (F1 x Nx) in E; auto]].
    assert (Z2 : forall d, sumf (isd d) fs2 = 0).
    { intros d. apply all_none. intros i. rewrite Nf2. destruct (Nat.ltb_spec i (length fs)); [reflexivity|]. now apply nth_overflow. }
    split.
    { intros d. rewrite (refs_lset _ _ _ _ _ H2).
      pose proof (sumf_lset (fun x => sumf (isd d) (cf x)) cs2 c _ None H2) as Q. cbn [cf fields] in Q. rewrite Z2 in Q. cbn [sumf fold_right] in Q.
      specialize (I2 d). destruct (Nat.eqb_spec d c) as [->|N]; [|unfold sumf in *; lia].
      unfold refs_at in I2. rewrite H2 in I2. cbn [refs] in I2. unfold sumf in *. lia. }
    split.
    { intros d. destruct (Nat.eq_dec d c) as [->|N].
      - unfold fr. rewrite Ec. cbn [refs]. split; [discriminate|]. intros _. left. split; [rewrite in_app_iff; cbn; tauto|].
        rewrite (lset_nth _ _ _ _ _ H2), Nat.eqb_refl. reflexivity.
      - apply fr_trans with cs2; [apply fr_eq with cs1; [symmetry; now apply F1|now apply F2]|].
        apply fr_eq' with cs2; [rewrite (lset_nth _ _ _ _ _ H2); destruct (Nat.eqb_spec d c); [tauto|reflexivity]|].
        pose proof (fr_refl d cs2) as Q. unfold fr in Q |- *. cbn [In] in *. destruct (nth_error cs2 d) as [[k|]|]; intuition. }
    split. { apply nodup_cat; [exact N2|repeat constructor; intros []|]. intros d Q [<-|[]]. tauto. }
    split. { pose proof (sumf_lset busy cs2 c _ None H2) as Q. cbn [busy] in Q. unfold alive in *. lia. }
    rewrite (lset_length _ _ _ _ H2). lia.
  - rewrite (wr_lset _ _ _ (Some (Cell (S r) fs)) Ec). cbn [bind]. eexists _, _. split; [reflexivity|]. split; [|intros d []]. split.
    { intros d. rewrite (refs_lset _ _ _ _ _ Ec). specialize (Hi d).
      pose proof (sumf_lset (fun x => sumf (isd d) (cf x)) cs c _ (Some (Cell (S r) fs)) Ec) as Q. cbn [cf fields] in Q.
      cbn [sumf fold_right isd] in Hi. fold (sumf (isd d) ptrs) in Hi. cbn [refs].
      destruct (Nat.eqb_spec d c) as [->|N].
      - rewrite Nat.eqb_refl in Hi. unfold refs_at in Hi. rewrite Ec in Hi. cbn [refs] in Hi. lia.
      - destruct (Nat.eqb_spec c d); [congruence|]. lia. }
    split.
    { intros d. unfold fr. rewrite (lset_nth _ _ _ _ _ Ec). destruct (Nat.eqb_spec d c) as [->|N].
      - rewrite Ec. cbn [refs fields]. split; [discriminate|]. intros _. right. split; [intros []|]. exists (S r). split; [lia|reflexivity].
      - exact (fr_refl d cs). }
    split; [constructor|]. split; [|now rewrite (lset_length _ _ _ _ Ec)].
    pose proof (sumf_lset busy cs c _ (Some (Cell (S r) fs)) Ec) as Q. cbn [busy] in Q. unfold alive. lia.
Qed.

(** ** Programs *)
Definition bal (cs : cells) (vars ex mis : list (option nat)) : Prop :=
  forall d, sumf (isd d) ex + sumf (isd d) vars + sumf (fun x => sumf (isd d) (cf x)) cs = refs_at cs d + sumf (isd d) mis.
Record agr (s : own) (g : graph) (ex mis : list (option nat)) : Prop := Agr {
  agr_vars : o_vars s = g_vars g;
  agr_len : length (o_cells s) = length (g_objs g);
  agr_bal : bal (o_cells s) (o_vars s) ex mis;
  agr_obj : forall c k, nth_error (o_cells s) c = Some (Some k) -> 0 < refs k /\ nth_error (g_objs g) c = Some (fields k)
}.
Definition live (cs : cells) (c : nat) : Prop := exists k, nth_error cs c = Some (Some k).
Definition ok_loc (s : own) (l : loc) : Prop := match l with LVar _ => True | LField c _ => live (o_cells s) c end.

Lemma agr_cancel s g ex mis ex' mis' : agr s g ex mis ->
  (forall d, sumf (isd d) ex + sumf (isd d) mis' = sumf (isd d) ex' + sumf (isd d) mis) -> agr s g ex' mis'.
Proof. intros [V L B O] H. constructor; [exact V|exact L| |exact O]. intros d. specialize (B d). specialize (H d). lia. Qed.

Lemma sum_in d (l : list (option nat)) : In (Some d) l -> 0 < sumf (isd d) l.
Proof.
  induction l as [|p l IH]; intros H; [destruct H|]. cbn. fold (sumf (isd d) l). destruct H as [->|H].
  - cbn. rewrite Nat.eqb_refl. lia.
  - specialize (IH H). lia.
Qed.
Lemma sum_in_cell d (cs : cells) c k : nth_error cs c = Some (Some k) -> In (Some d) (fields k) -> 0 < sumf (fun x => sumf (isd d) (cf x)) cs.
Proof.
  intros H Q. destruct (nth_error_split _ _ H) as (pre & post & -> & _). rewrite sumf_app. cbn. fold (sumf (isd d) (fields k)).
  pose proof (sum_in d (fields k) Q). lia.
Qed.
Lemma refs_live cs c : 0 < refs_at cs c -> live cs c.
Proof. unfold refs_at, live. destruct (nth_error cs c) as [[k|]|]; try lia. eauto. Qed.

(** What a place points to is not deleted. *)
Lemma target_live s g ex l c : agr s g ex [] -> ok_loc s l -> points g l = Some (Some c) -> live (o_cells s) c.
Proof.
  intros [V L B O] Hl Hp. apply refs_live. specialize (B c). change (sumf (isd c) (@nil (option nat))) with 0 in B. destruct l as [i|b j]; cbn [points] in Hp.
  - rewrite <- V in Hp. apply nth_error_In in Hp. apply sum_in in Hp. lia.
  - destruct Hl as (k & Hk). destruct (O b k Hk) as (_ & E). rewrite E in Hp. apply nth_error_In in Hp.
    pose proof (sum_in_cell c _ _ _ Hk Hp). lia.
Qed.
Lemma get_agr s g ex mis l p : agr s g ex mis -> ok_loc s l -> points g l = Some p -> get s l = Ok p.
Proof.
  intros [V L B O] Hl Hp. destruct l as [i|b j]; cbn [points get] in *.
  - rewrite V. now apply rd_at.
  - destruct Hl as (k & Hk). unfold cell_at. rewrite (rd_at _ _ _ Hk). cbn [bind]. destruct (O b k Hk) as (_ & E). rewrite E in Hp.
    now apply rd_at.
Qed.
Lemma walk_agr s g ex : agr s g ex [] -> forall path l l', ok_loc s l -> follow g l path = Some l' -> walk s l path = Ok l' /\ ok_loc s l'.
Proof.
  intros A. induction path as [|j path IH]; intros l l' Hl F; cbn [follow walk] in *.
  - injection F as <-. auto.
  - destruct (points g l) as [[c|]|] eqn:E; try discriminate. rewrite (get_agr _ _ _ _ _ _ A Hl E). cbn [bind].
    apply IH; [|exact F]. exact (target_live _ _ _ _ _ A Hl E).
Qed.
Lemma find_agr s g ex pl l p : agr s g ex [] -> exists_at g pl = Some (l, p) ->
  find s pl = Ok l /\ ok_loc s l /\ points g l = Some p /\ get s l = Ok p.
Proof.
  intros A E. unfold exists_at, there in E. destruct (follow g (LVar (p_var pl)) (p_path pl)) as [l0|] eqn:F; [|discriminate].
  destruct (points g l0) as [p0|] eqn:P; [|discriminate]. injection E as -> ->.
  destruct (walk_agr s g ex A (p_path pl) (LVar (p_var pl)) l Logic.I F) as (W & Hl).
  split; [exact W|]. split; [exact Hl|]. split; [exact P|]. exact (get_agr _ _ _ _ _ _ A Hl P).
Qed.

Lemma put_agr s g ex mis l old p : agr s g ex mis -> ok_loc s l -> points g l = Some old ->
  exists s', put s l p = Ok s' /\ agr s' (aim g l p) (old :: ex) (p :: mis) /\
    (forall c, nth_error (o_cells s') c = Some None <-> nth_error (o_cells s) c = Some None) /\
    (forall c, live (o_cells s) c -> live (o_cells s') c).
Proof.
  intros [V L B O] Hl Hp. destruct l as [i|b j]; cbn [points put aim] in *.
  - rewrite <- V in Hp |- *. rewrite (wr_lset _ _ _ p Hp). cbn [bind]. eexists. split; [reflexivity|]. split; [|split; [reflexivity|tauto]].
    constructor; cbn [o_vars o_cells g_vars g_objs]; [reflexivity|exact L| |exact O].
    intros d. specialize (B d). pose proof (sumf_lset (isd d) _ _ _ p Hp) as Q.
    change (sumf (isd d) (old :: ex)) with (isd d old + sumf (isd d) ex). change (sumf (isd d) (p :: mis)) with (isd d p + sumf (isd d) mis). lia.
  - destruct Hl as (k & Hk). destruct (O b k Hk) as (R & E). rewrite E in Hp. unfold cell_at. rewrite (rd_at _ _ _ Hk). cbn [bind].
    rewrite (wr_lset _ _ _ p Hp). cbn [bind]. set (fs := lset (fields k) j p).
    rewrite (wr_lset _ _ _ (Some (Cell (refs k) fs)) Hk). cbn [bind]. eexists. split; [reflexivity|]. cbn [o_cells o_vars].
    assert (En : nth b (g_objs g) [] = fields k) by (apply nth_error_nth; exact E). rewrite En. fold fs. split; [|split].
    + constructor; cbn [o_vars o_cells g_vars g_objs]; [exact V| | |].
      * rewrite (lset_length _ _ _ _ Hk), (lset_length _ _ _ _ E). exact L.
      * intros d. specialize (B d). pose proof (sumf_lset (isd d) _ _ _ p Hp) as Q. fold fs in Q.
        pose proof (sumf_lset (fun x => sumf (isd d) (cf x)) _ _ _ (Some (Cell (refs k) fs)) Hk) as Q2. cbn [cf fields] in Q2.
        rewrite (refs_lset _ _ _ _ _ Hk). cbn [refs].
        assert (Rd : (if Nat.eqb d b then refs k else refs_at (o_cells s) d) = refs_at (o_cells s) d).
        { destruct (Nat.eqb_spec d b) as [->|]; [|reflexivity]. unfold refs_at. rewrite Hk. reflexivity. }
        rewrite Rd. change (sumf (isd d) (old :: ex)) with (isd d old + sumf (isd d) ex).
        change (sumf (isd d) (p :: mis)) with (isd d p + sumf (isd d) mis). lia.
      * intros c k'. rewrite (lset_nth _ _ _ _ _ Hk), (lset_nth _ _ _ _ _ E). destruct (Nat.eqb_spec c b) as [->|]; [|apply O].
        intros [= <-]. cbn [refs fields]. auto.
    + intros c. rewrite (lset_nth _ _ _ _ _ Hk). destruct (Nat.eqb_spec c b) as [->|]; [|tauto]. rewrite Hk. split; discriminate.
    + intros c (k' & Hk'). unfold live. rewrite (lset_nth _ _ _ _ _ Hk). destruct (Nat.eqb c b); eauto.
Qed.

Lemma alive_le cs : alive cs <= length cs.
Proof. unfold alive. induction cs as [|x cs IH]; cbn; [lia|]. fold (sumf busy cs). assert (busy x <= 1) by (destruct x as [[[|r] fs]|]; cbn; lia). lia. Qed.

Lemma from_graph s g ex mis c d : agr s g ex mis -> from (o_cells s) c d -> c = d \/ path g c d.
Proof.
  intros [V L B O]. induction 1 as [c|c k e d E Q _ IH]; [now left|]. right. destruct (O c k E) as (_ & Eg).
  apply In_nth_error in Q as (j & Q). assert (edge g c e) by (exists j; cbn [points]; rewrite Eg; exact Q).
  destruct IH as [->|IH]; [now constructor|econstructor 2; eauto].
Qed.
Lemma give_up_agr s g p : agr s g [p] [] -> exists s' tr, give_up s p = Ok (s', tr) /\ agr s' g [] [] /\ NoDup tr /\
  (forall c, nth_error (o_cells s') c = Some None <-> nth_error (o_cells s) c = Some None \/ In c tr) /\
  (forall c, In c tr -> nth_error (o_cells s) c <> Some None) /\
  (forall d, In d tr -> exists c, p = Some c /\ (c = d \/ path g c d)).
Proof.
  intros A0. pose proof A0 as [V L B O]. destruct p as [c|]; cbn [give_up].
  - 
    destruct (release_ok (S (length (o_cells s))) (o_cells s) c (o_vars s)) as (cs & tr & -> & (I & F & N & A & Lc) & W).
    + intros d. specialize (B d). cbn [sumf fold_right] in *. fold (sumf (isd d) (o_vars s)) in *. lia.
    + pose proof (alive_le (o_cells s)). lia.
    + cbn [bind]. eexists _, _. split; [reflexivity|]. cbn [o_cells o_vars]. split; [|split; [exact N|split; [|split]]].
      * constructor; cbn [o_cells o_vars]; [exact V|lia| |].
        -- intros d. specialize (I d). cbn [sumf fold_right]. fold (sumf (isd d) (o_vars s)) in *. lia.
        -- intros d k Hk. specialize (F d). unfold fr in F. destruct (nth_error (o_cells s) d) as [[k0|]|] eqn:E.
           ++ destruct (O d k0 E) as (R0 & E0). destruct F as (_ & F). destruct (F R0) as [(_ & Q)|(_ & r & Rr & Q)]; [congruence|].
              rewrite Q in Hk. injection Hk as <-. cbn [refs fields]. auto.
           ++ destruct F as (F & _). congruence.
           ++ destruct F as (F & _). congruence.
      * intros d. specialize (F d). unfold fr in F. destruct (nth_error (o_cells s) d) as [[k0|]|] eqn:E.
        -- destruct (O d k0 E) as (R0 & _). destruct F as (_ & F). destruct (F R0) as [(Q & ->)|(Q & r & _ & ->)]; split; intros H; try tauto; try discriminate.
           destruct H as [H|H]; [discriminate|tauto].
        -- tauto.
        -- destruct F as (-> & Q). split; [discriminate|]. intros [H|H]; [discriminate|tauto].
      * intros d Q E. exact (fr_dead _ _ _ _ (F d) E Q).
      * intros d Q. exists c. split; [reflexivity|]. exact (from_graph s g _ _ c d A0 (W d Q)).
  - exists s, []. split; [reflexivity|]. split; [eapply agr_cancel; [exact A0|reflexivity]|]. split; [constructor|]. cbn. split; [tauto|]. split; [tauto|]. intros d [].
Qed.

Lemma addref_agr s g ex p : agr s g ex [] -> (forall c, p = Some c -> live (o_cells s) c) ->
  exists s', addref s p = Ok s' /\ agr s' g (p :: ex) [] /\
    (forall c, nth_error (o_cells s') c = Some None <-> nth_error (o_cells s) c = Some None) /\
    (forall c, live (o_cells s) c -> live (o_cells s') c).
Proof.
  intros A H. destruct p as [c|]; cbn [addref].
  - destruct (H c eq_refl) as (k & Hk). destruct A as [V L B O]. unfold cell_at. rewrite (rd_at _ _ _ Hk). cbn [bind].
    rewrite (wr_lset _ _ _ (Some (Cell (S (refs k)) (fields k))) Hk). cbn [bind]. eexists. split; [reflexivity|]. cbn [o_cells o_vars]. split; [|split].
    + constructor; cbn [o_cells o_vars]; [exact V|now rewrite (lset_length _ _ _ _ Hk)| |].
      * intros d. specialize (B d). pose proof (sumf_lset (fun x => sumf (isd d) (cf x)) _ _ _ (Some (Cell (S (refs k)) (fields k))) Hk) as Q. cbn [cf fields] in Q.
        rewrite (refs_lset _ _ _ _ _ Hk). cbn [refs]. change (sumf (isd d) (Some c :: ex)) with ((if Nat.eqb c d then 1 else 0) + sumf (isd d) ex).
        destruct (Nat.eqb_spec d c) as [->|N]; [rewrite Nat.eqb_refl; unfold refs_at in B; rewrite Hk in B; lia|].
        destruct (Nat.eqb_spec c d); [congruence|]. lia.
      * intros d k'. rewrite (lset_nth _ _ _ _ _ Hk). destruct (Nat.eqb_spec d c) as [->|]; [|apply O]. intros [= <-]. cbn [refs fields].
        destruct (O c k Hk). split; [lia|assumption].
    + intros d. rewrite (lset_nth _ _ _ _ _ Hk). destruct (Nat.eqb_spec d c) as [->|]; [|tauto]. rewrite Hk. split; discriminate.
    + intros d (k' & Hk'). unfold live. rewrite (lset_nth _ _ _ _ _ Hk). destruct (Nat.eqb d c); eauto.
  - exists s. split; [reflexivity|]. split; [|tauto]. eapply agr_cancel; [exact A|]. intros d. reflexivity.
Qed.

Lemma ok_loc_mono s s' l : (forall c, live (o_cells s) c -> live (o_cells s') c) -> ok_loc s l -> ok_loc s' l.
Proof. intros H. destruct l; cbn; auto. Qed.

(** An operation that leaves an object that old points to with one pointer less. *)
Lemma assign_agr s g l old p : agr s g [p] [] -> ok_loc s l -> points g l = Some old ->
  exists s' tr, assign s l p = Ok (s', tr) /\ agr s' (aim g l p) [] [] /\ NoDup tr /\
  (forall c, nth_error (o_cells s') c = Some None <-> nth_error (o_cells s) c = Some None \/ In c tr) /\
  (forall c, In c tr -> nth_error (o_cells s) c <> Some None) /\
  (forall d, In d tr -> exists c, old = Some c /\ (c = d \/ path (aim g l p) c d)).
Proof.
  intros A Hl Hp. unfold assign. rewrite (get_agr _ _ _ _ _ _ A Hl Hp). cbn [bind].
  destruct (put_agr _ _ _ _ _ _ p A Hl Hp) as (s1 & -> & A1 & D1 & _). cbn [bind].
  destruct (give_up_agr s1 (aim g l p) old) as (s2 & tr & -> & A2 & N & D2 & T & W).
  { eapply agr_cancel; [exact A1|]. intros d. cbn [sumf fold_right]. lia. }
  exists s2, tr. split; [reflexivity|]. split; [exact A2|]. split; [exact N|]. split; [|split; [|exact W]].
  - intros c. rewrite D2, D1. tauto.
  - intros c Q. rewrite <- D1. now apply T.
Qed.

Lemma nth_snoc {A} (l : list A) x d : nth_error (l ++ [x]) d = if Nat.eqb d (length l) then Some x else nth_error l d.
Proof.
  destruct (Nat.eqb_spec d (length l)) as [->|N].
  - rewrite nth_error_app2, Nat.sub_diag by lia. reflexivity.
  - destruct (Nat.lt_ge_cases d (length l)); [now rewrite nth_error_app1|]. rewrite nth_error_app2 by lia.
    destruct (d - length l) as [|m] eqn:E; [lia|]. destruct m; cbn; symmetry; apply nth_error_None; lia.
Qed.
Lemma nones_sum d n : sumf (isd d) (repeat None n) = 0.
Proof. induction n; cbn; auto. Qed.

Lemma points_aim g l old p m : points g l = Some old ->
  points (aim g l p) m = points g m \/ (m = l /\ points (aim g l p) m = Some p).
Proof.
  intros H. destruct l as [i|b j], m as [i'|b' j']; cbn [points aim g_vars g_objs] in *; try (left; reflexivity).
  - rewrite (lset_nth _ _ _ _ _ H). destruct (Nat.eqb_spec i' i) as [->|]; auto.
  - destruct (nth_error (g_objs g) b) as [fs|] eqn:E; [|discriminate]. rewrite (nth_error_nth _ _ _ E).
    rewrite (lset_nth _ _ _ _ _ E). destruct (Nat.eqb_spec b' b) as [->|]; [|auto]. rewrite E.
    rewrite (lset_nth _ _ _ _ _ H). destruct (Nat.eqb_spec j' j) as [->|]; auto.
Qed.

Definition home g (l : loc) : Prop := match l with LVar _ => True | LField c _ => reachable g c end.
Lemma target_reach g l c : home g l -> points g l = Some (Some c) -> reachable g c.
Proof. intros H P. destruct l as [i|b j]; [exact (by_var g i c P)|]. apply (by_member g b c H). now exists j. Qed.
Lemma follow_home g : forall path l l', home g l -> follow g l path = Some l' -> home g l'.
Proof.
  induction path as [|j path IH]; intros l l' H F; cbn [follow] in F; [now injection F as <-|].
  destruct (points g l) as [[c|]|] eqn:E; try discriminate. apply (IH (LField c j) l'); [exact (target_reach g l c H E)|exact F].
Qed.
Lemma exists_reach g pl l c : exists_at g pl = Some (l, Some c) -> reachable g c.
Proof.
  unfold exists_at, there. destruct (follow g (LVar (p_var pl)) (p_path pl)) as [l0|] eqn:F; [|discriminate].
  destruct (points g l0) as [p0|] eqn:P; [|discriminate]. intros [= -> ->].
  apply (target_reach g l c); [|exact P]. exact (follow_home g _ (LVar (p_var pl)) l Logic.I F).
Qed.
Lemma exists_points g pl l p : exists_at g pl = Some (l, p) -> points g l = Some p.
Proof.
  unfold exists_at. destruct (there g pl) as [l0|]; [|discriminate]. destruct (points g l0) as [p0|] eqn:P; [|discriminate]. now intros [= -> ->].
Qed.
(** Objects that are reachable, or do not exist yet. *)
Definition good (g : graph) (c : nat) : Prop := reachable g c \/ length (g_objs g) <= c.
Lemma step_good g o g' : graph_step g o = Some g' ->
  length (g_objs g) <= length (g_objs g') <= S (length (g_objs g)) /\
  forall l b, points g' l = Some (Some b) -> points g l = Some (Some b) \/ good g b.
Proof.
  assert (AL : forall g0 l p old, points g0 l = Some old -> length (g_objs (aim g0 l p)) = length (g_objs g0)).
  { intros g0 l p old H. destruct l as [i|b j]; cbn [aim g_objs]; [reflexivity|]. cbn [points] in H.
    destruct (nth_error (g_objs g0) b) as [fs|] eqn:E; [|discriminate]. now apply (lset_length _ _ fs). }
  intros St. destruct o as [pl n|pl q|pl q|pl]; cbn [graph_step] in St.
  - destruct (exists_at g pl) as [[l old]|] eqn:E; [|discriminate]. injection St as <-. apply exists_points in E.
    set (g1 := G (g_vars g) (g_objs g ++ [repeat None n])).
    assert (P1 : forall m b, points g m = Some b -> points g1 m = Some b).
    { intros m b. destruct m as [i|x j]; cbn [points g1 g_vars g_objs]; [tauto|]. rewrite nth_snoc.
      destruct (Nat.eqb_spec x (length (g_objs g))) as [->|]; [|tauto].
      assert (nth_error (g_objs g) (length (g_objs g)) = None) as -> by (apply nth_error_None; lia). discriminate. }
    assert (P2 : forall m b, points g1 m = Some (Some b) -> points g m = Some (Some b)).
    { intros m b. destruct m as [i|x j]; cbn [points g1 g_vars g_objs]; [tauto|]. rewrite nth_snoc.
      destruct (Nat.eqb_spec x (length (g_objs g))) as [->|]; [|tauto]. intros Q. apply nth_error_In, repeat_spec in Q. discriminate. }
    split.
    + rewrite (AL g1 l _ old (P1 _ _ E)). unfold g1. cbn [g_objs]. rewrite app_length. cbn. lia.
    + intros m b H. destruct (points_aim g1 l old (Some (length (g_objs g))) m (P1 _ _ E)) as [Q|(-> & Q)]; rewrite Q in H.
      * left. now apply P2.
      * injection H as <-. right. right. lia.
  - destruct (exists_at g pl) as [[l old]|] eqn:E; [|discriminate]. destruct (exists_at g q) as [[m p]|] eqn:E2; [|discriminate]. injection St as <-.
    apply exists_points in E. split; [rewrite (AL g l p old E); lia|]. intros x b H.
    destruct (points_aim g l old p x E) as [Q|(-> & Q)]; rewrite Q in H; [now left|]. injection H as ->. right. left. exact (exists_reach _ _ _ _ E2).
  - destruct (exists_at g pl) as [[l a]|] eqn:E; [|discriminate]. destruct (exists_at g q) as [[m b]|] eqn:E2; [|discriminate]. injection St as <-.
    pose proof (exists_points _ _ _ _ E) as Pl. pose proof (exists_points _ _ _ _ E2) as Pm.
    assert (P1 : points (aim g l b) m = Some b).
    { destruct (points_aim g l a b m Pl) as [->|(_ & ->)]; [exact Pm|reflexivity]. }
    split; [rewrite (AL _ m a b P1), (AL g l b a Pl); lia|]. intros x d H.
    destruct (points_aim (aim g l b) m b a x P1) as [Q|(-> & Q)]; rewrite Q in H.
    + destruct (points_aim g l a b x Pl) as [Q2|(-> & Q2)]; rewrite Q2 in H; [now left|]. injection H as ->. right. left. exact (exists_reach _ _ _ _ E2).
    + injection H as ->. right. left. exact (exists_reach _ _ _ _ E).
  - destruct (exists_at g pl) as [[l old]|] eqn:E; [|discriminate]. injection St as <-.
    apply exists_points in E. split; [rewrite (AL g l None old E); lia|]. intros x b H.
    destruct (points_aim g l old None x E) as [Q|(-> & Q)]; rewrite Q in H; [now left|discriminate].
Qed.
Lemma good_edge g o g' a b : graph_step g o = Some g' -> good g a -> edge g' a b -> good g b.
Proof.
  intros St Ga (j & P). destruct (step_good g o g' St) as (_ & H). destruct (H _ _ P) as [Q|Q]; [|exact Q].
  destruct Ga as [Ra|La]; [left; apply (by_member g a b Ra); now exists j|].
  cbn [points] in Q. assert (nth_error (g_objs g) a = None) as E by (apply nth_error_None; lia). rewrite E in Q. discriminate.
Qed.
Lemma good_path g o g' a b : graph_step g o = Some g' -> path g' a b -> good g a -> good g b.
Proof. intros St. induction 1 as [c d E|c d e E _ IH]; intros Gc; [exact (good_edge _ _ _ _ _ St Gc E)|]. apply IH. exact (good_edge _ _ _ _ _ St Gc E). Qed.
Lemma good_reach g o g' b : graph_step g o = Some g' -> reachable g' b -> good g b.
Proof.
  intros St. induction 1 as [i c P|c d _ IH E]; [|exact (good_edge _ _ _ _ _ St IH E)].
  destruct (step_good g o g' St) as (_ & H). destruct (H _ _ P) as [Q|Q]; [|exact Q]. left. exact (by_var g i c Q).
Qed.

Lemma step_agr s g o g' : agr s g [] [] -> graph_step g o = Some g' ->
  exists s' tr, own_step s o = Ok (s', tr) /\ agr s' g' [] [] /\ NoDup tr /\
  (forall c, nth_error (o_cells s') c = Some None <-> nth_error (o_cells s) c = Some None \/ In c tr) /\
  (forall c, In c tr -> nth_error (o_cells s) c <> Some None) /\
  (forall d, In d tr -> exists c, reachable g c /\ (c = d \/ path g' c d)).
Proof.
  intros A St. destruct o as [pl n|pl q|pl q|pl]; cbn [graph_step own_step] in *.
  - destruct (exists_at g pl) as [[l old]|] eqn:E; [|discriminate]. injection St as <-.
    destruct (find_agr _ _ _ _ _ _ A E) as (-> & Hl & Hp & _). cbn [bind].
    set (s1 := Own (o_cells s ++ [Some (Cell 1 (repeat None n))]) (o_vars s)). set (g1 := G (g_vars g) (g_objs g ++ [repeat None n])).
    destruct A as [V L B O]. assert (Hnew : nth_error (o_cells s) (length (o_cells s)) = None) by (apply nth_error_None; lia).
    assert (A1 : agr s1 g1 [Some (length (o_cells s))] []).
    { unfold s1, g1. constructor; cbn [o_cells o_vars g_vars g_objs]; [exact V|rewrite !app_length; cbn; lia| |].
      - intros d. specialize (B d). rewrite sumf_app. unfold refs_at in *. rewrite nth_snoc. cbn [sumf fold_right cf fields isd] in *.
        fold (sumf (isd d) (repeat None n)). rewrite nones_sum.
        change (fold_right (fun x n0 => isd d x + n0) 0 (o_vars s)) with (sumf (isd d) (o_vars s)) in *.
        change (fold_right (fun x n0 => sumf (isd d) (cf x) + n0) 0 (o_cells s)) with (sumf (fun x => sumf (isd d) (cf x)) (o_cells s)) in *.
        destruct (Nat.eqb_spec d (length (o_cells s))) as [->|N].
        + rewrite Nat.eqb_refl. rewrite Hnew in B. cbn [refs]. lia.
        + destruct (Nat.eqb_spec (length (o_cells s)) d); [congruence|]. lia.
      - intros c k. rewrite !nth_snoc, <- L. destruct (Nat.eqb_spec c (length (o_cells s))); [|apply O]. intros [= <-]. cbn [refs fields]. auto. }
    assert (Hl1 : ok_loc s1 l).
    { apply (ok_loc_mono s); [|exact Hl]. intros c (k & Hk). unfold live, s1. cbn [o_cells]. rewrite nth_snoc.
      destruct (Nat.eqb c (length (o_cells s))); eauto. }
    assert (Hp1 : points g1 l = Some old).
    { unfold g1. destruct l as [i|b j]; cbn [points g_vars g_objs] in *; [exact Hp|]. rewrite nth_snoc, <- L.
      destruct (nth_error (g_objs g) b) as [fs|] eqn:Eb; [|discriminate]. destruct (Nat.eqb_spec b (length (o_cells s))) as [->|]; [|exact Hp].
      rewrite L in Eb. assert (nth_error (g_objs g) (length (g_objs g)) = None) by (apply nth_error_None; lia). congruence. }
    rewrite <- L. destruct (assign_agr s1 g1 l old (Some (length (o_cells s))) A1 Hl1 Hp1) as (s2 & tr & -> & A2 & N & D & T & W).
    exists s2, tr. split; [reflexivity|]. split; [exact A2|]. split; [exact N|]. unfold s1 in D, T. cbn [o_cells] in D, T.
    split; [|split; [|intros d Q; destruct (W d Q) as (c & -> & Pc); exists c; split; [exact (exists_reach _ _ _ _ E)|exact Pc]]].
    + intros c. rewrite D, nth_snoc. destruct (Nat.eqb_spec c (length (o_cells s))) as [->|]; [|tauto]. rewrite Hnew. intuition discriminate.
    + intros c Q R. destruct (Nat.eq_dec c (length (o_cells s))) as [->|N']; [congruence|]. apply (T c Q). rewrite nth_snoc.
      destruct (Nat.eqb_spec c (length (o_cells s))); [tauto|exact R].
  - destruct (exists_at g pl) as [[l old]|] eqn:E; [|discriminate]. destruct (exists_at g q) as [[m p]|] eqn:E2; [|discriminate]. injection St as <-.
    destruct (find_agr _ _ _ _ _ _ A E) as (-> & Hl & Hp & _). destruct (find_agr _ _ _ _ _ _ A E2) as (-> & Hm & Hq & Gm). cbn [bind].
    rewrite Gm. cbn [bind].
    destruct (addref_agr s g [] p A) as (s1 & -> & A1 & D1 & M1).
    { intros c ->. exact (target_live _ _ _ _ _ A Hm Hq). }
    cbn [bind]. destruct (assign_agr s1 g l old p A1 (ok_loc_mono _ _ _ M1 Hl) Hp) as (s2 & tr & -> & A2 & N & D & T & W).
    exists s2, tr. split; [reflexivity|]. split; [exact A2|]. split; [exact N|].
    split; [|split; [|intros d Q; destruct (W d Q) as (c & -> & Pc); exists c; split; [exact (exists_reach _ _ _ _ E)|exact Pc]]].
    + intros c. rewrite D, D1. tauto.
    + intros c Q. rewrite <- D1. now apply T.
  - destruct (exists_at g pl) as [[l a]|] eqn:E; [|discriminate]. destruct (exists_at g q) as [[m b]|] eqn:E2; [|discriminate]. injection St as <-.
    destruct (find_agr _ _ _ _ _ _ A E) as (-> & Hl & Hp & Gl). destruct (find_agr _ _ _ _ _ _ A E2) as (-> & Hm & Hq & Gm). cbn [bind].
    rewrite Gl, Gm. cbn [bind]. destruct (put_agr _ _ _ _ _ _ b A Hl Hp) as (s1 & -> & A1 & D1 & M1). cbn [bind].
    assert (P1 : points (aim g l b) m = Some b).
    { destruct (points_aim g l a b m Hp) as [->|(_ & ->)]; [exact Hq|reflexivity]. }
    destruct (put_agr _ _ _ _ _ _ a A1 (ok_loc_mono _ _ _ M1 Hm) P1) as (s2 & -> & A2 & D2 & M2). cbn [bind].
    exists s2, []. split; [reflexivity|]. split; [|split; [constructor|split; [|split]]].
    + eapply agr_cancel; [exact A2|]. intros d. cbn [sumf fold_right]. lia.
    + intros c. rewrite D2, D1. cbn. tauto.
    + intros c [].
    + intros c [].
  - destruct (exists_at g pl) as [[l old]|] eqn:E; [|discriminate]. injection St as <-.
    destruct (find_agr _ _ _ _ _ _ A E) as (-> & Hl & Hp & Gl). cbn [bind]. rewrite Gl. cbn [bind].
    destruct (put_agr _ _ _ _ _ _ None A Hl Hp) as (s1 & -> & A1 & D1 & _). cbn [bind].
    destruct (give_up_agr s1 (aim g l None) old) as (s2 & tr & -> & A2 & N & D2 & T & W).
    { eapply agr_cancel; [exact A1|]. intros d. cbn [sumf fold_right isd]. lia. }
    exists s2, tr. split; [reflexivity|]. split; [exact A2|]. split; [exact N|].
    split; [|split; [|intros d Q; destruct (W d Q) as (c & -> & Pc); exists c; split; [exact (exists_reach _ _ _ _ E)|exact Pc]]].
    + intros c. rewrite D2, D1. tauto.
    + intros c Q. rewrite <- D1. now apply T.
Qed.

Lemma run_agr ops : forall s g g', agr s g [] [] -> graph_run g ops = Some g' ->
  exists s' trs, own_run s ops = Ok (s', trs) /\ agr s' g' [] [] /\ NoDup (concat trs) /\
  (forall c, nth_error (o_cells s') c = Some None <-> nth_error (o_cells s) c = Some None \/ In c (concat trs)) /\
  (forall c, In c (concat trs) -> nth_error (o_cells s) c <> Some None) /\
  (forall d, In d (concat trs) -> good g d).
Proof.
  induction ops as [|o ops IH]; intros s g g' A R; cbn [graph_run own_run] in *.
  - injection R as <-. exists s, []. split; [reflexivity|]. split; [exact A|]. split; [constructor|]. cbn. split; [tauto|]. split; [tauto|]. intros d [].
  - destruct (graph_step g o) as [g1|] eqn:E; [|discriminate].
    destruct (step_agr s g o g1 A E) as (s1 & tr & -> & A1 & N1 & D1 & T1 & W1). cbn [bind].
    destruct (IH s1 g1 g' A1 R) as (s2 & trs & -> & A2 & N2 & D2 & T2 & W2). cbn [bind].
    exists s2, (tr :: trs). split; [reflexivity|]. split; [exact A2|]. cbn [concat]. split; [|split; [|split]].
    + apply nodup_cat; [exact N1|exact N2|]. intros c Q Q2. apply (T2 c Q2), D1. tauto.
    + intros c. rewrite D2, D1, in_app_iff. tauto.
    + intros c. rewrite in_app_iff. intros [Q|Q]; [now apply T1|]. intros Z. apply (T2 c Q), D1. tauto.
    + intros d. rewrite in_app_iff. intros [Q|Q].
      * destruct (W1 d Q) as (c & Rc & [->|Pc]); [now left|]. exact (good_path _ _ _ _ _ E Pc (or_introl Rc)).
      * destruct (W2 d Q) as [Rd|Ld]; [exact (good_reach _ _ _ _ E Rd)|]. right. destruct (step_good _ _ _ E) as (? & _). lia.
Qed.
Lemma run_split ops : forall s g g' o g'' s' trs, agr s g [] [] -> graph_run g ops = Some g' -> graph_step g' o = Some g'' ->
  own_run s ops = Ok (s', trs) -> agr s' g' [] [].
Proof.
  intros s g g' o g'' s' trs A R _ E. destruct (run_agr ops s g g' A R) as (s1 & t1 & E1 & A1 & _). rewrite E in E1. now injection E1 as <- <-.
Qed.
Lemma agr0 n : agr (own0 n) (graph0 n) [] [].
Proof.
  unfold own0, graph0. constructor; cbn [o_cells o_vars g_vars g_objs]; [reflexivity|reflexivity| |].
  - intros d. cbn [sumf fold_right]. unfold refs_at. fold (sumf (isd d) (repeat None n)). rewrite nones_sum. now destruct d.
  - intros [|c] k; discriminate.
Qed.

(** ** Reachable objects live; without cycles the others do not *)
Lemma reach_live s g c : agr s g [] [] -> reachable g c -> live (o_cells s) c.
Proof.
  intros A. induction 1 as [i c P|c d _ IH (j & P)].
  - exact (target_live s g [] (LVar i) c A Logic.I P).
  - exact (target_live s g [] (LField c j) d A IH P).
Qed.
Lemma sum_ex (f : option nat -> nat) l : 0 < sumf f l -> exists j p, nth_error l j = Some p /\ 0 < f p.
Proof.
  induction l as [|p l IH]; cbn; [lia|]. fold (sumf f l). intros H. destruct (f p) eqn:E.
  - destruct IH as (j & q & Q & R); [lia|]. exists (S j), q. auto.
  - exists 0, p. split; [reflexivity|lia].
Qed.
Lemma sum_ex_cell (f : option cell -> nat) l : 0 < sumf f l -> exists j p, nth_error l j = Some p /\ 0 < f p.
Proof.
  induction l as [|p l IH]; cbn; [lia|]. fold (sumf f l). intros H. destruct (f p) eqn:E.
  - destruct IH as (j & q & Q & R); [lia|]. exists (S j), q. auto.
  - exists 0, p. split; [reflexivity|lia].
Qed.
Lemma isd_some d p : 0 < isd d p -> p = Some d.
Proof. destruct p as [e|]; cbn; [|lia]. destruct (Nat.eqb_spec e d); [congruence|lia]. Qed.
(** A live object is pointed to by a variable or by a live object. *)
Lemma live_owner s g c : agr s g [] [] -> live (o_cells s) c ->
  (exists i, points g (LVar i) = Some (Some c)) \/ exists b, live (o_cells s) b /\ edge g b c.
Proof.
  intros [V L B O] (k & Hk). destruct (O c k Hk) as (R & _). specialize (B c). cbn [sumf fold_right] in B.
  fold (sumf (isd c) (o_vars s)) in B. fold (sumf (fun x => sumf (isd c) (cf x)) (o_cells s)) in B. unfold refs_at in B. rewrite Hk in B.
  destruct (Nat.eq_dec (sumf (isd c) (o_vars s)) 0) as [Z|Z].
  - right. destruct (sum_ex_cell (fun x => sumf (isd c) (cf x)) (o_cells s)) as (b & [kb|] & Eb & P); [lia| |cbn in P; lia].
    exists b. split; [now exists kb|]. cbn [cf] in P. apply sum_ex in P. destruct P as (j & p & Ej & Pp). apply isd_some in Pp. subst p.
    exists j. cbn [points]. destruct (O b kb Eb) as (_ & ->). exact Ej.
  - left. destruct (sum_ex (isd c) (o_vars s)) as (i & p & Ei & Pp); [lia|]. apply isd_some in Pp. subst p. exists i. cbn [points]. now rewrite <- V.
Qed.
Lemma path_app g a b c : path g a b -> path g b c -> path g a c.
Proof. induction 1 as [x y E|x y z E _ IH]; intros Q; econstructor 2; eauto. Qed.

(** Chains of owners of unreachable live objects. *)
Lemma chain s g c : agr s g [] [] -> live (o_cells s) c -> ~ reachable g c -> acyclic g -> forall n,
  exists l b, length l = n /\ NoDup (b :: l) /\ live (o_cells s) b /\ ~ reachable g b /\ (forall x, In x l -> live (o_cells s) x /\ path g b x).
Proof.
  intros A Hl Hr Ac. induction n as [|n IH].
  - exists [], c. split; [reflexivity|]. split; [repeat constructor; intros []|]. split; [exact Hl|]. split; [exact Hr|]. intros x [].
  - destruct IH as (l & b & Ln & N & Lb & Rb & P). destruct (live_owner s g b A Lb) as [(i & Pi)|(a & La & E)].
    + destruct Rb. exact (by_var g i b Pi).
    + exists (b :: l), a. split; [cbn; lia|].
      assert (Pa : forall x, In x (b :: l) -> live (o_cells s) x /\ path g a x).
      { intros x [<-|Q]; [split; [exact Lb|now constructor]|]. destruct (P x Q) as (Lx & Px). split; [exact Lx|]. exact (more_steps g a b x E Px). }
      split; [|split; [exact La|split; [|exact Pa]]].
      * constructor; [|exact N]. intros Q. exact (Ac a (proj2 (Pa a Q))).
      * intros Q. apply Rb. exact (by_member g a b Q E).
Qed.
Lemma acyclic_live s g c : agr s g [] [] -> acyclic g -> live (o_cells s) c -> ~ ~ reachable g c.
Proof.
  intros A Ac Hl Hr. destruct (chain s g c A Hl Hr Ac (length (o_cells s))) as (l & b & Ln & N & Lb & _ & P).
  assert (Hincl : incl (b :: l) (seq 0 (length (o_cells s)))).
  { intros x Q. apply in_seq. assert (Lx : live (o_cells s) x) by (destruct Q as [<-|Q]; [exact Lb|exact (proj1 (P x Q))]).
    destruct Lx as (k & Hk). assert (x < length (o_cells s)) by (apply nth_error_Some; congruence). lia. }
  pose proof (NoDup_incl_length N Hincl) as Q. rewrite seq_length in Q. cbn in Q. lia.
Qed.
