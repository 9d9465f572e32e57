(** * AssocProofs: the ordered vectors refine sets, bags, maps, multimaps. *)
From Verif Require Import Base Order UtilModel StoreModel VectorModel VectorSpec StoreProofs VectorProofs
  ArrayModel BoundProofs AssocModel AssocSpec.
From Coq Require Import ZArith ZifyBool ZifyNat.
Local Open Scope nat_scope.

Lemma firstn_pre {A} (a b : list A) : firstn (length a) (a ++ b) = a.
Proof. rewrite firstn_app, Nat.sub_diag, firstn_all. cbn [firstn]. apply app_nil_r. Qed.
Lemma skipn_pre {A} (a b : list A) : skipn (length a) (a ++ b) = b.
Proof. rewrite skipn_app, Nat.sub_diag, skipn_all. reflexivity. Qed.

Lemma countp_perm {A} (p : A -> bool) l s : Permutation l s -> countp p l = countp p s.
Proof.
  intros H. unfold countp. induction H as [|x l l' H IH|x y l|l l' l'' H1 IH1 H2 IH2]; cbn [filter]; auto.
  - destruct (p x); cbn; lia.
  - destruct (p x), (p y); cbn; lia.
  - lia.
Qed.
Lemma filter_perm {A} (p : A -> bool) l s : Permutation l s -> Permutation (filter p l) (filter p s).
Proof.
  intros H. induction H as [|x l l' H IH|x y l|l l' l'' H1 IH1 H2 IH2]; cbn [filter]; auto.
  - destruct (p x); auto.
  - destruct (p x), (p y); auto. apply perm_swap.
  - etransitivity; eauto.
Qed.

Lemma filter_le {X} (p : X -> bool) l : length (filter p l) <= length l.
Proof. induction l as [|x l IH]; cbn; [lia|]. destruct (p x); cbn; lia. Qed.

Section Keys.
  Context {A K : Type} (key : A -> K) (comp keqb : K -> K -> bool).
  Hypothesis Tot : StrictWeak comp.
  Hypothesis Deq : EqvOf comp keqb.

  Definition klt (x y : A) : bool := comp (key x) (key y).

  Definition Split (l : list A) (k : K) (lo eq hi : list A) : Prop :=
    l = lo ++ eq ++ hi /\
    (forall x, In x lo -> comp (key x) k = true) /\
    (forall x, In x eq -> comp (key x) k = false /\ comp k (key x) = false) /\
    (forall x, In x hi -> comp k (key x) = true).

  Lemma tot_irr x : comp x x = false. Proof. apply Tot. Qed.
  Lemma tot_asym x y : comp x y = true -> comp y x = false.
  Proof. apply sw_asym, Tot. Qed.

  Lemma split_exists l k : Ascending klt l -> exists lo eq hi, Split l k lo eq hi.
  Proof.
    intros H.
    assert (W := Tot).
    destruct (partition_mono (fun x => comp (key x) k) _ l H) as (lo & r & -> & H1 & H2).
    { intros x y Hxy Hy. eapply (sw_le_lt_trans comp W); eauto. }
    apply StronglySorted_app_iff in H. destruct H as (_ & Hr & _).
    destruct (partition_mono (fun x => negb (comp k (key x))) _ r Hr) as (eq & hi & -> & H3 & H4).
    { intros x y Hxy Hy. apply negb_true_iff in Hy. apply negb_true_iff.
      eapply (sw_le_trans comp W); eauto. }
    exists lo, eq, hi. split; [reflexivity|]. split; [exact H1|]. split.
    - intros x Hx. split; [apply H2; apply in_or_app; auto|]. specialize (H3 x Hx). now apply negb_true_iff in H3.
    - intros x Hx. specialize (H4 x Hx). now apply negb_false_iff in H4.
  Qed.

  Lemma countp_app (p : A -> bool) l1 l2 : countp p (l1 ++ l2) = countp p l1 + countp p l2.
  Proof. unfold countp. now rewrite filter_app, app_length. Qed.
  Lemma filter_all (p : A -> bool) l : (forall x, In x l -> p x = true) -> filter p l = l.
  Proof.
    induction l as [|x l IH]; intros H; [reflexivity|]. cbn [filter]. rewrite H by now left.
    f_equal. apply IH. intros y Hy. apply H. now right.
  Qed.
  Lemma filter_none (p : A -> bool) l : (forall x, In x l -> p x = false) -> filter p l = [].
  Proof.
    induction l as [|x l IH]; intros H; [reflexivity|]. cbn [filter]. rewrite H by now left.
    apply IH. intros y Hy. apply H. now right.
  Qed.

  Lemma keqb_true x k : keqb (key x) k = true <-> comp (key x) k = false /\ comp k (key x) = false.
  Proof. rewrite (Deq (key x) k). unfold equiv. destruct (comp (key x) k), (comp k (key x)); cbn; intuition discriminate. Qed.
  Lemma keqb_lo x k : comp x k = true -> keqb x k = false.
  Proof. intros H. rewrite (Deq x k). unfold equiv. now rewrite H. Qed.
  Lemma keqb_hi x k : comp k x = true -> keqb x k = false.
  Proof. intros H. rewrite (Deq x k). unfold equiv. rewrite H. apply andb_false_r. Qed.

  Section WithSplit.
    Variables (l : list A) (k : K) (lo eq hi : list A).
    Hypothesis Sp : Split l k lo eq hi.

    Lemma split_lower : lower_bound (fun x k => comp (key x) k) l 0 (length l) k = Ok (length lo).
    Proof.
      destruct Sp as (-> & H1 & H2 & H3).
      pose proof (lower_bound_part (fun x k => comp (key x) k) [] lo (eq ++ hi) [] k 0 (length (lo ++ eq ++ hi)) eq_refl eq_refl H1) as L.
      rewrite app_nil_r in L. apply L. intros x Hx. apply in_app_iff in Hx. destruct Hx as [Hx|Hx].
      - apply (H2 x Hx).
      - apply tot_asym. auto.
    Qed.
    Lemma split_upper : upper_bound (fun k x => comp k (key x)) l 0 (length l) k = Ok (length lo + length eq).
    Proof.
      destruct Sp as (-> & H1 & H2 & H3). rewrite app_assoc, <- app_length.
      pose proof (upper_bound_part (fun k x => comp k (key x)) [] (lo ++ eq) hi [] k 0 (length ((lo ++ eq) ++ hi)) eq_refl eq_refl) as L.
      rewrite app_nil_r in L. apply L; [|exact H3]. intros x Hx. apply in_app_iff in Hx. destruct Hx as [Hx|Hx].
      - apply tot_asym. auto.
      - apply (H2 x Hx).
    Qed.
    Lemma split_range : equal_range (fun x k => comp (key x) k) (fun k x => comp k (key x)) l 0 (length l) k
      = Ok (length lo, length lo + length eq).
    Proof.
      unfold equal_range. rewrite split_lower. cbn [bind].
      destruct Sp as (-> & H1 & H2 & H3).
      pose proof (equal_range_loop_part (length (lo ++ eq ++ hi) - 0) (fun k x => comp k (key x)) lo eq hi [] k
        (length lo) (length (lo ++ eq ++ hi))) as L. rewrite app_nil_r in L.
      rewrite L; auto; rewrite ?app_length; try lia.

    Qed.
    Lemma split_below : countp (fun y => comp (key y) k) l = length lo.
    Proof.
      destruct Sp as (-> & H1 & H2 & H3). rewrite !countp_app. unfold countp.
      rewrite filter_all by exact H1. rewrite filter_none, filter_none; cbn; auto.
      - intros x Hx. apply tot_asym. auto.
      - intros x Hx. apply (H2 x Hx).
    Qed.
    Lemma split_upto : countp (fun y => negb (comp k (key y))) l = length lo + length eq.
    Proof.
      destruct Sp as (-> & H1 & H2 & H3). rewrite !countp_app. unfold countp.
      rewrite (filter_all _ lo), (filter_all _ eq), (filter_none _ hi); cbn [length]; [lia|intros x Hx..].
      - rewrite (H3 x Hx). reflexivity.
      - now rewrite (proj2 (H2 x Hx)).
      - rewrite tot_asym; auto.
    Qed.
    Lemma split_eq : filter (fun y => keqb (key y) k) l = eq.
    Proof.
      destruct Sp as (-> & H1 & H2 & H3). rewrite !filter_app.
      rewrite (filter_none _ lo), (filter_all _ eq), (filter_none _ hi), app_nil_r; auto; intros x Hx.
      - apply keqb_hi. auto.
      - apply keqb_true. auto.
      - apply keqb_lo. auto.
    Qed.
    Lemma split_rest : filter (fun y => negb (keqb (key y) k)) l = lo ++ hi.
    Proof.
      destruct Sp as (-> & H1 & H2 & H3). rewrite !filter_app.
      rewrite (filter_all _ lo), (filter_none _ eq), (filter_all _ hi); auto; intros x Hx.
      - rewrite keqb_hi; auto.
      - replace (keqb (key x) k) with true; [reflexivity|]. symmetry. apply keqb_true. auto.
      - rewrite keqb_lo; auto.
    Qed.
    Lemma split_insert_lower x : seq_insert l (length lo) [x] = lo ++ x :: eq ++ hi.
    Proof.
      destruct Sp as (-> & _). unfold seq_insert. rewrite firstn_pre, skipn_pre. reflexivity.
    Qed.
    Lemma split_insert_upper x : seq_insert l (length lo + length eq) [x] = lo ++ eq ++ x :: hi.
    Proof.
      destruct Sp as (-> & _). unfold seq_insert. rewrite (app_assoc lo eq hi), <- app_length.
      rewrite firstn_pre, skipn_pre. cbn [app]. now rewrite <- app_assoc.
    Qed.
    Lemma split_erase : seq_erase l (length lo) (length eq) = lo ++ hi.
    Proof.
      destruct Sp as (-> & _). unfold seq_erase. rewrite firstn_pre. f_equal.
      rewrite app_assoc, <- app_length. apply skipn_pre.
    Qed.

    Lemma asc_insert_upper x : Ascending klt l -> key x = k -> Ascending klt (lo ++ eq ++ x :: hi).
    Proof.
      destruct Sp as (-> & H1 & H2 & H3). unfold Ascending. rewrite !StronglySorted_app_iff.
      intros (A1 & (A2 & A3 & A4) & A5) Hx. split; [exact A1|]. split.
      - split; [exact A2|]. split.
        + constructor; [exact A3|]. apply Forall_forall. intros y Hy. unfold klt. rewrite Hx. apply tot_asym. auto.
        + intros y z Hy [<-|Hz]; [|auto]. unfold klt. rewrite Hx. apply (H2 y Hy).
      - intros y z Hy Hz. apply in_app_iff in Hz. destruct Hz as [Hz|[<-|Hz]]; [apply A5; auto; apply in_or_app; auto| |apply A5; auto; apply in_or_app; auto].
        unfold klt. rewrite Hx. apply tot_asym. auto.
    Qed.
    Lemma sorted_erase (R : A -> A -> Prop) : StronglySorted R l -> StronglySorted R (lo ++ hi).
    Proof.
      destruct Sp as (-> & _). rewrite !StronglySorted_app_iff. intros (A1 & (A2 & A3 & A4) & A5).
      split; [exact A1|]. split; [exact A3|]. intros y z Hy Hz. apply A5; auto. apply in_or_app; auto.
    Qed.
    Lemma strict_insert x : StrictlyAscending klt l -> key x = k -> eq = [] -> StrictlyAscending klt (lo ++ x :: hi).
    Proof.
      destruct Sp as (-> & H1 & H2 & H3). unfold StrictlyAscending. intros H Hx ->. cbn [app] in *.
      rewrite !StronglySorted_app_iff in *. destruct H as (A1 & A2 & A3).
      split; [exact A1|]. split.
      - constructor; [exact A2|]. apply Forall_forall. intros y Hy. unfold klt. rewrite Hx. auto.
      - intros y z Hy [<-|Hz]; [|auto]. unfold klt. rewrite Hx. auto.
    Qed.
    (** Strictly ascending: the key occurs at most once. *)
    Lemma strict_eq : StrictlyAscending klt l -> eq = [] \/ exists x, eq = [x] /\ comp (key x) k = false /\ comp k (key x) = false.
    Proof.
      destruct Sp as (-> & H1 & H2 & H3). unfold StrictlyAscending. rewrite !StronglySorted_app_iff.
      intros (_ & (Aq & _) & _). destruct eq as [|x [|y t]]; [now left|right; exists x; split; [reflexivity|apply H2; now left]|].
      exfalso. inversion Aq as [|? ? _ F]; subst. inversion F as [|? ? G _]; subst. unfold klt in G.
      destruct (H2 x ltac:(cbn; auto)) as (X1 & X2). destruct (H2 y ltac:(cbn; auto)) as (Y1 & Y2).
      destruct Tot as (_ & _ & Eq). destruct (Eq (key x) k (key y) X1 X2 Y2 Y1). congruence.
    Qed.
  End WithSplit.

  Lemma strict_asc l : StrictlyAscending klt l -> Ascending klt l.
  Proof.
    unfold StrictlyAscending, Ascending. intros H. induction H as [|x l H IH F]; [constructor|].
    constructor; [exact IH|]. rewrite Forall_forall in *. intros y Hy. apply tot_asym. apply F. exact Hy.
  Qed.

End Keys.

(** ** Vector steps used by all four containers *)
Section Vec.
  Context {T : Type}.
  Variable e : env.
  Variable es : Z.
  Hypothesis Hes : (0 < es)%Z.
  Hypothesis Henv : good_env e.
  Hypothesis Hmem : enough_memory e.

  (** With elements of two bytes or more, moving one element never meets the
      cases the byte moves get wrong. *)
  Lemma insert1_ok (v : vec T) l ip x : (2 <= es)%Z -> Vinv es v l -> ip <= length l -> (es * Z.of_nat (length l + 1) <= 2 ^ 31)%Z ->
    exists v', insert1 e es v ip x = Ok v' /\ Vinv es v' (seq_insert l ip [x]).
  Proof.
    intros H2 H Hi Hb. apply insert_list_ok; auto.
    - unfold seq_insert. rewrite !app_length, firstn_length, skipn_length. cbn [length].
      replace (Nat.min ip (length l) + (1 + (length l - ip))) with (length l + 1) by lia. exact Hb.
    - cbn [length]. unfold rot_good. rewrite Nat2Z.inj_add. change (Z.of_nat 1) with 1%Z.
      replace (es * (Z.of_nat (length l) + 1) - es * Z.of_nat (length l))%Z with es by lia.
      replace (es * Z.of_nat (length l) - es * Z.of_nat ip)%Z with (es * Z.of_nat (length l - ip))%Z
        by (rewrite Nat2Z.inj_sub by lia; lia).
      destruct (Nat.le_gt_cases (length l - ip) 1) as [L|L].
      + replace (es * Z.of_nat (length l - ip) <=? es)%Z with true; [reflexivity|].
        symmetry. apply Z.leb_le. nia.
      + assert (2 * es <= es * Z.of_nat (length l - ip))%Z by nia.
        replace (es * Z.of_nat (length l) mod 4 <=? es * Z.of_nat (length l - ip))%Z with true.
        2:{ symmetry. apply Z.leb_le. pose proof (Z.mod_pos_bound (es * Z.of_nat (length l)) 4 ltac:(lia)). lia. }
        destruct (es mod 4 =? 0)%Z eqn:E4.
        * replace ((es * Z.of_nat ip) mod 4 =? 0)%Z with true; [cbn; apply orb_true_r|].
          symmetry. apply Z.eqb_eq. apply Z.eqb_eq in E4. rewrite Z.mul_mod, E4 by lia. reflexivity.
        * cbn. apply orb_true_r.
  Qed.
  Lemma erase1_ok (v : vec T) l ep : Vinv es v l -> ep + 1 <= length l ->
    exists v', erase e es v ep 1 = Ok v' /\ Vinv es v' (seq_erase l ep 1).
  Proof.
    intros H Hk. apply erase_ok; auto. unfold rot_good.
    rewrite Nat2Z.inj_add. change (Z.of_nat 1) with 1%Z.
    replace (es * (Z.of_nat ep + 1) - es * Z.of_nat ep)%Z with es by lia.
    replace (es * Z.of_nat (length l) - es * (Z.of_nat ep + 1))%Z with (es * Z.of_nat (length l - ep - 1))%Z
      by (rewrite !Nat2Z.inj_sub by lia; lia).
    destruct (length l - ep - 1) as [|k].
    - replace (es * Z.of_nat 0 =? 0)%Z with true; [now rewrite orb_true_r|]. symmetry. apply Z.eqb_eq. lia.
    - replace (es <=? es * Z.of_nat (S k))%Z with true; [reflexivity|]. symmetry. apply Z.leb_le. nia.
  Qed.
  Lemma erase4_ok (v : vec T) l ep k : (es mod 4 = 0)%Z -> Vinv es v l -> ep + k <= length l ->
    exists v', erase e es v ep k = Ok v' /\ Vinv es v' (seq_erase l ep k).
  Proof.
    intros H4 H Hk. apply erase_ok; auto.
    destruct (rot_good_4 es (Z.of_nat ep) (Z.of_nat (ep + k)) (Z.of_nat (length l)) H4); [assumption|nia].
  Qed.
  Lemma vat_mid (v : vec T) lo x r : Vinv es v (lo ++ x :: r) -> vat v (length lo) = Ok x.
  Proof. intros H. apply (vat_ok es Hes v _ _ _ H). rewrite nth_error_app2, Nat.sub_diag by lia. reflexivity. Qed.
  Lemma Vinv_size (v : vec T) l : Vinv es v l -> vsize v = length l.
  Proof. intros H. apply H. Qed.
End Vec.

Section SetProofs.
  Context {T : Type}.
  Variable e : env.
  Variable es : Z.
  Variable comp eqb : T -> T -> bool.
  Hypothesis Hes : (0 < es)%Z.
  Hypothesis Hes2 : (2 <= es)%Z.
  Hypothesis Henv : good_env e.
  Hypothesis Hmem : enough_memory e.
  Hypothesis Tot : StrictWeak comp.
  Hypothesis Deq : EqvOf comp eqb.
  Notation key := (fun x : T => x).
  Notation Sp := (Split key comp).

  Lemma eqb_sym x y : eqb x y = eqb y x.
  Proof. rewrite (Deq x y), (Deq y x). unfold equiv. apply andb_comm. Qed.
  Lemma mem_filter x s : mem eqb x s = match filter (fun y => eqb y x) s with [] => false | _ => true end.
  Proof.
    unfold mem. induction s as [|y s IH]; [reflexivity|]. cbn [existsb filter]. rewrite IH, (eqb_sym x y).
    destruct (eqb y x); reflexivity.
  Qed.
  Lemma mem_perm x l s : Permutation l s -> mem eqb x l = mem eqb x s.
  Proof.
    intros H. unfold mem. induction H as [|y l l' H IH|y z l|l l' l'' H1 IH1 H2 IH2]; cbn [existsb]; [reflexivity|congruence| |congruence].
    rewrite !orb_assoc. f_equal. apply orb_comm.
  Qed.
  Lemma mem_split l k lo eq hi : Sp l k lo eq hi -> mem eqb k l = match eq with [] => false | _ => true end.
  Proof. intros HS. rewrite mem_filter, (split_eq key comp eqb Deq l k lo eq hi HS). reflexivity. Qed.

  Lemma below_len l s k lo eq hi : Sp l k lo eq hi -> Permutation l s -> below comp k s = length lo.
  Proof. intros HS P. unfold below. rewrite <- (countp_perm _ _ _ P). apply (split_below key comp Tot _ _ _ _ _ HS). Qed.
  Lemma upto_len l s k lo eq hi : Sp l k lo eq hi -> Permutation l s -> upto comp k s = length lo + length eq.
  Proof. intros HS P. unfold upto. rewrite <- (countp_perm _ _ _ P). apply (split_upto key comp Tot _ _ _ _ _ HS). Qed.

  Section Queries.
    Variables (v : vec T) (l s : list T).
    Hypothesis I : Vinv es v l.
    Hypothesis S : Ascending (klt key comp) l.
    Hypothesis P : Permutation l s.

    Lemma s_lower_ok k lo eq hi : Sp l k lo eq hi -> s_lower comp v k = Ok (length lo).
    Proof. intros HS. unfold s_lower. rewrite (contents_ok es Hes v l I). cbn [bind]. apply (split_lower key comp Tot _ _ _ _ _ HS). Qed.
    Lemma s_upper_ok k lo eq hi : Sp l k lo eq hi -> s_upper comp v k = Ok (length lo + length eq).
    Proof. intros HS. unfold s_upper. rewrite (contents_ok es Hes v l I). cbn [bind]. apply (split_upper key comp Tot _ _ _ _ _ HS). Qed.
    Lemma s_range_ok k lo eq hi : Sp l k lo eq hi -> s_equal_range comp v k = Ok (length lo, length lo + length eq).
    Proof. intros HS. unfold s_equal_range. rewrite (contents_ok es Hes v l I). cbn [bind]. apply (split_range key comp Tot _ _ _ _ _ HS). Qed.
    Lemma s_count_ok k lo eq hi : Sp l k lo eq hi -> s_count comp v k = Ok (length eq).
    Proof. intros HS. unfold s_count. rewrite (s_range_ok k lo eq hi HS). cbn [bind]. f_equal. lia. Qed.
    Lemma s_find_ok k lo eq hi : Sp l k lo eq hi ->
      s_find comp eqb v k = Ok (match eq with [] => length l | _ => length lo end).
    Proof.
      intros HS. unfold s_find. rewrite (s_lower_ok k lo eq hi HS). cbn [bind]. rewrite (Vinv_size es v l I).
      pose proof HS as (E & H1 & H2 & H3). pose proof I as I'. rewrite E in I'.
      assert (EL : length l = length lo + (length eq + length hi)) by (rewrite E, !app_length; reflexivity).
      destruct eq as [|y t].
      - destruct (Nat.eqb_spec (length lo) (length l)); [reflexivity|].
        destruct hi as [|z hi]; [cbn in *; lia|]. rewrite (vat_mid es Hes v lo z hi I'). cbn [bind].
        replace (eqb z k) with false; [reflexivity|]. symmetry. apply (keqb_hi comp eqb Deq). apply H3. now left.
      - destruct (Nat.eqb_spec (length lo) (length l)); [cbn in *; lia|].
        rewrite (vat_mid es Hes v lo y (t ++ hi) I'). cbn [bind].
        replace (eqb y k) with true; [reflexivity|]. symmetry. apply (keqb_true key comp eqb Deq). apply H2. now left.
    Qed.
    Lemma find_out k : exists i, s_find comp eqb v k = Ok i /\
      found v i = if mem eqb k s then Some (below comp k s) else None.
    Proof.
      destruct (split_exists key comp Tot l k S) as (lo & eq & hi & HS). exists (match eq with [] => length l | _ => length lo end).
      split; [exact (s_find_ok k lo eq hi HS)|]. unfold found. rewrite (Vinv_size es v l I).
      rewrite <- (mem_perm k l s P), (mem_split l k lo eq hi HS), (below_len l s k lo eq hi HS P).
      destruct eq as [|y t]; [now rewrite Nat.eqb_refl|].
      destruct HS as (E & _). replace (length lo =? length l) with false; [reflexivity|].
      rewrite E, !app_length. cbn. lia.
    Qed.
  End Queries.

  Definition Rset (v : vec T) (s : list T) : Prop :=
    exists l, Vinv es v l /\ StrictlyAscending (klt key comp) l /\ Permutation l s.

  Lemma set_insert_ok v s x : Rset v s -> (es * Z.of_nat (length s + 1) <= 2 ^ 31)%Z ->
    exists v', set_insert e es comp v x = Ok (v', below comp x s, negb (mem eqb x s)) /\ Rset v' (add eqb s x).
  Proof.
    intros (l & I & S & P) Hb. assert (SA := strict_asc key comp Tot l S).
    destruct (split_exists key comp Tot l x SA) as (lo & eq & hi & HS).
    unfold set_insert. rewrite (s_lower_ok v l I x lo eq hi HS). cbn [bind]. rewrite (Vinv_size es v l I).
    assert (Hls : length l = length s) by now apply Permutation_length.
    unfold add. rewrite <- (mem_perm x l s P), (mem_split l x lo eq hi HS), (below_len l s x lo eq hi HS P).
    pose proof HS as (E & H1 & H2 & H3). pose proof I as I'. rewrite E in I'.
    assert (EL : length l = length lo + (length eq + length hi)) by (rewrite E, !app_length; reflexivity).
    destruct (strict_eq key comp Tot l x lo eq hi HS S) as [->|(y & -> & Hy)].
    - assert (Ins : (if length lo =? length l then Ok true else y <- vat v (length lo);; Ok (comp x y)) = Ok true).
      { destruct (Nat.eqb_spec (length lo) (length l)); [reflexivity|].
        destruct hi as [|z hi]; [cbn in *; lia|]. rewrite (vat_mid es Hes v lo z hi I'). cbn [bind]. now rewrite H3 by now left. }
      rewrite Ins. cbn [bind].
      destruct (insert1_ok e es Hes Henv Hmem v l (length lo) x Hes2 I) as (v' & Ev & I2); [lia|rewrite Hls; exact Hb|].
      rewrite Ev. cbn [bind]. exists v'. split; [reflexivity|].
      rewrite (split_insert_lower key comp l x lo [] hi HS) in I2. exists (lo ++ x :: hi). split; [exact I2|].
      split; [eapply strict_insert; eauto|]. rewrite <- P, E. symmetry. apply Permutation_middle.
    - destruct (Nat.eqb_spec (length lo) (length l)); [cbn in *; lia|].
      rewrite (vat_mid es Hes v lo y hi I'). cbn [bind]. rewrite (proj2 Hy). exists v. split; [reflexivity|].
      exists l. auto.
  Qed.

  Lemma add_length s x : length (add eqb s x) <= length s + 1.
  Proof. unfold add. destruct (mem eqb x s); cbn; lia. Qed.

  Lemma set_insert_all_ok xs : forall v s, Rset v s -> (es * Z.of_nat (length s + length xs) <= 2 ^ 31)%Z ->
    exists v', set_insert_all e es comp v xs = Ok v' /\ Rset v' (fold_left (add eqb) xs s) /\
      length (fold_left (add eqb) xs s) <= length s + length xs.
  Proof.
    induction xs as [|x t IH]; intros v s R Hb; cbn [set_insert_all fold_left].
    - exists v. split; [reflexivity|]. split; [exact R|cbn; lia].
    - cbn [length] in Hb. destruct (set_insert_ok v s x R) as (v' & E & R'); [nia|]. rewrite E. cbn [bind].
      pose proof (add_length s x). destruct (IH v' (add eqb s x) R') as (v2 & E2 & R2 & L2); [nia|].
      exists v2. split; [exact E2|]. split; [exact R2|]. cbn [length]. lia.
  Qed.

  Lemma set_erase_ok v s x : Rset v s -> exists v', set_erase e es comp eqb v x = Ok v' /\ Rset v' (remove eqb s x).
  Proof.
    intros (l & I & S & P). assert (SA := strict_asc key comp Tot l S).
    destruct (split_exists key comp Tot l x SA) as (lo & eq & hi & HS).
    unfold set_erase. rewrite (s_find_ok v l I x lo eq hi HS). cbn [bind]. rewrite (Vinv_size es v l I).
    pose proof HS as (E & H1 & H2 & H3).
    assert (EL : length l = length lo + (length eq + length hi)) by (rewrite E, !app_length; reflexivity).
    assert (PR : Permutation (lo ++ hi) (remove eqb s x)).
    { unfold remove. rewrite <- (split_rest key comp eqb Deq l x lo eq hi HS). apply filter_perm. exact P. }
    destruct (strict_eq key comp Tot l x lo eq hi HS S) as [->|(y & -> & Hy)].
    - rewrite Nat.eqb_refl. exists v. split; [reflexivity|]. exists l. split; [exact I|]. split; [exact S|]. now rewrite <- PR, E.
    - destruct (Nat.eqb_spec (length lo) (length l)); [cbn in *; lia|].
      destruct (erase1_ok e es Hes Henv v l (length lo) I) as (v' & Ev & I2); [cbn in *; lia|].
      exists v'. split; [exact Ev|]. pose proof (split_erase key comp l x lo [y] hi HS) as SE. cbn [length] in SE. rewrite SE in I2.
      exists (lo ++ hi). split; [exact I2|]. split; [|exact PR]. eapply sorted_erase; eauto.
  Qed.

  Lemma Rset_nil v : Vinv es v [] -> Rset v [].
  Proof. intros I. exists []. split; [exact I|]. split; constructor. Qed.


  Lemma set_step_ok v s o : Rset v s -> (es * Z.of_nat (length s + set_inserts o) <= 2 ^ 31)%Z ->
    exists v', set_step e es comp eqb v o = Ok (v', snd (set_spec comp eqb s o)) /\
      Rset v' (fst (set_spec comp eqb s o)) /\ length (fst (set_spec comp eqb s o)) <= length s + set_inserts o.
  Proof.
    intros R Hb. destruct o; cbn [set_step set_spec set_inserts fst snd] in *.
    - destruct (set_insert_ok v s x R Hb) as (v' & E & R'). rewrite E. cbn [bind].
      exists v'. split; [reflexivity|]. split; [exact R'|apply add_length].
    - destruct (set_erase_ok v s x R) as (v' & E & R'). rewrite E. cbn [bind]. exists v'. split; [reflexivity|].
      split; [exact R'|]. unfold remove. pose proof (filter_le (fun y => negb (eqb y x)) s). lia.
    - destruct R as (l & I & _). destruct (clear_ok es Hes v l I) as (v' & E & I2). rewrite E. cbn [bind].
      exists v'. split; [reflexivity|]. split; [apply Rset_nil; exact I2|cbn; lia].
    - destruct (set_insert_all_ok xs v s R Hb) as (v' & E & R' & L). rewrite E. cbn [bind]. eauto.
    - destruct R as (l & I & _). destruct (clear_ok es Hes v l I) as (v' & E & I2). rewrite E. cbn [bind].
      destruct (set_insert_all_ok xs v' [] (Rset_nil v' I2)) as (v2 & E2 & R' & L); [cbn [length]; nia|].
      rewrite E2. cbn [bind]. exists v2. split; [reflexivity|]. split; [exact R'|cbn [length] in L; lia].
    - pose proof R as (l & I & S & P). destruct (find_out v l s I (strict_asc key comp Tot l S) P x) as (i & E & F).
      rewrite E. cbn [bind]. rewrite F. exists v. split; [reflexivity|]. split; [exact R|lia].
    - pose proof R as (l & I & S & P). destruct (split_exists key comp Tot l x (strict_asc key comp Tot l S)) as (lo & eq & hi & HS).
      rewrite (s_count_ok v l I x lo eq hi HS). cbn [bind]. rewrite <- (mem_perm x l s P), (mem_split l x lo eq hi HS).
      exists v. split; [|split; [exact R|lia]].
      destruct (strict_eq key comp Tot l x lo eq hi HS S) as [->|(y & -> & _)]; reflexivity.
    - pose proof R as (l & I & S & P). destruct (split_exists key comp Tot l x (strict_asc key comp Tot l S)) as (lo & eq & hi & HS).
      rewrite (s_lower_ok v l I x lo eq hi HS), (below_len l s x lo eq hi HS P). cbn [bind]. exists v. split; [reflexivity|]. split; [exact R|lia].
    - pose proof R as (l & I & S & P). destruct (split_exists key comp Tot l x (strict_asc key comp Tot l S)) as (lo & eq & hi & HS).
      rewrite (s_upper_ok v l I x lo eq hi HS), (upto_len l s x lo eq hi HS P). cbn [bind]. exists v. split; [reflexivity|]. split; [exact R|lia].
  Qed.

  (** *** multiset *)
  Definition Rbag (v : vec T) (s : list T) : Prop :=
    exists l, Vinv es v l /\ Ascending (klt key comp) l /\ Permutation l s /\
      forall k, filter (fun y => eqb y k) l = filter (fun y => eqb y k) s.

  Lemma mset_insert_ok v s x : Rbag v s -> (es * Z.of_nat (length s + 1) <= 2 ^ 31)%Z ->
    exists v', mset_insert e es comp v x = Ok (v', upto comp x s) /\ Rbag v' (s ++ [x]).
  Proof.
    intros (l & I & S & P & F) Hb. destruct (split_exists key comp Tot l x S) as (lo & eq & hi & HS).
    unfold mset_insert. rewrite (s_upper_ok v l I x lo eq hi HS), (upto_len l s x lo eq hi HS P). cbn [bind].
    assert (Hls : length l = length s) by now apply Permutation_length.
    pose proof HS as (E & H1 & H2 & H3). assert (EL : length l = length lo + (length eq + length hi)) by (rewrite E, !app_length; reflexivity).
    destruct (insert1_ok e es Hes Henv Hmem v l (length lo + length eq) x Hes2 I) as (v' & Ev & I2); [lia|rewrite Hls; exact Hb|].
    rewrite Ev. cbn [bind]. exists v'. split; [reflexivity|].
    rewrite (split_insert_upper key comp l x lo eq hi HS) in I2. eexists; split; [exact I2|].
    split; [eapply asc_insert_upper; eauto|]. split.
    - rewrite <- P, E, !app_assoc. rewrite <- Permutation_middle. symmetry. rewrite <- Permutation_cons_append. reflexivity.
    - intros k. rewrite (filter_app _ s [x]), <- F, E, !filter_app. cbn [filter]. destruct (eqb x k) eqn:Ek; [|now rewrite app_nil_r].
      replace (filter (fun y => eqb y k) hi) with (@nil T); [now rewrite app_nil_r, !app_assoc|].
      symmetry. apply filter_none. intros y Hy. apply (keqb_hi comp eqb Deq).
      apply (keqb_true key comp eqb Deq) in Ek. destruct Ek as (Ek & _). apply (sw_le_lt_trans comp Tot k x y Ek). apply H3. exact Hy.
  Qed.
  Lemma mset_insert_all_ok xs : forall v s, Rbag v s -> (es * Z.of_nat (length s + length xs) <= 2 ^ 31)%Z ->
    exists v', mset_insert_all e es comp v xs = Ok v' /\ Rbag v' (s ++ xs).
  Proof.
    induction xs as [|x t IH]; intros v s R Hb; cbn [mset_insert_all].
    - exists v. rewrite app_nil_r. auto.
    - cbn [length] in Hb. destruct (mset_insert_ok v s x R) as (v' & E & R'); [nia|]. rewrite E. cbn [bind].
      destruct (IH v' (s ++ [x]) R') as (v2 & E2 & R2); [rewrite app_length; cbn [length]; nia|].
      exists v2. split; [exact E2|]. rewrite <- app_assoc in R2. exact R2.
  Qed.
  Lemma mset_erase_ok v s x : (es mod 4 = 0)%Z -> Rbag v s ->
    exists v', mset_erase e es comp v x = Ok (v', countp (fun y => eqb y x) s) /\ Rbag v' (remove eqb s x).
  Proof.
    intros H4 (l & I & S & P & F). destruct (split_exists key comp Tot l x S) as (lo & eq & hi & HS).
    unfold mset_erase. rewrite (s_range_ok v l I x lo eq hi HS). cbn [bind].
    replace (length lo + length eq - length lo) with (length eq) by lia.
    pose proof HS as (E & _). assert (EL : length l = length lo + (length eq + length hi)) by (rewrite E, !app_length; reflexivity).
    destruct (erase4_ok e es Hes Henv v l (length lo) (length eq) H4 I) as (v' & Ev & I2); [lia|].
    rewrite Ev. cbn [bind]. exists v'. split.
    - rewrite <- (countp_perm _ _ _ P). unfold countp. rewrite (split_eq key comp eqb Deq l x lo eq hi HS). reflexivity.
    - rewrite (split_erase key comp l x lo eq hi HS) in I2. eexists; split; [exact I2|].
      split; [eapply sorted_erase; eauto|].
      unfold remove. rewrite <- (split_rest key comp eqb Deq l x lo eq hi HS). split; [now apply filter_perm|].
      intros k. assert (FF : forall u, filter (fun p => eqb p k) (filter (fun p : T => negb (eqb p x)) u)
        = filter (fun p => negb (eqb p x)) (filter (fun p => eqb p k) u)).
      { clear. induction u as [|y u IH]; [reflexivity|]. cbn [filter].
        destruct (eqb y k) eqn:E1, (eqb y x) eqn:E2; cbn [negb filter]; rewrite ?E1, ?E2; cbn [negb]; rewrite ?IH; reflexivity. }
      rewrite !FF, F. reflexivity.
  Qed.
  Lemma Rbag_nil v : Vinv es v [] -> Rbag v [].
  Proof. intros I. exists []. split; [exact I|]. split; [constructor|]. split; [constructor|reflexivity]. Qed.

  Lemma mset_step_ok (H4 : (es mod 4 = 0)%Z) v s o : Rbag v s -> (es * Z.of_nat (length s + set_inserts o) <= 2 ^ 31)%Z ->
    exists v', mset_step e es comp eqb v o = Ok (v', snd (bag_spec comp eqb s o)) /\
      Rbag v' (fst (bag_spec comp eqb s o)) /\ length (fst (bag_spec comp eqb s o)) <= length s + set_inserts o.
  Proof.
    intros R Hb. destruct o; cbn [mset_step bag_spec set_inserts fst snd] in *.
    - destruct (mset_insert_ok v s x R Hb) as (v' & E & R'). rewrite E. cbn [bind].
      exists v'. split; [reflexivity|]. split; [exact R'|rewrite app_length; cbn; lia].
    - destruct (mset_erase_ok v s x H4 R) as (v' & E & R'). rewrite E. cbn [bind]. exists v'. split; [reflexivity|].
      split; [exact R'|]. unfold remove. pose proof (filter_le (fun y => negb (eqb y x)) s). lia.
    - destruct R as (l & I & _). destruct (clear_ok es Hes v l I) as (v' & E & I2). rewrite E. cbn [bind].
      exists v'. split; [reflexivity|]. split; [apply Rbag_nil; exact I2|cbn; lia].
    - destruct (mset_insert_all_ok xs v s R Hb) as (v' & E & R'). rewrite E. cbn [bind].
      exists v'. split; [reflexivity|]. split; [exact R'|rewrite app_length; lia].
    - destruct R as (l & I & _). destruct (clear_ok es Hes v l I) as (v' & E & I2). rewrite E. cbn [bind].
      destruct (mset_insert_all_ok xs v' [] (Rbag_nil v' I2)) as (v2 & E2 & R'); [cbn [length]; nia|].
      rewrite E2. cbn [bind]. exists v2. split; [reflexivity|]. split; [exact R'|lia].
    - pose proof R as (l & I & S & P & F). destruct (find_out v l s I S P x) as (i & E & F').
      rewrite E. cbn [bind]. rewrite F'. exists v. split; [reflexivity|]. split; [exact R|lia].
    - pose proof R as (l & I & S & P & F). destruct (split_exists key comp Tot l x S) as (lo & eq & hi & HS).
      rewrite (s_count_ok v l I x lo eq hi HS). cbn [bind]. rewrite <- (countp_perm _ _ _ P). unfold countp.
      rewrite (split_eq key comp eqb Deq l x lo eq hi HS). exists v. split; [reflexivity|]. split; [exact R|lia].
    - pose proof R as (l & I & S & P & F). destruct (split_exists key comp Tot l x S) as (lo & eq & hi & HS).
      rewrite (s_lower_ok v l I x lo eq hi HS), (below_len l s x lo eq hi HS P). cbn [bind]. exists v. split; [reflexivity|]. split; [exact R|lia].
    - pose proof R as (l & I & S & P & F). destruct (split_exists key comp Tot l x S) as (lo & eq & hi & HS).
      rewrite (s_upper_ok v l I x lo eq hi HS), (upto_len l s x lo eq hi HS P). cbn [bind]. exists v. split; [reflexivity|]. split; [exact R|lia].
  Qed.
End SetProofs.

(** Lifting a step refinement to histories. *)
Lemma run_refines {S O R X} (es : Z) (step : S -> O -> outcome (S * R)) (spec : list X -> O -> list X * R)
  (cost : O -> nat) (Rel : S -> list X -> Prop) : (0 < es)%Z ->
  (forall v s o, Rel v s -> (es * Z.of_nat (length s + cost o) <= 2 ^ 31)%Z ->
     exists v', step v o = Ok (v', snd (spec s o)) /\ Rel v' (fst (spec s o)) /\
       length (fst (spec s o)) <= length s + cost o) ->
  forall ops v s, Rel v s -> (es * Z.of_nat (length s + total cost ops) <= 2 ^ 31)%Z ->
  exists v', run_ops step v ops = Ok (v', snd (spec_run spec s ops)) /\ Rel v' (fst (spec_run spec s ops)).
Proof.
  intros Hes Hstep. induction ops as [|o t IH]; intros v s HR Hb; cbn [run_ops spec_run]; [eauto|].
  unfold total in Hb. cbn [map list_sum fold_right] in Hb.
  destruct (Hstep v s o HR) as (v' & E & R' & L); [unfold list_sum in *; nia|].
  rewrite E. cbn [bind]. destruct (spec s o) as [s' r]. cbn [fst snd] in *.
  destruct (IH v' s' R') as (v2 & E2 & R2); [unfold total, list_sum in *; nia|].
  rewrite E2. cbn [bind]. destruct (spec_run spec s' t) as [s2 rs]. cbn [fst snd] in *. eauto.
Qed.
