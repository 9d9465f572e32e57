(** * MapProofs: map and multimap refine finite maps and multimaps. *)
From Verif Require Import Base Order UtilModel StoreModel VectorModel VectorSpec StoreProofs VectorProofs
  ArrayModel BoundProofs AssocModel AssocSpec AssocProofs.
From Coq Require Import ZArith ZifyBool ZifyNat.
Local Open Scope nat_scope.

Lemma find_filter {A} (p : A -> bool) l : find p l = hd_error (filter p l).
Proof. induction l as [|x l IH]; [reflexivity|]. cbn [find filter]. destruct (p x); [reflexivity|exact IH]. Qed.

Section MapProofs.
  Context {K V : Type}.
  Variable e : env.
  Variable es : Z.
  Variable comp keqb : K -> K -> bool.
  Variable dflt : V.
  Hypothesis Hes : (0 < es)%Z.
  Hypothesis Hes2 : (2 <= es)%Z.
  Hypothesis Henv : good_env e.
  Hypothesis Hmem : enough_memory e.
  Hypothesis Tot : StrictWeak comp.
  Hypothesis Deq : EqvOf comp keqb.
  Notation A := (K * V)%type.
  Notation Sp := (Split (@fst K V) comp).
  Notation lt := (klt (@fst K V) comp).

  Lemma kbelow_len (l s : list A) k lo eq hi : Sp l k lo eq hi -> Permutation l s -> kbelow comp k s = length lo.
  Proof. intros HS P. unfold kbelow. rewrite <- (countp_perm _ _ _ P). apply (split_below (@fst K V) comp Tot _ _ _ _ _ HS). Qed.
  Lemma kupto_len (l s : list A) k lo eq hi : Sp l k lo eq hi -> Permutation l s -> kupto comp k s = length lo + length eq.
  Proof. intros HS P. unfold kupto. rewrite <- (countp_perm _ _ _ P). apply (split_upto (@fst K V) comp Tot _ _ _ _ _ HS). Qed.

  Section Queries.
    Variables (v : vec A) (l : list A).
    Hypothesis I : Vinv es v l.
    Variables (k : K) (lo eq hi : list A).
    Hypothesis HS : Sp l k lo eq hi.

    Lemma m_lower_ok : m_lower comp v k = Ok (length lo).
    Proof. unfold m_lower. rewrite (contents_ok es Hes v l I). cbn [bind]. apply (split_lower (@fst K V) comp Tot _ _ _ _ _ HS). Qed.
    Lemma m_upper_ok : m_upper comp v k = Ok (length lo + length eq).
    Proof. unfold m_upper. rewrite (contents_ok es Hes v l I). cbn [bind]. apply (split_upper (@fst K V) comp Tot _ _ _ _ _ HS). Qed.
    Lemma m_range_ok : m_equal_range comp v k = Ok (length lo, length lo + length eq).
    Proof. unfold m_equal_range. rewrite (contents_ok es Hes v l I). cbn [bind]. apply (split_range (@fst K V) comp Tot _ _ _ _ _ HS). Qed.
    Lemma m_count_ok : m_count comp v k = Ok (length eq).
    Proof. unfold m_count. rewrite m_range_ok. cbn [bind]. f_equal. lia. Qed.
    Lemma split_length : length l = length lo + (length eq + length hi).
    Proof. destruct HS as (-> & _). now rewrite !app_length. Qed.
    Lemma m_find_ok : m_find comp v k = Ok (match eq with [] => length l | _ => length lo end).
    Proof.
      unfold m_find. rewrite m_lower_ok. cbn [bind]. rewrite (Vinv_size es v l I).
      pose proof split_length as EL. pose proof HS as (E & H1 & H2 & H3). pose proof I as I'. rewrite E in I'.
      destruct eq as [|y t].
      - destruct (Nat.ltb_spec (length lo) (length l)); [|f_equal; cbn [length] in *; lia].
        destruct hi as [|z hi']; [cbn [length] in *; lia|]. rewrite (vat_mid es Hes v lo z hi' I'). cbn [bind].
        rewrite (H3 z) by now left. reflexivity.
      - destruct (Nat.ltb_spec (length lo) (length l)); [|cbn [length] in *; lia].
        rewrite (vat_mid es Hes v lo y (t ++ hi) I'). cbn [bind].
        rewrite (proj2 (H2 y ltac:(now left))). reflexivity.
    Qed.
    Lemma map_lookup_ok : map_lookup comp v k = Ok (option_map snd (hd_error eq)).
    Proof.
      unfold map_lookup. rewrite m_find_ok. cbn [bind]. rewrite (Vinv_size es v l I).
      pose proof split_length as EL. pose proof HS as (E & _). pose proof I as I'. rewrite E in I'.
      destruct eq as [|y t]; [now rewrite Nat.eqb_refl|].
      destruct (Nat.eqb_spec (length lo) (length l)); [cbn [length] in *; lia|].
      rewrite (vat_mid es Hes v lo y (t ++ hi) I'). reflexivity.
    Qed.
    Lemma ins_test : StrictlyAscending lt l ->
      (if length lo =? length l then Ok true else q <- vat v (length lo);; Ok (comp k (fst q)))
      = Ok (match eq with [] => true | _ => false end).
    Proof.
      intros S. pose proof split_length as EL. pose proof HS as (E & H1 & H2 & H3). pose proof I as I'. rewrite E in I'.
      destruct eq as [|y t].
      - destruct (Nat.eqb_spec (length lo) (length l)); [reflexivity|].
        destruct hi as [|z hi']; [cbn [length] in *; lia|]. rewrite (vat_mid es Hes v lo z hi' I'). cbn [bind]. now rewrite H3 by now left.
      - destruct (Nat.eqb_spec (length lo) (length l)); [cbn [length] in *; lia|].
        rewrite (vat_mid es Hes v lo y (t ++ hi) I'). cbn [bind]. now rewrite (proj2 (H2 y ltac:(now left))).
    Qed.
    Lemma lookup_filter s : filter (fun p => keqb (fst p) k) s = eq -> lookup keqb k s = option_map snd (hd_error eq).
    Proof. intros E. unfold lookup. now rewrite find_filter, E. Qed.
  End Queries.

  (** *** map *)
  Definition Rmap (v : vec A) (s : list A) : Prop :=
    exists l, Vinv es v l /\ StrictlyAscending lt l /\ Permutation l s.

  Lemma perm_short {X} (a b : list X) : Permutation a b -> length a <= 1 -> a = b.
  Proof.
    intros P L. destruct a as [|x [|y a]]; [|apply Permutation_length_1_inv in P; auto|cbn in L; lia].
    apply Permutation_nil in P. auto.
  Qed.
  Lemma lookup_strict l s k lo eq hi : Sp l k lo eq hi -> StrictlyAscending lt l -> Permutation l s ->
    lookup keqb k s = option_map snd (hd_error eq).
  Proof.
    intros HS S P. apply lookup_filter. symmetry. apply perm_short.
    - rewrite <- (split_eq (@fst K V) comp keqb Deq l k lo eq hi HS). now apply filter_perm.
    - destruct (strict_eq (@fst K V) comp Tot l k lo eq hi HS S) as [->|(x & -> & _)]; cbn; lia.
  Qed.

  Lemma stored_strict l s k lo eq hi : Sp l k lo eq hi -> StrictlyAscending lt l -> Permutation l s ->
    stored keqb k s = match eq with [] => k | p :: _ => fst p end.
  Proof.
    intros HS S P. unfold stored. rewrite find_filter.
    assert (E : filter (fun p => keqb (fst p) k) s = eq).
    { symmetry. apply perm_short.
      - rewrite <- (split_eq (@fst K V) comp keqb Deq l k lo eq hi HS). now apply filter_perm.
      - destruct (strict_eq (@fst K V) comp Tot l k lo eq hi HS S) as [->|(x & -> & _)]; cbn; lia. }
    rewrite E. destruct eq; reflexivity.
  Qed.

  Lemma place_ok v s k x : Rmap v s -> (es * Z.of_nat (length s + 1) <= 2 ^ 31)%Z ->
    lookup keqb k s = None ->
    exists v' lo hi, m_lower comp v k = Ok (length lo) /\ vsize v = length lo + length hi /\
      (if length lo =? vsize v then Ok true else q <- vat v (length lo);; Ok (comp k (fst q))) = Ok true /\
      kbelow comp k s = length lo /\
      insert1 e es v (length lo) (k, x) = Ok v' /\ Vinv es v' (lo ++ (k, x) :: hi) /\
      StrictlyAscending lt (lo ++ (k, x) :: hi) /\ Permutation (lo ++ hi) s /\ Permutation (lo ++ hi) (unbind keqb s k) /\
      stored keqb k s = k.
  Proof.
    intros (l & I & S & P) Hb Hn. assert (SA := strict_asc (@fst K V) comp Tot l S).
    destruct (split_exists (@fst K V) comp Tot l k SA) as (lo & eq & hi & HS).
    rewrite (lookup_strict l s k lo eq hi HS S P) in Hn.
    assert (Hls : length l = length s) by now apply Permutation_length.
    destruct eq as [|y t]; [|discriminate].
    assert (EL := split_length v l I k lo [] hi HS). cbn [length Nat.add] in EL.
    destruct (insert1_ok e es Hes Henv Hmem v l (length lo) (k, x) Hes2 I) as (v' & Ev & I2); [lia|rewrite Hls; exact Hb|].
    rewrite (split_insert_lower (@fst K V) comp l k lo [] hi HS) in I2.
    exists v', lo, hi. split; [exact (m_lower_ok v l I k lo [] hi HS)|].
    split; [rewrite (Vinv_size es v l I); exact EL|].
    split; [rewrite (Vinv_size es v l I); exact (ins_test v l I k lo [] hi HS S)|].
    split; [exact (kbelow_len l s k lo [] hi HS P)|]. split; [exact Ev|]. split; [exact I2|].
    split; [exact (strict_insert (@fst K V) comp l k lo [] hi HS (k, x) S eq_refl eq_refl)|].
    split; [rewrite <- P; destruct HS as (-> & _); reflexivity|].
    split; [unfold unbind; rewrite <- (split_rest (@fst K V) comp keqb Deq l k lo [] hi HS); now apply filter_perm|].
    exact (stored_strict l s k lo [] hi HS S P).
  Qed.
  Lemma present_ok v s k y : Rmap v s -> lookup keqb k s = Some y ->
    exists lo hi, m_lower comp v k = Ok (length lo) /\ vsize v = length lo + (1 + length hi) /\
      (if length lo =? vsize v then Ok true else q <- vat v (length lo);; Ok (comp k (fst q))) = Ok false /\
      kbelow comp k s = length lo /\ Vinv es v (lo ++ (stored keqb k s, y) :: hi) /\
      StrictlyAscending lt (lo ++ (stored keqb k s, y) :: hi) /\ Permutation (lo ++ (stored keqb k s, y) :: hi) s /\
      Permutation (lo ++ hi) (unbind keqb s k).
  Proof.
    intros (l & I & S & P) Hn. assert (SA := strict_asc (@fst K V) comp Tot l S).
    destruct (split_exists (@fst K V) comp Tot l k SA) as (lo & eq & hi & HS).
    rewrite (lookup_strict l s k lo eq hi HS S P) in Hn.
    destruct (strict_eq (@fst K V) comp Tot l k lo eq hi HS S) as [->|((k', y') & -> & Hk)]; [discriminate|].
    cbn in Hn. injection Hn as ->. rewrite (stored_strict l s k lo _ hi HS S P). cbn [fst].
    assert (EL := split_length v l I k lo [(k', y)] hi HS). cbn [length] in EL.
    pose proof HS as (E & _). cbn [app] in E.
    exists lo, hi. split; [exact (m_lower_ok v l I k lo _ hi HS)|].
    split; [rewrite (Vinv_size es v l I); exact EL|].
    split; [rewrite (Vinv_size es v l I); exact (ins_test v l I k lo _ hi HS S)|].
    split; [exact (kbelow_len l s k lo _ hi HS P)|]. rewrite <- E. split; [exact I|]. split; [exact S|]. split; [exact P|].
    unfold unbind. rewrite <- (split_rest (@fst K V) comp keqb Deq l k lo _ hi HS). now apply filter_perm.
  Qed.

  Lemma map_insert_ok v s p : Rmap v s -> (es * Z.of_nat (length s + 1) <= 2 ^ 31)%Z ->
    exists v', map_insert e es comp v p = Ok (v', kbelow comp (fst p) s,
        match lookup keqb (fst p) s with None => true | Some _ => false end) /\ Rmap v' (bind_new keqb s p).
  Proof.
    intros R Hb. destruct p as [k x]. unfold map_insert, bind_new. cbn [fst].
    destruct (lookup keqb k s) as [y|] eqn:EL.
    - destruct (present_ok v s k y R EL) as (lo & hi & M & _ & T & B & _).
      rewrite M. cbn [bind]. rewrite T. cbn [bind]. rewrite B. exists v. split; [reflexivity|exact R].
    - destruct (place_ok v s k x R Hb EL) as (v' & lo & hi & M & _ & T & B & E & I2 & S2 & P2 & _).
      rewrite M. cbn [bind]. rewrite T. cbn [bind]. rewrite B, E. cbn [bind]. exists v'. split; [reflexivity|].
      exists (lo ++ (k, x) :: hi). split; [exact I2|]. split; [exact S2|]. rewrite <- P2. symmetry. apply Permutation_middle.
  Qed.

  Lemma bind_new_length (s : list A) p : length (bind_new keqb s p) <= length s + 1.
  Proof. unfold bind_new. destruct (lookup keqb (fst p) s); cbn [length]; lia. Qed.

  Lemma map_insert_all_ok ps : forall v s, Rmap v s -> (es * Z.of_nat (length s + length ps) <= 2 ^ 31)%Z ->
    exists v', map_insert_all e es comp v ps = Ok v' /\ Rmap v' (fold_left (bind_new keqb) ps s) /\
      length (fold_left (bind_new keqb) ps s) <= length s + length ps.
  Proof.
    induction ps as [|x t IH]; intros v s R Hb; cbn [map_insert_all fold_left].
    - exists v. split; [reflexivity|]. split; [exact R|cbn; lia].
    - cbn [length] in Hb. destruct (map_insert_ok v s x R) as (v' & E & R'); [nia|]. rewrite E. cbn [bind].
      pose proof (bind_new_length s x). destruct (IH v' (bind_new keqb s x) R') as (v2 & E2 & R2 & L2); [nia|].
      exists v2. split; [exact E2|]. split; [exact R2|]. cbn [length]. lia.
  Qed.

  Lemma map_subscript_ok v s k : Rmap v s -> (es * Z.of_nat (length s + 1) <= 2 ^ 31)%Z ->
    exists v' lo hi y, map_subscript e es comp dflt v k = Ok (v', length lo) /\ Vinv es v' (lo ++ (stored keqb k s, y) :: hi) /\
      StrictlyAscending lt (lo ++ (stored keqb k s, y) :: hi) /\ Permutation (lo ++ (stored keqb k s, y) :: hi) (bind_new keqb s (k, dflt)) /\
      Permutation (lo ++ hi) (unbind keqb s k) /\
      y = match lookup keqb k s with Some x => x | None => dflt end.
  Proof.
    intros R Hb. unfold map_subscript, bind_new. cbn [fst]. destruct (lookup keqb k s) as [y|] eqn:EL.
    - destruct (present_ok v s k y R EL) as (lo & hi & M & _ & T & B & I2 & S2 & P2 & P3).
      rewrite M. cbn [bind]. rewrite T. cbn [bind]. exists v, lo, hi, y. auto 10.
    - destruct (place_ok v s k dflt R Hb EL) as (v' & lo & hi & M & _ & T & B & E & I2 & S2 & P2 & P3 & St).
      rewrite M. cbn [bind]. rewrite T. cbn [bind]. rewrite E. cbn [bind]. rewrite St. exists v', lo, hi, dflt.
      split; [reflexivity|]. split; [exact I2|]. split; [exact S2|]. split; [|auto].
      rewrite <- P2. symmetry. apply Permutation_middle.
  Qed.
  Lemma map_get_ok v s k : Rmap v s -> (es * Z.of_nat (length s + 1) <= 2 ^ 31)%Z ->
    exists v', map_get e es comp dflt v k = Ok (v', match lookup keqb k s with Some x => x | None => dflt end) /\
      Rmap v' (bind_new keqb s (k, dflt)).
  Proof.
    intros R Hb. destruct (map_subscript_ok v s k R Hb) as (v' & lo & hi & y & E & I & S & P & _ & Y).
    unfold map_get. rewrite E. cbn [bind]. rewrite (vat_mid es Hes v' lo _ hi I). cbn [bind snd]. rewrite <- Y.
    exists v'. split; [reflexivity|]. eexists; eauto.
  Qed.
  Lemma strict_replace lo hi k (y x : V) : StrictlyAscending lt (lo ++ (k, y) :: hi) -> StrictlyAscending lt (lo ++ (k, x) :: hi).
  Proof.
    unfold StrictlyAscending. rewrite !StronglySorted_app_iff. intros (A1 & A2 & A3). split; [exact A1|]. split.
    - inversion A2 as [|? ? A4 A5]; subst. constructor; [exact A4|]. exact A5.
    - intros a b Ha [<-|Hb]; [apply (A3 a (k, y) Ha); now left|apply A3; [exact Ha|now right]].
  Qed.
  Lemma map_set_ok v s k x : Rmap v s -> (es * Z.of_nat (length s + 1) <= 2 ^ 31)%Z ->
    exists v', map_set e es comp dflt v k x = Ok v' /\ Rmap v' ((stored keqb k s, x) :: unbind keqb s k).
  Proof.
    intros R Hb. destruct (map_subscript_ok v s k R Hb) as (v' & lo & hi & y & E & I & S & P & P2 & _).
    unfold map_set. rewrite E. cbn [bind]. rewrite (vat_mid es Hes v' lo _ hi I). cbn [bind fst].
    destruct I as ((j & C) & Sz & L & B). rewrite C, map_app, <- app_assoc. cbn [map app].
    pose proof (assign_cells_ok [(stored keqb k s, x)] (map Some lo) [(stored keqb k s, y)] (map Some hi ++ repeat None j) eq_refl) as D.
    rewrite map_length in D. cbn [map app] in D. rewrite D. cbn [bind].
    eexists. split; [reflexivity|]. exists (lo ++ (stored keqb k s, x) :: hi). split; [|split].
    - replace (map Some lo ++ Some (stored keqb k s, x) :: map Some hi ++ repeat None j) with (map Some (lo ++ (stored keqb k s, x) :: hi) ++ repeat None j)
        by (rewrite map_app, <- app_assoc; reflexivity).
      apply Vinv_mk2; [rewrite Sz, !app_length; reflexivity| |exact B].
      rewrite <- L, C, !app_length, !map_length, repeat_length, !app_length. reflexivity.
    - eapply strict_replace; eauto.
    - rewrite <- P2. symmetry. apply Permutation_middle.
  Qed.
  Lemma map_erase_ok v s k : Rmap v s -> exists v', map_erase e es comp v k = Ok v' /\ Rmap v' (unbind keqb s k).
  Proof.
    intros (l & I & S & P). assert (SA := strict_asc (@fst K V) comp Tot l S).
    destruct (split_exists (@fst K V) comp Tot l k SA) as (lo & eq & hi & HS).
    unfold map_erase. rewrite (m_find_ok v l I k lo eq hi HS). cbn [bind]. rewrite (Vinv_size es v l I).
    assert (EL := split_length v l I k lo eq hi HS). pose proof HS as (E & _).
    assert (PR : Permutation (lo ++ hi) (unbind keqb s k)).
    { unfold unbind. rewrite <- (split_rest (@fst K V) comp keqb Deq l k lo eq hi HS). apply filter_perm. exact P. }
    destruct (strict_eq (@fst K V) comp Tot l k lo eq hi HS S) as [->|(y & -> & Hy)].
    - rewrite Nat.eqb_refl. exists v. split; [reflexivity|]. exists l. split; [exact I|]. split; [exact S|]. now rewrite <- PR, E.
    - destruct (Nat.eqb_spec (length lo) (length l)); [cbn [length] in *; lia|].
      destruct (erase1_ok e es Hes Henv v l (length lo) I) as (v' & Ev & I2); [cbn [length] in *; lia|].
      exists v'. split; [exact Ev|]. pose proof (split_erase (@fst K V) comp l k lo [y] hi HS) as SE. cbn [length] in SE. rewrite SE in I2.
      exists (lo ++ hi). split; [exact I2|]. split; [|exact PR]. eapply sorted_erase; eauto.
  Qed.
  Lemma Rmap_nil v : Vinv es v [] -> Rmap v [].
  Proof. intros I. exists []. split; [exact I|]. split; constructor. Qed.

  Lemma map_step_ok v s o : Rmap v s -> (es * Z.of_nat (length s + map_inserts o) <= 2 ^ 31)%Z ->
    exists v', map_step e es comp dflt v o = Ok (v', snd (map_spec comp keqb dflt s o)) /\
      Rmap v' (fst (map_spec comp keqb dflt s o)) /\
      length (fst (map_spec comp keqb dflt s o)) <= length s + map_inserts o.
  Proof.
    intros R Hb.
    assert (UL : forall k, length (unbind keqb s k) <= length s) by (intros k; unfold unbind; apply filter_le).
    destruct o; cbn [map_step map_spec map_inserts fst snd] in *.
    - destruct (map_insert_ok v s (k, x) R Hb) as (v' & E & R'). rewrite E. cbn [bind].
      exists v'. split; [reflexivity|]. split; [exact R'|apply bind_new_length].
    - destruct (map_set_ok v s k x R Hb) as (v' & E & R'). rewrite E. cbn [bind]. exists v'. split; [reflexivity|].
      split; [exact R'|]. cbn [length]. specialize (UL k). lia.
    - destruct (map_get_ok v s k R Hb) as (v' & E & R'). rewrite E. cbn [bind]. exists v'. split; [reflexivity|].
      split; [exact R'|apply bind_new_length].
    - destruct (map_erase_ok v s k R) as (v' & E & R'). rewrite E. cbn [bind]. exists v'. split; [reflexivity|].
      split; [exact R'|]. specialize (UL k). lia.
    - destruct R as (l & I & _). destruct (clear_ok es Hes v l I) as (v' & E & I2). rewrite E. cbn [bind].
      exists v'. split; [reflexivity|]. split; [apply Rmap_nil; exact I2|cbn; lia].
    - destruct (map_insert_all_ok ps v s R Hb) as (v' & E & R' & L). rewrite E. cbn [bind]. eauto.
    - destruct R as (l & I & _). destruct (clear_ok es Hes v l I) as (v' & E & I2). rewrite E. cbn [bind].
      destruct (map_insert_all_ok ps v' [] (Rmap_nil v' I2)) as (v2 & E2 & R' & L); [cbn [length]; nia|].
      rewrite E2. cbn [bind]. exists v2. split; [reflexivity|]. split; [exact R'|cbn [length] in L; lia].
    - pose proof R as (l & I & S & P). destruct (split_exists (@fst K V) comp Tot l k (strict_asc (@fst K V) comp Tot l S)) as (lo & eq & hi & HS).
      rewrite (map_lookup_ok v l I k lo eq hi HS), (lookup_strict l s k lo eq hi HS S P). cbn [bind].
      exists v. split; [reflexivity|]. split; [exact R|lia].
    - pose proof R as (l & I & S & P). destruct (split_exists (@fst K V) comp Tot l k (strict_asc (@fst K V) comp Tot l S)) as (lo & eq & hi & HS).
      rewrite (m_count_ok v l I k lo eq hi HS), (lookup_strict l s k lo eq hi HS S P). cbn [bind].
      exists v. split; [|split; [exact R|lia]].
      destruct (strict_eq (@fst K V) comp Tot l k lo eq hi HS S) as [->|(y & -> & _)]; reflexivity.
    - pose proof R as (l & I & S & P). destruct (split_exists (@fst K V) comp Tot l k (strict_asc (@fst K V) comp Tot l S)) as (lo & eq & hi & HS).
      rewrite (m_lower_ok v l I k lo eq hi HS), (kbelow_len l s k lo eq hi HS P). cbn [bind]. exists v. split; [reflexivity|]. split; [exact R|lia].
    - pose proof R as (l & I & S & P). destruct (split_exists (@fst K V) comp Tot l k (strict_asc (@fst K V) comp Tot l S)) as (lo & eq & hi & HS).
      rewrite (m_upper_ok v l I k lo eq hi HS), (kupto_len l s k lo eq hi HS P). cbn [bind]. exists v. split; [reflexivity|]. split; [exact R|lia].
  Qed.

  (** *** multimap *)
  Definition Rmm (v : vec A) (s : list A) : Prop :=
    exists l, Vinv es v l /\ Ascending lt l /\ Permutation l s /\
      forall k, filter (fun p => keqb (fst p) k) l = filter (fun p => keqb (fst p) k) s.

  Lemma mmap_insert_ok v s p : Rmm v s -> (es * Z.of_nat (length s + 1) <= 2 ^ 31)%Z ->
    exists v', mmap_insert e es comp v p = Ok (v', kupto comp (fst p) s) /\ Rmm v' (s ++ [p]).
  Proof.
    intros (l & I & S & P & F) Hb. destruct p as [k x].
    destruct (split_exists (@fst K V) comp Tot l k S) as (lo & eq & hi & HS).
    unfold mmap_insert. cbn [fst]. rewrite (m_upper_ok v l I k lo eq hi HS), (kupto_len l s k lo eq hi HS P). cbn [bind].
    assert (Hls : length l = length s) by now apply Permutation_length.
    assert (EL := split_length v l I k lo eq hi HS). pose proof HS as (E & H1 & H2 & H3).
    destruct (insert1_ok e es Hes Henv Hmem v l (length lo + length eq) (k, x) Hes2 I) as (v' & Ev & I2); [lia|rewrite Hls; exact Hb|].
    rewrite Ev. cbn [bind]. exists v'. split; [reflexivity|].
    rewrite (split_insert_upper (@fst K V) comp l k lo eq hi HS) in I2. exists (lo ++ eq ++ (k, x) :: hi). split; [exact I2|].
    split; [eapply asc_insert_upper; eauto|]. split.
    - rewrite <- P, E, !app_assoc. rewrite <- Permutation_middle. symmetry. rewrite <- Permutation_cons_append. reflexivity.
    - intros k'. rewrite (filter_app _ s [(k, x)]), <- F, E, !filter_app. cbn [filter fst]. destruct (keqb k k') eqn:Ek; [|now rewrite app_nil_r].
      replace (filter (fun p => keqb (fst p) k') hi) with (@nil (K * V)); [now rewrite app_nil_r, !app_assoc|].
      symmetry. apply filter_none. intros y Hy. apply (keqb_hi comp keqb Deq).
      apply (keqb_true (fun x : K => x) comp keqb Deq) in Ek. destruct Ek as (Ek & _). apply (sw_le_lt_trans comp Tot k' k (fst y) Ek). apply H3. exact Hy.
  Qed.
  Lemma mmap_insert_all_ok ps : forall v s, Rmm v s -> (es * Z.of_nat (length s + length ps) <= 2 ^ 31)%Z ->
    exists v', mmap_insert_all e es comp v ps = Ok v' /\ Rmm v' (s ++ ps).
  Proof.
    induction ps as [|x t IH]; intros v s R Hb; cbn [mmap_insert_all].
    - exists v. rewrite app_nil_r. auto.
    - cbn [length] in Hb. destruct (mmap_insert_ok v s x R) as (v' & E & R'); [nia|]. rewrite E. cbn [bind].
      destruct (IH v' (s ++ [x]) R') as (v2 & E2 & R2); [rewrite app_length; cbn [length]; nia|].
      exists v2. split; [exact E2|]. rewrite <- app_assoc in R2. exact R2.
  Qed.
  Lemma mmap_erase_ok v s k : (es mod 4 = 0)%Z -> Rmm v s -> exists v', mmap_erase e es comp v k = Ok v' /\ Rmm v' (unbind keqb s k).
  Proof.
    intros H4 (l & I & S & P & F). destruct (split_exists (@fst K V) comp Tot l k S) as (lo & eq & hi & HS).
    unfold mmap_erase. rewrite (m_lower_ok v l I k lo eq hi HS). cbn [bind]. rewrite (m_upper_ok v l I k lo eq hi HS). cbn [bind].
    replace (length lo + length eq - length lo) with (length eq) by lia.
    assert (EL := split_length v l I k lo eq hi HS).
    destruct (erase4_ok e es Hes Henv v l (length lo) (length eq) H4 I) as (v' & Ev & I2); [lia|].
    rewrite Ev. exists v'. split; [reflexivity|].
    rewrite (split_erase (@fst K V) comp l k lo eq hi HS) in I2. exists (lo ++ hi). split; [exact I2|].
    split; [eapply sorted_erase; eauto|].
    unfold unbind. rewrite <- (split_rest (@fst K V) comp keqb Deq l k lo eq hi HS). split; [now apply filter_perm|].
    intros k'.
    assert (FF : forall u, filter (fun p => keqb (fst p) k') (filter (fun p : A => negb (keqb (fst p) k)) u)
      = filter (fun p => negb (keqb (fst p) k)) (filter (fun p => keqb (fst p) k') u)).
    { clear. induction u as [|y u IH]; [reflexivity|]. cbn [filter].
      destruct (keqb (fst y) k') eqn:E1, (keqb (fst y) k) eqn:E2; cbn [negb filter]; rewrite ?E1, ?E2; cbn [negb]; rewrite ?IH; reflexivity. }
    rewrite !FF, F. reflexivity.
  Qed.
  Lemma Rmm_nil v : Vinv es v [] -> Rmm v [].
  Proof. intros I. exists []. split; [exact I|]. split; [constructor|]. split; [constructor|reflexivity]. Qed.

  Lemma mmap_step_ok (H4 : (es mod 4 = 0)%Z) v s o : Rmm v s -> (es * Z.of_nat (length s + mmap_inserts o) <= 2 ^ 31)%Z ->
    exists v', mmap_step e es comp v o = Ok (v', snd (mmap_spec comp keqb s o)) /\
      Rmm v' (fst (mmap_spec comp keqb s o)) /\
      length (fst (mmap_spec comp keqb s o)) <= length s + mmap_inserts o.
  Proof.
    intros R Hb. destruct o; cbn [mmap_step mmap_spec mmap_inserts fst snd] in *.
    - destruct (mmap_insert_ok v s (k, x) R Hb) as (v' & E & R'). rewrite E. cbn [bind].
      exists v'. split; [reflexivity|]. split; [exact R'|rewrite app_length; cbn; lia].
    - destruct (mmap_erase_ok v s k H4 R) as (v' & E & R'). rewrite E. cbn [bind]. exists v'. split; [reflexivity|].
      split; [exact R'|]. unfold unbind. pose proof (filter_le (fun p : A => negb (keqb (fst p) k)) s). lia.
    - destruct R as (l & I & _). destruct (clear_ok es Hes v l I) as (v' & E & I2). rewrite E. cbn [bind].
      exists v'. split; [reflexivity|]. split; [apply Rmm_nil; exact I2|cbn; lia].
    - destruct (mmap_insert_all_ok ps v s R Hb) as (v' & E & R'). rewrite E. cbn [bind].
      exists v'. split; [reflexivity|]. split; [exact R'|rewrite app_length; lia].
    - destruct R as (l & I & _). destruct (clear_ok es Hes v l I) as (v' & E & I2). rewrite E. cbn [bind].
      destruct (mmap_insert_all_ok ps v' [] (Rmm_nil v' I2)) as (v2 & E2 & R'); [cbn [length]; nia|].
      rewrite E2. cbn [bind]. exists v2. split; [reflexivity|]. split; [exact R'|lia].
    - pose proof R as (l & I & S & P & F). destruct (split_exists (@fst K V) comp Tot l k S) as (lo & eq & hi & HS).
      assert (FE : filter (fun p => keqb (fst p) k) s = eq) by (rewrite <- F; exact (split_eq (@fst K V) comp keqb Deq l k lo eq hi HS)).
      rewrite (map_lookup_ok v l I k lo eq hi HS), (lookup_filter k eq s FE). cbn [bind].
      exists v. split; [reflexivity|]. split; [exact R|lia].
    - pose proof R as (l & I & S & P & F). destruct (split_exists (@fst K V) comp Tot l k S) as (lo & eq & hi & HS).
      rewrite (m_count_ok v l I k lo eq hi HS). cbn [bind]. unfold kcount, countp. rewrite <- F.
      rewrite (split_eq (@fst K V) comp keqb Deq l k lo eq hi HS). exists v. split; [reflexivity|]. split; [exact R|lia].
    - pose proof R as (l & I & S & P & F). destruct (split_exists (@fst K V) comp Tot l k S) as (lo & eq & hi & HS).
      unfold mmap_values. rewrite (m_range_ok v l I k lo eq hi HS). cbn [bind]. rewrite (contents_ok es Hes v l I). cbn [bind].
      unfold values. rewrite <- F, (split_eq (@fst K V) comp keqb Deq l k lo eq hi HS).
      exists v. split; [|split; [exact R|lia]]. do 4 f_equal. destruct HS as (-> & _). unfold slice.
      rewrite skipn_pre. replace (length lo + length eq - length lo) with (length eq) by lia. apply firstn_pre.
  Qed.
End MapProofs.
