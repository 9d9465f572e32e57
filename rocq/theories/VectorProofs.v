(** * VectorProofs: the vector model refines sequences. *)
From Verif Require Import Base UtilModel UtilProofs StoreModel VectorModel VectorSpec StoreProofs NumericProofs.
From Coq Require Import ZArith ZifyBool ZifyNat.
Local Open Scope nat_scope.

Section V.
  Context {T : Type}.
  Variable e : env.
  Variable es : Z.
  Variable dflt : T.
  Hypothesis Hes : (0 < es)%Z.
  Hypothesis Henv : good_env e.
  Hypothesis Hmem : enough_memory e.
  Implicit Types (v : vec T) (l : list T).

  (** The vector stores exactly [l]: live cells first, the rest raw. *)
  Definition Vinv v l : Prop :=
    (exists k, vcells v = map Some l ++ repeat None k) /\ vsize v = length l /\
    length (vcells v) = Z.to_nat (vcap v / es) /\ (0 <= vcap v <= 2 ^ 31)%Z.

  Lemma Vinv_cap v l : Vinv v l -> (es * Z.of_nat (length l) <= vcap v)%Z.
  Proof.
    intros ((k & E) & S & L & C).
    assert (length l <= Z.to_nat (vcap v / es)) by (rewrite <- L, E, app_length, map_length; lia).
    assert (0 <= vcap v / es)%Z by (apply Z.div_pos; lia).
    pose proof (Z.mul_div_le (vcap v) es Hes). nia.
  Qed.

  Lemma Vinv_nil : Vinv vec_nil [].
  Proof.
    split; [exists 0; reflexivity|]. split; [reflexivity|]. split; [|cbn; lia].
    reflexivity.
  Qed.

  Lemma realloc_cells_eq l k n : length l <= n ->
    realloc_cells (map Some l ++ repeat None k) n = map Some l ++ repeat None (n - length l).
  Proof.
    intros H. unfold realloc_cells. rewrite app_length, map_length, repeat_length.
    rewrite firstn_app, map_length.
    rewrite firstn_all2 by (rewrite map_length; lia). rewrite <- app_assoc. f_equal.
    destruct (Nat.le_ge_cases k (n - length l)).
    - rewrite firstn_all2 by (rewrite repeat_length; lia). rewrite <- repeat_app. f_equal. lia.
    - replace (n - (length l + k)) with 0 by lia. cbn [repeat]. rewrite app_nil_r.
      replace k with (n - length l + (k - (n - length l))) by lia.
      rewrite repeat_app, firstn_app, repeat_length, Nat.sub_diag. cbn [firstn].
      rewrite app_nil_r. apply firstn_all2. rewrite repeat_length. lia.
  Qed.

  Lemma reserve_ok v l newSize b : Vinv v l -> (newSize <= 2 ^ 31)%Z ->
    exists v' mv, vreserve_bytes e es v newSize b = Ok (v', mv) /\ Vinv v' l /\ (newSize <= vcap v')%Z /\
      (mv = false -> v' = v) /\ (newSize <= vcap v -> mv = false)%Z.
  Proof.
    intros H Hn. pose proof (Vinv_cap v l H) as Hc. destruct H as ((k & E) & S & L & C).
    unfold vreserve_bytes. destruct (Z.leb_spec newSize (vcap v)) as [Hle|Hgt].
    { exists v, false. split; [reflexivity|]. split; [unfold Vinv; eauto|]. auto. }
    set (n' := if b then newSize else next_pow2 newSize).
    assert (Hn' : (newSize <= n' <= 2 ^ 31)%Z).
    { unfold n'. destruct b; [lia|]. destruct (Z.eq_dec newSize 1) as [->|]; [cbn; lia|].
      pose proof (next_pow2_ok newSize ltac:(lia)) as Hp.
      split; [apply next_pow2_ge; lia|].
      rewrite next_pow2_val by lia. apply Z.pow_le_mono_r; [lia|].
      assert (Z.log2 (newSize - 1) <= Z.log2 (2 ^ 31 - 1))%Z by (apply Z.log2_le_mono; lia).
      change (Z.log2 (2 ^ 31 - 1)) with 30%Z in *. lia. }
    rewrite (Hmem n') by lia. eexists _, true. split; [reflexivity|].
    assert (Hlen : length l <= Z.to_nat (n' / es)).
    { assert (Z.of_nat (length l) <= n' / es)%Z by (apply Z.div_le_lower_bound; lia). lia. }
    split; [|split; [cbn; lia|split; [discriminate|lia]]].
    rewrite E, realloc_cells_eq by exact Hlen.
    split; [eexists; reflexivity|]. cbn [vsize vcells vcap].
    split; [exact S|]. split; [|lia]. rewrite app_length, map_length, repeat_length. lia.
  Qed.

  Lemma construct_ok x : forall (pre : list (option T)) post,
    construct (pre ++ repeat None (length x) ++ post) (length pre) x = Ok (pre ++ map Some x ++ post).
  Proof.
    induction x as [|h t IH]; intros pre post; [reflexivity|]. cbn [construct length repeat app map].
    rewrite rd_app. cbn [bind]. rewrite wr_app. cbn [bind].
    specialize (IH (pre ++ [Some h]) post). rewrite app_length, <- !app_assoc in IH. cbn [app length] in IH.
    replace (S (length pre)) with (length pre + 1) by lia. exact IH.
  Qed.

  Lemma destroy_ok x : forall (pre : list (option T)) post,
    destroy (pre ++ map Some x ++ post) (length pre) (length x) = Ok (pre ++ repeat None (length x) ++ post).
  Proof.
    induction x as [|h t IH]; intros pre post; [reflexivity|]. cbn [destroy length repeat app map].
    rewrite rd_app. cbn [bind]. rewrite wr_app. cbn [bind].
    specialize (IH (pre ++ [None]) post). rewrite app_length, <- !app_assoc in IH. cbn [app length] in IH.
    replace (S (length pre)) with (length pre + 1) by lia. exact IH.
  Qed.

  Lemma assign_cells_ok x : forall (pre : list (option T)) y post, length y = length x ->
    assign_cells (pre ++ map Some y ++ post) (length pre) x = Ok (pre ++ map Some x ++ post).
  Proof.
    induction x as [|h t IH]; intros pre [|g y] post L; try discriminate; [reflexivity|].
    cbn [assign_cells length repeat app map].
    rewrite rd_app. cbn [bind]. rewrite wr_app. cbn [bind].
    injection L as L. specialize (IH (pre ++ [Some h]) y post L). rewrite app_length, <- !app_assoc in IH. cbn [app length] in IH.
    replace (S (length pre)) with (length pre + 1) by lia. exact IH.
  Qed.

  (** The raw tail of the storage has room for [k] more cells. *)
  Lemma Vinv_room v l k : Vinv v l -> (es * Z.of_nat (length l + k) <= vcap v)%Z ->
    exists r, vcells v = map Some l ++ repeat None k ++ repeat None r.
  Proof.
    intros ((j & E) & S & L & C) H. exists (j - k).
    rewrite E. f_equal. rewrite <- repeat_app. f_equal.
    assert (length l + k <= Z.to_nat (vcap v / es)).
    { assert (Z.of_nat (length l + k) <= vcap v / es)%Z by (apply Z.div_le_lower_bound; lia). lia. }
    rewrite <- L, E, app_length, map_length, repeat_length in H0. lia.
  Qed.

  Lemma Vinv_mk l r c : length l + r = Z.to_nat (c / es) -> (0 <= c <= 2 ^ 31)%Z ->
    Vinv (mkvec (map Some l ++ repeat None r) (length l) c) l.
  Proof.
    intros H C. split; [exists r; reflexivity|]. split; [reflexivity|]. split; [|exact C].
    cbn [vcells vcap]. rewrite app_length, map_length, repeat_length. exact H.
  Qed.
  Lemma Vinv_mk2 l r n c : n = length l -> length l + r = Z.to_nat (c / es) -> (0 <= c <= 2 ^ 31)%Z ->
    Vinv (mkvec (map Some l ++ repeat None r) n c) l.
  Proof. intros ->. apply Vinv_mk. Qed.
  Lemma Vinv_len v l k r : Vinv v l -> vcells v = map Some l ++ repeat None k ++ repeat None r ->
    length l + k + r = Z.to_nat (vcap v / es).
  Proof. intros (_ & _ & L & _) E. rewrite <- L, E, !app_length, map_length, !repeat_length. lia. Qed.

  Lemma append_hole_ok v l k : Vinv v l -> (es * Z.of_nat (length l + k) <= 2 ^ 31)%Z ->
    exists v' mv r, append_hole e es v k = Ok (v', length l, mv) /\
      vcells v' = map Some l ++ repeat None k ++ repeat None r /\ vsize v' = length l + k /\
      length l + k + r = Z.to_nat (vcap v' / es) /\ (0 <= vcap v' <= 2 ^ 31)%Z /\
      (mv = false -> vcells v' = vcells v) /\ (es * Z.of_nat (length l + k) <= vcap v -> mv = false)%Z.
  Proof.
    intros H Hb. unfold append_hole, bytes. pose proof H as (_ & S & _). rewrite S.
    destruct (reserve_ok v l _ false H Hb) as (v' & mv & R & I & Hc & U & W).
    rewrite R. cbn [bind]. destruct (Vinv_room v' l k I Hc) as (r & Er).
    eexists _, mv, r. split; [reflexivity|]. cbn [vcells vsize vcap].
    split; [exact Er|]. split; [reflexivity|]. split; [apply (Vinv_len v' l k r I Er)|]. split; [apply I|].
    split; [intros Hm; now rewrite U|exact W].
  Qed.

  Lemma construct_end l x r : forall n, n = length l ->
    construct (map Some l ++ repeat None (length x) ++ repeat None r) n x = Ok (map Some (l ++ x) ++ repeat None r).
  Proof. intros n ->. rewrite <- (map_length (@Some T) l), construct_ok, map_app, <- app_assoc. reflexivity. Qed.

  Lemma push_back_ok v l x : Vinv v l -> (es * Z.of_nat (length l + 1) <= 2 ^ 31)%Z ->
    exists v', push_back e es v x = Ok v' /\ Vinv v' (l ++ [x]).
  Proof.
    intros H Hb. destruct (append_hole_ok v l 1 H Hb) as (v' & mv & r & E & C & S & L & B & _).
    unfold push_back. rewrite E. cbn [bind]. rewrite C, (construct_end l [x]) by reflexivity. cbn [bind].
    eexists; split; [reflexivity|]. rewrite S.
    replace (length l + 1) with (length (l ++ [x])) by (rewrite app_length; reflexivity).
    apply Vinv_mk; [rewrite app_length; cbn; lia|exact B].
  Qed.

  Lemma pop_back_ok v l : Vinv v l -> l <> [] ->
    exists v', pop_back v = Ok v' /\ Vinv v' (removelast l).
  Proof.
    intros ((k & E) & S & L & C) Hl. unfold pop_back.
    destruct (exists_last Hl) as (t & x & ->). rewrite removelast_last.
    rewrite S, app_length, Nat.add_1_r. rewrite E, map_app, <- app_assoc.
    pose proof (destroy_ok [x] (map Some t) (repeat None k)) as D. rewrite map_length in D. cbn [length] in D.
    rewrite D. cbn [bind]. eexists; split; [reflexivity|].
    change (repeat None 1 ++ repeat (@None T) k) with (repeat (@None T) (1 + k)).
    apply Vinv_mk; [|exact C]. rewrite <- L, E, !app_length, map_length, app_length, repeat_length. cbn. lia.
  Qed.

  Lemma rotate_vec_ok (pre a b post : list (option T)) cap :
    length (pre ++ a ++ b ++ post) = Z.to_nat (cap / es) -> (0 <= cap <= 2 ^ 31)%Z ->
    rot_good (es * Z.of_nat (length pre)) (es * Z.of_nat (length pre + length a))
           (es * Z.of_nat (length pre + length a + length b)) = true ->
    rotate_cells e es (malloc_at e cap) (pre ++ a ++ b ++ post) (length pre) (length pre + length a)
               (length pre + length a + length b) = Ok (pre ++ b ++ a ++ post).
  Proof.
    intros L C R. destruct (Henv cap C) as (A & P & Q & Z1).
    assert (es * Z.of_nat (length (pre ++ a ++ b ++ post)) <= cap)%Z.
    { rewrite L. assert (0 <= cap / es)%Z by (apply Z.div_pos; lia). rewrite Z2Nat.id by lia. apply Z.mul_div_le. lia. }
    apply rotate_cells_ok; auto; lia.
  Qed.

  Lemma insert_hole_ok v l ip k : Vinv v l -> ip <= length l -> (es * Z.of_nat (length l + k) <= 2 ^ 31)%Z ->
    rot_good (es * Z.of_nat ip) (es * Z.of_nat (length l)) (es * Z.of_nat (length l + k)) = true ->
    exists v' mv r, insert_hole e es v ip k = Ok (v', mv) /\
      vcells v' = map Some (firstn ip l) ++ repeat None k ++ map Some (skipn ip l) ++ repeat None r /\
      vsize v' = length l + k /\ length l + k + r = Z.to_nat (vcap v' / es) /\ (0 <= vcap v' <= 2 ^ 31)%Z /\
      (es * Z.of_nat (length l + k) <= vcap v -> mv = false)%Z.
  Proof.
    intros H Hi Hb Hr. unfold insert_hole, vreserve, bytes. pose proof H as (_ & S & _). rewrite S.
    destruct (Nat.ltb_spec (length l) ip) as [|_]; [lia|].
    destruct (reserve_ok v l _ false H Hb) as (v' & mv & R & I & Hc & U & W).
    rewrite R. cbn [bind].
    destruct (reserve_ok v' l _ false I Hb) as (v2 & mv2 & R2 & I2 & Hc2 & U2 & W2).
    rewrite R2. cbn [bind]. specialize (U2 (W2 Hc)). subst v2.
    destruct (Vinv_room v' l k I Hc) as (r & Er).
    assert (Hl : length (vcells v') = Z.to_nat (vcap v' / es)) by apply I.
    rewrite Er in Hl |- *.
    assert (El : map (@Some T) l = map Some (firstn ip l) ++ map Some (skipn ip l)) by (rewrite <- map_app, firstn_skipn; reflexivity).
    rewrite El in Hl |- *. rewrite <- app_assoc in Hl |- *.
    pose proof (rotate_vec_ok _ _ _ _ (vcap v') Hl (proj2 (proj2 (proj2 I)))) as RV.
    rewrite !map_length, firstn_length, skipn_length, repeat_length in RV.
    replace (Nat.min ip (length l)) with ip in RV by lia.
    replace (ip + (length l - ip)) with (length l) in RV by lia.
    rewrite RV by exact Hr. cbn [bind]. eexists _, mv, r. split; [reflexivity|]. cbn [vcells vsize vcap].
    split; [reflexivity|]. split; [reflexivity|]. split; [|split; [apply I|exact W]].
    rewrite <- Hl, !app_length, !map_length, firstn_length, skipn_length, !repeat_length. lia.
  Qed.

  Lemma insert_list_ok v l ip x : Vinv v l -> ip <= length l -> (es * Z.of_nat (length (seq_insert l ip x)) <= 2 ^ 31)%Z ->
    rot_good (es * Z.of_nat ip) (es * Z.of_nat (length l)) (es * Z.of_nat (length l + length x)) = true ->
    exists v', insert_list e es v ip x = Ok v' /\ Vinv v' (seq_insert l ip x).
  Proof.
    intros H Hi Hb Hr. assert (Hlen : length (seq_insert l ip x) = length l + length x).
    { unfold seq_insert. rewrite !app_length, firstn_length, skipn_length. lia. }
    rewrite Hlen in Hb.
    destruct (insert_hole_ok v l ip (length x) H Hi Hb Hr) as (v' & mv & r & E & C & S & L & B & _).
    unfold insert_list. rewrite E. cbn [bind]. rewrite C.
    pose proof (construct_ok x (map Some (firstn ip l)) (map Some (skipn ip l) ++ repeat None r)) as D.
    rewrite map_length, firstn_length in D. replace (Nat.min ip (length l)) with ip in D by lia.
    rewrite D. cbn [bind]. eexists; split; [reflexivity|].
    replace (map Some (firstn ip l) ++ map Some x ++ map Some (skipn ip l) ++ repeat None r)
      with (map Some (seq_insert l ip x) ++ repeat None r) by (unfold seq_insert; rewrite !map_app, <- !app_assoc; reflexivity).
    rewrite S, <- Hlen. apply Vinv_mk; [rewrite Hlen; exact L|exact B].
  Qed.

  Lemma erase_ok v l ep k : Vinv v l -> ep + k <= length l ->
    rot_good (es * Z.of_nat ep) (es * Z.of_nat (ep + k)) (es * Z.of_nat (length l)) = true ->
    exists v', erase e es v ep k = Ok v' /\ Vinv v' (seq_erase l ep k).
  Proof.
    intros H Hk Hr. pose proof (Vinv_cap v l H) as Hcap. destruct H as ((j & E) & S & L & C). unfold erase.
    assert (El : l = firstn ep l ++ firstn k (skipn ep l) ++ skipn (ep + k) l).
    { rewrite <- (firstn_skipn ep l) at 1. f_equal. rewrite <- (firstn_skipn k (skipn ep l)) at 1.
      f_equal. rewrite skipn_skipn. f_equal. lia. }
    remember (firstn ep l) as a eqn:Ea. remember (firstn k (skipn ep l)) as b eqn:Eb. remember (skipn (ep + k) l) as c eqn:Ec.
    assert (La : length a = ep) by (subst a; rewrite firstn_length; lia).
    assert (Lb : length b = k) by (subst b; rewrite firstn_length, skipn_length; lia).
    assert (Lc : length l = ep + k + length c) by (rewrite El at 1; rewrite !app_length; lia).
    assert (Ecells : vcells v = map Some a ++ map Some b ++ map Some c ++ repeat None j).
    { rewrite E. rewrite El at 1. rewrite !map_app, <- !app_assoc. reflexivity. }
    rewrite Ecells. pose proof (destroy_ok b (map Some a) (map Some c ++ repeat None j)) as D.
    rewrite map_length, La, Lb in D. rewrite D. cbn [bind vsize vcap vcells]. rewrite S.
    destruct (Nat.ltb_spec (length l) (ep + k)) as [|_]; [lia|].
    unfold vreserve_bytes, bytes. cbn [vcap vcells vsize].
    replace (es * Z.of_nat (length l) <=? vcap v)%Z with true by lia. cbn [bind vcap vcells vsize]. rewrite ?S.
    assert (Hl : length (map (@Some T) a ++ repeat None k ++ map (@Some T) c ++ repeat None j) = Z.to_nat (vcap v / es)).
    { rewrite <- L, Ecells, !app_length, !map_length, !repeat_length. lia. }
    pose proof (rotate_vec_ok _ _ _ _ (vcap v) Hl C) as RV.
    rewrite !map_length, repeat_length, La, <- Lc in RV. rewrite RV by exact Hr. cbn [bind].
    eexists; split; [reflexivity|].
    assert (Ese : seq_erase l ep k = a ++ c) by (unfold seq_erase; rewrite <- Ea, <- Ec; reflexivity).
    rewrite Ese.
    replace (map (@Some T) a ++ map Some c ++ repeat None k ++ repeat None j) with (map (@Some T) (a ++ c) ++ repeat None (k + j))
      by (rewrite map_app, repeat_app, <- !app_assoc; reflexivity).
    replace (length l - k) with (length (a ++ c)) by (rewrite app_length; lia).
    apply Vinv_mk; [|exact C]. rewrite <- Hl, !app_length, !map_length, !repeat_length. lia.
  Qed.

  Lemma resize_with_ok v l n x : Vinv v l -> (es * Z.of_nat n <= 2 ^ 31)%Z ->
    exists v', resize_with e es v n x = Ok v' /\ Vinv v' (seq_resize l n x).
  Proof.
    intros H Hb. unfold resize_with, bytes. pose proof H as (_ & S & _). rewrite S.
    destruct (reserve_ok v l _ false H Hb) as (v' & mv & R & I & Hc & U & W).
    rewrite R. cbn [bind]. destruct (Nat.ltb_spec n (length l)) as [Hn|Hn].
    - destruct I as ((j & E) & S' & L & C). rewrite E.
      replace (map (@Some T) l) with (map (@Some T) (firstn n l) ++ map Some (skipn n l)) by (rewrite <- map_app, firstn_skipn; reflexivity).
      rewrite <- app_assoc.
      pose proof (destroy_ok (skipn n l) (map Some (firstn n l)) (repeat None j)) as D.
      rewrite map_length, firstn_length, skipn_length in D. replace (Nat.min n (length l)) with n in D by lia.
      rewrite D. cbn [bind]. eexists; split; [reflexivity|]. unfold seq_resize.
      replace (n - length l) with 0 by lia. cbn [repeat]. rewrite app_nil_r, <- repeat_app.
      apply Vinv_mk2; [rewrite firstn_length; lia| |exact C].
      rewrite <- L, E, firstn_length, app_length, map_length, repeat_length. lia.
    - destruct (Vinv_room v' l (n - length l) I) as (r & Er).
      { replace (length l + (n - length l)) with n by lia. exact Hc. }
      pose proof (Vinv_len _ _ _ _ I Er) as Lr. rewrite Er.
      pose proof (construct_end l (repeat x (n - length l)) r (length l) eq_refl) as D. rewrite repeat_length in D.
      rewrite D. cbn [bind]. eexists; split; [reflexivity|]. unfold seq_resize. rewrite firstn_all2 by lia.
      apply Vinv_mk2; [rewrite app_length, repeat_length; lia|rewrite app_length, repeat_length; exact Lr|apply I].
  Qed.

  Lemma seq_resize_length l n x : length (seq_resize l n x) = n.
  Proof. unfold seq_resize. rewrite app_length, firstn_length, repeat_length. lia. Qed.

  Lemma assign_ok v l x : Vinv v l -> (es * Z.of_nat (length x) <= 2 ^ 31)%Z ->
    exists v', assign e es dflt v x = Ok v' /\ Vinv v' x.
  Proof.
    intros H Hb. unfold assign, resize. destruct (resize_with_ok v l (length x) dflt H Hb) as (v' & R & ((j & E) & S & L & C)).
    rewrite R. cbn [bind]. rewrite E.
    pose proof (assign_cells_ok x [] (seq_resize l (length x) dflt) (repeat None j) (seq_resize_length _ _ _)) as D.
    cbn [app length] in D. rewrite D. cbn [bind]. eexists; split; [reflexivity|].
    rewrite S, seq_resize_length. apply Vinv_mk; [|exact C].
    rewrite <- L, E, app_length, map_length, repeat_length, seq_resize_length. reflexivity.
  Qed.

  Lemma destroy_all_ok v l : Vinv v l ->
    exists v', destroy_all v = Ok v' /\ vcells v' = repeat None (Z.to_nat (vcap v / es)) /\ vcap v' = vcap v.
  Proof.
    intros H. pose proof (Vinv_cap v l H) as Hc. destruct H as ((j & E) & S & L & C). unfold destroy_all.
    destruct (Z.eqb_spec (vcap v) 0) as [E0|E0].
    - exists v. split; [reflexivity|]. split; [|reflexivity]. rewrite E0, Z.div_0_l in * by lia. cbn in L |- *.
      apply length_zero_iff_nil in L. exact L.
    - pose proof (destroy_ok l [] (repeat None j)) as D. cbn [app length] in D. rewrite E, S, D. cbn [bind].
      eexists; split; [reflexivity|]. cbn [vcells vcap]. split; [|reflexivity].
      rewrite <- repeat_app. f_equal. rewrite <- L, E, app_length, map_length, repeat_length. reflexivity.
  Qed.

  Lemma clear_ok v l : Vinv v l -> exists v', clear v = Ok v' /\ Vinv v' [].
  Proof.
    intros H. destruct (destroy_all_ok v l H) as (v' & E & C & K). unfold clear. rewrite E. cbn [bind].
    eexists; split; [reflexivity|]. rewrite C. apply (Vinv_mk []); rewrite K; [reflexivity|apply H].
  Qed.
  Lemma deallocate_ok v l : Vinv v l -> exists v', deallocate v = Ok v' /\ Vinv v' [].
  Proof.
    intros H. destruct (destroy_all_ok v l H) as (v' & E & C & K). unfold deallocate. rewrite E. cbn [bind].
    eexists; split; [reflexivity|]. apply Vinv_nil.
  Qed.

  Lemma shrink_ok v l : Vinv v l -> exists v', shrink_to_fit e es v = Ok v' /\ Vinv v' l.
  Proof.
    intros H. pose proof (Vinv_cap v l H) as Hc. pose proof H as ((j & E) & S & L & C). unfold shrink_to_fit.
    destruct (vcap v =? 0)%Z; [eauto|]. rewrite S. destruct (Nat.eqb_spec (length l) 0) as [Z0|N0].
    - apply length_zero_iff_nil in Z0. subst l. eauto using Vinv_nil.
    - unfold bytes. rewrite Hmem by nia. eexists; split; [reflexivity|]. rewrite E, realloc_cells_eq by lia.
      apply Vinv_mk; [|nia].
      rewrite Z.mul_comm, Z.div_mul by lia. rewrite Nat2Z.id. lia.
  Qed.

  Lemma vec_of_ok l : (es * Z.of_nat (length l) <= 2 ^ 31)%Z -> exists v', vec_of e es l = Ok v' /\ Vinv v' l.
  Proof.
    intros H. destruct (append_hole_ok vec_nil [] (length l) Vinv_nil H) as (v' & mv & r & E & C & S & L & B & _).
    unfold vec_of. rewrite E. cbn [bind]. rewrite C. pose proof (construct_end [] l r 0 eq_refl) as D.
    cbn [length] in *. rewrite D. cbn [bind]. eexists; split; [reflexivity|]. rewrite S. cbn [app Nat.add].
    apply Vinv_mk; [exact L|exact B].
  Qed.

  Lemma vstep_ok v l o : Vinv v l -> op_pre es dflt l o -> op_moves_ok es l o = true ->
    exists v', vstep e es dflt v o = Ok v' /\ Vinv v' (seq_step dflt l o).
  Proof.
    intros H (Hb & Hp) Hm. destruct o; cbn [vstep seq_step] in *.
    - apply push_back_ok; auto. rewrite app_length in Hb. exact Hb.
    - apply pop_back_ok; auto.
    - apply insert_list_ok; auto.
    - apply insert_list_ok; auto. rewrite repeat_length. exact Hm.
    - apply insert_list_ok; auto.
    - apply erase_ok; auto.
    - apply resize_with_ok; auto. rewrite seq_resize_length in Hb. exact Hb.
    - apply resize_with_ok; auto. rewrite seq_resize_length in Hb. exact Hb.
    - eapply assign_ok; eauto.
    - eapply assign_ok; eauto.
    - eapply clear_ok; eauto.
    - destruct (reserve_ok v l _ exact H Hp) as (v' & mv & R & I & _). unfold vreserve, bytes. rewrite R. cbn [bind]. exists v'. auto.
    - apply shrink_ok; auto.
    - eapply deallocate_ok; eauto.
  Qed.

  Lemma vrun_ok ops : forall v l, Vinv v l -> ops_pre es dflt l ops -> ops_moves_ok es dflt l ops = true ->
    exists v', vrun e es dflt v ops = Ok v' /\ Vinv v' (seq_run dflt l ops).
  Proof.
    induction ops as [|o t IH]; intros v l H Hp Hm; cbn [vrun seq_run]; [eauto|].
    destruct Hp as [P1 P2]. cbn [ops_moves_ok] in Hm. apply andb_true_iff in Hm. destruct Hm as [M1 M2].
    destruct (vstep_ok v l o H P1 M1) as (v' & E & I). rewrite E. cbn [bind]. eauto.
  Qed.

  Lemma op_moves_4 o l : (es mod 4 = 0)%Z -> op_pre es dflt l o -> op_moves_ok es l o = true.
  Proof.
    intros H4 (_ & Hp). destruct o; cbn [op_moves_ok] in *; auto;
      match goal with |- rot_good (es * ?a) (es * ?b) (es * ?c) = true =>
        destruct (rot_good_4 es a b c H4) as [?|?]; [assumption|nia] end.
  Qed.
  Lemma ops_moves_4 ops : forall l, (es mod 4 = 0)%Z -> ops_pre es dflt l ops -> ops_moves_ok es dflt l ops = true.
  Proof.
    induction ops as [|o t IH]; intros l H4 Hp; [reflexivity|]. destruct Hp as [P1 P2]. cbn [ops_moves_ok].
    rewrite op_moves_4, IH by auto. reflexivity.
  Qed.

  Lemma vat_ok v l i x : Vinv v l -> nth_error l i = Some x -> vat v i = Ok x.
  Proof.
    intros ((j & E) & S & L & C) H. assert (i < length l) by (apply nth_error_Some; congruence).
    unfold vat. rewrite S. replace (i <? length l) with true by lia. rewrite E. unfold rd.
    rewrite nth_error_app1 by (rewrite map_length; lia). rewrite (map_nth_error _ _ _ H). reflexivity.
  Qed.
  Lemma read_from_ok v l n : forall i, Vinv v l -> i + n = length l -> read_from v i n = Ok (skipn i l).
  Proof.
    induction n as [|n IH]; intros i H Hn; cbn [read_from].
    - rewrite skipn_all2 by lia. reflexivity.
    - destruct (nth_error l i) as [x|] eqn:Ex; [|apply nth_error_None in Ex; lia].
      rewrite (vat_ok v l i x H Ex). cbn [bind]. rewrite IH by (auto; lia). cbn [bind]. f_equal.
      clear -Ex. revert i Ex. induction l as [|h t IHl]; intros [|i] Ex; try discriminate.
      + injection Ex as ->. reflexivity.
      + cbn [skipn]. rewrite <- (IHl i Ex). reflexivity.
  Qed.
  Lemma contents_ok v l : Vinv v l -> contents v = Ok l.
  Proof. intros H. unfold contents. pose proof H as (_ & -> & _). rewrite (read_from_ok v l) by auto. reflexivity. Qed.

  Lemma vrun_contents ops : ops_pre es dflt [] ops -> ops_moves_ok es dflt [] ops = true ->
    exists v, vrun e es dflt vec_nil ops = Ok v /\ contents v = Ok (seq_run dflt [] ops) /\
      vsize v = length (seq_run dflt [] ops) /\ (es * Z.of_nat (vsize v) <= vcap v)%Z.
  Proof.
    intros H1 H2. destruct (vrun_ok ops vec_nil [] Vinv_nil H1 H2) as (v & E & I). exists v.
    split; [exact E|]. split; [apply contents_ok; exact I|]. split; [apply I|].
    pose proof (Vinv_cap _ _ I). destruct I as (_ & -> & _). exact H.
  Qed.

  (** Own elements as arguments. *)
  Lemma push_back_own_ok v l i x : Vinv v l -> nth_error l i = Some x ->
    (es * Z.of_nat (length l + 1) <= vcap v)%Z ->
    exists v', push_back_own e es v i = Ok v' /\ Vinv v' (l ++ [x]).
  Proof.
    intros H Hx Hc. assert (Hb : (es * Z.of_nat (length l + 1) <= 2 ^ 31)%Z) by (pose proof H as (_ & _ & _ & ?); lia).
    destruct (append_hole_ok v l 1 H Hb) as (v' & mv & r & E & C & S & L & B & F & W).
    unfold push_back_own. rewrite E, (W Hc). cbn [bind]. rewrite C.
    assert (i < length l) by (apply nth_error_Some; congruence).
    unfold rd at 1. rewrite nth_error_app1 by (rewrite map_length; lia). rewrite (map_nth_error _ _ _ Hx). cbn [bind].
    rewrite (construct_end l [x]) by reflexivity. cbn [bind].
    eexists; split; [reflexivity|]. rewrite S.
    replace (length l + 1) with (length (l ++ [x])) by (rewrite app_length; reflexivity).
    apply Vinv_mk; [rewrite app_length; cbn; lia|exact B].
  Qed.
  Lemma push_back_own_UB v l i : Vinv v l -> (es * Z.of_nat (length l + 1) <= 2 ^ 31)%Z ->
    (vcap v < es * Z.of_nat (length l + 1))%Z -> push_back_own e es v i = UB.
  Proof.
    intros H Hb Hc. unfold push_back_own, append_hole, vreserve_bytes, bytes.
    pose proof H as (_ & S & _). rewrite S.
    destruct (reserve_ok v l _ false H Hb) as (v' & mv & R & I & Hc' & U & W).
    unfold vreserve_bytes in R. destruct (Z.leb_spec (es * Z.of_nat (length l + 1)) (vcap v)); [lia|].
    destruct (malloc_ok e _); [|discriminate]. reflexivity.
  Qed.
End V.
