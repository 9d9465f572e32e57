(** * VecExcProofs: proofs about VecExcModel. *)
From Verif Require Import Base UtilModel UtilProofs StoreModel VectorModel VectorSpec StoreProofs NumericProofs VectorProofs VecExcModel VecExcSpec.
From Coq Require Import ZArith ZifyBool ZifyNat.
Local Open Scope nat_scope.

Section V.
  Context {T : Type}.
  Variable e : env.
  Variable es : Z.
  Variable dflt : T.
  Hypothesis Hes : (0 < es)%Z.
  Hypothesis Henv : good_env e.

  Ltac xlv := match goal with |- Ok (mkxs ?v ?m ?el ?a, ?r) = Ok (mkxs ?v1 _ _ ?b, _) =>
    transitivity (Ok (mkxs v1 m el a, r)); [rewrite ?map_app, <- ?app_assoc; reflexivity | apply (f_equal (fun z => Ok (mkxs v1 m el z, r))); lia] end.
  Definition raw (r : list (option T)) : Prop := r = repeat None (length r).
  Lemma raw_repeat n : raw (repeat None n).
  Proof. unfold raw. now rewrite repeat_length. Qed.
  Lemma raw_app a b : raw a -> raw b -> raw (a ++ b).
  Proof. unfold raw. intros Ha Hb. rewrite app_length, repeat_app. congruence. Qed.
  Lemma raw_split a b : raw (a ++ b) -> raw a /\ raw b.
  Proof.
    unfold raw. revert b. induction a as [|x a IH]; intros b H; [split; [reflexivity|exact H]|].
    cbn [app length repeat] in *. injection H as -> H. destruct (IH _ H) as [Ha Hb]. split; [congruence|exact Hb].
  Qed.
  Lemma raw_firstn n a : raw a -> raw (firstn n a).
  Proof. intros H. rewrite <- (firstn_skipn n a) in H. now apply raw_split in H. Qed.
  Lemma raw_skipn n a : raw a -> raw (skipn n a).
  Proof. intros H. rewrite <- (firstn_skipn n a) in H. now apply raw_split in H. Qed.

  Lemma refusals_cons b l : refusals (b :: l) = (if b then 0 else 1) + refusals l.
  Proof. unfold refusals. cbn [filter negb]. destruct b; reflexivity. Qed.

  Lemma construct_gen (x : list T) : forall (pre mid post : list (option T)) sz c m el lv, length mid = length x ->
    exists k el' r, x_construct (length pre) x (mkxs (mkvec (pre ++ mid ++ post) sz c) m el lv) =
        Ok (mkxs (mkvec (pre ++ map Some (firstn k x) ++ skipn k mid ++ post) sz c) m el' (lv + Z.of_nat k)%Z, r) /\
      (r = Returned tt /\ k = length x /\ refusals el = refusals el' /\ (el = [] -> el' = []) \/
       r = ElementThrew /\ k < length x /\ refusals el = S (refusals el') /\ el <> []).
  Proof.
    induction x as [|h t IH]; intros pre mid post sz c m el lv L.
    - destruct mid; [|discriminate]. exists 0, el, (Returned tt). cbn [x_construct firstn skipn map app]. unfold xret.
      split; [xlv|]. left. auto.
    - destruct mid as [|d mid]; [discriminate|]. injection L as L. cbn [x_construct]. unfold xthen, xbind, ask_elem at 1. cbn [mans eans xv xlive bind].
      destruct el as [|[|] el]; cbn [bind].
      + unfold set_cell at 1. cbn [xv vcells app mans eans xlive vsize vcap]. rewrite wr_app. cbn [bind].
        destruct (IH (pre ++ [Some h]) mid post sz c m [] (lv + 1)%Z L) as (k & el' & r & E & R).
        rewrite app_length, Nat.add_1_r, <- !app_assoc in E. cbn [app] in E. exists (S k), el', r. split.
        * rewrite E. cbn [firstn skipn map app]. xlv.
        * cbn [length]. destruct R as [R|R]; [left|right]; intuition (try lia; try congruence).
      + unfold set_cell at 1. cbn [xv vcells app mans eans xlive vsize vcap]. rewrite wr_app. cbn [bind].
        destruct (IH (pre ++ [Some h]) mid post sz c m el (lv + 1)%Z L) as (k & el' & r & E & R).
        rewrite app_length, Nat.add_1_r, <- !app_assoc in E. cbn [app] in E. exists (S k), el', r. split.
        * rewrite E. cbn [firstn skipn map app]. xlv.
        * rewrite refusals_cons. cbn [length]. destruct R as [R|R]; [left|right]; intuition (try lia; try congruence).
      + exists 0, el, ElementThrew. cbn [firstn skipn map app]. split; [xlv|]. right. rewrite refusals_cons. cbn [length]. intuition (try lia; try congruence).
  Qed.

  Lemma assign_gen (x : list T) : forall (pre : list (option T)) y post sz c m el lv, length y = length x ->
    exists k el' r, x_assign_cells (length pre) x (mkxs (mkvec (pre ++ map Some y ++ post) sz c) m el lv) =
        Ok (mkxs (mkvec (pre ++ map Some (firstn k x ++ skipn k y) ++ post) sz c) m el' lv, r) /\
      (r = Returned tt /\ k = length x /\ refusals el = refusals el' /\ (el = [] -> el' = []) \/
       r = ElementThrew /\ k < length x /\ refusals el = S (refusals el') /\ el <> []).
  Proof.
    induction x as [|h t IH]; intros pre y post sz c m el lv L.
    - destruct y; [|discriminate]. exists 0, el, (Returned tt). cbn [x_assign_cells firstn skipn map app]. unfold xret.
      split; [reflexivity|]. left. auto.
    - destruct y as [|d y]; [discriminate|]. injection L as L. cbn [x_assign_cells map app]. unfold xthen, xbind at 1, get_cell at 1. cbn [xv vcells].
      rewrite rd_app. cbn [bind]. unfold xbind at 1, ask_elem at 1. cbn [mans eans xv xlive bind].
      destruct el as [|[|] el]; cbn [bind].
      + unfold xbind, set_cell at 1. cbn [xv vcells app mans eans xlive vsize vcap]. rewrite wr_app. cbn [bind].
        destruct (IH (pre ++ [Some h]) y post sz c m [] (lv + 0)%Z L) as (k & el' & r & E & R).
        rewrite app_length, Nat.add_1_r, <- !app_assoc in E. cbn [app] in E. exists (S k), el', r. split.
        * rewrite E. cbn [firstn skipn map app]. xlv.
        * cbn [length]. destruct R as [R|R]; [left|right]; intuition (try lia; try congruence).
      + unfold xbind, set_cell at 1. cbn [xv vcells app mans eans xlive vsize vcap]. rewrite wr_app. cbn [bind].
        destruct (IH (pre ++ [Some h]) y post sz c m el (lv + 0)%Z L) as (k & el' & r & E & R).
        rewrite app_length, Nat.add_1_r, <- !app_assoc in E. cbn [app] in E. exists (S k), el', r. split.
        * rewrite E. cbn [firstn skipn map app]. xlv.
        * rewrite refusals_cons. cbn [length]. destruct R as [R|R]; [left|right]; intuition (try lia; try congruence).
      + exists 0, el, ElementThrew. cbn [firstn skipn map app]. split; [reflexivity|]. right. rewrite refusals_cons. cbn [length]. intuition (try lia; try congruence).
  Qed.

  Lemma destroy_gen (x : list T) : forall (pre post : list (option T)) sz c m el lv,
    x_destroy (length pre) (length x) (mkxs (mkvec (pre ++ map Some x ++ post) sz c) m el lv) =
    Ok (mkxs (mkvec (pre ++ repeat None (length x) ++ post) sz c) m el (lv - Z.of_nat (length x))%Z, Returned tt).
  Proof.
    induction x as [|h t IH]; intros pre post sz c m el lv.
    - cbn [x_destroy length repeat map app]. unfold xret. xlv.
    - cbn [x_destroy length repeat map app]. unfold xthen, xbind at 1, get_cell at 1. cbn [xv vcells]. rewrite rd_app. cbn [bind].
      unfold xbind, set_cell at 1. cbn [xv vcells app mans eans xlive vsize vcap]. rewrite wr_app. cbn [bind].
      specialize (IH (pre ++ [None]) post sz c m el (lv + -1)%Z). rewrite app_length, Nat.add_1_r, <- !app_assoc in IH. cbn [app] in IH.
      rewrite IH. xlv.
  Qed.

  (** A vector that stores [l], with [rest] behind. *)
  Definition st (l : list T) (rest : list (option T)) (c : Z) (m el : list bool) (lv : Z) : xs T :=
    mkxs (mkvec (map Some l ++ rest) (length l) c) m el lv.
  Definition good (l : list T) (rest : list (option T)) (c : Z) : Prop :=
    length l + length rest = Z.to_nat (c / es) /\ (0 <= c <= 2 ^ 31)%Z.

  Lemma good_cap l rest c : good l rest c -> (es * Z.of_nat (length l) <= c)%Z.
  Proof.
    intros [L C]. assert (0 <= c / es)%Z by (apply Z.div_pos; lia). pose proof (Z.mul_div_le c es Hes). nia.
  Qed.

  Lemma reserve_gen l rest c m el lv n b : good l rest c -> (n <= 2 ^ 31)%Z ->
    exists rest' c' m' r, x_reserve es n b (st l rest c m el lv) = Ok (st l rest' c' m' el lv, r) /\ good l rest' c' /\
      (r = Returned tt /\ (n <= c')%Z /\ refusals m = refusals m' /\ (m = [] -> m' = []) /\ (raw rest -> raw rest') /\ ((n <= c)%Z -> rest' = rest /\ c' = c /\ m' = m) \/
       r = NoMemory /\ rest' = rest /\ c' = c /\ refusals m = S (refusals m') /\ (c < n)%Z /\ m <> []).
  Proof.
    intros G Hn. pose proof (good_cap _ _ _ G) as Hc. destruct G as [L C].
    unfold x_reserve, xbind at 1, get_vec. cbn [bind]. unfold st at 1. cbn [xv vcap].
    destruct (Z.leb_spec n c) as [Hle|Hgt].
    { exists rest, c, m, (Returned tt). split; [reflexivity|]. split; [split; assumption|]. left. intuition. }
    set (n' := if b then n else next_pow2 n).
    assert (Hn' : (n <= n' <= 2 ^ 31)%Z).
    { unfold n'. destruct b; [lia|]. destruct (Z.eq_dec n 1) as [->|]; [cbn; lia|].
      pose proof (next_pow2_ok n ltac:(lia)) as Hp.
      split; [apply next_pow2_ge; lia|].
      rewrite next_pow2_val by lia. apply Z.pow_le_mono_r; [lia|].
      assert (Z.log2 (n - 1) <= Z.log2 (2 ^ 31 - 1))%Z by (apply Z.log2_le_mono; lia).
      change (Z.log2 (2 ^ 31 - 1)) with 30%Z in *. lia. }
    assert (Hdiv : (length l <= Z.to_nat (n' / es))).
    { assert (Z.of_nat (length l) <= n' / es)%Z by (apply Z.div_le_lower_bound; lia). lia. }
    assert (Hcells : realloc_cells (map Some l ++ rest) (Z.to_nat (n' / es)) =
             map Some l ++ firstn (Z.to_nat (n' / es) - length l) rest ++ repeat None (Z.to_nat (n' / es) - (length l + length rest))).
    { unfold realloc_cells. rewrite firstn_app, map_length, firstn_all2 by (rewrite map_length; lia).
      rewrite app_length, map_length, <- app_assoc. reflexivity. }
    assert (Good : forall r, r = firstn (Z.to_nat (n' / es) - length l) rest ++ repeat None (Z.to_nat (n' / es) - (length l + length rest)) -> good l r n').
    { intros r ->. split; [|lia]. rewrite app_length, firstn_length, repeat_length. lia. }
    unfold xthen, xbind, ask_mem. cbn [mans eans xv xlive].
    destruct m as [|[|] m]; cbn [bind].
    - eexists _, n', [], (Returned tt). split; [unfold set_vec, st; cbn [xv vcells vsize vcap mans eans xlive]; rewrite Hcells; reflexivity|].
      split; [apply Good; reflexivity|]. left. split; [reflexivity|]. split; [lia|]. split; [reflexivity|]. split; [auto|]. split; [|lia].
      intros R. apply raw_app; [now apply raw_firstn|apply raw_repeat].
    - eexists _, n', m, (Returned tt). split; [unfold set_vec, st; cbn [xv vcells vsize vcap mans eans xlive]; rewrite Hcells; reflexivity|].
      split; [apply Good; reflexivity|]. left. split; [reflexivity|]. split; [lia|]. split; [now rewrite refusals_cons|]. split; [discriminate|]. split; [|lia].
      intros R. apply raw_app; [now apply raw_firstn|apply raw_repeat].
    - exists rest, c, m, NoMemory. split; [reflexivity|]. split; [split; assumption|]. right. rewrite refusals_cons. intuition congruence.
  Qed.

  (** How an operation ends, started with [l] stored. *)
  Definition step_spec (l : list T) (rest : list (option T)) (c : Z) (m el : list bool) (lv : Z) (o : vop T) : Prop :=
    exists s' r, xstep e es dflt o (st l rest c m el lv) = Ok (s', r) /\
      match r with
      | Returned _ => exists rest' c' m' el' lv', s' = st (seq_step dflt l o) rest' c' m' el' lv' /\ good (seq_step dflt l o) rest' c' /\
          refusals m = refusals m' /\ refusals el = refusals el' /\ (el = [] -> el' = []) /\ (raw rest -> raw rest') /\
          (lv' - Z.of_nat (length (seq_step dflt l o)) = lv - Z.of_nat (length l))%Z
      | NoMemory => exists m', s' = st l rest c m' el lv /\ refusals m = S (refusals m')
      | ElementThrew => el <> [] /\ (not_inserting o -> exists l' rest' c' m' el' lv', s' = st l' rest' c' m' el' lv' /\ good l' rest' c' /\
          partly dflt l o l' /\ refusals m = refusals m' /\ refusals el = S (refusals el') /\
          (lv - Z.of_nat (length l) <= lv' - Z.of_nat (length l'))%Z /\
          (length (seq_step dflt l o) <= length l -> (raw rest -> raw rest') /\ (lv - Z.of_nat (length l) = lv' - Z.of_nat (length l'))%Z))
      end.

  Lemma good_room l rest c k : good l rest c -> (es * Z.of_nat (length l + k) <= c)%Z -> k <= length rest.
  Proof.
    intros [L C] H. assert (Z.of_nat (length l + k) <= c / es)%Z by (apply Z.div_le_lower_bound; lia). lia.
  Qed.

  Lemma append_gen l rest c m el lv x : good l rest c -> (es * Z.of_nat (length l + length x) <= 2 ^ 31)%Z ->
    exists s' r, xbind (x_append_hole es (length x)) (fun hp => x_construct hp x) (st l rest c m el lv) = Ok (s', r) /\
    match r with
    | Returned _ => exists rest' c' m' el' lv', s' = st (l ++ x) rest' c' m' el' lv' /\ good (l ++ x) rest' c' /\
        refusals m = refusals m' /\ refusals el = refusals el' /\ (el = [] -> el' = []) /\ (raw rest -> raw rest') /\
        (lv' - Z.of_nat (length (l ++ x)) = lv - Z.of_nat (length l))%Z
    | NoMemory => exists m', s' = st l rest c m' el lv /\ refusals m = S (refusals m')
    | ElementThrew => el <> []
    end.
  Proof.
    intros G Hb. unfold xbind at 1, x_append_hole, xthen, xbind at 1, get_vec at 1. cbn [bind]. unfold st at 1 2 3. cbn [xv vsize]. unfold bytes.
    destruct (reserve_gen l rest c m el lv (es * Z.of_nat (length l + length x))%Z false G Hb) as (rest' & c' & m' & r & E & G' & R).
    unfold xbind at 1. fold (st l rest c m el lv). rewrite E. cbn [bind]. destruct R as [(-> & Hc & Rm & Rm0 & Hr & _)|(-> & -> & -> & Rm & Hc & Hm)].
    2:{ eexists _, NoMemory. split; [reflexivity|]. eauto. }
    unfold xbind at 1, x_set_size, xbind at 1, get_vec at 1. cbn [bind]. unfold set_vec at 1, st at 1 2 3 4 5 6. cbn [xv vsize vcells vcap mans eans xlive bind].
    unfold xret. cbn [bind].
    pose proof (good_room _ _ _ _ G' Hc) as Hroom.
    destruct (construct_gen x (map Some l) (firstn (length x) rest') (skipn (length x) rest') (length l + length x) c' m' el lv) as (k & el' & r & E2 & R2).
    { rewrite firstn_length. lia. }
    rewrite map_length, firstn_skipn in E2. rewrite E2. eexists _, r. split; [reflexivity|].
    destruct R2 as [(-> & -> & Re & Re0)|(-> & Hk & Re & Hel)]; [|exact Hel].
    exists (skipn (length x) rest'), c', m', el', (lv + Z.of_nat (length x))%Z.
    rewrite firstn_all, skipn_all2, app_nil_l by (rewrite firstn_length; lia).
    split; [unfold st; rewrite map_app, <- app_assoc, app_length; reflexivity|].
    split; [destruct G' as [L C]; split; [rewrite app_length, skipn_length; lia|exact C]|].
    split; [exact Rm|]. split; [exact Re|]. split; [exact Re0|]. split; [intros Rw; apply raw_skipn, Hr, Rw|]. rewrite app_length. lia.
  Qed.

  Lemma push_back_step l rest c m el lv x : good l rest c -> op_pre es dflt l (OpPushBack x) -> step_spec l rest c m el lv (OpPushBack x).
  Proof.
    intros G [Hb _]. cbn [seq_step] in Hb. rewrite app_length in Hb. cbn [length] in Hb.
    destruct (append_gen l rest c m el lv [x] G Hb) as (s' & r & E & R). exists s', r. split; [exact E|].
    destruct r; [exact R|exact R|]. split; [exact R|intros []].
  Qed.

  Lemma rotate_gen (pre a b post : list (option T)) cap :
    length (pre ++ a ++ b ++ post) = Z.to_nat (cap / es) -> (0 <= cap <= 2 ^ 31)%Z ->
    rot_good (es * Z.of_nat (length pre)) (es * Z.of_nat (length pre + length a))
           (es * Z.of_nat (length pre + length a + length b)) = true ->
    rotate_cells e es (malloc_at e cap) (pre ++ a ++ b ++ post) (length pre) (length pre + length a)
               (length pre + length a + length b) = Ok (pre ++ b ++ a ++ post).
  Proof. exact (rotate_vec_ok e es Hes Henv pre a b post cap). Qed.

  Lemma insert_step l rest c m el lv ip x o : good l rest c -> ip <= length l -> (es * Z.of_nat (length (seq_insert l ip x)) <= 2 ^ 31)%Z ->
    rot_good (es * Z.of_nat ip) (es * Z.of_nat (length l)) (es * Z.of_nat (length l + length x)) = true ->
    ~ not_inserting o -> xstep e es dflt o = x_insert e es ip x -> seq_step dflt l o = seq_insert l ip x ->
    step_spec l rest c m el lv o.
  Proof.
    intros G Hi Hb Hr Ho Hx Hs. assert (Hlen : length (seq_insert l ip x) = length l + length x).
    { unfold seq_insert. rewrite !app_length, firstn_length, skipn_length. lia. }
    rewrite Hlen in Hb. unfold step_spec. rewrite Hx, Hs. unfold x_insert, x_insert_hole, xthen at 1. unfold xbind at 1. unfold xbind at 1, get_vec at 1. cbn [bind].
    unfold st at 1 2 3 4 5. cbn [xv vsize]. destruct (Nat.ltb_spec (length l) ip) as [|_]; [lia|]. unfold bytes.
    fold (st l rest c m el lv).
    destruct (reserve_gen l rest c m el lv (es * Z.of_nat (length l + length x))%Z false G Hb) as (rest' & c' & m' & r & E & G' & R).
    unfold xthen at 1, xbind at 1. rewrite E. cbn [bind]. destruct R as [(-> & Hc & Rm & Rm0 & Hrw & _)|(-> & -> & -> & Rm & Hc & Hm)].
    2:{ eexists _, NoMemory. split; [reflexivity|]. eauto. }
    destruct (reserve_gen l rest' c' m' el lv (es * Z.of_nat (length l + length x))%Z false G' Hb) as (rest2 & c2 & m2 & r2 & E2 & _ & R2).
    unfold xthen at 1, xbind at 1. rewrite E2. cbn [bind]. destruct R2 as [(-> & _ & _ & _ & _ & R2)|(_ & _ & _ & _ & Hc2 & _)]; [|lia].
    destruct (R2 Hc) as (-> & -> & ->). clear E E2 R2.
    unfold xbind at 1, get_vec at 1. cbn [bind]. unfold st at 1 2. cbn [xv vcells vcap].
    pose proof (good_room _ _ _ _ G' Hc) as Hroom. destruct G' as [L C].
    assert (El : map (@Some T) l ++ rest' = map Some (firstn ip l) ++ map Some (skipn ip l) ++ firstn (length x) rest' ++ skipn (length x) rest').
    { rewrite firstn_skipn, app_assoc, <- map_app, firstn_skipn. reflexivity. }
    rewrite El.
    pose proof (rotate_gen (map Some (firstn ip l)) (map Some (skipn ip l)) (firstn (length x) rest') (skipn (length x) rest') c') as RV.
    rewrite <- El, app_length, map_length in RV. specialize (RV L C).
    rewrite !map_length, !firstn_length, skipn_length in RV.
    replace (Nat.min ip (length l)) with ip in RV by lia. replace (Nat.min (length x) (length rest')) with (length x) in RV by lia.
    replace (ip + (length l - ip)) with (length l) in RV by lia. rewrite El in RV. rewrite RV by exact Hr. cbn [bind]. unfold set_vec at 1, st. cbn [mans eans xlive bind xv vsize vcap vcells].
    destruct (construct_gen x (map Some (firstn ip l)) (firstn (length x) rest') (map Some (skipn ip l) ++ skipn (length x) rest') (length l + length x) c' m' el lv) as (k & el' & r & E2 & R2).
    { rewrite firstn_length. lia. }
    rewrite map_length, firstn_length in E2. replace (Nat.min ip (length l)) with ip in E2 by lia. rewrite E2. eexists _, r. split; [reflexivity|].
    destruct R2 as [(-> & -> & Re & Re0)|(-> & Hk & Re & Hel)]; [|split; [exact Hel|intros ?; contradiction]].
    exists (skipn (length x) rest'), c', m', el', (lv + Z.of_nat (length x))%Z.
    rewrite firstn_all, skipn_all2, app_nil_l by (rewrite firstn_length; lia).
    split; [unfold st; rewrite Hlen; unfold seq_insert; rewrite !map_app, <- !app_assoc; reflexivity|].
    split; [split; [rewrite Hlen, skipn_length; lia|exact C]|].
    split; [exact Rm|]. split; [exact Re|]. split; [exact Re0|]. split; [intros Rw; apply raw_skipn, Hrw, Rw|]. rewrite Hlen. lia.
  Qed.

  Lemma pop_back_step l rest c m el lv : good l rest c -> l <> [] -> step_spec l rest c m el lv OpPopBack.
  Proof.
    intros [L C] Hl. destruct (exists_last Hl) as (t & x & ->).
    unfold step_spec. cbn [xstep seq_step]. rewrite removelast_last. unfold x_pop_back, xbind at 1, get_vec at 1. cbn [bind]. unfold st at 1 2. cbn [xv vsize].
    rewrite app_length, Nat.add_1_r. unfold xthen at 1, xbind at 1. rewrite map_app, <- app_assoc.
    pose proof (destroy_gen [x] (map Some t) rest (S (length t)) c m el lv) as D. rewrite map_length in D. cbn [length] in D. rewrite D. cbn [bind].
    unfold x_set_size, xbind at 1, get_vec at 1. cbn [bind]. unfold set_vec. cbn [xv vcells vcap mans eans xlive].
    eexists _, (Returned tt). split; [reflexivity|]. exists (repeat None 1 ++ rest), c, m, el, (lv - Z.of_nat 1)%Z. split; [reflexivity|].
    rewrite app_length in L. cbn [length] in L.
    split; [split; [rewrite app_length; cbn [repeat length]; lia|exact C]|]. repeat split; auto.
    - intros Rw. apply raw_app; [apply (raw_repeat 1)|exact Rw].
    - cbn [length]. lia.
  Qed.

  Lemma erase_step l rest c m el lv ep k : good l rest c -> ep + k <= length l ->
    rot_good (es * Z.of_nat ep) (es * Z.of_nat (ep + k)) (es * Z.of_nat (length l)) = true -> step_spec l rest c m el lv (OpErase ep k).
  Proof.
    intros G Hk Hr. pose proof (good_cap _ _ _ G) as Hcap. destruct G as [L C].
    assert (El : l = firstn ep l ++ firstn k (skipn ep l) ++ skipn (ep + k) l).
    { rewrite <- (firstn_skipn ep l) at 1. f_equal. rewrite <- (firstn_skipn k (skipn ep l)) at 1. f_equal. rewrite skipn_skipn. f_equal. lia. }
    assert (L1 : length (firstn ep l) = ep) by (rewrite firstn_length; lia).
    assert (L2 : length (firstn k (skipn ep l)) = k) by (rewrite firstn_length, skipn_length; lia).
    assert (L3 : length (skipn (ep + k) l) = length l - (ep + k)) by apply skipn_length.
    assert (Ls : length (seq_erase l ep k) = length l - k) by (unfold seq_erase; rewrite app_length, L1, L3; lia).
    unfold step_spec. cbn [xstep seq_step]. unfold x_erase, xthen at 1, xbind at 1.
    pose proof (destroy_gen (firstn k (skipn ep l)) (map Some (firstn ep l)) (map Some (skipn (ep + k) l) ++ rest) (length l) c m el lv) as D.
    rewrite map_length, L1, L2 in D.
    assert (Em : map (@Some T) l ++ rest = map Some (firstn ep l) ++ map Some (firstn k (skipn ep l)) ++ map Some (skipn (ep + k) l) ++ rest).
    { rewrite El at 1. rewrite !map_app, <- !app_assoc. reflexivity. }
    unfold st at 1. rewrite Em, D. cbn [bind]. unfold xbind at 1, get_vec at 1. cbn [bind xv vsize].
    destruct (Nat.ltb_spec (length l) (ep + k)) as [|_]; [lia|]. unfold bytes, xthen at 1, xbind at 1.
    unfold x_reserve, xbind at 1, get_vec at 1. cbn [bind xv vcap]. replace (es * Z.of_nat (length l) <=? c)%Z with true by lia. cbn [bind xret].
    unfold xret. cbn [bind]. unfold xbind at 1, get_vec at 1. cbn [bind xv vcells vcap vsize].
    pose proof (rotate_gen (map Some (firstn ep l)) (repeat None k) (map Some (skipn (ep + k) l)) rest c) as RV.
    rewrite !app_length, !map_length, repeat_length, L1, L3 in RV. rewrite (Nat.add_assoc ep k) in RV.
    replace (ep + k + (length l - (ep + k))) with (length l) in RV by lia.
    rewrite RV; [|lia|exact C|exact Hr]. cbn [bind]. unfold set_vec. cbn [mans eans xlive].
    eexists _, (Returned tt). split; [reflexivity|].
    exists (repeat None k ++ rest), c, m, el, (lv - Z.of_nat k)%Z.
    split; [unfold st; rewrite Ls; unfold seq_erase; rewrite map_app, <- app_assoc; reflexivity|].
    split; [split; [rewrite Ls, app_length, repeat_length; lia|exact C]|]. repeat split; auto.
    - intros Rw. apply raw_app; [apply raw_repeat|exact Rw].
    - rewrite Ls. lia.
  Qed.

  Lemma seq_resize_len (l : list T) n x : length (seq_resize l n x) = n.
  Proof. unfold seq_resize. rewrite app_length, firstn_length, repeat_length. lia. Qed.

  (** resize: nothing is known to the caller of elements already constructed
      when one throws; the sequence is unchanged. *)
  Lemma resize_gen l rest c m el lv n x : good l rest c -> (es * Z.of_nat n <= 2 ^ 31)%Z ->
    exists s' r, x_resize es n x (st l rest c m el lv) = Ok (s', r) /\
      match r with
      | Returned _ => exists rest' c' m' el' lv', s' = st (seq_resize l n x) rest' c' m' el' lv' /\ good (seq_resize l n x) rest' c' /\
          refusals m = refusals m' /\ refusals el = refusals el' /\ (el = [] -> el' = []) /\ (raw rest -> raw rest') /\
          (lv' - Z.of_nat n = lv - Z.of_nat (length l))%Z
      | NoMemory => exists m', s' = st l rest c m' el lv /\ refusals m = S (refusals m') /\ (c < es * Z.of_nat n)%Z
      | ElementThrew => el <> [] /\ length l < n /\ exists rest' c' m' el' lv', s' = st l rest' c' m' el' lv' /\ good l rest' c' /\
          refusals m = refusals m' /\ refusals el = S (refusals el') /\ (lv <= lv')%Z
      end.
  Proof.
    intros G Hb. unfold x_resize, xthen at 1, xbind at 1, bytes.
    destruct (reserve_gen l rest c m el lv (es * Z.of_nat n)%Z false G Hb) as (rest' & c' & m' & r & E & G' & R).
    rewrite E. cbn [bind]. destruct R as [(-> & Hc & Rm & Rm0 & Hrw & _)|(-> & -> & -> & Rm & Hc & Hm)].
    2:{ eexists _, NoMemory. split; [reflexivity|]. eauto. }
    unfold xbind at 1, get_vec at 1. cbn [bind]. unfold st. cbn [xv vsize vcells vcap]. unfold xthen at 1, xbind at 1.
    destruct (Nat.ltb_spec n (length l)) as [Hn|Hn].
    - assert (L1 : length (firstn n l) = n) by (rewrite firstn_length; lia).
      assert (L2 : length (skipn n l) = length l - n) by apply skipn_length.
      pose proof (destroy_gen (skipn n l) (map Some (firstn n l)) rest' (length l) c' m' el lv) as D.
      rewrite map_length, L1, L2 in D. rewrite app_assoc, <- map_app, firstn_skipn in D. rewrite D. cbn [bind].
      unfold x_set_size, xbind at 1, get_vec at 1. cbn [bind]. unfold set_vec. cbn [xv vcells vcap mans eans xlive].
      eexists _, (Returned tt). split; [reflexivity|]. destruct G' as [L C].
      exists (repeat None (length l - n) ++ rest'), c', m', el, (lv - Z.of_nat (length l - n))%Z.
      assert (Es : seq_resize l n x = firstn n l) by (unfold seq_resize; replace (n - length l) with 0 by lia; apply app_nil_r).
      rewrite Es. split; [unfold st; rewrite L1; reflexivity|].
      split; [split; [rewrite L1, app_length, repeat_length; lia|exact C]|]. split; [exact Rm|]. split; [reflexivity|]. split; [auto|].
      split; [intros Rw; apply raw_app; [apply raw_repeat|exact (Hrw Rw)]|]. lia.
    - pose proof (good_room l rest' c' (n - length l) G') as Hroom. replace (length l + (n - length l)) with n in Hroom by lia. specialize (Hroom Hc).
      destruct (construct_gen (repeat x (n - length l)) (map Some l) (firstn (n - length l) rest') (skipn (n - length l) rest') (length l) c' m' el lv) as (k & el' & r & E2 & R2).
      { rewrite firstn_length, repeat_length. lia. }
      rewrite map_length, firstn_skipn in E2. rewrite E2. cbn [bind]. destruct G' as [L C]. rewrite !repeat_length in R2.
      destruct R2 as [(-> & -> & Re & Re0)|(-> & Hk & Re & Hel)]; cbn [bind].
      + unfold x_set_size, xbind at 1, get_vec at 1. cbn [bind]. unfold set_vec. cbn [xv vcells vcap mans eans xlive].
        eexists _, (Returned tt). split; [reflexivity|].
        exists (skipn (n - length l) rest'), c', m', el', (lv + Z.of_nat (n - length l))%Z.
        assert (Es : seq_resize l n x = l ++ repeat x (n - length l)) by (unfold seq_resize; now rewrite firstn_all2 by lia).
        rewrite (firstn_all2 (repeat x _)), skipn_all2, app_nil_l by (rewrite ?firstn_length, ?repeat_length; lia).
        split; [unfold st; rewrite seq_resize_len, Es, map_app, <- app_assoc; reflexivity|].
        split; [split; [rewrite seq_resize_len, skipn_length; lia|exact C]|]. split; [exact Rm|]. split; [exact Re|]. split; [exact Re0|].
        split; [intros Rw; apply raw_skipn, Hrw, Rw|]. lia.
      + eexists _, ElementThrew. split; [reflexivity|]. split; [exact Hel|]. split; [lia|].
        eexists _, c', m', el', _. split; [unfold st; reflexivity|]. split; [split; [|exact C]|].
        * rewrite !app_length, map_length, firstn_length, !skipn_length, firstn_length, repeat_length. lia.
        * split; [exact Rm|]. split; [exact Re|]. lia.
  Qed.

  Lemma resize_step l rest c m el lv n x o : good l rest c -> (es * Z.of_nat n <= 2 ^ 31)%Z ->
    xstep e es dflt o = x_resize es n x -> seq_step dflt l o = seq_resize l n x -> step_spec l rest c m el lv o.
  Proof.
    intros G Hb Hx Hs. destruct (resize_gen l rest c m el lv n x G Hb) as (s' & r & E & R). unfold step_spec. rewrite Hx, Hs.
    exists s', r. split; [exact E|]. destruct r as [u| |].
    - destruct R as (rest' & c' & m' & el' & lv' & R). exists rest', c', m', el', lv'. rewrite seq_resize_len. exact R.
    - destruct R as (m' & E' & Rm & _). eauto.
    - destruct R as (Hel & Hn & rest' & c' & m' & el' & lv' & -> & G' & Rm & Re & Hlv). split; [exact Hel|]. intros _.
      exists l, rest', c', m', el', lv'. split; [reflexivity|]. split; [exact G'|]. split; [now left|]. split; [exact Rm|]. split; [exact Re|].
      split; [lia|]. rewrite seq_resize_len. lia.
  Qed.

  Lemma assign_step l rest c m el lv x o : good l rest c -> (es * Z.of_nat (length x) <= 2 ^ 31)%Z ->
    xstep e es dflt o = x_assign es dflt x -> seq_step dflt l o = x ->
    (forall k, k < length x -> partly dflt l o (firstn k x ++ skipn k (seq_resize l (length x) dflt))) -> step_spec l rest c m el lv o.
  Proof.
    intros G Hb Hx Hs Hp. unfold step_spec. rewrite Hx, Hs. unfold x_assign, xthen, xbind.
    destruct (resize_gen l rest c m el lv (length x) dflt G Hb) as (s' & r & E & R). rewrite E. cbn [bind].
    destruct r as [u| |].
    - destruct R as (rest' & c' & m' & el' & lv' & -> & G' & Rm & Re & Re0 & Rw & Hlv).
      destruct (assign_gen x [] (seq_resize l (length x) dflt) rest' (length (seq_resize l (length x) dflt)) c' m' el' lv' (seq_resize_len _ _ _)) as (k & el2 & r & E2 & R2).
      cbn [app length] in E2. unfold st at 1. rewrite E2. eexists _, r. split; [reflexivity|]. destruct G' as [L C]. rewrite seq_resize_len in L.
      destruct R2 as [(-> & -> & Re2 & Re20)|(-> & Hk & Re2 & Hel)].
      + rewrite firstn_all, skipn_all2, app_nil_r by (rewrite seq_resize_len; lia). exists rest', c', m', el2, lv'.
        split; [unfold st; rewrite seq_resize_len; reflexivity|]. split; [split; [exact L|exact C]|]. split; [exact Rm|]. split; [congruence|].
        split; [auto|]. split; [exact Rw|]. lia.
      + split; [intros ->; apply Hel; auto|]. intros _.
        assert (Ll : length (firstn k x ++ skipn k (seq_resize l (length x) dflt)) = length x) by (rewrite app_length, firstn_length, skipn_length, seq_resize_len; lia).
        exists (firstn k x ++ skipn k (seq_resize l (length x) dflt)), rest', c', m', el2, lv'. split; [unfold st; rewrite Ll, (seq_resize_len l (length x)); reflexivity|].
        split; [split; [rewrite Ll; exact L|exact C]|]. split; [apply Hp, Hk|]. split; [exact Rm|]. split; [congruence|]. rewrite Ll.
        split; [lia|]. intros _. split; [exact Rw|lia].
    - destruct R as (m' & E' & Rm & _). eexists _, NoMemory. split; [reflexivity|]. eauto.
    - destruct R as (Hel & Hn & rest' & c' & m' & el' & lv' & -> & G' & Rm & Re & Hlv). eexists _, ElementThrew. split; [reflexivity|]. split; [exact Hel|]. intros _.
      exists l, rest', c', m', el', lv'. split; [reflexivity|]. split; [exact G'|]. split; [now left|]. split; [exact Rm|]. split; [exact Re|].
      split; [lia|]. lia.
  Qed.

  Lemma destroy_all_gen l rest c m el lv : good l rest c ->
    exists cells, x_destroy_all (st l rest c m el lv) = Ok (mkxs (mkvec cells (length l) c) m el (lv - Z.of_nat (length l)), Returned tt) /\
      length cells = Z.to_nat (c / es) /\ (raw rest -> raw cells).
  Proof.
    intros G. pose proof (good_cap _ _ _ G) as Hc. destruct G as [L C]. unfold x_destroy_all, xbind, get_vec. cbn [bind]. unfold st at 1. cbn [xv vcap vsize].
    destruct (Z.eqb_spec c 0) as [E0|E0].
    - subst c. rewrite Z.div_0_l in L by lia. change (Z.to_nat 0) with 0 in L. destruct l; [|cbn in L; lia]. destruct rest; [|cbn in L; lia].
      exists []. split; [unfold xret, st; cbn [map app length]; xlv|]. rewrite Z.div_0_l by lia. split; [reflexivity|]. intros; reflexivity.
    - pose proof (destroy_gen l [] rest (length l) c m el lv) as D. cbn [app length] in D. unfold st. cbn [xv vsize]. rewrite D. eexists. split; [reflexivity|].
      split; [rewrite app_length, repeat_length; lia|]. intros Rw. apply raw_app; [apply raw_repeat|exact Rw].
  Qed.
  Lemma clear_step l rest c m el lv o : o = OpClear \/ o = OpDeallocate -> good l rest c -> step_spec l rest c m el lv o.
  Proof.
    intros Ho G. destruct (destroy_all_gen l rest c m el lv G) as (cells & E & L & Rw). destruct G as [_ C].
    unfold step_spec. destruct Ho as [-> | ->]; cbn [xstep seq_step].
    - unfold x_clear, xthen, xbind. rewrite E. cbn [bind]. unfold x_set_size, xbind at 1, get_vec at 1. cbn [bind]. unfold set_vec. cbn [xv vcells vcap mans eans xlive].
      eexists _, (Returned tt). split; [reflexivity|]. exists cells, c, m, el, (lv - Z.of_nat (length l))%Z. split; [reflexivity|].
      split; [split; [exact L|exact C]|]. repeat split; auto. cbn [length]. lia.
    - unfold x_deallocate, xthen, xbind. rewrite E. cbn [bind]. unfold set_vec. cbn [xv vcells vcap mans eans xlive].
      eexists _, (Returned tt). split; [reflexivity|]. exists [], 0%Z, m, el, (lv - Z.of_nat (length l))%Z. split; [reflexivity|].
      split; [split; [rewrite Z.div_0_l by lia; reflexivity|lia]|]. repeat split; auto. cbn [length]. lia.
  Qed.

  Lemma shrink_step l rest c m el lv : good l rest c -> step_spec l rest c m el lv OpShrink.
  Proof.
    intros G. pose proof (good_cap _ _ _ G) as Hc. unfold step_spec. cbn [xstep seq_step]. unfold x_shrink, xbind at 1, get_vec at 1. cbn [bind]. unfold st. cbn [xv vcap vsize vcells].
    destruct (c =? 0)%Z.
    { eexists _, (Returned tt). split; [reflexivity|]. exists rest, c, m, el, lv. repeat split; auto; apply G. }
    destruct (Nat.eqb_spec (length l) 0) as [Z0|N0].
    { apply length_zero_iff_nil in Z0. subst l. eexists _, (Returned tt). split; [reflexivity|]. exists [], 0%Z, m, el, lv. split; [reflexivity|].
      split; [split; [rewrite Z.div_0_l by lia; reflexivity|lia]|]. repeat split; auto. }
    assert (Hcells : realloc_cells (map Some l ++ rest) (length l) = map Some l ++ []).
    { unfold realloc_cells. rewrite app_length, map_length. replace (length l - (length l + length rest)) with 0 by lia.
      rewrite firstn_app, map_length, Nat.sub_diag, firstn_all2 by (rewrite map_length; lia). cbn [firstn repeat]. now rewrite !app_nil_r. }
    destruct G as [L C].
    assert (G' : good l [] (es * Z.of_nat (length l))).
    { split; [|nia]. rewrite Z.mul_comm, Z.div_mul by lia. cbn [length]. lia. }
    unfold xthen, xbind, ask_mem. cbn [mans eans xv xlive]. unfold bytes. destruct m as [|[|] m]; cbn [bind]; unfold set_vec; cbn [mans eans xlive xv].
    - eexists _, (Returned tt). split; [rewrite Hcells; reflexivity|]. eexists [], _, [], el, lv. split; [reflexivity|]. split; [exact G'|]. repeat split; auto.
    - eexists _, (Returned tt). split; [rewrite Hcells; reflexivity|]. eexists [], _, m, el, lv. split; [reflexivity|]. split; [exact G'|]. repeat split; auto.
    - eexists _, NoMemory. split; [reflexivity|]. exists m. split; [reflexivity|]. now rewrite refusals_cons.
  Qed.

  Lemma xstep_ok l rest c m el lv o : (es mod 4 = 0)%Z -> good l rest c -> op_pre es dflt l o -> step_spec l rest c m el lv o.
  Proof.
    intros H4 G P. pose proof (op_moves_4 es dflt Hes o l H4 P) as Hm. destruct o; cbn [op_moves_ok] in Hm; pose proof P as (Hb & Hp); cbn [seq_step] in Hb.
    - now apply push_back_step.
    - now apply pop_back_step.
    - now apply (insert_step l rest c m el lv ip [x]).
    - apply (insert_step l rest c m el lv ip (repeat x n)); auto. now rewrite repeat_length.
    - now apply (insert_step l rest c m el lv ip l0).
    - now apply erase_step.
    - rewrite seq_resize_len in Hb. now apply (resize_step l rest c m el lv n dflt).
    - rewrite seq_resize_len in Hb. now apply (resize_step l rest c m el lv n x).
    - apply (assign_step l rest c m el lv l0); auto. intros k Hk. right. exists k. auto.
    - rewrite repeat_length in Hb. apply (assign_step l rest c m el lv (repeat x n)); auto; [now rewrite repeat_length|].
      rewrite repeat_length. intros k Hk. right. exists k. split; [exact Hk|]. f_equal. clear -Hk. revert n Hk. induction k as [|k IH]; intros [|n] Hk; try lia; [reflexivity|].
      cbn [repeat firstn]. f_equal. apply IH. lia.
    - apply clear_step; auto.
    - destruct (reserve_gen l rest c m el lv (es * Z.of_nat n)%Z exact G Hp) as (rest' & c' & m' & r & E & G' & R).
      exists (st l rest' c' m' el lv), r. split; [exact E|]. cbn [seq_step]. destruct R as [(-> & Hc & Rm & Rm0 & Hrw & _)|(-> & -> & -> & Rm & Hc & Hmm)].
      + exists rest', c', m', el, lv. repeat split; auto; apply G'.
      + eauto.
    - now apply shrink_step.
    - apply clear_step; auto.
  Qed.

  Lemma contents_st l rest c m el lv : contents (xv (st l rest c m el lv)) = Ok l.
  Proof.
    unfold contents, st. cbn [xv vsize].
    assert (H : forall n i, i + n = length l -> read_from (mkvec (map Some l ++ rest) (length l) c) i n = Ok (skipn i l)).
    { induction n as [|n IH]; intros i Hi; cbn [read_from]; [rewrite skipn_all2 by lia; reflexivity|].
      unfold vat. cbn [vsize vcells]. replace (i <? length l) with true by lia. unfold rd.
      destruct (nth_error l i) as [x|] eqn:Ex; [|apply nth_error_None in Ex; lia].
      rewrite nth_error_app1 by (rewrite map_length; lia). rewrite (map_nth_error _ _ _ Ex). cbn [bind]. rewrite IH by lia. cbn [bind]. f_equal.
      clear -Ex. revert i Ex. induction l as [|h t IHl]; intros [|i] Ex; try discriminate; [injection Ex as ->; reflexivity|]. cbn [skipn nth_error] in *. now apply IHl. }
    now rewrite (H (length l) 0).
  Qed.

  (** The strong guarantee when only allocations fail. *)
  Lemma prog_mem p : (es mod 4 = 0)%Z -> forall l rest c m, good l rest c -> raw rest -> prog_pre es dflt unchanged l p ->
    exists fs l' rest' c' m', xprog e es dflt p (st l rest c m [] (Z.of_nat (length l))) = Ok (st l' rest' c' m' [] (Z.of_nat (length l'))) /\
      ends dflt unchanged l p fs l' /\ good l' rest' c' /\ raw rest' /\ refusals m = refusals fs + refusals m'.
  Proof.
    intros H4. induction p as [|o k IHk kt IHt]; intros l rest c m G Rw Hp.
    { exists [], l, rest, c, m. repeat split; auto; try apply G. constructor. }
    destruct Hp as (P & Pk & Pt). cbn [xprog].
    destruct (xstep_ok l rest c m [] (Z.of_nat (length l)) o H4 G P) as (s' & r & E & R). rewrite E. cbn [bind]. destruct r as [u| |].
    - destruct R as (rest' & c' & m' & el' & lv' & -> & G' & Rm & Re & Re0 & Rr & Hlv). rewrite (Re0 eq_refl).
      replace lv' with (Z.of_nat (length (seq_step dflt l o))) by lia.
      destruct (IHk _ rest' c' m' G' (Rr Rw) Pk) as (fs & l2 & rest2 & c2 & m2 & E2 & En & G2 & R2 & Rm2).
      exists (true :: fs), l2, rest2, c2, m2. split; [exact E2|]. split; [now constructor|]. rewrite refusals_cons. repeat split; auto; try apply G2. cbn. lia.
    - destruct R as (m' & -> & Rm). destruct (IHt l rest c m' G Rw (Pt l eq_refl)) as (fs & l2 & rest2 & c2 & m2 & E2 & En & G2 & R2 & Rm2).
      exists (false :: fs), l2, rest2, c2, m2. split; [exact E2|]. split; [apply ends_threw with l; [reflexivity|exact En]|]. rewrite refusals_cons. repeat split; auto; try apply G2. cbn. lia.
    - destruct R as [[] _]. reflexivity.
  Qed.

  (** Throwing elements, without push_back and insert. *)
  Lemma prog_elem p : (es mod 4 = 0)%Z -> forall l rest c m el lv, good l rest c -> (Z.of_nat (length l) <= lv)%Z ->
    prog_pre es dflt (partly dflt) l p -> uses not_inserting p ->
    exists fs l' rest' c' m' el' lv', xprog e es dflt p (st l rest c m el lv) = Ok (st l' rest' c' m' el' lv') /\
      ends dflt (partly dflt) l p fs l' /\ good l' rest' c' /\ (Z.of_nat (length l') <= lv')%Z /\
      refusals m + refusals el = refusals fs + refusals m' + refusals el'.
  Proof.
    intros H4. induction p as [|o k IHk kt IHt]; intros l rest c m el lv G Hlv Hp Hu.
    { exists [], l, rest, c, m, el, lv. repeat split; auto; try apply G. constructor. }
    destruct Hp as (P & Pk & Pt). destruct Hu as (Uo & Uk & Ut). cbn [xprog].
    destruct (xstep_ok l rest c m el lv o H4 G P) as (s' & r & E & R). rewrite E. cbn [bind]. destruct r as [u| |].
    - destruct R as (rest' & c' & m' & el' & lv' & -> & G' & Rm & Re & Re0 & Rr & Hlv').
      destruct (IHk _ rest' c' m' el' lv' G' ltac:(lia) Pk Uk) as (fs & l2 & rest2 & c2 & m2 & el2 & lv2 & E2 & En & G2 & R2 & Rm2).
      exists (true :: fs), l2, rest2, c2, m2, el2, lv2. split; [exact E2|]. split; [now constructor|]. rewrite refusals_cons. repeat split; auto; try apply G2. cbn. lia.
    - destruct R as (m' & -> & Rm). destruct (IHt l rest c m' el lv G Hlv (Pt l (or_introl eq_refl)) Ut) as (fs & l2 & rest2 & c2 & m2 & el2 & lv2 & E2 & En & G2 & R2 & Rm2).
      exists (false :: fs), l2, rest2, c2, m2, el2, lv2. split; [exact E2|]. split; [apply ends_threw with l; [now left|exact En]|]. rewrite refusals_cons. repeat split; auto; try apply G2. cbn. lia.
    - destruct R as [_ R]. destruct (R Uo) as (l1 & rest' & c' & m' & el' & lv' & -> & G' & Hpt & Rm & Re & Hl1 & _).
      destruct (IHt l1 rest' c' m' el' lv' G' ltac:(lia) (Pt l1 Hpt) Ut) as (fs & l2 & rest2 & c2 & m2 & el2 & lv2 & E2 & En & G2 & R2 & Rm2).
      exists (false :: fs), l2, rest2, c2, m2, el2, lv2. split; [exact E2|]. split; [now apply ends_threw with l1|]. rewrite refusals_cons. repeat split; auto; try apply G2. cbn. lia.
  Qed.

  (** ** What is refuted *)
  Lemma destroy_ub (a : list T) : forall (pre post : list (option T)) k sz c m el lv,
    x_destroy (length pre) (length a + S k) (mkxs (mkvec (pre ++ map Some a ++ None :: post) sz c) m el lv) = UB.
  Proof.
    induction a as [|h t IH]; intros pre post k sz c m el lv.
    - cbn [length Nat.add x_destroy map app]. unfold xbind at 1, get_cell at 1. cbn [xv vcells]. rewrite rd_app. reflexivity.
    - cbn [length Nat.add x_destroy map app]. unfold xthen, xbind at 1, get_cell at 1. cbn [xv vcells]. rewrite rd_app. cbn [bind].
      unfold xbind, set_cell at 1. cbn [xv vcells app mans eans xlive vsize vcap]. rewrite wr_app. cbn [bind].
      specialize (IH (pre ++ [None]) post k sz c m el (lv + -1)%Z). rewrite app_length, Nat.add_1_r, <- !app_assoc in IH. cbn [app] in IH. exact IH.
  Qed.
  Lemma read_ub (a : list T) : forall (pre post : list (option T)) k sz c, length pre + length a < sz ->
    read_from (mkvec (pre ++ map Some a ++ None :: post) sz c) (length pre) (length a + S k) = UB.
  Proof.
    induction a as [|h t IH]; intros pre post k sz c H.
    - cbn [length Nat.add read_from map app]. unfold vat. cbn [vsize vcells]. cbn [length] in H. replace (length pre <? sz) with true by lia. rewrite rd_app. reflexivity.
    - cbn [length Nat.add read_from map app]. unfold vat. cbn [vsize vcells]. cbn [length] in H. replace (length pre <? sz) with true by lia. rewrite rd_app. cbn [bind].
      specialize (IH (pre ++ [Some h]) post k sz c). rewrite app_length, Nat.add_1_r, <- !app_assoc in IH. cbn [app length] in IH. rewrite IH by lia. reflexivity.
  Qed.
  (** A vector that counts an element that is not there. *)
  Definition holed (v : vec T) : Prop := exists a post, vcells v = map Some a ++ None :: post /\ length a < vsize v /\ (0 < vcap v)%Z.
  Lemma holed_bad s : holed (xv s) -> contents (xv s) = UB /\ x_clear s = UB /\ x_deallocate s = UB.
  Proof.
    destruct s as [[cells sz c] m el lv]. intros (a & post & E & Hs & Hc). cbn [xv vcells vsize vcap] in *. subst cells.
    pose proof (destroy_ub a [] post (sz - length a - 1) sz c m el lv) as D. pose proof (read_ub a [] post (sz - length a - 1) sz c Hs) as R.
    cbn [app length] in D, R. replace (length a + S (sz - length a - 1)) with sz in D, R by lia.
    assert (A : x_destroy_all (mkxs (mkvec (map Some a ++ None :: post) sz c) m el lv) = UB).
    { unfold x_destroy_all, xbind, get_vec. cbn [bind xv vcap vsize]. replace (c =? 0)%Z with false by lia. exact D. }
    split; [exact R|]. unfold x_clear, x_deallocate, xthen, xbind. rewrite A. split; reflexivity.
  Qed.

  Lemma Vinv_st v l m el lv : Vinv es v l -> exists rest c, mkxs v m el lv = st l rest c m el lv /\ good l rest c /\ raw rest.
  Proof.
    intros ((k & E) & S & L & C). destruct v as [cells sz c]. cbn [vcells vsize vcap] in *. subst cells sz. exists (repeat None k), c.
    split; [reflexivity|]. split; [|apply raw_repeat]. split; [|exact C]. rewrite <- L, app_length, map_length. reflexivity.
  Qed.
  Lemma st_Vinv l rest c m el lv : good l rest c -> raw rest -> Vinv es (xv (st l rest c m el lv)) l.
  Proof.
    intros [L C] R. unfold st, Vinv. cbn [xv vcells vsize vcap]. split; [exists (length rest); unfold raw in R; now rewrite <- R|]. split; [reflexivity|]. split; [|exact C].
    rewrite app_length, map_length. exact L.
  Qed.

  Lemma push_back_throw v l x el lv : Vinv es v l -> (es * Z.of_nat (length l + 1) <= 2 ^ 31)%Z ->
    exists s', xstep e es dflt (OpPushBack x) (mkxs v [] (false :: el) lv) = Ok (s', ElementThrew) /\
      vsize (xv s') = length l + 1 /\ xlive s' = lv /\ holed (xv s').
  Proof.
    intros V Hb. destruct (Vinv_st v l [] (false :: el) lv V) as (rest & c & -> & G & Rw).
    cbn [xstep]. unfold x_push_back, xbind at 1, x_append_hole, xthen, xbind at 1, get_vec at 1. cbn [bind]. unfold st at 1 2 3. cbn [xv vsize]. unfold bytes.
    destruct (reserve_gen l rest c [] (false :: el) lv (es * Z.of_nat (length l + 1))%Z false G Hb) as (rest' & c' & m' & r & E & G' & R).
    unfold xbind at 1. fold (st l rest c [] (false :: el) lv). rewrite E. cbn [bind]. destruct R as [(-> & Hc & Rm & Rm0 & Hr & _)|(_ & _ & _ & _ & _ & [])]; [|reflexivity].
    unfold xbind at 1, x_set_size, xbind at 1, get_vec at 1. cbn [bind]. unfold set_vec at 1, st. cbn [xv vsize vcells vcap mans eans xlive bind].
    unfold xret. cbn [bind x_construct]. unfold xthen, xbind at 1, ask_elem at 1. cbn [eans bind mans xv xlive]. eexists. split; [reflexivity|].
    cbn [xv vsize xlive]. split; [reflexivity|]. split; [reflexivity|].
    pose proof (good_room _ _ _ _ G' Hc) as Hroom. specialize (Hr Rw). destruct rest' as [|d rest']; [cbn in Hroom; lia|].
    exists l, rest'. cbn [vcells vsize vcap]. split; [unfold raw in Hr; cbn [length repeat] in Hr; injection Hr as -> _; reflexivity|]. split; [lia|]. nia.
  Qed.

  Lemma insert_throw v l ip x el lv : Vinv es v l -> ip <= length l -> x <> [] -> (es * Z.of_nat (length l + length x) <= 2 ^ 31)%Z ->
    rot_good (es * Z.of_nat ip) (es * Z.of_nat (length l)) (es * Z.of_nat (length l + length x)) = true ->
    exists s', x_insert e es ip x (mkxs v [] (false :: el) lv) = Ok (s', ElementThrew) /\
      vsize (xv s') = length l + length x /\ xlive s' = lv /\ holed (xv s').
  Proof.
    intros V Hi Hx Hb Hr. destruct (Vinv_st v l [] (false :: el) lv V) as (rest & c & -> & G & Rw).
    unfold x_insert, x_insert_hole, xthen at 1. unfold xbind at 1. unfold xbind at 1, get_vec at 1. cbn [bind].
    unfold st at 1 2 3 4 5. cbn [xv vsize]. destruct (Nat.ltb_spec (length l) ip) as [|_]; [lia|]. unfold bytes.
    fold (st l rest c [] (false :: el) lv).
    destruct (reserve_gen l rest c [] (false :: el) lv (es * Z.of_nat (length l + length x))%Z false G Hb) as (rest' & c' & m' & r & E & G' & R).
    unfold xthen at 1, xbind at 1. rewrite E. cbn [bind]. destruct R as [(-> & Hc & Rm & Rm0 & Hrw & _)|(_ & _ & _ & _ & _ & [])]; [|reflexivity].
    destruct (reserve_gen l rest' c' m' (false :: el) lv (es * Z.of_nat (length l + length x))%Z false G' Hb) as (rest2 & c2 & m2 & r2 & E2 & _ & R2).
    unfold xthen at 1, xbind at 1. rewrite E2. cbn [bind]. destruct R2 as [(-> & _ & _ & _ & _ & R2)|(_ & _ & _ & _ & Hc2 & _)]; [|lia].
    destruct (R2 Hc) as (-> & -> & ->). clear E E2 R2.
    unfold xbind at 1, get_vec at 1. cbn [bind]. unfold st at 1 2. cbn [xv vcells vcap].
    pose proof (good_room _ _ _ _ G' Hc) as Hroom. destruct G' as [L C].
    assert (El : map (@Some T) l ++ rest' = map Some (firstn ip l) ++ map Some (skipn ip l) ++ firstn (length x) rest' ++ skipn (length x) rest').
    { rewrite firstn_skipn, app_assoc, <- map_app, firstn_skipn. reflexivity. }
    rewrite El.
    pose proof (rotate_gen (map Some (firstn ip l)) (map Some (skipn ip l)) (firstn (length x) rest') (skipn (length x) rest') c') as RV.
    rewrite <- El, app_length, map_length in RV. specialize (RV L C).
    rewrite !map_length, !firstn_length, skipn_length in RV.
    replace (Nat.min ip (length l)) with ip in RV by lia. replace (Nat.min (length x) (length rest')) with (length x) in RV by lia.
    replace (ip + (length l - ip)) with (length l) in RV by lia. rewrite El in RV. rewrite RV by exact Hr. cbn [bind]. unfold set_vec at 1, st. cbn [mans eans xlive bind xv vsize vcap vcells].
    destruct x as [|h x]; [congruence|]. cbn [x_construct]. unfold xthen, xbind at 1, ask_elem at 1. cbn [eans bind mans xv xlive]. eexists. split; [reflexivity|].
    cbn [xv vsize xlive]. split; [reflexivity|]. split; [reflexivity|]. specialize (Hrw Rw). cbn [length] in *. destruct rest' as [|d rest']; [cbn in Hroom; lia|].
    eexists (firstn ip l), _. cbn [vcells vsize vcap firstn app]. split; [unfold raw in Hrw; cbn [length repeat] in Hrw; injection Hrw as -> _; reflexivity|].
    rewrite firstn_length. split; [lia|]. nia.
  Qed.

  Lemma resize_leak (v : vec T) l n x el : Vinv es v l -> length l + 2 <= n -> (es * Z.of_nat n <= 2 ^ 31)%Z ->
    exists s' (s'' : xs T), x_resize es n x (mkxs v [] (true :: false :: el) (Z.of_nat (length l))) = Ok (s', ElementThrew) /\
      contents (xv s') = Ok l /\ x_deallocate s' = Ok (s'', Returned tt) /\ xlive s'' = 1%Z.
  Proof.
    intros V Hn Hb. destruct (Vinv_st v l [] (true :: false :: el) (Z.of_nat (length l)) V) as (rest & c & -> & G & Rw).
    unfold x_resize, xthen at 1, xbind at 1, bytes.
    destruct (reserve_gen l rest c [] (true :: false :: el) (Z.of_nat (length l)) (es * Z.of_nat n)%Z false G Hb) as (rest' & c' & m' & r & E & G' & R).
    rewrite E. cbn [bind]. destruct R as [(-> & Hc & Rm & Rm0 & Hrw & _)|(_ & _ & _ & _ & _ & [])]; [|reflexivity].
    unfold xbind at 1, get_vec at 1. cbn [bind]. unfold st. cbn [xv vsize vcells vcap]. unfold xthen at 1, xbind at 1.
    destruct (Nat.ltb_spec n (length l)) as [|_]; [lia|].
    pose proof (good_room l rest' c' (n - length l) G') as Hroom. replace (length l + (n - length l)) with n in Hroom by lia. specialize (Hroom Hc).
    replace (n - length l) with (S (S (n - length l - 2))) by lia. cbn [repeat x_construct].
    destruct rest' as [|d rest']; [cbn in Hroom; lia|].
    unfold xthen at 1, xbind at 1, ask_elem at 1. cbn [eans bind mans xv xlive]. unfold xthen at 1, xbind at 1, set_cell at 1. cbn [eans bind mans xv xlive vcells vsize vcap].
    assert (W : wr (map Some l ++ d :: rest') (length l) (Some x) = Ok (map Some l ++ Some x :: rest')) by (rewrite <- (map_length (@Some T) l); apply wr_app).
    rewrite W. cbn [bind]. unfold xthen at 1, xbind at 1, ask_elem at 1. cbn [eans bind mans xv xlive].
    set (rs := Some x :: rest'). assert (G2 : good l rs c') by exact G'.
    pose proof (destroy_all_gen l rs c' m' el (Z.of_nat (length l) + 1)%Z G2) as (cells & D & _ & _).
    eexists _, _. split; [reflexivity|]. split; [exact (contents_st l rs c' m' el (Z.of_nat (length l) + 1)%Z)|].
    unfold x_deallocate, xthen, xbind. unfold st in D. rewrite D. cbn [bind]. split; [reflexivity|]. cbn [xlive mans eans set_vec]. lia.
  Qed.

  Lemma constructor_leak a b (l : list T) el : (es * Z.of_nat (length (a :: b :: l)) <= 2 ^ 31)%Z ->
    x_new es (a :: b :: l) [] (true :: false :: el) = Ok (None, 1%Z).
  Proof.
    intros Hb. unfold x_new.
    assert (G0 : good [] [] 0) by (split; [rewrite Z.div_0_l by lia; reflexivity|lia]).
    unfold xbind at 1, x_append_hole, xthen, xbind at 1, get_vec at 1. cbn [bind xv vsize vec_nil]. unfold bytes. cbn [Nat.add].
    destruct (reserve_gen [] [] 0 [] (true :: false :: el) 0 (es * Z.of_nat (length (a :: b :: l)))%Z false G0 Hb) as (rest' & c' & m' & r & E & G' & R).
    unfold st at 1 in E. cbn [map app length] in E. unfold xbind at 1. fold (@vec_nil T) in E. cbn [length]. rewrite E. cbn [bind].
    destruct R as [(-> & Hc & Rm & Rm0 & Hrw & _)|(_ & _ & _ & _ & _ & [])]; [|reflexivity].
    unfold xbind at 1, x_set_size, xbind at 1, get_vec at 1. cbn [bind]. unfold set_vec at 1, st. cbn [xv vsize vcells vcap mans eans xlive bind map app].
    unfold xret. cbn [bind x_construct]. pose proof (good_room [] rest' c' (length (a :: b :: l)) G' Hc) as Hroom. destruct rest' as [|d rest']; [cbn in Hroom; lia|].
    unfold xthen at 1, xbind at 1, ask_elem at 1. cbn [eans bind mans xv xlive]. unfold xthen at 1, xbind at 1, set_cell at 1. cbn [eans bind mans xv xlive vcells vsize vcap wr upd].
    unfold wr. cbn [upd bind]. unfold xthen at 1, xbind at 1, ask_elem at 1. cbn [eans bind mans xv xlive]. reflexivity.
  Qed.
End V.
