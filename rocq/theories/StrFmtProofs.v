(** * StrFmtProofs: format and hash. *)
From Verif Require Import Base UtilModel UtilProofs StoreModel StoreProofs VectorSpec MemModel MemSpec MemProofs MemRun
  StringModel StringSpec StringProofs StringRun StringFindModel StrFmtModel StrFmtSpec.
From Coq Require Import ZArith ZifyBool ZifyNat.
Local Open Scope Z_scope.

Lemma to_int_id x : 0 <= x < 2 ^ 31 -> to_int x = x.
Proof.
  intros H. unfold to_int, u32, two32. rewrite Z.mod_small by lia. cbv zeta. destruct (Z.ltb_spec x (2 ^ 31)); lia.
Qed.
Lemma u64_id x : 0 <= x < 2 ^ 64 -> u64 x = x.
Proof. intros H. unfold u64, two64. apply Z.mod_small. lia. Qed.

Section WithEnv.
  Variable e : env.
  Hypothesis Henv : good_env e.
  Hypothesis Hmem : enough_memory e.
  Variable nul : ptr.

  (** Writing the text and its terminator at the front of an owning block. *)
  Lemma write_front h m l x : Minv e h m l -> 0 < mcap m -> Z.of_nat (length x) <= mcap m ->
    exists h' b r, store_n h (mptr m) x = Ok h' /\ Step h m h' m /\ (exists l', Minv e h' m l') /\
      mptr m = Some (b, 0) /\ nth_error h' b = Some (mkblk (x ++ r) (malloc_at e (mcap m)) Owned) /\ Z.of_nat (length (x ++ r)) = mcap m /\
      mcap m <= 2 ^ 31.
  Proof.
    intros ((S & Sb) & [(C & _)|O]) Hc Lx; [lia|]. pose proof O as ((_ & Cb) & b & r & P & N & L).
    destruct (Owning_owner e h m l O) as (b' & Ob & P' & _). rewrite P in P'. injection P' as <-.
    set (cells := l ++ r) in *.
    assert (Ec : cells = [] ++ firstn (length x) cells ++ skipn (length x) cells) by (cbn [app]; symmetry; apply firstn_skipn).
    assert (Lf : length (firstn (length x) cells) = length x) by (rewrite firstn_length; lia).
    destruct (store_ok h b _ 0 [] (firstn (length x) cells) (skipn (length x) cells) x N eq_refl Ec Lf eq_refl) as (h' & E & W).
    cbn [app bbase bkind] in W. exists h', b, (skipn (length x) cells). rewrite P.
    assert (Lc : Z.of_nat (length (x ++ skipn (length x) cells)) = mcap m) by (rewrite app_length, skipn_length; lia).
    split; [exact E|]. split; [eapply hset_step; eauto|]. destruct W as (_ & W & _).
    split; [|auto].
    assert (Ls : (length l <= length cells)%nat) by (unfold cells; rewrite app_length; lia).
    set (new := x ++ skipn (length x) cells) in *.
    exists (firstn (length l) new). split; [rewrite firstn_length; lia|]. right. split; [lia|].
    exists b, (skipn (length l) new). rewrite firstn_skipn. auto.
  Qed.
  Lemma resize_cap h m n h' m' : str_resize e nul h m n = Ok (h', m') -> mcap m < u64 (n + 1) -> mcap m' = u64 (n + 1) \/ n = 0.
  Proof.
    unfold str_resize, resize. destruct ((n =? 0) && (mcap m =? 0)) eqn:E0; [intros _ _; right; lia|].
    intros E L. left. destruct (Z.ltb_spec (mcap m) (u64 (n + 1))); [|lia].
    unfold reserve in E. destruct (Z.leb_spec (u64 (n + 1)) (mcap m)); [lia|].
    destruct (realloc _ _ _ _) as [[h1 nb]| | |]; cbn [bind] in E; try discriminate.
    destruct (match (if is_linked m then None else mptr m) with Some _ => _ | None => _ end) as [h2| | |]; cbn [bind] in E; try discriminate.
    destruct (link nb (msize m)) as [m2| | |]; cbn [bind] in E; try discriminate.
    cbn [mptr msize mcap] in E.
    destruct (store_n _ _ _); cbn [bind] in E; try discriminate. injection E as _ <-. reflexivity.
  Qed.

  (** The last round: the text fits. *)
  Lemma format_fits fuel h m l t : Minv e h m l -> 0 < mcap m < 2 ^ 31 -> Z.of_nat (length t) < mcap m ->
    exists h' , str_vformat e nul (S fuel) h m (Some t) = Ok (h', mkmb (mptr m) (Z.of_nat (length t)) (mcap m), Z.of_nat (length t)) /\
      Step h m h' (mkmb (mptr m) (Z.of_nat (length t)) (mcap m)) /\
      Minv e h' (mkmb (mptr m) (Z.of_nat (length t)) (mcap m)) (map Some t) /\ Nul h' (mkmb (mptr m) (Z.of_nat (length t)) (mcap m)).
  Proof.
    intros I Hc Lt. cbn [str_vformat]. cbv zeta. rewrite to_int_id, u64_id by lia. unfold vsnprintf.
    destruct (Z.eqb_spec (mcap m) 0); [lia|].
    rewrite (Z.min_r (mcap m - 1)) by lia. rewrite Nat2Z.id, firstn_all.
    destruct (write_front h m l (map Some t ++ [Some 0]) I ltac:(lia)) as (h1 & b & r & E & St & (l1 & I1) & P & N & L & Cb).
    { rewrite app_length, map_length. cbn [length]. lia. }
    rewrite E. cbn [bind]. rewrite u64_id by lia. unfold str_resize.
    destruct ((Z.of_nat (length t) =? 0) && (mcap m =? 0)) eqn:E0; [lia|].
    unfold resize. rewrite u64_id by lia. destruct (Z.ltb_spec (mcap m) (Z.of_nat (length t) + 1)); [lia|]. cbn [bind].
    set (m' := mkmb (mptr m) (Z.of_nat (length t)) (mcap m)).
    assert (I2 : Minv e h1 m' (map Some t)).
    { split; [cbn [msize m']; rewrite map_length; lia|]. right. split; [cbn [mcap m']; lia|]. exists b, ([Some 0] ++ r).
      cbn [mptr mcap m']. rewrite <- app_assoc in N, L. auto. }
    assert (Lm : Z.of_nat (length (map Some t)) = Z.of_nat (length t)) by (rewrite map_length; reflexivity).
    destruct (term_ok e h1 m' (map Some t) I2) as (h2 & E2 & St2 & I2' & Z2); [rewrite Lm; cbn [mcap m']; lia|].
    rewrite Lm in E2. rewrite E2. cbn [bind].
    destruct (Z.leb_spec (mcap m) (Z.of_nat (length t))); [lia|]. exists h2.
    split; [reflexivity|]. split; [|auto].
    apply (Step_trans _ _ h1 m' _ _); [|exact St2].
    unfold Step, Step0, owner in St |- *. cbn [mcap mptr m']. exact St.
  Qed.
  (** One round before it, if it does not. *)
  Lemma format_ok fuel h m l t : Minv e h m l -> NulBlk nul h -> mcap m < 2 ^ 31 -> (t = [] -> 0 < mcap m) ->
    Z.of_nat (length t) + 1 < 2 ^ 31 ->
    exists h' m', str_vformat e nul (S (S fuel)) h m (Some t) = Ok (h', m', Z.of_nat (length t)) /\
      Step h m h' m' /\ Minv e h' m' (map Some t) /\ Nul h' m' /\ 0 < mcap m'.
  Proof.
    intros I B Hc Ht Lt.
    assert (C0 : 0 <= mcap m) by (destruct I as (_ & [(C & _)|((C & _) & _)]); lia).
    destruct (Z.lt_ge_cases (Z.of_nat (length t)) (mcap m)) as [F|F].
    { destruct (format_fits (S fuel) h m l t I ltac:(lia) F) as (h' & E & X). eexists h', _. split; [exact E|].
      destruct X as (X1 & X2 & X3). split; [exact X1|]. split; [exact X2|]. split; [exact X3|]. cbn [mcap]. lia. }
    remember (S fuel) as g. cbn [str_vformat]. cbv zeta. rewrite to_int_id, (u64_id (mcap m)) by lia.
    assert (V : exists h1 l1, vsnprintf h (mptr m) (mcap m) (Some t) = Ok (h1, Z.of_nat (length t)) /\ Step h m h1 m /\ Minv e h1 m l1).
    { unfold vsnprintf. destruct (Z.eqb_spec (mcap m) 0) as [Z0|Z0].
      - exists h, l. split; [reflexivity|]. split; [apply Step_same; reflexivity|exact I].
      - destruct (write_front h m l (map Some (firstn (Z.to_nat (Z.min (mcap m - 1) (Z.of_nat (length t)))) t) ++ [Some 0]) I ltac:(lia))
          as (h1 & b & r & E & St & (l1 & I1) & _).
        { rewrite app_length, map_length, firstn_length. cbn [length]. lia. }
        exists h1, l1. rewrite E. auto. }
    destruct V as (h1 & l1 & E1 & St1 & I1). rewrite E1. cbn [bind].
    assert (B1 : NulBlk nul h1) by (eapply NulBlk_step; [exact B|exact I|exact (Step_Step0 _ _ _ _ St1)]).
    rewrite u64_id by lia.
    assert (Tn : t <> []) by (intros ->; specialize (Ht eq_refl); cbn [length] in F; lia).
    assert (Lp : 0 < Z.of_nat (length t)) by (destruct t; [congruence|cbn [length]; lia]).
    destruct (str_resize_ok e Hmem nul h1 m l1 (Z.of_nat (length t)) I1 B1 ltac:(lia)) as (h2 & m2 & l2 & E2 & St2 & I2 & _ & _ & _ & C2).
    pose proof (resize_cap _ _ _ _ _ E2) as C2'. rewrite u64_id in C2' by lia.
    destruct (C2' ltac:(lia)) as [C2e|]; [|lia].
    rewrite E2. cbn [bind]. destruct (Z.leb_spec (mcap m) (Z.of_nat (length t))); [|lia]. rewrite Heqg.
    destruct (format_fits fuel h2 m2 l2 t I2 ltac:(lia) ltac:(lia)) as (h3 & E3 & St3 & I3 & Z3).
    eexists h3, _. split; [exact E3|]. split; [exact (Step_trans _ _ _ _ _ _ (Step_trans _ _ _ _ _ _ St1 St2) St3)|].
    split; [exact I3|]. split; [exact Z3|]. cbn [mcap]. lia.
  Qed.

  (** Never ends: nothing to print and nothing allocated. *)
  Lemma format_empty_loops fuel : forall h m, mcap m = 0 -> str_vformat e nul fuel h m (Some []) = NoFuel.
  Proof.
    induction fuel as [|fuel IH]; intros h m C; [reflexivity|]. cbn [str_vformat]. cbv zeta. rewrite C.
    change (to_int 0) with 0. change (u64 0) with 0. unfold vsnprintf. cbn [Z.eqb bind length Z.of_nat].
    unfold str_resize. rewrite C. change (u64 0) with 0. cbn [Z.eqb andb bind]. cbn [Z.leb Z.compare]. now apply IH.
  Qed.
  (** Never ends: 2^31 bytes allocated. *)
  Lemma format_huge_loops fuel t : Z.of_nat (length t) < 2 ^ 31 ->
    forall h m l, Minv e h m l -> NulBlk nul h -> mcap m = 2 ^ 31 -> str_vformat e nul fuel h m (Some t) = NoFuel.
  Proof.
    intros Lt. induction fuel as [|fuel IH]; intros h m l I B C; [reflexivity|]. cbn [str_vformat]. cbv zeta. rewrite C.
    replace (to_int (2 ^ 31)) with (- 2 ^ 31) by reflexivity. unfold vsnprintf.
    replace (u64 (- 2 ^ 31)) with (2 ^ 64 - 2 ^ 31) by reflexivity.
    destruct (Z.eqb_spec (2 ^ 64 - 2 ^ 31) 0); [lia|]. rewrite (Z.min_r (2 ^ 64 - 2 ^ 31 - 1)) by lia. rewrite Nat2Z.id, firstn_all.
    destruct (write_front h m l (map Some t ++ [Some 0]) I ltac:(lia)) as (h1 & b & r & E & St & (l1 & I1) & _).
    { rewrite app_length, map_length. cbn [length]. lia. }
    rewrite E. cbn [bind].
    assert (B1 : NulBlk nul h1) by (eapply NulBlk_step; [exact B|exact I|exact (Step_Step0 _ _ _ _ St)]).
    rewrite u64_id by lia.
    destruct (str_resize_ok e Hmem nul h1 m l1 (Z.of_nat (length t)) I1 B1 ltac:(lia)) as (h2 & m2 & l2 & E2 & St2 & I2 & _).
    assert (C2 : mcap m2 = 2 ^ 31).
    { unfold str_resize, resize in E2. destruct ((Z.of_nat (length t) =? 0) && (mcap m =? 0)) eqn:E0; [lia|].
      rewrite u64_id in E2 by lia. destruct (Z.ltb_spec (mcap m) (Z.of_nat (length t) + 1)); [lia|]. cbn [bind] in E2.
      match type of E2 with context [store_n ?a ?b ?c] => destruct (store_n a b c) end; cbn [bind] in E2; try discriminate. injection E2 as _ <-. exact C. }
    rewrite E2. cbn [bind]. destruct (Z.leb_spec (- 2 ^ 31) (Z.of_nat (length t))); [|lia].
    apply (IH h2 m2 l2 I2); [|exact C2]. eapply NulBlk_step; [exact B1|exact I1|exact (Step_Step0 _ _ _ _ St2)].
  Qed.
  (** A failed conversion writes the terminator before the text. *)
  Lemma format_error fuel h m b k : mptr m = Some (b, 0) -> nth_error h b = Some k -> Z.of_nat (length (bcells k)) < 2 ^ 64 -> 0 <= mcap m ->
    str_vformat e nul (S fuel) h m None = UB.
  Proof.
    intros P N L C. cbn [str_vformat]. cbv zeta. unfold vsnprintf. cbn [bind]. replace (u64 (-1)) with (2 ^ 64 - 1) by reflexivity.
    unfold str_resize. destruct (Z.eqb_spec (2 ^ 64 - 1) 0); [lia|]. cbn [andb]. unfold resize.
    replace (u64 (2 ^ 64 - 1 + 1)) with 0 by reflexivity. destruct (Z.ltb_spec (mcap m) 0); [lia|]. cbn [bind].
    cbn [mptr]. rewrite P. cbn [padd]. unfold store_n, rd. rewrite N. cbn [bind].
    assert (F : in_range (0 + (2 ^ 64 - 1)) (Z.of_nat (length [Some 0])) (bcells k) = false)
      by (unfold in_range; cbn [length]; lia).
    rewrite F, andb_false_r. reflexivity.
  Qed.
End WithEnv.

Section Run.
  Variable e : env.
  Hypothesis Henv : good_env e.
  Hypothesis Hmem : enough_memory e.
  Variable h0 : heap.
  Hypothesis Hc : callers h0.
  Variable nul : ptr.
  Hypothesis Hnul : NulBlk nul h0.
  Notation TInv := (TInv e h0).

  Lemma frun_tinv fuel ops : forall h ms ss, TInv h ms ss -> fops_pre h0 ss ops -> fcareful e nul (S (S fuel)) h0 ss (h, ms) ops ->
    exists h' ms', frun e nul (S (S fuel)) (h, ms) ops = Ok (h', ms') /\ TInv h' ms' (fspec_run h0 ss ops) /\ (NoLeak h ms -> NoLeak h' ms').
  Proof.
    induction ops as [|o ops IH]; intros h ms ss T P C; [exists h, ms; auto|].
    cbn [fops_pre fcareful frun fspec_run snd] in *. destruct P as (P1 & P2). destruct C as (C1 & C2).
    assert (X : exists h1 ms1, fstep e nul (S (S fuel)) (h, ms) o = Ok (h1, ms1) /\ TInv h1 ms1 (fspec_step h0 ss o) /\ (NoLeak h ms -> NoLeak h1 ms1)).
    { destruct o as [o|i [t|]]; cbn [fstep fspec_step fop_pre fcareful_op] in *; [|clear C2 IH P2|tauto].
      - exact (sstep_ok e Henv Hmem h0 Hc nul Hnul h ms ss o T P1 C1).
      - destruct P1 as (Hi & Lt). apply (on_str e h0 Hc nul Hnul h ms ss i _ (map Some t) T Hi).
        intros m l Em Im _ _ _ _ B. destruct (C1 m Em) as (Cm & Ct).
        assert (Hp : t = [] -> 0 < mcap m).
        { intros ->. exact (owning_of e m (Ct eq_refl) h l Im). }
        destruct (format_ok e Hmem nul fuel h m l t Im B Cm Hp Lt) as (h' & m' & E & St & I' & Z' & _).
        exists h', m', (map Some t). rewrite E. cbn [bind]. split; [reflexivity|]. split; [exact St|]. split; [exact I'|]. split; [exact Z'|].
        rewrite map_length. split; [|lia]. clear. induction t; constructor; auto. }
    destruct X as (h1 & ms1 & E1 & T1 & N1). rewrite E1. cbn [bind].
    destruct (IH h1 ms1 _ T1 P2 (C2 _ E1)) as (h2 & ms2 & E2 & T2 & N2). exists h2, ms2. split; [exact E2|]. split; [exact T2|auto].
  Qed.
End Run.

(** ** hash *)
Definition byte (c : Z) : Prop := 0 <= c < 256.
Lemma rot_add h : 0 <= h < 2 ^ 32 -> Z.lor (u32 (Z.shiftl h 7)) (Z.shiftr h 25) = (h mod 2 ^ 25) * 2 ^ 7 + h / 2 ^ 25.
Proof.
  intros H. unfold u32, two32. rewrite Z.shiftl_mul_pow2, Z.shiftr_div_pow2 by lia.
  change 4294967296 with (2 ^ 25 * 2 ^ 7). rewrite Z.mul_mod_distr_r by lia.
  assert (0 <= h / 2 ^ 25 < 2 ^ 7) by (split; [apply Z.div_pos; lia|apply Z.div_lt_upper_bound; lia]).
  pose proof (Z.mod_pos_bound h (2 ^ 25)).
  assert (D : Z.land (h mod 2 ^ 25 * 2 ^ 7) (h / 2 ^ 25) = 0).
  { apply Z.bits_inj'. intros n Hn. rewrite Z.land_spec, Z.bits_0. destruct (Z.lt_ge_cases n 7) as [L|L].
    - rewrite Z.mul_pow2_bits_low by lia. reflexivity.
    - rewrite <- (Z.mod_small (h / 2 ^ 25) (2 ^ 7)) by lia. rewrite Z.mod_pow2_bits_high by lia. apply andb_false_r. }
  rewrite Z.add_nocarry_lxor by exact D. now rewrite <- Z.lxor_lor by exact D.
Qed.
Lemma hash_range l : forall h, 0 <= h < 2 ^ 32 -> 0 <= fold_left hash_step l h < 2 ^ 32.
Proof.
  induction l as [|c l IH]; intros h H; [exact H|]. cbn [fold_left]. apply IH. unfold hash_step, u32, two32.
  apply Z.mod_pos_bound. lia.
Qed.
Lemma step_inj_h h k c : 0 <= h < 2 ^ 32 -> 0 <= k < 2 ^ 32 -> hash_step h c = hash_step k c -> h = k.
Proof.
  intros Hh Hk. unfold hash_step. rewrite !rot_add by assumption. unfold u32, two32. intros E.
  pose proof (Z.div_mod h (2 ^ 25)). pose proof (Z.div_mod k (2 ^ 25)).
  pose proof (Z.mod_pos_bound h (2 ^ 25)). pose proof (Z.mod_pos_bound k (2 ^ 25)).
  assert (0 <= h / 2 ^ 25 < 2 ^ 7) by (split; [apply Z.div_pos; lia|apply Z.div_lt_upper_bound; lia]).
  assert (0 <= k / 2 ^ 25 < 2 ^ 7) by (split; [apply Z.div_pos; lia|apply Z.div_lt_upper_bound; lia]).
  set (a := h mod 2 ^ 25 * 2 ^ 7 + h / 2 ^ 25) in *. set (b := k mod 2 ^ 25 * 2 ^ 7 + k / 2 ^ 25) in *.
  assert (a = b); [|unfold a, b in *; lia].
  assert (Ra : 0 <= a < 4294967296) by (unfold a; lia). assert (Rb : 0 <= b < 4294967296) by (unfold b; lia).
  clearbody a b. pose proof (Z.div_mod (schar c + a) 4294967296). pose proof (Z.div_mod (schar c + b) 4294967296). lia.
Qed.
Lemma step_inj_c h c d : byte c -> byte d -> hash_step h c = hash_step h d -> c = d.
Proof.
  intros Hc Hd. unfold hash_step, u32, two32. set (x := Z.lor _ _). clearbody x. intros E.
  pose proof (Z.div_mod (schar c + x) 4294967296). pose proof (Z.div_mod (schar d + x) 4294967296).
  unfold byte, schar in *. destruct (c <? 128) eqn:?, (d <? 128) eqn:?; lia.
Qed.
Lemma fold_inj l : forall h k, 0 <= h < 2 ^ 32 -> 0 <= k < 2 ^ 32 -> fold_left hash_step l h = fold_left hash_step l k -> h = k.
Proof.
  induction l as [|c l IH]; intros h k Hh Hk E; [exact E|]. cbn [fold_left] in E. apply (step_inj_h h k c Hh Hk).
  apply IH; [apply (hash_range [c] h Hh)|apply (hash_range [c] k Hk)|exact E].
Qed.
Lemma hash_one a c d b : byte c -> byte d -> str_hash (a ++ c :: b) = str_hash (a ++ d :: b) -> c = d.
Proof.
  intros Hc Hd. unfold str_hash. rewrite !fold_left_app. cbn [fold_left]. intros E.
  assert (R : 0 <= fold_left hash_step a 0 < 2 ^ 32) by (apply hash_range; lia).
  apply fold_inj in E; [|apply (hash_range [c] _ R)|apply (hash_range [d] _ R)].
  exact (step_inj_c _ c d Hc Hd E).
Qed.
(** Also: a common ending does not merge hashes. *)
Lemma hash_suffix a b x : str_hash (a ++ x) = str_hash (b ++ x) <-> str_hash a = str_hash b.
Proof.
  unfold str_hash. rewrite !fold_left_app. split; [|intros ->; reflexivity]. intros E.
  apply fold_inj in E; [exact E|apply hash_range; lia|apply hash_range; lia].
Qed.
