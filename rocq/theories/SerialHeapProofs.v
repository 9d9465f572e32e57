(** * SerialHeapProofs: reading into strings, blocks and vectors in memory. *)
From Verif Require Import Base UtilModel UtilSpec UtilProofs StoreModel StoreProofs VectorModel VectorSpec VectorProofs.
From Verif Require Import MemModel MemSpec MemProofs MemRun StringModel StringSpec StringProofs.
From Verif Require Import Utf8Model Utf8Spec Utf8Proofs StreamModel StreamSpec StreamProofs SerialModel SerialSpec SerialProofs SerialTypesProofs.
From Coq Require Import ZArith ZifyBool ZifyNat Znumtheory.
Local Open Scope Z_scope.

Section Heap.
  Variable e : env.
  Hypothesis Henv : good_env e.
  Hypothesis Hmem : enough_memory e.

  (** ** Strings *)
  Lemma str_resize_ptr nul h m n h' m' : NulBlk nul h -> str_resize e nul h m n = Ok (h', m') -> mptr m' <> None.
  Proof.
    intros (b & base & -> & _). unfold str_resize. destruct ((n =? 0) && (mcap m =? 0)); [intros E; injection E as <- <-; discriminate|].
    destruct (MemModel.resize e 1 h m n true) as [[h1 m1] | | |]; cbn [bind]; try discriminate.
    destruct (mptr m1) eqn:P1; [|cbn [padd store_n]; discriminate].
    destruct (store_n h1 (padd (Some p) n) [Some 0]) as [h2 | | |]; cbn [bind]; try discriminate. intros E; injection E as <- <-. congruence.
  Qed.
  Lemma str_read_heap_ok dbg nul h m l0 l pre post st exc : Minv e h m l0 -> NulBlk nul h -> str_ok l ->
    zlen (pre ++ str_enc (zlen pre) l ++ post) < 2 ^ 63 ->
    exists h' m', str_read_heap dbg e nul h m (rdr pre (str_enc (zlen pre) l ++ post) st exc) =
        Ok (rdr (pre ++ str_enc (zlen pre) l) post st exc, Val (h', m')) /\
      Step h m h' m' /\ Minv e h' m' (map Some l) /\ str_last h' m' = Ok [Some 0].
  Proof.
    intros I B Hl H. unfold str_read_heap. rewrite str_read_gen_ok by assumption.
    unfold str_ok, zlen in Hl.
    destruct (str_resize_ok e Hmem nul h m l0 (zlen l) I B ltac:(unfold zlen; lia)) as (h1 & m1 & l1 & E & St & I1 & Z1 & L1 & _ & C1).
    rewrite E. cbn [fst snd].
    destruct (put_in e h1 m1 [] l1 [] (map Some l)) as (h2 & E2 & St2 & I2 & Z2).
    { cbn [app]. now rewrite app_nil_r. }
    { intros N1. destruct l1; [congruence|]. cbn [length] in L1. lia. }
    { rewrite map_length, L1. unfold zlen. lia. }
    cbn [length Z.of_nat] in E2. rewrite padd_0 in E2. rewrite E2. cbn [bind]. exists h2, m1.
    split; [reflexivity|]. split; [eapply Step_trans; eauto|]. cbn [app] in I2. rewrite app_nil_r in I2. split; [exact I2|].
    destruct (Z2 Z1) as [N | N]; [|exact N]. now apply str_resize_ptr in E.
  Qed.

  (** ** Memory blocks *)
  Definition mem_enc (p : Z) (l : list Z) : list Z := bytes_le 4 (zlen l) ++ l ++ pad (p + 4 + zlen l) 4.
  Lemma mem_write_ok dbg l s : zlen l < 2 ^ 32 -> o_inside s -> oaddr s mod 4 = 0 -> (dbg = true -> opos s mod 4 = 0) -> fits s (mem_enc (opos s) l) ->
    mem_write dbg l s = Ok (o_after s (mem_enc (opos s) l), Val tt).
  Proof.
    intros Hl Hs Hb Hp Hf. unfold mem_write. cbv zeta. fold (zlen l). pose proof (zlen_nonneg l) as H0. rewrite u32_id by lia.
    unfold iobind, mem_enc in *.
    rewrite iwrite_fits; [|exact Hs|exact Hp|exact (fits_l _ _ _ Hf)]. cbn [bind].
    pose proof (after_inside _ _ _ Hs Hf) as Hs1. apply (fits_r _ _ _ Hs) in Hf as Hf1.
    replace (firstn (Z.to_nat (zlen l)) l) with l by (unfold zlen; now rewrite Nat2Z.id, firstn_all).
    rewrite o_write_fits; [|exact Hs1|exact (fits_l _ _ _ Hf1)]. cbn [bind].
    pose proof (after_inside _ _ _ Hs1 Hf1) as Hs2. apply (fits_r _ _ _ Hs1) in Hf1 as Hf2.
    set (s2 := o_after (o_after s (bytes_le 4 (zlen l))) l) in *.
    assert (P2 : opos s2 = opos s + 4 + zlen l) by (subst s2; cbn [o_after opos]; rewrite bytes_le_length; unfold zlen; lia).
    rewrite <- P2 in *. rewrite o_align_fits; [|exact Hs2|unfold grain; lia|exact Hb|exact Hf2].
    unfold s2 at 1. rewrite o_after_app; [|exact Hs1|exact Hf1]. rewrite o_after_app; [reflexivity|exact Hs|exact Hf].
  Qed.
  Lemma mem_size_ok l p : zlen l < 2 ^ 32 -> 0 <= p -> p mod 4 = 0 -> zlen (mem_enc p l) = mem_stream_size l.
  Proof.
    intros Hl H0 Hp. unfold mem_enc, mem_stream_size. fold (zlen l). pose proof (zlen_nonneg l). rewrite u32_id by lia.
    rewrite align_up4 by lia. unfold up4. rewrite !zlen_app, bytes_zlen, pad_len by lia. rewrite <- Z.add_assoc, neg_shift by (auto; lia).
    change (Z.of_nat 4) with 4. lia.
  Qed.
  Lemma memblock_read_ok dbg h m l0 l pre post st exc : Minv e h m l0 -> zlen l <= 2 ^ 31 -> (dbg = true -> zlen pre mod 4 = 0) ->
    zlen (pre ++ mem_enc (zlen pre) l ++ post) < 2 ^ 63 ->
    exists h' m', memblock_read dbg e h m (rdr pre (mem_enc (zlen pre) l ++ post) st exc) =
        Ok (rdr (pre ++ mem_enc (zlen pre) l) post st exc, Val (h', m')) /\
      Step h m h' m' /\ Minv e h' m' (map Some l).
  Proof.
    intros I Hl Hp H. unfold memblock_read, iobind. unfold mem_enc in *. rewrite <- !app_assoc in *.
    pose proof (zlen_nonneg l) as H0.
    rewrite iread_rdr; [|split; [lia|change (256 ^ Z.of_nat 4) with (2 ^ 32); lia]|exact Hp|exact H].
    cbn [bind]. rewrite app_assoc in H. set (pre1 := pre ++ bytes_le 4 (zlen l)) in *.
    assert (L1 : zlen pre1 = zlen pre + 4) by (unfold pre1; rewrite zlen_app, bytes_zlen; reflexivity). rewrite <- L1 in *.
    rewrite rdr_verify; [|exact H|rewrite zlen_app; pose proof (zlen_nonneg (pad (zlen pre1 + zlen l) 4 ++ post)); lia]. cbn [bind]. unfold lift.
    destruct (resize_ok e Hmem 0 h m l0 (zlen l) true ltac:(lia) ltac:(lia) ltac:(lia) I) as (h1 & m1 & l1 & E & St & I1 & C1 & Ll & _).
    rewrite E. cbn [bind]. rewrite rdr_read; [|exact H|reflexivity]. cbn [bind fst snd].
    destruct (store_in e h1 m1 [] l1 [] (map Some l)) as (h2 & E2 & St2 & I2).
    { cbn [app]. now rewrite app_nil_r. }
    { intros N1. destruct l1; [congruence|]. unfold zlen in *. cbn [length] in Ll. lia. }
    { rewrite map_length, Ll. unfold zlen. lia. }
    cbn [length Z.of_nat] in E2. rewrite padd_0 in E2. rewrite E2. cbn [bind].
    rewrite app_assoc in H. rewrite <- zlen_app in *. rewrite rdr_align; [|exact H|unfold grain; lia]. cbn [bind ret].
    exists h2, m1. unfold pre1. rewrite <- !app_assoc. split; [reflexivity|]. split; [eapply Step_trans; eauto|].
    cbn [app] in I2. rewrite app_nil_r in I2. exact I2.
  Qed.
  (** A link to caller's memory with room for the block: only that memory changes. *)
  Lemma memlink_read_ok dbg h b k pr old po size l pre post st exc :
    nth_error h b = Some k -> writable (bkind k) = true -> bcells k = pr ++ old ++ po -> length old = length l ->
    zlen l <= size -> zlen l < 2 ^ 32 -> (dbg = true -> zlen pre mod 4 = 0) ->
    zlen (pre ++ mem_enc (zlen pre) l ++ post) < 2 ^ 63 ->
    exists h', memlink_read dbg h (Some (b, Z.of_nat (length pr))) size (rdr pre (mem_enc (zlen pre) l ++ post) st exc) =
        Ok (rdr (pre ++ mem_enc (zlen pre) l) post st exc, Val (h', zlen l)) /\
      nth_error h' b = Some (mkblk (pr ++ map Some l ++ po) (bbase k) (bkind k)) /\
      (forall c, c <> b -> nth_error h' c = nth_error h c).
  Proof.
    intros Hk Hw Hc Lo Hsz Hl Hp H. unfold memlink_read, iobind. unfold mem_enc in *. rewrite <- !app_assoc in *.
    pose proof (zlen_nonneg l) as H0.
    rewrite iread_rdr; [|split; [lia|change (256 ^ Z.of_nat 4) with (2 ^ 32); lia]|exact Hp|exact H].
    cbn [bind]. rewrite app_assoc in H. set (pre1 := pre ++ bytes_le 4 (zlen l)) in *.
    assert (L1 : zlen pre1 = zlen pre + 4) by (unfold pre1; rewrite zlen_app, bytes_zlen; reflexivity). rewrite <- L1 in *.
    rewrite rdr_verify; [|exact H|rewrite zlen_app; pose proof (zlen_nonneg (pad (zlen pre1 + zlen l) 4 ++ post)); lia]. cbn [bind].
    destruct (Z.ltb_spec size (zlen l)) as [Hlt | _]; [lia|].
    rewrite rdr_read; [|exact H|reflexivity]. cbn [bind]. unfold lift.
    assert (St : exists h', store_n h (Some (b, Z.of_nat (length pr))) (map Some l) = Ok h' /\
      nth_error h' b = Some (mkblk (pr ++ map Some l ++ po) (bbase k) (bkind k)) /\ (forall c, c <> b -> nth_error h' c = nth_error h c)).
    { destruct l as [|x l'].
      - destruct old; [|discriminate]. exists h. split; [reflexivity|]. split; [|auto]. rewrite Hk. cbn [app map] in Hc |- *. rewrite <- Hc. now destruct k.
      - destruct (store_ok h b k (Z.of_nat (length pr)) pr old po (map Some (x :: l')) Hk Hw Hc) as (h2 & E2 & W1 & W2 & W3).
        + now rewrite map_length.
        + reflexivity.
        + exists h2. split; [exact E2|]. split; [exact W2|]. exact W3. }
    destruct St as (h2 & E2 & W2 & W3). rewrite E2. cbn [bind].
    rewrite app_assoc in H. rewrite <- zlen_app in *. rewrite rdr_align; [|exact H|unfold grain; lia]. cbn [bind ret].
    exists h2. unfold pre1. rewrite <- !app_assoc. auto.
  Qed.

  (** ** Vectors *)
  Lemma vector_read_ok {T} dbg (c : codec T) ok enc ap B es v l0 l pre post st exc : elem c ok enc ap B ->
    0 < es -> Vinv es v l0 -> ctr_ok ok l -> es * zlen l <= 2 ^ 31 -> zlen pre mod 4 = 0 ->
    zlen (pre ++ ctr_enc c enc (zlen pre) l ++ post) < 2 ^ 63 ->
    exists v', vector_read dbg c e es v (rdr pre (ctr_enc c enc (zlen pre) l ++ post) st exc) =
        Ok (rdr (pre ++ ctr_enc c enc (zlen pre) l) post st exc, Val v') /\ Vinv es v' l.
  Proof.
    intros He Hes I Hok Hb Hp H. unfold vector_read.
    assert (Hb' : es * Z.of_nat (Z.to_nat (zlen l)) <= 2 ^ 31) by (unfold zlen in *; rewrite Nat2Z.id; lia).
    destruct (resize_with_ok e es Hes Hmem v l0 (Z.to_nat (zlen l)) (cdflt c) I Hb') as (v1 & E1 & I1).
    pose proof (contents_ok es Hes v1 _ I1) as C1.
    assert (Le : length (seq_resize l0 (Z.to_nat (zlen l)) (cdflt c)) = length l) by (rewrite seq_resize_length; unfold zlen; lia).
    set (l1 := seq_resize l0 (Z.to_nat (zlen l)) (cdflt c)) in *.
    pose proof I1 as ((k & K1) & S1 & L1 & Cc).
    pose proof (assign_cells_ok l [] l1 (repeat None k) Le) as A. cbn [app length] in A. rewrite <- K1 in A.
    exists (mkvec (map Some l ++ repeat None k) (vsize v1) (vcap v1)). split.
    - eapply (ctr_read_gen_ok dbg c ok enc ap B (e_good He) (e_grain He) (e_B He) (e_ap He) (e_roomy He)); [exact Hok|exact Hp|exact H| |exact Le|].
      + unfold VectorModel.resize. rewrite E1. cbn [bind]. rewrite C1. reflexivity.
      + rewrite A. reflexivity.
    - split; [exists k; reflexivity|]. split; [cbn [vsize]; lia|]. split; [|exact Cc].
      cbn [vcells vcap]. rewrite <- L1, K1, !app_length, !map_length, Le. reflexivity.
  Qed.
End Heap.
