(** * SerialRun: reading into an object that has any history. *)
From Verif Require Import Base UtilModel UtilSpec UtilProofs StoreModel StoreProofs VectorModel VectorSpec VectorProofs.
From Verif Require Import MemModel MemSpec MemProofs MemRun StringModel StringSpec StringProofs StringRun.
From Verif Require Import Utf8Model Utf8Spec Utf8Proofs StreamModel StreamSpec StreamProofs SerialModel SerialTypes SerialSpec SerialProofs SerialTypesProofs SerialHeapProofs StreamFacts.
From Coq Require Import ZArith ZifyBool ZifyNat Znumtheory.
Local Open Scope Z_scope.

(** The other blocks and strings keep their bytes. *)
Definition others_same (ms : list mb) (i : nat) (h h' : heap) : Prop :=
  forall j mj, j <> i -> nth_error ms j = Some mj -> mb_bytes h' mj = mb_bytes h mj.
Lemma others_ok e h0 h ms ss i m l h' m' : SInv e h0 h ms ss -> nth_error ms i = Some m -> Minv e h m l -> Step0 h m h' m' -> others_same ms i h h'.
Proof.
  intros I Em Im St j mj Nj Ej. destruct (s_ok _ _ _ _ _ I j mj Ej) as (lj & Ij & _).
  pose proof (Minv_frame e h m h' m' mj lj l St Im Ij) as F.
  unfold mb_bytes. rewrite (Minv_load _ _ _ _ Ij). apply (Minv_load e). apply F.
  intros b Eb. exact (s_dist _ _ _ _ _ I i j m mj b ltac:(lia) Em Ej Eb).
Qed.
Section Run.
  Variable e : env.
  Hypothesis Henv : good_env e.
  Hypothesis Hmem : enough_memory e.
  Variable h0 : heap.
  Hypothesis Hc : callers h0.
  Variable dbg : bool.

  Section Strings.
    Variable nul : ptr.
    Hypothesis Hnul : NulBlk nul h0.
    Lemma string_trip k ops h ms i m l s : sops_pre h0 (repeat [] k) ops -> careful e nul h0 (repeat [] k) (h0, repeat (str_nil nul) k) ops ->
      srun e nul (h0, repeat (str_nil nul) k) ops = Ok (h, ms) -> nth_error ms i = Some m ->
      Z.of_nat (length l) < 2 ^ 31 -> o_inside s -> opos s + str_stream_size l <= Z.of_nat (length (odata s)) ->
      exists s', str_write l s = Ok (s', Val tt) /\ only_wrote s s' (str_stream_size l) /\
      forall data st exc, same_bytes s' (opos s) (str_stream_size l) data ->
        exists h' m', str_read_heap dbg e nul h m (mkis data (opos s) st exc) = Ok (mkis data (opos s') st exc, Val (h', m')) /\
          msize m' = Z.of_nat (length l) /\ mb_bytes h' m' = Ok (map Some l) /\ str_last h' m' = Ok [Some 0] /\ others_same ms i h h'.
    Proof.
      intros P Ca Er Em Hl Hs Hr.
      destruct (srun_tinv e Henv Hmem h0 Hc nul Hnul ops _ _ _ (tinv_init e h0 nul Hnul k) P Ca) as (h1 & ms1 & E1 & T & _).
      rewrite E1 in Er. injection Er as -> ->. clear E1.
      assert (Sz : zlen (str_enc (opos s) l) = str_stream_size l).
      { unfold str_enc, str_stream_size. rewrite zlen_app. pose proof (len_char l Hl) as C. unfold is_char in C.
        rewrite utf8_bytes_len by (unfold zlen in C; lia). rewrite <- encode_length by exact C. reflexivity. }
      rewrite <- Sz in *. exists (o_after s (str_enc (opos s) l)).
      split; [now apply str_write_ok|]. destruct (wrote_after s (str_enc (opos s) l) Hs Hr) as [W F]. split; [exact W|].
      intros data st exc (Hd & Hfit & Heq). rewrite F in Heq.
      destruct (splits data (opos s) _ st exc ltac:(unfold o_inside in Hs; lia) Hfit Hd Heq) as (pre & post & Lp & Lt & X1 & X2).
      cbn [o_after opos]. fold (zlen (str_enc (opos s) l)). rewrite X1, X2. rewrite <- Lp in *.
      destruct (s_ok _ _ _ _ _ (t_sinv _ _ _ _ _ T) i m Em) as (l0 & I & _).
      destruct (str_read_heap_ok e Hmem dbg nul h m l0 l pre post st exc I (tinv_nulblk e h0 nul Hnul _ _ _ T) Hl Lt) as (h' & m' & E & St & I' & N').
      exists h', m'. split; [exact E|]. pose proof I' as ((S' & _) & _). rewrite map_length in S'. split; [exact S'|].
      split; [exact (Minv_load e h' m' _ I')|]. split; [|exact (others_ok e h0 h ms _ i m l0 h' m' (t_sinv _ _ _ _ _ T) Em I (Step_Step0 _ _ _ _ St))].
      exact N'.
    Qed.
  End Strings.

  (** Any block of a history read back over any block of the same history. *)
  Lemma block_trip k ops h ms i j m mj l s : mops_pre h0 (repeat [] k) ops -> mrun e (h0, repeat mb_nil k) ops = Ok (h, ms) ->
    nth_error ms i = Some m -> nth_error ms j = Some mj -> mb_bytes h mj = Ok (map Some l) -> Z.of_nat (length l) <= 2 ^ 31 ->
    o_inside s -> oaddr s mod 4 = 0 -> opos s mod 4 = 0 -> opos s + mem_stream_size l <= Z.of_nat (length (odata s)) ->
    exists s', mem_write dbg l s = Ok (s', Val tt) /\ only_wrote s s' (mem_stream_size l) /\ mem_stream_size l mod 4 = 0 /\
    forall data st exc, same_bytes s' (opos s) (mem_stream_size l) data ->
      exists h' m', memblock_read dbg e h m (mkis data (opos s) st exc) = Ok (mkis data (opos s') st exc, Val (h', m')) /\
        msize m' = Z.of_nat (length l) /\ mb_bytes h' m' = Ok (map Some l) /\ others_same ms i h h'.
  Proof.
    intros P Er Em Ej Eb Hl Hs Hb Hp Hr.
    destruct (mrun_sinv e Henv Hmem h0 Hc ops _ _ _ (sinv_init e h0 k) P) as (h1 & ms1 & E1 & T & _).
    rewrite E1 in Er. injection Er as -> ->. clear E1.
    fold (zlen l) in *. assert (P0 : 0 <= opos s) by (unfold o_inside in Hs; lia).
    pose proof (mem_size_ok l (opos s) ltac:(lia) P0 Hp) as Sz.
    rewrite <- Sz in *. exists (o_after s (mem_enc (opos s) l)).
    split; [apply mem_write_ok; auto; lia|]. destruct (wrote_after s (mem_enc (opos s) l) Hs Hr) as [W F]. split; [exact W|].
    split. { rewrite Sz. unfold mem_stream_size. fold (zlen l). pose proof (zlen_nonneg l). rewrite u32_id by lia. rewrite align_up4 by lia. unfold up4. lia. }
    intros data st exc (Hd & Hfit & Heq). rewrite F in Heq.
    destruct (splits data (opos s) _ st exc P0 Hfit Hd Heq) as (pre & post & Lp & Lt & X1 & X2).
    cbn [o_after opos]. fold (zlen (mem_enc (opos s) l)). rewrite X1, X2. rewrite <- Lp in *.
    destruct (s_ok _ _ _ _ _ T i m Em) as (l0 & I & _).
    destruct (memblock_read_ok e Hmem dbg h m l0 l pre post st exc I Hl (fun _ => Hp) Lt) as (h' & m' & E & St & I').
    exists h', m'. split; [exact E|]. pose proof I' as ((S' & _) & _). rewrite map_length in S'. split; [exact S'|].
    split; [exact (Minv_load e h' m' _ I')|]. exact (others_ok e h0 h ms _ i m l0 h' m' T Em I (Step_Step0 _ _ _ _ St)).
  Qed.

  (** Any container read over a vector with any history. *)
  Lemma vector_trip {T} (c : codec T) ok enc ap B es (dflt : T) ops v l s : elem c ok enc ap B ->
    0 < es -> ops_pre es dflt [] ops -> ops_moves_ok es dflt [] ops = true -> vrun e es dflt vec_nil ops = Ok v ->
    ctr_ok ok l -> es * Z.of_nat (length l) <= 2 ^ 31 ->
    o_inside s -> oaddr s mod B = 0 -> opos s mod 4 = 0 -> fits s (ctr_enc c enc (opos s) l) ->
    exists s', container_write dbg c l s = Ok (s', Val tt) /\ only_wrote s s' (zlen (ctr_enc c enc (opos s) l)) /\
    forall data st exc, same_bytes s' (opos s) (zlen (ctr_enc c enc (opos s) l)) data ->
      exists v', vector_read dbg c e es v (mkis data (opos s) st exc) = Ok (mkis data (opos s') st exc, Val v') /\
        contents v' = Ok l.
  Proof.
    intros He Hes P Mo Er Hok Hb Hs Ha Hp Hr. assert (P0 : 0 <= opos s) by (unfold o_inside in Hs; lia).
    destruct (vrun_ok e es dflt Hes Henv Hmem ops vec_nil [] (Vinv_nil es) P Mo) as (v1 & E1 & I).
    rewrite E1 in Er. injection Er as ->. clear E1.
    exists (o_after s (ctr_enc c enc (opos s) l)).
    split; [exact (g_write (good_container dbg c ok enc ap B He) l s Hok Hs Ha Hp Hr)|].
    destruct (wrote_after s (ctr_enc c enc (opos s) l) Hs Hr) as [W F]. split; [exact W|].
    intros data st exc (Hd & Hfit & Heq). rewrite F in Heq.
    destruct (splits data (opos s) _ st exc P0 Hfit Hd Heq) as (pre & post & Lp & Lt & X1 & X2).
    cbn [o_after opos]. fold (zlen (ctr_enc c enc (opos s) l)). rewrite X1, X2. rewrite <- Lp in *.
    destruct (vector_read_ok e Hmem dbg c ok enc ap B es v _ l pre post st exc He Hes I Hok Hb Hp Lt) as (v' & E & I').
    exists v'. split; [exact E|]. exact (contents_ok es Hes v' l I').
  Qed.
End Run.

(** The size of what a container writes. *)
Lemma ctr_enc_end {T} (dbg : bool) (c : codec T) ok enc ap B const l p : elem c ok enc ap B -> const_ok c const l -> ctr_ok ok l -> 0 <= p -> p mod 4 = 0 ->
  zlen (ctr_enc c enc p l) < 2 ^ 62 ->
  zlen (ctr_enc c enc p l) <= container_stream_size c const l <= zlen (ctr_enc c enc p l) + 4 /\
  (calign c <= 4 \/ p mod 8 = 0 -> container_stream_size c const l = zlen (ctr_enc c enc p l)) /\
  (p + zlen (ctr_enc c enc p l)) mod 4 = 0.
Proof.
  intros He Hc Ho H0 Hp H. destruct (ctr_size c ok enc ap B He const l p Hc Ho H0 Hp H) as [A A'].
  split; [exact A|]. split; [exact A'|]. unfold ctr_enc. rewrite !zlen_app, bytes_zlen. change (Z.of_nat 4) with 4.
  rewrite pad_len by lia. lia.
Qed.

(** ** Containers of integers or strings *)
Lemma elem_flat dbg t : flat t = true -> elem (codec_of dbg t) (valid t) (enc_of dbg t) (ap_of t) (unit_of t).
Proof.
  destruct t as [w | | t | a b | tup n t]; try discriminate; intros H.
  - change (valid (TInt w)) with (int_ok w). cbn [codec_of enc_of ap_of align_of]. unfold unit_of. cbn [wide]. cbn [flat] in H.
    assert (Hw : In w [1; 2; 4; 8]%nat) by (cbn [In]; lia).
    apply elem_int; auto; destruct Hw as [<- | [<- | [<- | [<- | []]]]]; cbn [Nat.eqb];
      first [exists 1; reflexivity | exists 2; reflexivity | exists 4; reflexivity | exists 8; reflexivity].
  - change (valid TStr) with str_ok. cbn [codec_of enc_of ap_of]. apply elem_string. exists 1. reflexivity.
Qed.
Lemma flat_storable t : flat t = true -> storable t = true.
Proof. destruct t; try discriminate; try reflexivity; cbn [flat storable wide]; lia. Qed.
Lemma flat_align dbg t : flat t = true -> calign (codec_of dbg t) <= unit_of t /\ (calign (codec_of dbg t) <= 4 <-> unit_of t = 4).
Proof.
  destruct t as [w | | t | a b | tup n t]; try discriminate; unfold unit_of; cbn [flat codec_of calign c_int c_string wide]; [|lia].
  intros H. assert (Hw : In w [1; 2; 4; 8]%nat) by (cbn [In]; lia). destruct Hw as [<- | [<- | [<- | [<- | []]]]]; cbn [Nat.eqb]; lia.
Qed.
Lemma flat_enc_small dbg t l p : flat t = true -> valid (TVec t) l -> footprint (TVec t) l < 2 ^ 62 - 16 -> zlen (ctr_enc (codec_of dbg t) (enc_of dbg t) p l) < 2 ^ 62.
Proof.
  intros Ht Hl Hf. pose proof (flat_storable t Ht) as St.
  assert (En : zlen (encs (enc_of dbg t) (p + 4 + zlen (gap (codec_of dbg t) (p + 4))) l) <= fold_right (fun x n => footprint t x + n) 0 l).
  { generalize (p + 4 + zlen (gap (codec_of dbg t) (p + 4))). destruct Hl as [Hl _]. induction Hl as [|x r Hx Hr IH]; intros q; cbn [encs fold_right]; [reflexivity|].
    rewrite zlen_app. pose proof (enc_foot dbg t St x q Hx). cbn [footprint fold_right] in *. pose proof (foot_nonneg t x).
    specialize (IH ltac:(cbn [footprint]; lia) (q + zlen (enc_of dbg t q x))). lia. }
  cbn [footprint] in Hf. unfold ctr_enc, ctr_body. rewrite !zlen_app, bytes_zlen. change (Z.of_nat 4) with 4.
  set (G := gap (codec_of dbg t) (p + 4)) in *.
  pose proof (pad_le (p + 4 + (zlen G + zlen (encs (enc_of dbg t) (p + 4 + zlen G) l))) 4 ltac:(unfold grain; lia)) as P1.
  assert (Gl : zlen G <= 7).
  { unfold G, gap. destruct (4 <? calign (codec_of dbg t)); [|vm_compute; discriminate]. apply pad_le. now apply grain_of. }
  lia.
Qed.
Lemma flat_trip dbg t const l s : flat t = true -> valid (TVec t) l -> footprint (TVec t) l < 2 ^ 62 - 16 -> (const = true -> same_sizes (codec_of dbg t) l) ->
  o_inside s -> oaddr s mod unit_of t = 0 -> opos s mod 4 = 0 ->
  opos s + container_stream_size (codec_of dbg t) const l <= Z.of_nat (length (odata s)) ->
  exists n, round_trip (c_container dbg (codec_of dbg t)) l s n /\
    n <= container_stream_size (codec_of dbg t) const l /\ (opos s + n) mod 4 = 0 /\
    (opos s mod unit_of t = 0 -> n = container_stream_size (codec_of dbg t) const l).
Proof.
  intros Ht Hl Hf Hc Hs Ha Hp Hr. assert (P0 : 0 <= opos s) by (unfold o_inside in Hs; lia).
  pose proof (elem_flat dbg t Ht) as E. pose proof (flat_enc_small dbg t l (opos s) Ht Hl Hf) as Sm.
  destruct (ctr_enc_end dbg _ _ _ _ _ const l (opos s) E Hc Hl P0 Hp Sm) as (A1 & A2 & A3).
  exists (zlen (ctr_enc (codec_of dbg t) (enc_of dbg t) (opos s) l)).
  split.
  { apply (round_trip_good _ _ _ _ _ l s (good_container dbg _ _ _ _ _ E)); auto. exact (Z.le_trans _ _ _ (proj1 (Z.add_le_mono_l _ _ _) (proj1 A1)) Hr). }
  split; [exact (proj1 A1)|]. split; [exact A3|]. intros U. symmetry. apply A2. destruct (flat_align dbg t Ht) as [_ F].
  unfold unit_of in *. destruct (wide t); [right; exact U|left; now apply F].
Qed.
Lemma flat_vector_trip e dbg t const es (dflt : val t) ops v l s : good_env e -> enough_memory e -> flat t = true -> 0 < es ->
  ops_pre es dflt [] ops -> ops_moves_ok es dflt [] ops = true -> vrun e es dflt vec_nil ops = Ok v ->
  valid (TVec t) l -> footprint (TVec t) l < 2 ^ 62 - 16 -> es * Z.of_nat (length l) <= 2 ^ 31 -> (const = true -> same_sizes (codec_of dbg t) l) ->
  o_inside s -> oaddr s mod unit_of t = 0 -> opos s mod 4 = 0 ->
  opos s + container_stream_size (codec_of dbg t) const l <= Z.of_nat (length (odata s)) ->
  exists s' n, container_write dbg (codec_of dbg t) l s = Ok (s', Val tt) /\ only_wrote s s' n /\ opos s' mod 4 = 0 /\
    forall data st exc, same_bytes s' (opos s) n data ->
      exists v', vector_read dbg (codec_of dbg t) e es v (mkis data (opos s) st exc) = Ok (mkis data (opos s') st exc, Val v') /\
        contents v' = Ok l.
Proof.
  intros He Hm Ht Hes P Mo Er Hl Hf Hb Hc Hs Ha Hp Hr. assert (P0 : 0 <= opos s) by (unfold o_inside in Hs; lia).
  pose proof (elem_flat dbg t Ht) as E. pose proof (flat_enc_small dbg t l (opos s) Ht Hl Hf) as Sm.
  destruct (ctr_enc_end dbg _ _ _ _ _ const l (opos s) E Hc Hl P0 Hp Sm) as (A1 & A2 & A3).
  destruct (vector_trip e He Hm dbg _ _ _ _ _ es dflt ops v l s E Hes P Mo Er Hl Hb Hs Ha Hp) as (s' & W & O & R).
  { exact (Z.le_trans _ _ _ (proj1 (Z.add_le_mono_l _ _ _) (proj1 A1)) Hr). }
  exists s', (zlen (ctr_enc (codec_of dbg t) (enc_of dbg t) (opos s) l)). split; [exact W|]. split; [exact O|].
  split; [|exact R]. destruct O as (-> & _). exact A3.
Qed.

(** ** A string read from arbitrary bytes *)
Lemma string_any e h0 dbg nul k ops h ms i m s : good_env e -> enough_memory e -> callers h0 -> NulBlk nul h0 ->
  sops_pre h0 (repeat [] k) ops -> careful e nul h0 (repeat [] k) (h0, repeat (str_nil nul) k) ops ->
  srun e nul (h0, repeat (str_nil nul) k) ops = Ok (h, ms) -> nth_error ms i = Some m ->
  i_inside s -> i_bytes s -> Z.testbit (iexc s) 2 = true -> nth (Z.to_nat (ipos s)) (idata s) 0 < 254 ->
  exists s' r, str_read_heap dbg e nul h m s = Ok (s', r) /\ idata s' = idata s /\ iexc s' = iexc s /\ i_inside s' /\
    match r with
    | Thrown x => x = stream_bounds
    | Val (h', m') => 0 <= msize m' < 2 ^ 31 /\ ipos s <= ipos s' - msize m' /\
        mb_bytes h' m' = Ok (map Some (slice (idata s) (Z.to_nat (ipos s' - msize m')) (Z.to_nat (ipos s')))) /\
        str_last h' m' = Ok [Some 0] /\ others_same ms i h h'
    end.
Proof.
  intros He Hmem Hc Hnul P Ca Er Em Hs Hb Hx Hld.
  destruct (srun_tinv e He Hmem h0 Hc nul Hnul ops _ _ _ (tinv_init e h0 nul Hnul k) P Ca) as (h1 & ms1 & E1 & T & _).
  rewrite E1 in Er. injection Er as -> ->. clear E1.
  destruct (s_ok _ _ _ _ _ (t_sinv _ _ _ _ _ T) i m Em) as (l0 & I & _).
  pose proof (tinv_nulblk e h0 nul Hnul _ _ _ T) as B.
  assert (G : forall n, 0 <= n < 2 ^ 31 -> exists h' m' l', str_resize e nul h m n = Ok (h', m') /\ Step h m h' m' /\ Minv e h' m' l' /\ Nul h' m' /\
     mptr m' <> None /\ zlen l' = n /\ (0 < n -> 0 < mcap m') /\ forall l, zlen l = n -> exists h2, store_n h' (mptr m') (map Some l) = Ok h2 /\
       Step h m h2 m' /\ Minv e h2 m' (map Some l) /\ Nul h2 m').
  { intros n Hn. destruct (str_resize_ok e Hmem nul h m l0 n I B Hn) as (h1 & m1 & l1 & E & St & I1 & Z1 & L1 & _ & C1).
    exists h1, m1, l1. split; [exact E|]. split; [exact St|]. split; [exact I1|]. split; [exact Z1|].
    split; [exact (str_resize_ptr e nul h m n h1 m1 B E)|]. split; [unfold zlen; lia|]. split; [lia|]. intros l Hl.
    destruct (put_in e h1 m1 [] l1 [] (map Some l)) as (h2 & E2 & St2 & I2 & Z2).
    { cbn [app]. now rewrite app_nil_r. }
    { intros N1. destruct l1; [congruence|]. cbn [length] in L1. lia. }
    { rewrite map_length, L1. unfold zlen in Hl. lia. }
    cbn [length Z.of_nat] in E2. rewrite padd_0 in E2. cbn [app] in I2. rewrite app_nil_r in I2.
    exists h2. split; [exact E2|]. split; [eapply Step_trans; eauto|]. auto. }
  destruct (str_read_gen_total dbg (fun n => str_resize e nul h m n)
     (fun hm l => h' <- store_n (fst hm) (mptr (snd hm)) (map Some l) ;; Ok (h', snd hm)) (h, m) s Hs Hb Hx Hld) as (s' & r & E & (S1 & S2 & S3) & R).
  { intros n Hn. destruct (G n Hn) as (h' & m' & l' & E1 & _ & _ & _ & _ & _ & _ & E2). exists (h', m'). split; [exact E1|].
    intros l Hl. destruct (E2 l Hl) as (h2 & E3 & _). exists (h2, m'). cbn [fst snd]. now rewrite E3. }
  exists s', r. split; [exact E|]. split; [exact S1|]. split; [exact S2|]. split; [exact S3|]. destruct r as [y | x]; [|exact R].
  destruct R as (n & x & Hn & Ex & Hp1 & Hp2 & Ef). destruct (G n Hn) as (h' & m' & l' & E1 & _ & I' & _ & N' & _ & _ & E2).
  rewrite E1 in Ex. injection Ex as <-. cbn [fst snd] in Ef. unfold i_inside in S3, Hs. rewrite S1 in S3.
  assert (Ln : zlen (slice (idata s) (Z.to_nat (ipos s' - n)) (Z.to_nat (ipos s'))) = n) by (replace (ipos s') with (ipos s' - n + n) at 2 by lia; apply slice_len; lia).
  destruct (E2 _ Ln) as (h2 & E3 & St & I2 & N2). rewrite E3 in Ef. cbn [bind] in Ef. injection Ef as <-.
  pose proof I2 as ((Sz & _) & _). rewrite map_length in Sz. unfold zlen in Ln. rewrite Ln in Sz. rewrite Sz.
  split; [lia|]. split; [lia|]. split; [exact (Minv_load e h2 m' _ I2)|].
  split; [destruct N2 as [N2 | N2]; [contradiction|exact N2]|].
  exact (others_ok e h0 h ms _ i m l0 h2 m' (t_sinv _ _ _ _ _ T) Em I (Step_Step0 _ _ _ _ St)).
Qed.
