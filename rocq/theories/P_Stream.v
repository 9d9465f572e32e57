(** * Properties C04-C08, C56 (second half), C61, C62: memory streams and serialisation. *)
From Verif Require Import Base UtilModel StoreModel VectorModel VectorSpec VectorFacts MemModel MemSpec MemProofs MemRun MemFacts
  StringModel StringSpec StringProofs StringRun StringFacts.
From Verif Require Import Utf8Model Utf8Spec Utf8Proofs StreamModel StreamSpec StreamProofs SerialModel SerialTypes SerialSpec SerialProofs
  SerialTypesProofs SerialHeapProofs StreamFacts SerialRun SerialFacts.
From Coq Require Import ZArith ZifyBool ZifyNat.
Local Open Scope Z_scope.

(** ** C04: any text of fewer than 2^31 bytes, written where it fits, takes
    stream_size bytes; reading those bytes into any string with any history
    gives the text, its terminator, and the position just behind; the other
    strings keep their bytes. *)
Theorem C04_string_round_trip (e : env) (h0 : heap) (nul : ptr) (dbg : bool) k ops h ms i m l s :
  good_env e -> enough_memory e -> callers h0 -> NulBlk nul h0 ->
  sops_pre h0 (repeat [] k) ops -> careful e nul h0 (repeat [] k) (h0, repeat (str_nil nul) k) ops ->
  srun e nul (h0, repeat (str_nil nul) k) ops = Ok (h, ms) -> nth_error ms i = Some m ->
  Z.of_nat (length l) < 2 ^ 31 -> o_inside s -> opos s + str_stream_size l <= Z.of_nat (length (odata s)) ->
  exists s', str_write l s = Ok (s', Val tt) /\ only_wrote s s' (str_stream_size l) /\
  forall data st exc, same_bytes s' (opos s) (str_stream_size l) data ->
    exists h' m', str_read_heap dbg e nul h m (mkis data (opos s) st exc) = Ok (mkis data (opos s') st exc, Val (h', m')) /\
      msize m' = Z.of_nat (length l) /\ mb_bytes h' m' = Ok (map Some l) /\ str_last h' m' = Ok [Some 0] /\
      others_same ms i h h'.
Proof. exact (fun He Hm Hc Hn => string_trip e He Hm h0 Hc dbg nul Hn k ops h ms i m l s). Qed.
Print Assumptions C04_string_round_trip.

(** ** C05 *)
(** Strings, at any position. *)
Theorem C05_string_size (l : list Z) (s : ostream) :
  Z.of_nat (length l) < 2 ^ 31 -> o_inside s -> opos s + str_stream_size l <= Z.of_nat (length (odata s)) ->
  exists s', str_write l s = Ok (s', Val tt) /\ only_wrote s s' (str_stream_size l).
Proof.
  intros Hl Hs Hr.
  assert (E : zlen (str_enc (opos s) l) = str_stream_size l) by (apply (e_exact (elem_string false 4 (Z.divide_refl 4)) l (opos s) Hl);
    [unfold o_inside in Hs; lia|apply Z.mod_1_r|unfold str_enc; rewrite zlen_app; pose proof (encode_length (zlen l) (len_char l Hl));
     assert (len_of (zlen l) <= 8) by (unfold len_of; repeat match goal with |- context [if ?b then _ else _] => destruct b end; lia); unfold zlen in *; lia]).
  assert (F : fits s (str_enc (opos s) l)) by (unfold fits; rewrite E; exact Hr).
  exists (o_after s (str_enc (opos s) l)). split; [now apply str_write_ok|]. rewrite <- E. apply wrote_after; auto.
Qed.
Print Assumptions C05_string_size.
(** Memory blocks, at a multiple of 4 in a buffer aligned to 4. *)
Theorem C05_memblock_size (dbg : bool) (l : list Z) (s : ostream) :
  Z.of_nat (length l) < 2 ^ 32 -> o_inside s -> oaddr s mod 4 = 0 -> opos s mod 4 = 0 ->
  opos s + mem_stream_size l <= Z.of_nat (length (odata s)) ->
  exists s', mem_write dbg l s = Ok (s', Val tt) /\ only_wrote s s' (mem_stream_size l).
Proof.
  intros Hl Hs Hb Hp Hr. assert (P0 : 0 <= opos s) by (unfold o_inside in Hs; lia).
  pose proof (mem_size_ok l (opos s) Hl P0 Hp) as Sz. rewrite <- Sz in *.
  exists (o_after s (mem_enc (opos s) l)). split; [apply mem_write_ok; auto|]. now apply wrote_after.
Qed.
Print Assumptions C05_memblock_size.
(** Containers of integers of 1, 2, 4, 8 bytes or of strings, at a position
    aligned to 4 (8 for 8 byte integers) in a buffer aligned in the same way.
    [const]: the compiler may compute the size of one element only, if all
    have the same. *)
Theorem C05_container_size (dbg : bool) (t : ty) (const : bool) (l : val (TVec t)) (s : ostream) :
  flat t = true -> valid (TVec t) l -> footprint (TVec t) l < 2 ^ 62 - 16 -> (const = true -> same_sizes (codec_of dbg t) l) ->
  o_inside s -> oaddr s mod unit_of t = 0 -> opos s mod unit_of t = 0 ->
  opos s + container_stream_size (codec_of dbg t) const l <= Z.of_nat (length (odata s)) ->
  exists s', container_write dbg (codec_of dbg t) l s = Ok (s', Val tt) /\
    only_wrote s s' (container_stream_size (codec_of dbg t) const l).
Proof.
  intros Ht Hl Hf Hc Hs Ha Hp Hr.
  assert (P4 : opos s mod 4 = 0) by (unfold unit_of in Hp; destruct (wide t); [pose proof (Z.div_mod (opos s) 8); lia|exact Hp]).
  destruct (flat_trip dbg t const l s Ht Hl Hf Hc Hs Ha P4 Hr) as (n & (s' & W & O & _) & _ & _ & N).
  rewrite <- (N Hp). eauto.
Qed.
Print Assumptions C05_container_size.

(** ** C06 *)
(** Any container as a sequence: the round trip at any multiple of 4, over any
    old container; not more than stream_size bytes; the end is a multiple of 4.
    Missing: 8 byte integers in a buffer not aligned to 8 (refuted below). *)
Theorem C06_container_partial (dbg : bool) (t : ty) (const : bool) (l : val (TVec t)) (s : ostream) :
  flat t = true -> valid (TVec t) l -> footprint (TVec t) l < 2 ^ 62 - 16 -> (const = true -> same_sizes (codec_of dbg t) l) ->
  o_inside s -> oaddr s mod unit_of t = 0 -> opos s mod 4 = 0 ->
  opos s + container_stream_size (codec_of dbg t) const l <= Z.of_nat (length (odata s)) ->
  exists n, round_trip (codec_of dbg (TVec t)) l s n /\
    n <= container_stream_size (codec_of dbg t) const l /\ (opos s + n) mod 4 = 0.
Proof.
  intros Ht Hl Hf Hc Hs Ha Hp Hr. destruct (flat_trip dbg t const l s Ht Hl Hf Hc Hs Ha Hp Hr) as (n & R & N1 & N2 & _). eauto.
Qed.
Print Assumptions C06_container_partial.
(** The same into a vector in memory, which any history may have left. *)
Theorem C06_vector_partial (e : env) (dbg : bool) (t : ty) (const : bool) es (dflt : val t) ops v (l : val (TVec t)) s :
  good_env e -> enough_memory e -> flat t = true -> 0 < es ->
  ops_pre es dflt [] ops -> ops_moves_ok es dflt [] ops = true -> vrun e es dflt vec_nil ops = Ok v ->
  valid (TVec t) l -> footprint (TVec t) l < 2 ^ 62 - 16 -> es * Z.of_nat (length l) <= 2 ^ 31 ->
  (const = true -> same_sizes (codec_of dbg t) l) ->
  o_inside s -> oaddr s mod unit_of t = 0 -> opos s mod 4 = 0 ->
  opos s + container_stream_size (codec_of dbg t) const l <= Z.of_nat (length (odata s)) ->
  exists s' n, container_write dbg (codec_of dbg t) l s = Ok (s', Val tt) /\ only_wrote s s' n /\ opos s' mod 4 = 0 /\
    forall data st exc, same_bytes s' (opos s) n data ->
      exists v', vector_read dbg (codec_of dbg t) e es v (mkis data (opos s) st exc) = Ok (mkis data (opos s') st exc, Val v') /\
        contents v' = Ok l.
Proof. exact (flat_vector_trip e dbg t const es dflt ops v l s). Qed.
Print Assumptions C06_vector_partial.
(** vector<uint64_t> {5} written at position 0 of a buffer at an address that
    is 4 modulo 8 reads back as something else: the writer aligns addresses,
    the reader positions. *)
Theorem C06_container_refuted : exists s s' i l, o_inside s /\ opos s = 0 /\ oaddr s mod 8 = 4 /\
  cwrite (codec_of false (TVec (TInt 8))) [5] s = Ok (s', Val tt) /\
  cread (codec_of false (TVec (TInt 8))) [] (is_open (odata s')) = Ok (i, Val l) /\ l <> [5].
Proof.
  destruct off_by_four as (s' & v & W & R & _ & i & l & E & N). exists (room 16 4), s', i, l.
  split; [apply room_inside; lia|]. split; [reflexivity|]. split; [reflexivity|]. split; [exact W|]. split; [congruence|exact N].
Qed.
Print Assumptions C06_container_refuted.

(** ** C07: every history of bounds-checked operations, with arguments a
    caller can pass, on a stream whose position is inside its buffer; the
    client catches the exceptions and goes on.  Nothing undefined; every
    single step meets [i_step_spec] / [o_step_spec]. *)
Theorem C07_istream_bounds (s : istream) (ops : list iop) :
  i_inside s -> i_bytes s -> Forall i_args ops ->
  exists hist, io_run i_step s ops = Ok hist /\ history i_step_spec s ops hist.
Proof. exact (i_run_ok ops s). Qed.
Print Assumptions C07_istream_bounds.
Theorem C07_ostream_bounds (s : ostream) (ops : list oop) :
  o_inside s -> Forall o_args ops ->
  exists hist, io_run o_step s ops = Ok hist /\ history o_step_spec s ops hist.
Proof. exact (o_run_ok ops s). Qed.
Print Assumptions C07_ostream_bounds.

(** ** C08 *)
(** If a terminator is in the rest of the stream, the text before it is
    delivered and the position is just behind it. *)
Theorem C08_read_strz_partial (pre l t : list Z) (st exc : Z) :
  Forall (fun c => c <> 0) l -> Z.of_nat (length (pre ++ l ++ 0 :: t)) < 2 ^ 63 ->
  i_read_strz (mkis (pre ++ l ++ 0 :: t) (Z.of_nat (length pre)) st exc) =
    Ok (mkis (pre ++ l ++ 0 :: t) (Z.of_nat (length (pre ++ l ++ [0]))) st exc, Val l).
Proof.
  intros Hl H. pose proof (strz_ok pre l t st exc Hl H) as E. unfold rdr, zlen in E.
  replace (pre ++ l ++ 0 :: t) with ((pre ++ l ++ [0]) ++ t) in * by (rewrite <- !app_assoc; reflexivity). exact E.
Qed.
Print Assumptions C08_read_strz_partial.
(** Without one, for every stream: no text, and the position one further,
    whatever follows. *)
Theorem C08_unterminated (pre l : list Z) (st exc : Z) :
  Forall (fun c => c <> 0) l -> Z.of_nat (length (pre ++ l)) < 2 ^ 63 ->
  i_read_strz (mkis (pre ++ l) (Z.of_nat (length pre)) st exc) = Ok (mkis (pre ++ l) (Z.of_nat (length pre) + 1) st exc, Val []).
Proof. exact (strz_no pre l st exc). Qed.
Print Assumptions C08_unterminated.
(** So at the end of any stream the position leaves the stream, no error is
    reported, and then any read is undefined. *)
Theorem C08_read_strz_refuted (data : list Z) (st exc : Z) : Z.of_nat (length data) < 2 ^ 62 ->
  exists s', i_read_strz (mkis data (Z.of_nat (length data)) st exc) = Ok (s', Val []) /\
    ipos s' = Z.of_nat (length (idata s')) + 1 /\ istate s' = st /\
    forall n, 0 < n < 2 ^ 63 -> i_read n s' = UB.
Proof.
  intros H. exists (mkis data (Z.of_nat (length data) + 1) st exc). pose proof (strz_no data [] st exc (Forall_nil _)) as E.
  unfold rdr, zlen in E. rewrite app_nil_r in E. split; [apply E; lia|]. split; [reflexivity|]. split; [reflexivity|].
  intros n Hn. exact (behind_read data st exc n H Hn).
Qed.
Print Assumptions C08_read_strz_refuted.

(** ** C56, second half: the bytes of any block of a history, written where
    they fit and read back over any block of the history. *)
Theorem C56_write_read (e : env) (h0 : heap) (dbg : bool) k ops h ms i j m mj l s :
  good_env e -> enough_memory e -> callers h0 -> mops_pre h0 (repeat [] k) ops ->
  mrun e (h0, repeat mb_nil k) ops = Ok (h, ms) ->
  nth_error ms i = Some m -> nth_error ms j = Some mj -> mb_bytes h mj = Ok (map Some l) -> Z.of_nat (length l) <= 2 ^ 31 ->
  o_inside s -> oaddr s mod 4 = 0 -> opos s mod 4 = 0 -> opos s + mem_stream_size l <= Z.of_nat (length (odata s)) ->
  exists s', mem_write dbg l s = Ok (s', Val tt) /\ only_wrote s s' (mem_stream_size l) /\ mem_stream_size l mod 4 = 0 /\
  forall data st exc, same_bytes s' (opos s) (mem_stream_size l) data ->
    exists h' m', memblock_read dbg e h m (mkis data (opos s) st exc) = Ok (mkis data (opos s') st exc, Val (h', m')) /\
      msize m' = Z.of_nat (length l) /\ mb_bytes h' m' = Ok (map Some l) /\ others_same ms i h h'.
Proof. exact (fun He Hm Hc => block_trip e He Hm h0 Hc dbg k ops h ms i j m mj l s). Qed.
Print Assumptions C56_write_read.
(** Reading into a link to the caller's memory: exactly those bytes change. *)
Theorem C56_read_link (dbg : bool) h b k pr old po size l pre post st exc :
  nth_error h b = Some k -> writable (bkind k) = true -> bcells k = pr ++ old ++ po -> length old = length l ->
  zlen l <= size -> zlen l < 2 ^ 32 -> zlen pre mod 4 = 0 ->
  zlen (pre ++ mem_enc (zlen pre) l ++ post) < 2 ^ 63 ->
  exists h', memlink_read dbg h (Some (b, Z.of_nat (length pr))) size (rdr pre (mem_enc (zlen pre) l ++ post) st exc) =
      Ok (rdr (pre ++ mem_enc (zlen pre) l) post st exc, Val (h', zlen l)) /\
    nth_error h' b = Some (mkblk (pr ++ map Some l ++ po) (bbase k) (bkind k)) /\
    (forall c, c <> b -> nth_error h' c = nth_error h c).
Proof. exact (fun a1 a2 a3 a4 a5 a6 a7 => memlink_read_ok dbg h b k pr old po size l pre post st exc a1 a2 a3 a4 a5 a6 (fun _ => a7)). Qed.
Print Assumptions C56_read_link.

(** ** C61 *)
(** All nested types in [storable]: the round trip takes exactly stream_size bytes.
    Missing: the others, for four of which it is false. *)
Theorem C61_nested_partial (dbg : bool) (t : ty) (x : val t) (s : ostream) :
  storable t = true -> valid t x -> footprint t x < 2 ^ 62 ->
  o_inside s -> oaddr s mod 8 = 0 -> opos s mod (if wide t then 8 else 4) = 0 ->
  opos s + csize (codec_of dbg t) x <= Z.of_nat (length (odata s)) ->
  round_trip (codec_of dbg t) x s (csize (codec_of dbg t) x).
Proof. exact (storable_trip dbg t x s). Qed.
Print Assumptions C61_nested_partial.
(** vector<pair<pair<string,uint8_t>,uint8_t>> {(("",0),0)} cannot be read back. *)
Theorem C61_pair_in_pair_refuted (dbg : bool) : exists x s', valid (TVec (TPair (TPair TStr (TInt 1)) (TInt 1))) x /\ x = [(([], 0), 0)] /\
  cwrite (codec_of dbg (TVec (TPair (TPair TStr (TInt 1)) (TInt 1)))) x (room 16 64) = Ok (s', Val tt) /\
  exists i, cread (codec_of dbg (TVec (TPair (TPair TStr (TInt 1)) (TInt 1)))) [] (written s') = Ok (i, Thrown stream_bounds).
Proof. destruct (vec_s88_fails dbg) as (V & s' & W & _ & R). exists [(([], 0), 0)], s'. exact (conj V (conj eq_refl (conj W R))). Qed.
Print Assumptions C61_pair_in_pair_refuted.
(** map<string,uint64_t> {("abcdefg",5)} does not fit into the 20 bytes stream_size gives. *)
Theorem C61_map_string_u64_refuted (dbg : bool) : exists x, valid (TVec (TPair TStr (TInt 8))) x /\
  csize (codec_of dbg (TVec (TPair TStr (TInt 8)))) x = 20 /\
  exists s, cwrite (codec_of dbg (TVec (TPair TStr (TInt 8)))) x (room 20 64) = Ok (s, Thrown stream_bounds).
Proof. destruct map_s64_fails as (V & F). exists abcdefg5. destruct (F dbg) as (A & B & _). exact (conj V (conj A B)). Qed.
Print Assumptions C61_map_string_u64_refuted.
(** vector<vector<uint64_t>> {{}} cannot be read back. *)
Theorem C61_nested_u64_refuted (dbg : bool) : exists s',
  cwrite (codec_of dbg (TVec (TVec (TInt 8)))) [[]] (room 12 64) = Ok (s', Val tt) /\
  exists i, cread (codec_of dbg (TVec (TVec (TInt 8)))) [] (written s') = Ok (i, Thrown stream_bounds).
Proof. exact (vec_v64_fails dbg). Qed.
Print Assumptions C61_nested_u64_refuted.
(** map<uint64_t,string> {(5,"a")} fails an assertion when written. *)
Theorem C61_map_u64_string_refuted :
  cwrite (codec_of true (TVec (TPair (TInt 8) TStr))) [(5, [97])] (room 40 64) = UB.
Proof. exact map_64s_asserts. Qed.
Print Assumptions C61_map_u64_string_refuted.

(** ** C62 *)
(** Any bytes, bounds exceptions on, first byte below 0xFE, into any string
    with any history: either the bytes before the new position are the
    string's, with a terminator, or stream_bounds is thrown.
    Missing: the two cases below. *)
Theorem C62_string_read_partial (e : env) h0 dbg nul k ops h ms i m s : good_env e -> enough_memory e -> callers h0 -> NulBlk nul h0 ->
  sops_pre h0 (repeat [] k) ops -> careful e nul h0 (repeat [] k) (h0, repeat (str_nil nul) k) ops ->
  srun e nul (h0, repeat (str_nil nul) k) ops = Ok (h, ms) -> nth_error ms i = Some m ->
  i_inside s -> i_bytes s -> Z.testbit (iexc s) 2 = true -> nth (Z.to_nat (ipos s)) (idata s) 0 < 254 ->
  exists s' r, str_read_heap dbg e nul h m s = Ok (s', r) /\ idata s' = idata s /\ iexc s' = iexc s /\ i_inside s' /\
    match r with
    | Thrown x => x = stream_bounds
    | Val (h', m') => 0 <= msize m' < 2 ^ 31 /\ ipos s <= ipos s' - msize m' /\
        mb_bytes h' m' = Ok (map Some (slice (idata s) (Z.to_nat (ipos s' - msize m')) (Z.to_nat (ipos s')))) /\
        str_last h' m' = Ok [Some 0] /\ others_same ms i h h'
    end.
Proof. exact (string_any e h0 dbg nul k ops h ms i m s). Qed.
Print Assumptions C62_string_read_partial.
(** FE BF BF BF BF BF BF: a shift that overflows. *)
Theorem C62_lead_fe_refuted (dbg : bool) (old : list Z) : exists data, Forall (fun b => 0 <= b < 256) data /\
  str_read dbg old (is_open data) = UB.
Proof. exists [254; 191; 191; 191; 191; 191; 191]. split; [repeat constructor; lia|exact (lead_fe dbg old)]. Qed.
Print Assumptions C62_lead_fe_refuted.
(** A stream at its end, with exceptions off: an uninitialised byte is used. *)
Theorem C62_empty_refuted (dbg : bool) (old : list Z) : str_read dbg old (mkis [] 0 0 0) = UB.
Proof. exact (empty_quiet dbg old). Qed.
Print Assumptions C62_empty_refuted.

(** ** Non-vacuity *)
Example C04_case : o_inside (room 8 64) /\ opos (room 8 64) + str_stream_size [104; 105; 0; 33] <= Z.of_nat (length (odata (room 8 64))) /\
  str_stream_size [104; 105; 0; 33] = 5.
Proof. split; [apply room_inside; lia|]. split; [vm_compute; discriminate|reflexivity]. Qed.
Example C05_case : valid (TVec (TInt 2)) [1; 2; 65535] /\ footprint (TVec (TInt 2)) [1; 2; 65535] < 2 ^ 62 - 16 /\
  same_sizes (codec_of true (TInt 2)) [1; 2; 65535] /\ container_stream_size (codec_of true (TInt 2)) true [1; 2; 65535] = 12 /\
  oaddr (room 12 64) mod unit_of (TInt 2) = 0.
Proof. repeat split; try (repeat constructor; cbn; lia); intros x y _ _; reflexivity. Qed.
Example C06_history : ops_pre 4 0 [] [OpAssign [1; 2; 3]; OpInsert 1 7; OpErase 0 2] /\
  ops_moves_ok 4 0 [] [OpAssign [1; 2; 3]; OpInsert 1 7; OpErase 0 2] = true.
Proof. split; [repeat split; cbn; lia|reflexivity]. Qed.
Example C07_case : Forall i_args [IRead 3; IGet 4; IAlign 4; ISeekg (-2) Cur; IReadsome 100; IUngetc] /\
  Forall o_args [OWrite [1; 2; 3]; OAlign 8; OPut 2 513; OWriteStrz [65]; OSeekp 0 Beg].
Proof.
  split; repeat (apply Forall_cons; [cbn [i_args o_args length]; try lia; try (cbn [In]; tauto)|]); try apply Forall_nil. exists 3. lia.
Qed.
Example C56_case : exists h ms l, mrun env0 (nine, repeat mb_nil 2) [MAssign 0 (Some (0%nat, 0)) 8] = Ok (h, ms) /\
  exists m, nth_error ms 0 = Some m /\ mb_bytes h m = Ok (map Some l) /\ length l = 8%nat.
Proof. eexists; eexists; exists [1; 2; 3; 4; 5; 6; 7; 8]. split; [vm_compute; reflexivity|]. eexists. repeat split; vm_compute; reflexivity. Qed.
(** map<uint16_t,uint8_t>, map<string,uint8_t>, vector<pair<string,uint16_t>>, map<string,vector<uint32_t>>. *)
Example C61_case : storable (TVec (TPair (TInt 2) (TInt 1))) = true /\ storable (TVec (TPair TStr (TInt 1))) = true /\
  storable (TVec (TPair TStr (TInt 2))) = true /\
  storable (TVec (TPair TStr (TVec (TInt 4)))) = true /\ storable (TPair TStr (TPair (TInt 2) (TInt 2))) = true /\
  valid (TVec (TPair TStr (TVec (TInt 4)))) [([97], [1; 2]); ([], [])] /\
  csize (codec_of false (TVec (TPair TStr (TVec (TInt 4))))) [([97], [1; 2]); ([], [])] = 28 /\
  csize (codec_of false (TVec (TPair TStr (TInt 1)))) [([97], 5)] = 8.
Proof. repeat split; try (repeat constructor; cbn; lia). Qed.
