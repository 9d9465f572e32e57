(** * XferProofs *)
From Verif Require Import Base UtilModel UtilProofs StoreModel StoreProofs VectorSpec StreamModel StreamSpec StreamProofs SerialModel SerialTypes SerialSpec
  SerialProofs SerialTypesProofs BitsetModel XferModel XferSpec.
From Coq Require Import ZArith List Lia Bool.
Local Open Scope Z_scope.

Lemma iobind_Val {S A B} (m : io S A) (k : A -> io S B) s s' a : m s = Ok (s', Val a) -> iobind m k s = k a s'.
Proof. intros E. unfold iobind. rewrite E. reflexivity. Qed.
Lemma iobind_Thrown {S A B} (m : io S A) (k : A -> io S B) s s' x : m s = Ok (s', Thrown x) -> iobind m k s = Ok (s', Thrown x).
Proof. intros E. unfold iobind. rewrite E. reflexivity. Qed.
Lemma on_o_eq {S A} (m : io ostream A) o (i : S) o' r : m o = Ok (o', r) -> on_o m (o, i) = Ok ((o', i), r).
Proof. intros E. unfold on_o. cbn [fst snd]. rewrite E. reflexivity. Qed.
Lemma on_i_eq {S A} (m : io istream A) i (o : S) i' r : m i = Ok (i', r) -> on_i m (o, i) = Ok ((o, i'), r).
Proof. intros E. unfold on_i. cbn [fst snd]. rewrite E. reflexivity. Qed.

Lemma after_appended s l : o_inside s -> opos s + zlen l <= zlen (odata s) -> appended s (o_after s l) l.
Proof.
  intros (A & B & _) F. unfold zlen in F. unfold appended, written_part, o_after. cbn [odata opos oaddr ostate oexc].
  assert (L : length (firstn (Z.to_nat (opos s)) (odata s)) = Z.to_nat (opos s)) by (rewrite firstn_length; lia).
  replace (Z.to_nat (opos s + Z.of_nat (length l))) with (Z.to_nat (opos s) + length l)%nat by lia.
  repeat split; auto.
  - rewrite <- L at 1. rewrite firstn_app_2. f_equal. rewrite firstn_app, Nat.sub_diag, firstn_O, app_nil_r. apply firstn_all.
  - rewrite app_assoc, skipn_app. rewrite skipn_all2 by (rewrite app_length, L; lia). rewrite app_length, L, Nat.sub_diag. reflexivity.
  - rewrite !app_length, L, skipn_length. lia.
Qed.
Lemma failed_untouched s rem : untouched s (o_failed s rem).
Proof. unfold untouched, o_failed. cbn. auto. Qed.
Lemma unread_len i : i_inside i -> zlen (unread i) = Z.of_nat (length (idata i)) - ipos i.
Proof. intros [A B]. unfold zlen, unread. rewrite skipn_length. lia. Qed.
Lemma slice_rest {A} (l : list A) i : (i <= length l)%nat -> slice l i (length l) = skipn i l.
Proof. intros H. unfold slice. apply firstn_all2. rewrite skipn_length. lia. Qed.
Lemma seek_end i : i_inside i -> i_seek (isize i) i = Ok (i_at i (isize i), Val tt).
Proof.
  intros H. assert (0 <= isize i) by (unfold isize; lia). pose proof (i_seek_ok i (isize i) H ltac:(lia)) as S.
  unfold isize in *. rewrite Z.leb_refl in S. exact S.
Qed.

Lemma is_write_ok o i : o_inside o -> i_inside i ->
  if zlen (unread i) <=? space o then is_write_os (o, i) = Ok ((o_after o (unread i), i), Val tt)
  else exists rem r, is_write_os (o, i) = Ok ((o_failed o rem, i), r) /\
    refused (ostate o) (ostate (o_failed o rem)) (oexc o) (threw r) /\ (r = Val tt \/ r = Thrown stream_bounds).
Proof.
  intros Ho Hi. pose proof (unread_len i Hi) as U. pose proof (i_rem i Hi) as R. rewrite <- U in R.
  pose proof (zlen_nonneg (unread i)) as N0. unfold is_write_os. cbn [snd]. rewrite R.
  pose proof (o_verify_ok o (zlen (unread i)) Ho N0) as V. unfold space.
  destruct (opos o + zlen (unread i) <=? Z.of_nat (length (odata o))) eqn:F.
  - replace (zlen (unread i) <=? _) with true by lia. rewrite (iobind_Val _ _ _ _ _ (on_o_eq _ _ _ _ _ V)).
    assert (W : i_raw (zlen (unread i)) i = Ok (i, Val (unread i))).
    { rewrite i_raw_ok by (auto; lia). do 2 f_equal. f_equal. replace (Z.to_nat (ipos i + zlen (unread i))) with (length (idata i)) by lia.
      rewrite slice_rest; [reflexivity|]. destruct Hi as [? ?]. lia. }
    rewrite (iobind_Val _ _ _ _ _ (on_i_eq _ _ _ _ _ W)).
    apply on_o_eq. apply o_put_ok; [exact Ho|]. unfold zlen in F. lia.
  - replace (zlen (unread i) <=? _) with false by lia. destruct V as (rem & r & V & Rf & Cs). exists rem.
    destruct Cs as [-> | ->].
    + exists (Val tt). split; [|split; [exact Rf|auto]]. rewrite (iobind_Val _ _ _ _ _ (on_o_eq _ _ _ _ _ V)). reflexivity.
    + exists (Thrown stream_bounds). split; [|split; [exact Rf|auto]]. exact (iobind_Thrown _ _ _ _ _ (on_o_eq _ _ _ _ _ V)).
Qed.
Lemma os_read_ok o i : o_inside o -> i_inside i ->
  if zlen (unread i) <=? space o then os_read_is (o, i) = Ok ((o_after o (unread i), i_at i (isize i)), Val tt)
  else exists rem r, refused (ostate o) (ostate (o_failed o rem)) (oexc o) (threw r) /\
    ((r = Val tt /\ os_read_is (o, i) = Ok ((o_failed o rem, i_at i (isize i)), r)) \/
     (r = Thrown stream_bounds /\ os_read_is (o, i) = Ok ((o_failed o rem, i), r))).
Proof.
  intros Ho Hi. pose proof (is_write_ok o i Ho Hi) as W. destruct (zlen (unread i) <=? space o).
  - unfold os_read_is. rewrite (iobind_Val _ _ _ _ _ W). cbn [snd]. apply on_i_eq, seek_end, Hi.
  - destruct W as (rem & r & W & Rf & C). exists rem, r. split; [exact Rf|]. unfold os_read_is. destruct C as [-> | ->]; [left|right]; split; auto.
    + rewrite (iobind_Val _ _ _ _ _ W). cbn [snd]. apply on_i_eq, seek_end, Hi.
    + exact (iobind_Thrown _ _ _ _ _ W).
Qed.
Lemma os_write_ok src s : o_inside src -> o_inside s ->
  if opos src <=? space s then os_write_os src s = Ok (o_after s (written_part src), Val tt)
  else exists rem r, os_write_os src s = Ok (o_failed s rem, r) /\
    refused (ostate s) (ostate (o_failed s rem)) (oexc s) (threw r) /\ (r = Val tt \/ r = Thrown stream_bounds).
Proof.
  intros (A & B & _) Hs. pose proof (o_verify_ok s (opos src) Hs ltac:(lia)) as V. unfold os_write_os, space.
  destruct (opos s + opos src <=? Z.of_nat (length (odata s))) eqn:F.
  - replace (opos src <=? _) with true by lia. rewrite (iobind_Val _ _ _ _ _ V). unfold osize. replace (_ && _) with true by lia.
    apply o_put_ok; [exact Hs|]. unfold written_part. rewrite firstn_length. lia.
  - replace (opos src <=? _) with false by lia. destruct V as (rem & r & V & Rf & Cs). exists rem. destruct Cs as [-> | ->].
    + exists (Val tt). split; [|split; [exact Rf|auto]]. rewrite (iobind_Val _ _ _ _ _ V). reflexivity.
    + exists (Thrown stream_bounds). split; [|split; [exact Rf|auto]]. exact (iobind_Thrown _ _ _ _ _ V).
Qed.

(** ** insert and erase *)
Lemma steady_good f m l : 0 <= f <= m -> m <= l -> steady f m l -> rot_good f m l = true.
Proof.
  intros A B [[C D]|C]; unfold rot_good.
  - rewrite C, D. replace (0 <=? m - f) with true by lia. change (0 =? 0) with true. rewrite orb_true_r. apply orb_true_r.
  - replace (m - f <=? l - m) with true by lia. reflexivity.
Qed.
Lemma rotate_bytes e base (d : list Z) f m l : 0 <= base -> base mod 4 = 0 -> base + zlen d <= stack_at e -> stack_at e + zlen d < 2 ^ 64 - 15 ->
  0 <= f <= m -> m <= l -> l <= zlen d -> steady f m l ->
  rotate_cells e 1 base d (Z.to_nat f) (Z.to_nat m) (Z.to_nat l) =
  Ok (firstn (Z.to_nat f) d ++ slice d (Z.to_nat m) (Z.to_nat l) ++ slice d (Z.to_nat f) (Z.to_nat m) ++ skipn (Z.to_nat l) d).
Proof.
  intros H0 H4 Hs Hs2 A B C S. unfold zlen in *.
  assert (E : d = firstn (Z.to_nat f) d ++ slice d (Z.to_nat f) (Z.to_nat m) ++ slice d (Z.to_nat m) (Z.to_nat l) ++ skipn (Z.to_nat l) d).
  { assert (X : forall i j, (i <= j)%nat -> skipn i d = slice d i j ++ skipn j d).
    { intros i j Hij. unfold slice. rewrite <- (firstn_skipn (j - i) (skipn i d)) at 1. f_equal. rewrite skipn_skipn. f_equal. lia. }
    rewrite <- (X (Z.to_nat m) (Z.to_nat l)) by lia. rewrite <- (X (Z.to_nat f) (Z.to_nat m)) by lia. symmetry. apply firstn_skipn. }
  assert (L1 : length (firstn (Z.to_nat f) d) = Z.to_nat f) by (rewrite firstn_length; lia).
  assert (L2 : length (slice d (Z.to_nat f) (Z.to_nat m)) = (Z.to_nat m - Z.to_nat f)%nat) by (unfold slice; rewrite firstn_length, skipn_length; lia).
  assert (L3 : length (slice d (Z.to_nat m) (Z.to_nat l)) = (Z.to_nat l - Z.to_nat m)%nat) by (unfold slice; rewrite firstn_length, skipn_length; lia).
  pose proof (rotate_cells_ok4 e 1 base (firstn (Z.to_nat f) d) (slice d (Z.to_nat f) (Z.to_nat m)) (slice d (Z.to_nat m) (Z.to_nat l)) (skipn (Z.to_nat l) d)) as R.
  rewrite <- E in R. rewrite L1, L2, L3 in R.
  replace (Z.to_nat f + (Z.to_nat m - Z.to_nat f))%nat with (Z.to_nat m) in R by lia.
  replace (Z.to_nat m + (Z.to_nat l - Z.to_nat m))%nat with (Z.to_nat l) in R by lia.
  apply R; try lia. rewrite !Z2Nat.id by lia. rewrite !Z.mul_1_l. now apply steady_good.
Qed.
Lemma slice_split {A} (d : list A) i j k : (i <= j <= k)%nat -> slice d i k = slice d i j ++ slice d j k.
Proof.
  intros H. unfold slice. rewrite <- (firstn_skipn (j - i) (firstn (k - i) (skipn i d))) at 1. rewrite firstn_firstn, Nat.min_l by lia.
  f_equal. rewrite skipn_firstn_comm, skipn_skipn. f_equal; [lia|f_equal; lia].
Qed.
Lemma slice_len {A} (d : list A) i j : (i <= j <= length d)%nat -> length (slice d i j) = (j - i)%nat.
Proof. intros H. unfold slice. rewrite firstn_length, skipn_length. lia. Qed.
Lemma firstn_slice {A} (d : list A) i j : (i <= j)%nat -> firstn j d = firstn i d ++ slice d i j.
Proof. intros H. pose proof (slice_split d 0 i j ltac:(lia)) as E. unfold slice in E. cbn [skipn] in E. rewrite !Nat.sub_0_r in E. exact E. Qed.
Lemma firstn_pre {A} (a b : list A) n : length a = n -> firstn n (a ++ b) = a.
Proof. intros <-. rewrite firstn_app, Nat.sub_diag, firstn_O, app_nil_r. apply firstn_all. Qed.
Lemma skipn_pre {A} (a b : list A) n : length a = n -> skipn n (a ++ b) = b.
Proof. intros <-. rewrite skipn_app, Nat.sub_diag, skipn_all. reflexivity. Qed.

Lemma o_insert_ok e s start n : o_inside s -> env_for e s -> 0 <= start <= opos s -> 0 <= n -> opos s + n <= zlen (odata s) ->
  steady start (zlen (odata s) - n) (zlen (odata s)) ->
  exists s' gap, o_insert e start n s = Ok (s', Val tt) /\ zlen gap = n /\
    written_part s' = firstn (Z.to_nat start) (written_part s) ++ gap ++ skipn (Z.to_nat start) (written_part s) /\
    opos s' = opos s + n /\ oaddr s' = oaddr s /\ ostate s' = ostate s /\ oexc s' = oexc s /\ length (odata s') = length (odata s).
Proof.
  intros (A & B & C & D) (E4 & E1 & E2) H0 Hn Hf Hs. unfold o_insert. cbn [opos]. unfold osize. fold (zlen (odata s)).
  replace (_ && _ && _) with true by lia.
  rewrite rotate_bytes by (auto; lia). rewrite bind_Ok.
  set (d := odata s) in *. set (N := zlen d) in *. assert (NN : Z.to_nat N = length d) by (unfold N, zlen; lia).
  eexists. exists (slice d (Z.to_nat (N - n)) (Z.to_nat N)).
  split; [reflexivity|]. cbn [opos oaddr ostate oexc odata].
  assert (HN : N < 2 ^ 63) by (unfold N, zlen; lia).
  rewrite (u64_id (opos s + n)) by lia.
  split; [unfold zlen; rewrite slice_len by lia; lia|].
  repeat split; auto.
  - unfold written_part. cbn [odata opos]. fold d. rewrite firstn_firstn, Nat.min_l by lia.
    rewrite (slice_split d (Z.to_nat start) (Z.to_nat (opos s)) (Z.to_nat (N - n))) by lia.
    replace (skipn (Z.to_nat start) (firstn (Z.to_nat (opos s)) d)) with (slice d (Z.to_nat start) (Z.to_nat (opos s)))
      by (unfold slice; now rewrite skipn_firstn_comm).
    rewrite <- !app_assoc.
    match goal with |- firstn _ (?a ++ ?b ++ ?c ++ ?r) = _ => rewrite (app_assoc b c r), (app_assoc a (b ++ c) r); apply firstn_pre end.
    rewrite !app_length, !slice_len, firstn_length by lia. lia.
  - rewrite !app_length, !slice_len, firstn_length, skipn_length by lia. lia.
Qed.
Lemma o_erase_ok e s start n : o_inside s -> env_for e s -> 0 <= start -> 0 <= n -> start + n <= opos s ->
  steady start (start + n) (zlen (odata s)) ->
  exists s', o_erase e start n s = Ok (s', Val tt) /\
    written_part s' = firstn (Z.to_nat start) (written_part s) ++ skipn (Z.to_nat (start + n)) (written_part s) /\
    opos s' = opos s - n /\ oaddr s' = oaddr s /\ ostate s' = ostate s /\ oexc s' = oexc s /\ length (odata s') = length (odata s).
Proof.
  intros (A & B & C & D) (E4 & E1 & E2) H0 Hn Hf Hs. unfold o_erase. cbn [opos]. unfold osize. fold (zlen (odata s)).
  assert (opos s <= zlen (odata s)) by (unfold zlen; lia).
  replace (_ && _ && _) with true by lia.
  rewrite rotate_bytes by (auto; lia). rewrite bind_Ok.
  set (d := odata s) in *. set (N := zlen d) in *. assert (NN : Z.to_nat N = length d) by (unfold N, zlen; lia).
  eexists. split; [reflexivity|]. cbn [opos oaddr ostate oexc odata].
  assert (HN : N < 2 ^ 63) by (unfold N, zlen; lia).
  rewrite (u64_id (opos s - n)) by lia. repeat split; auto.
  - unfold written_part. cbn [odata opos]. fold d. rewrite firstn_firstn, Nat.min_l by lia.
    rewrite (slice_split d (Z.to_nat (start + n)) (Z.to_nat (opos s)) (Z.to_nat N)) by lia.
    replace (skipn (Z.to_nat (start + n)) (firstn (Z.to_nat (opos s)) d)) with (slice d (Z.to_nat (start + n)) (Z.to_nat (opos s)))
      by (unfold slice; now rewrite skipn_firstn_comm).
    rewrite <- !app_assoc.
    match goal with |- firstn _ (?a ++ ?b ++ ?r) = _ => rewrite (app_assoc a b r); apply firstn_pre end.
    rewrite !app_length, !slice_len, firstn_length by lia. lia.
  - rewrite !app_length, !slice_len, firstn_length, skipn_length by lia. lia.
Qed.
(** A position outside the buffer: the next write goes there. *)
Lemma write_outside s b : Z.of_nat (length (odata s)) < opos s < 2 ^ 64 -> 0 < u64 (Z.of_nat (length (odata s)) - opos s) -> o_write [b] s = UB.
Proof.
  intros H R. unfold o_write, iobind, o_verify. unfold o_remaining, osize. cbn [length].
  change (Z.of_nat 1) with 1. replace (1 <=? u64 _) with true by lia. rewrite bind_Ok.
  unfold o_put, iobind, o_raw. unfold osize. cbn [length]. replace (_ && _) with false by lia. reflexivity.
Qed.
Lemma u64_pos x : - 2 ^ 64 < x < 0 -> 0 < u64 x.
Proof. intros H. unfold u64, two64. replace (x mod 2 ^ 64) with (x + 2 ^ 64); [lia|]. apply Z.mod_unique with (q := -1); lia. Qed.
Lemma insert_beyond e s start n s' b : o_inside s -> 0 <= n -> opos s + n < 2 ^ 64 -> Z.of_nat (length (odata s)) < opos s + n ->
  o_insert e start n s = Ok (s', Val tt) -> length (odata s') = length (odata s) -> o_write [b] s' = UB.
Proof.
  intros (A & B & C & D) Hn H1 H2 E L. unfold o_insert in E. cbn [opos] in E. destruct (_ && _ && _); [|discriminate].
  destruct (rotate_cells _ _ _ _ _ _ _) as [d| | |]; try discriminate. rewrite bind_Ok in E. injection E as <-. cbn [odata] in L.
  rewrite u64_id in * by lia. apply write_outside; cbn [odata opos]; rewrite L; [lia|]. apply u64_pos. lia.
Qed.
Lemma erase_before e s start n s' b : o_inside s -> opos s < n -> n < 2 ^ 63 ->
  o_erase e start n s = Ok (s', Val tt) -> length (odata s') = length (odata s) -> o_write [b] s' = UB.
Proof.
  intros (A & B & C & D) H1 H2 E L. unfold o_erase in E. cbn [opos] in E. destruct (_ && _ && _); [|discriminate].
  destruct (rotate_cells _ _ _ _ _ _ _) as [d| | |]; try discriminate. rewrite bind_Ok in E. injection E as <-. cbn [odata] in L.
  rewrite u64_neg by lia. apply write_outside; cbn [odata opos]; rewrite L; [lia|]. apply u64_pos. lia.
Qed.
(** ** Fixed-size objects *)
Lemma encs_ints w l p : encs (int_enc w) p l = flat_map (bytes_le w) l.
Proof. revert p. induction l as [|x t IH]; intros p; cbn [encs flat_map]; [reflexivity|]. rewrite IH. reflexivity. Qed.
Lemma flat_len w l : zlen (flat_map (bytes_le w) l) = Z.of_nat (length l) * Z.of_nat w.
Proof. induction l as [|x t IH]; cbn [flat_map length]; [reflexivity|]. rewrite zlen_app, bytes_zlen, IH. lia. Qed.
Lemma ints_trip dbg tup w n x s : In w [1; 2; 4; 8]%nat -> Forall (fun v => 0 <= v < 256 ^ Z.of_nat w) x -> length x = n ->
  o_inside s -> oaddr s mod 8 = 0 -> opos s mod Z.of_nat w = 0 -> opos s + Z.of_nat n * Z.of_nat w <= Z.of_nat (length (odata s)) ->
  let c := c_array tup n (c_int dbg w) in
  csize c x = Z.of_nat n * Z.of_nat w /\ cwrite c x s = Ok (o_after s (flat_map (bytes_le w) x), Val tt) /\
  round_trip c x s (Z.of_nat n * Z.of_nat w).
Proof.
  intros Hw Hx Hn Hs Hb Hp Hf c.
  assert (W8 : (Z.of_nat w | 8)).
  { destruct Hw as [<-|[<-|[<-|[<-|[]]]]]; [exists 8|exists 4|exists 2|exists 1]; reflexivity. }
  pose proof (elem_int dbg w 8 Hw ltac:(exists 2; reflexivity) W8) as E.
  pose proof (good_array (c_int dbg w) (int_ok w) (int_enc w) (Z.of_nat w) 8 E tup n) as G.
  assert (OK : arr_ok (int_ok w) n x) by (split; assumption).
  assert (Ft : fits s (encs (int_enc w) (opos s) x)).
  { rewrite encs_ints. unfold fits. rewrite flat_len, Hn. exact Hf. }
  pose proof (round_trip_good c _ _ _ 8 x s G OK Hs Hb Hp Ft) as R. rewrite encs_ints, flat_len, Hn in R.
  split.
  - pose proof (nr_size_exact (c_int dbg w) (int_ok w) (int_enc w) (Z.of_nat w) 8 E false x (opos s)) as X.
    rewrite encs_ints, flat_len, Hn in X. destruct Hs as (A1 & A2 & A3 & A4).
    assert (Z.of_nat n * Z.of_nat w < 2 ^ 62 \/ 2 ^ 62 <= Z.of_nat n * Z.of_nat w) as [L|L] by lia.
    + apply X; auto; [discriminate|lia].
    + (* still below 2^63 *)
      cbn [c c_array csize]. unfold nr_stream_size. clear X. destruct x as [|x0 t]; [cbn [length] in Hn; subst n; lia|].
      assert (SS : forall l, sum_sizes (c_int dbg w) l = Z.of_nat (length l) * Z.of_nat w).
      { induction l as [|y l IH]; [reflexivity|]. cbn [sum_sizes length c_int csize]. rewrite IH. lia. }
      rewrite SS, Hn. apply u64_id. lia.
  - split; [|exact R]. rewrite <- (encs_ints w x (opos s)). exact (g_write G x s OK Hs Hb Hp Ft).
Qed.
Lemma bytes8_val v l : l = bytes_le 8 v -> 0 <= v < 2 ^ 64 -> of_bytes_le l = v.
Proof. intros -> H. apply of_bytes_bytes. exact H. Qed.
Lemma long4_trip dbg v s : 0 <= v < 2 ^ 64 -> o_inside s -> opos s mod 4 = 0 -> opos s + 8 <= Z.of_nat (length (odata s)) ->
  round_trip (c_long4 dbg) v s 8.
Proof.
  intros Hv Hs Hp Hf. assert (L8 : length (bytes_le 8 v) = 8%nat) by reflexivity.
  pose proof (o_verify_ok s 8 Hs ltac:(lia)) as V. replace (opos s + 8 <=? _) with true in V by lia.
  exists (o_after s (bytes_le 8 v)).
  assert (Ft : fits s (bytes_le 8 v)) by (unfold fits, zlen; rewrite L8; lia).
  destruct (wrote_after s (bytes_le 8 v) Hs Ft) as [W F]. change (zlen (bytes_le 8 v)) with 8 in W, F.
  split; [|split; [exact W|]].
  - cbn [c_long4 cwrite]. replace (dbg && _) with false by (rewrite Hp; destruct dbg; reflexivity).
    rewrite (iobind_Val _ _ _ _ _ V). unfold o_raw.
    set (l := bytes_le 8 v) in *. destruct l as [|b0 t] eqn:El; [discriminate|]. rewrite <- El in *.
    rewrite (iobind_Val _ _ _ (o_at (o_after s l) (opos s)) tt).
    + unfold o_skip. cbn [o_at opos].
      pose proof (o_after_inside s l Hs ltac:(rewrite L8; lia)) as Hi.
      assert (Hi' : o_inside (o_at (o_after s l) (opos s))).
      { destruct Hi as (A & B). destruct Hs as (A' & _). split; [|exact B]. cbn [o_at opos odata]. destruct B as (B & _).
        unfold o_after in A. cbn [opos odata] in A. unfold o_after. cbn [odata]. lia. }
      pose proof Hs as (A1 & A2 & A3 & A4).
      rewrite (u64_id (opos s + 8)) by lia.
      pose proof (o_seek_ok _ (opos s + 8) Hi' ltac:(lia)) as S.
      replace (Z.of_nat (length (odata (o_at (o_after s l) (opos s))))) with (Z.of_nat (length (odata s))) in S
        by (cbn [o_at odata]; rewrite o_after_length; [reflexivity|exact Hs|rewrite L8; lia]).
      replace (opos s + 8 <=? _) with true in S by lia. rewrite S. unfold o_at, o_after. cbn [odata opos oaddr ostate oexc]. rewrite L8. reflexivity.
    + pose proof Hs as (A1 & A2 & A3 & A4). rewrite L8. unfold osize. replace (_ && _) with true by lia.
      unfold o_at, o_after. cbn [odata opos oaddr ostate oexc]. rewrite L8. reflexivity.
  - intros old data st exc (Hd & Hfit & Heq). rewrite F in Heq. cbn [c_long4 cread ipos].
    replace (dbg && _) with false by (rewrite Hp; destruct dbg; reflexivity).
    assert (P0 : 0 <= opos s) by (destruct Hs; lia).
    set (i := mkis data (opos s) st exc). assert (Hi : i_inside i) by (split; cbn [i ipos idata]; lia).
    pose proof (i_verify_ok i 8 Hi ltac:(lia)) as VI. cbn [i ipos idata] in VI. replace (opos s + 8 <=? _) with true in VI by lia.
    fold i in VI. rewrite (iobind_Val _ _ _ _ _ VI).
    assert (RI : i_raw 8 i = Ok (i, Val (bytes_le 8 v))).
    { rewrite i_raw_ok by (auto; cbn [i ipos idata]; lia). cbn [i ipos idata]. do 2 f_equal. f_equal. unfold slice.
      replace (Z.to_nat (opos s + 8) - Z.to_nat (opos s))%nat with (Z.to_nat 8) by lia. exact Heq. }
    rewrite (iobind_Val _ _ _ _ _ RI). unfold i_skip.
    pose proof (i_seek_ok i (opos s + 8) Hi ltac:(lia)) as S. cbn [i idata] in S. replace (opos s + 8 <=? _) with true in S by lia. fold i in S.
    rewrite (iobind_Val _ _ i (i_at i (opos s + 8)) tt).
    + rewrite (bytes8_val v _ eq_refl Hv). reflexivity.
    + change (ipos i) with (opos s). rewrite u64_id by lia. exact S.
Qed.
