(** * Properties C144-C149: fixed-size objects in streams, and transfers between streams. *)
From Verif Require Import Base UtilModel UtilProofs StoreModel StreamModel StreamSpec StreamProofs SerialModel SerialTypes SerialSpec SerialFacts
  SerialProofs SerialTypesProofs BitsetModel BitsetSpec BitsetProofs VectorFacts XferModel XferSpec XferProofs.
From Coq Require Import ZArith List Lia Bool.
Local Open Scope Z_scope.

(** ** C144 *)
(** An array ([tup = false]) or tuple ([tup = true]) of [n] integers of [w]
    bytes, or a matrix (an array of its rows' elements): stream_size is n*w,
    the bytes are those of the elements in order, and it reads back. *)
Theorem C144_integers (dbg tup : bool) (w n : nat) (x : list Z) (s : ostream) : In w [1; 2; 4; 8]%nat ->
  Forall (fun v => 0 <= v < 256 ^ Z.of_nat w) x -> length x = n ->
  o_inside s -> oaddr s mod 8 = 0 -> opos s mod Z.of_nat w = 0 -> opos s + Z.of_nat n * Z.of_nat w <= Z.of_nat (length (odata s)) ->
  let c := c_array tup n (c_int dbg w) in
  csize c x = Z.of_nat n * Z.of_nat w /\
  (exists s', cwrite c x s = Ok (s', Val tt) /\ appended s s' (flat_map (bytes_le w) x)) /\
  round_trip c x s (Z.of_nat n * Z.of_nat w).
Proof.
  intros Hw Hx Hn Hs Hb Hp Hf c. destruct (ints_trip dbg tup w n x s Hw Hx Hn Hs Hb Hp Hf) as (A & B & C).
  split; [exact A|]. split; [|exact C]. eexists. split; [exact B|]. apply after_appended; [exact Hs|]. rewrite flat_len, Hn. exact Hf.
Qed.
Print Assumptions C144_integers.
(** Of any elements that are storable themselves (C61). *)
Theorem C144_array (dbg tup : bool) (n : nat) (t : ty) (x : list (val t)) (s : ostream) :
  storable t = true -> (tup = true \/ wide t = false) -> Forall (valid t) x -> length x = n -> footprint (TArr tup n t) x < 2 ^ 62 ->
  o_inside s -> oaddr s mod 8 = 0 -> opos s mod (if wide (TArr tup n t) then 8 else 4) = 0 ->
  opos s + csize (c_array tup n (codec_of dbg t)) x <= Z.of_nat (length (odata s)) ->
  round_trip (c_array tup n (codec_of dbg t)) x s (csize (c_array tup n (codec_of dbg t)) x).
Proof.
  intros Ht Hw Hx Hn Hf. apply (storable_trip dbg (TArr tup n t) x s).
  - cbn [storable]. rewrite Ht. destruct Hw as [-> | ->]; [reflexivity|apply orb_true_r].
  - split; assumption.
  - exact Hf.
Qed.
Print Assumptions C144_array.
(** A bitset after any history, written and read into any other of its size. *)
Theorem C144_bitset (dbg : bool) (sz k : nat) (ops : list bop) : (0 < sz)%nat -> Forall (bop_pre sz k) ops ->
  exists bs, brun sz (repeat (bs_of_value sz 0) k) ops = Ok bs /\
    forall i b s, nth_error bs i = Some b -> o_inside s -> oaddr s mod 8 = 0 -> opos s mod 4 = 0 ->
      opos s + csize (c_bitset dbg sz) b <= Z.of_nat (length (odata s)) ->
      csize (c_bitset dbg sz) b = 4 * ((Z.of_nat sz + 31) / 32) /\
      exists s', cwrite (c_bitset dbg sz) b s = Ok (s', Val tt) /\ only_wrote s s' (csize (c_bitset dbg sz) b) /\
      forall old data st exc, same_bytes s' (opos s) (csize (c_bitset dbg sz) b) data ->
        exists r, cread (c_bitset dbg sz) old (mkis data (opos s) st exc) =
            Ok (mkis data (opos s + csize (c_bitset dbg sz) b) st exc, Val r) /\
          forall n, (n < sz)%nat -> bs_test sz r n = Ok (nth n (nth i (bspec_run sz (repeat (repeat false sz) k) ops) []) false).
Proof.
  intros Hz P. destruct (brun_ok sz false ops (repeat (bs_of_value sz 0) k) (repeat (repeat false sz) k) Hz (Sinv_init sz false k Hz)) as (bs & E & S & L).
  - now rewrite repeat_length.
  - discriminate.
  - exists bs. split; [exact E|]. intros i b s Eb Hs Hb Hp Hf.
    assert (Hi : (i < length bs)%nat) by (apply nth_error_Some; congruence).
    destruct (Sinv_get sz false bs _ i S Hi) as (b' & Eb' & I). apply rd_nth_error in Eb'. assert (b' = b) as -> by congruence.
    pose proof I as (Ln & Fw & _).
    change (csize (c_bitset dbg sz) b) with (4 * Z.of_nat (nwords sz)) in *.
    destruct (ints_trip dbg false 4 (nwords sz) b s ltac:(cbn; auto)) as (_ & _ & s' & W & O & R); auto.
    + lia.
    + split; [|exists s'].
      * f_equal. pose proof (nwords_cover sz). apply Z.div_unique with (r := Z.of_nat sz + 31 - 32 * Z.of_nat (nwords sz)); lia.
      * replace (Z.of_nat (nwords sz) * Z.of_nat 4) with (4 * Z.of_nat (nwords sz)) in * by lia.
        split; [exact W|]. split; [exact O|]. intros old data st exc Sb. exists b. split; [exact (R old data st exc Sb)|].
        intros n Hn. eapply bs_test_ok; eauto.
Qed.
Print Assumptions C144_bitset.
(** An 8 byte integer marked _long4grain round trips at any multiple of 4. *)
Theorem C144_long4 (dbg : bool) (v : Z) (s : ostream) : 0 <= v < 2 ^ 64 -> o_inside s -> opos s mod 4 = 0 ->
  opos s + 8 <= Z.of_nat (length (odata s)) -> round_trip (c_long4 dbg) v s 8.
Proof. exact (long4_trip dbg v s). Qed.
Print Assumptions C144_long4.
(** [os << ios::align (g)] writes zeros up to a multiple of g, never more than
    its stream_size; [is >> ios::align (g)] at the same position skips them. *)
Theorem C144_align (k : Z) (s : ostream) : 0 <= k <= 62 -> o_inside s -> oaddr s mod 2 ^ k = 0 ->
  opos s + f_align_size (2 ^ k) <= Z.of_nat (length (odata s)) ->
  exists s' n, f_align_out (2 ^ k) s = Ok (s', Val tt) /\ appended s s' (repeat 0 (Z.to_nat n)) /\
    0 <= n <= f_align_size (2 ^ k) /\ (opos s + n) mod 2 ^ k = 0 /\
    forall data st exc, Z.of_nat (length data) < 2 ^ 62 -> opos s + n <= Z.of_nat (length data) ->
      f_align_in (2 ^ k) (mkis data (opos s) st exc) = Ok (mkis data (opos s + n) st exc, Val tt).
Proof.
  intros Hk Hs Hb Hf. assert (P : 0 < 2 ^ k) by (apply Z.pow_pos_nonneg; lia).
  assert (P2 : 2 ^ k <= 2 ^ 62) by (apply Z.pow_le_mono_r; lia).
  assert (Sz : f_align_size (2 ^ k) = 2 ^ k - 1) by (unfold f_align_size; apply u64_id; change (2 ^ 62) with 4611686018427387904 in P2; lia).
  rewrite Sz in *. set (n := (- opos s) mod 2 ^ k).
  assert (Hn : 0 <= n <= 2 ^ k - 1) by (pose proof (Z.mod_pos_bound (- opos s) (2 ^ k) P); unfold n; lia).
  pose proof Hs as (A1 & A2 & A3 & A4).
  assert (En : (- (oaddr s + opos s)) mod 2 ^ k = n).
  { unfold n. apply Z.mod_divide in Hb; [|lia]. destruct Hb as [q Hq]. rewrite Hq.
    replace (- (q * 2 ^ k + opos s)) with (- opos s + (- q) * 2 ^ k) by lia. apply Z.mod_add. lia. }
  assert (Em : (opos s + n) mod 2 ^ k = 0).
  { unfold n. rewrite Z.add_mod_idemp_r by lia. rewrite Z.add_opp_diag_r. apply Z.mod_0_l. lia. }
  pose proof (o_align_ok s k Hs Hk) as A. cbv zeta in A. rewrite En in A. replace (opos s + n <=? _) with true in A by lia.
  eexists. exists n. split; [exact A|]. split; [|split; [exact Hn|split; [exact Em|]]].
  - apply after_appended; [exact Hs|]. unfold zlen. rewrite repeat_length. lia.
  - intros data st exc Hd Hi. unfold f_align_in, i_align. cbn [ipos]. unfold align.
    assert (Ea : align (opos s) (2 ^ k) = Ok (opos s + n)).
    { unfold align, align_down. rewrite u64_id by (change (2 ^ 62) with 4611686018427387904 in *; lia).
      replace (2 ^ k =? 0) with false by lia. f_equal.
      replace ((opos s + 2 ^ k - 1) mod 2 ^ k) with (2 ^ k - 1 - n); [lia|].
      apply Z.mod_unique with (q := (opos s + n) / 2 ^ k); [lia|]. pose proof (Z.div_mod (opos s + n) (2 ^ k)). lia. }
    fold (align (opos s) (2 ^ k)). rewrite Ea.
    pose proof (i_seek_ok (mkis data (opos s) st exc) (opos s + n)) as S. cbn [idata] in S. replace (opos s + n <=? _) with true in S by lia.
    apply S; [split; cbn [ipos idata]; change (2 ^ 62) with 4611686018427387904 in *; lia|lia].
Qed.
Print Assumptions C144_align.
(** [os << ios::skip (n)] moves n bytes without touching them, as its stream_size says. *)
Theorem C144_skip (n : Z) (s : ostream) : 0 <= n < 2 ^ 63 -> o_inside s -> opos s + f_skip_size n <= Z.of_nat (length (odata s)) ->
  exists s', f_skip_out n s = Ok (s', Val tt) /\ odata s' = odata s /\ opos s' = opos s + f_skip_size n /\ ostate s' = ostate s.
Proof.
  intros Hn Hs Hf. unfold f_skip_out, f_skip_size, o_skip in *. pose proof Hs as (A1 & A2 & A3 & A4). rewrite u64_id by lia.
  pose proof (o_seek_ok s (opos s + n) Hs ltac:(lia)) as S. replace (opos s + n <=? _) with true in S by lia. eexists. split; [exact S|]. auto.
Qed.
Print Assumptions C144_skip.
(** A tuple of three int32_t behind four bytes; the bitset 1...01 of 40 bits. *)
Example C144_case : let s := mkos (repeat 90 20) 64 4 0 7 in
  o_inside s /\ oaddr s mod 8 = 0 /\ opos s mod 4 = 0 /\
  (exists s', cwrite (c_array true 3 (c_int true 4)) [1; 2; 258] s = Ok (s', Val tt) /\
     odata s' = [90; 90; 90; 90; 1; 0; 0; 0; 2; 0; 0; 0; 2; 1; 0; 0; 90; 90; 90; 90]) /\
  exists s', cwrite (c_bitset true 40) [1; 128] s = Ok (s', Val tt) /\ odata s' = [90; 90; 90; 90; 1; 0; 0; 0; 128; 0; 0; 0; 90; 90; 90; 90; 90; 90; 90; 90].
Proof.
  cbv zeta. split; [unfold o_inside; cbn; lia|]. split; [reflexivity|]. split; [reflexivity|].
  split; eexists; (split; [vm_compute; reflexivity|reflexivity]).
Qed.

(** ** C145 *)
(** vector<array<uint64_t,1>> {{5}}: arrays are aligned to 4, so after the count
    the element is at 4, and in a debug build writing it fails an assertion, in
    any buffer that is large enough. *)
Theorem C145_array_u64_refuted : valid (TVec (TArr false 1 (TInt 8))) [[5]] /\ exists s, o_inside s /\ oaddr s mod 8 = 0 /\ opos s = 0 /\
  csize (codec_of true (TVec (TArr false 1 (TInt 8)))) [[5]] <= Z.of_nat (length (odata s)) /\
  cwrite (codec_of true (TVec (TArr false 1 (TInt 8)))) [[5]] s = UB.
Proof.
  split; [repeat constructor; lia|]. exists (room 64 64). split; [apply room_inside; lia|]. split; [reflexivity|]. split; [reflexivity|].
  split; [vm_compute; discriminate|vm_compute; reflexivity].
Qed.
Print Assumptions C145_array_u64_refuted.
(** The tuple of the same element is aligned to 8 and does not have the problem. *)
Example C145_tuple_case : exists s', cwrite (codec_of true (TVec (TArr true 1 (TInt 8)))) [[5]] (room 64 64) = Ok (s', Val tt) /\ opos s' = 16.
Proof. eexists. split; [vm_compute; reflexivity|reflexivity]. Qed.

(** ** C146 *)
(** [is.write (os)]: all or nothing. *)
Theorem C146_write (o : ostream) (i : istream) : o_inside o -> i_inside i ->
  exists o' r, is_write_os (o, i) = Ok ((o', i), r) /\
    if Z.of_nat (length (unread i)) <=? space o then appended o o' (unread i) /\ r = Val tt
    else untouched o o' /\ refused (ostate o) (ostate o') (oexc o) (threw r).
Proof.
  intros Ho Hi. pose proof (is_write_ok o i Ho Hi) as W. fold (zlen (unread i)). destruct (zlen (unread i) <=? space o) eqn:F.
  - eexists. exists (Val tt). split; [exact W|]. split; [|reflexivity]. apply after_appended; [exact Ho|]. unfold space, zlen in *. lia.
  - destruct W as (rem & r & W & R & _). exists (o_failed o rem), r. split; [exact W|]. split; [apply failed_untouched|exact R].
Qed.
Print Assumptions C146_write.
(** [os.read (is)]: the same, and the input is at its end if everything went
    over; with an exception nothing moved. *)
Theorem C146_read (o : ostream) (i : istream) : o_inside o -> i_inside i ->
  exists o' i' r, os_read_is (o, i) = Ok ((o', i'), r) /\
    if Z.of_nat (length (unread i)) <=? space o then appended o o' (unread i) /\ at_end i i' /\ r = Val tt
    else untouched o o' /\ refused (ostate o) (ostate o') (oexc o) (threw r) /\ (threw r = true -> i' = i).
Proof.
  intros Ho Hi. pose proof (os_read_ok o i Ho Hi) as W. fold (zlen (unread i)). destruct (zlen (unread i) <=? space o) eqn:F.
  - eexists. eexists. exists (Val tt). split; [exact W|]. split; [|split; [|reflexivity]].
    + apply after_appended; [exact Ho|]. unfold space, zlen in *. lia.
    + unfold at_end, i_at, isize. cbn. auto.
  - destruct W as (rem & r & R & [[-> W]|[-> W]]).
    + exists (o_failed o rem), (i_at i (isize i)), (Val tt). split; [exact W|]. split; [apply failed_untouched|]. split; [exact R|discriminate].
    + exists (o_failed o rem), i, (Thrown stream_bounds). split; [exact W|]. split; [apply failed_untouched|]. split; [exact R|reflexivity].
Qed.
Print Assumptions C146_read.
(** [os.write (os2)], and what an istream made of an ostream gives. *)
Theorem C146_between (src s : ostream) : o_inside src -> o_inside s ->
  exists s' r, os_write_os src s = Ok (s', r) /\
    if opos src <=? space s then appended s s' (written_part src) /\ r = Val tt
    else untouched s s' /\ refused (ostate s) (ostate s') (oexc s) (threw r).
Proof.
  intros Hr Hs. pose proof (os_write_ok src s Hr Hs) as W. destruct (opos src <=? space s) eqn:F.
  - eexists. exists (Val tt). split; [exact W|]. split; [|reflexivity]. apply after_appended; [exact Hs|].
    unfold space, zlen, written_part in *. rewrite firstn_length. destruct Hr as (A1 & _). lia.
  - destruct W as (rem & r & W & R & _). exists (o_failed s rem), r. split; [exact W|]. split; [apply failed_untouched|exact R].
Qed.
Print Assumptions C146_between.
(** An ostream written, linked by an istream and sent to another ostream. *)
Theorem C146_relay (src s : ostream) : o_inside src -> o_inside s -> opos src <= space s ->
  unread (is_of_os src) = written_part src /\
  exists s' i', os_read_is (s, is_of_os src) = Ok ((s', i'), Val tt) /\ appended s s' (written_part src) /\ unread i' = [].
Proof.
  intros Hr Hs F. assert (U : unread (is_of_os src) = written_part src) by reflexivity. split; [exact U|].
  assert (Hi : i_inside (is_of_os src)).
  { destruct Hr as (A & B & _). split; unfold is_of_os, is_open; cbn [ipos idata]; [lia|]. rewrite firstn_length. lia. }
  destruct (C146_read s (is_of_os src) Hs Hi) as (s' & i' & r & E & C). rewrite U in C.
  assert (L : Z.of_nat (length (written_part src)) = opos src) by (destruct Hr as (A & B & _); unfold written_part; rewrite firstn_length; lia).
  rewrite L in C. replace (opos src <=? space s) with true in C by lia. destruct C as (A & (D & P & _) & ->).
  exists s', i'. split; [exact E|]. split; [exact A|]. unfold unread. rewrite P, D, Nat2Z.id. apply skipn_all.
Qed.
Print Assumptions C146_relay.
Example C146_case : exists o' i', os_read_is (mkos [1; 2; 90; 90; 90] 64 2 0 7, mkis [5; 6; 7] 1 0 7) = Ok ((o', i'), Val tt) /\
  odata o' = [1; 2; 6; 7; 90] /\ opos o' = 4 /\ ipos i' = 3.
Proof. eexists; eexists. split; [vm_compute; reflexivity|]. auto. Qed.

(** ** C147 *)
(** Without exceptions, [os.read (is)] into too little space writes nothing,
    and yet the input is moved to its end: its data is lost. *)
Theorem C147_lost_refuted (o : ostream) (i : istream) : o_inside o -> i_inside i -> oexc o = 0 ->
  space o < Z.of_nat (length (unread i)) ->
  exists o' i', os_read_is (o, i) = Ok ((o', i'), Val tt) /\ odata o' = odata o /\ opos o' = opos o /\ unread i' = [] /\ unread i <> [].
Proof.
  intros Ho Hi He F. pose proof (os_read_ok o i Ho Hi) as W. unfold zlen in W. replace (_ <=? space o) with false in W by lia.
  destruct W as (rem & r & R & [[-> W]|[-> W]]).
  - exists (o_failed o rem), (i_at i (isize i)). split; [exact W|]. split; [reflexivity|]. split; [reflexivity|]. split.
    + unfold unread, i_at, isize. cbn [ipos idata]. rewrite Nat2Z.id. apply skipn_all.
    + intros X. rewrite X in F. destruct Ho as (A & B & _). cbn [length] in F. unfold space in F. lia.
  - destruct R as (_ & _ & _ & R). specialize (R He). discriminate.
Qed.
Print Assumptions C147_lost_refuted.
Example C147_case : let o := mkos [90; 90] 64 0 0 0 in let i := mkis [5; 6; 7] 0 0 7 in
  o_inside o /\ i_inside i /\ oexc o = 0 /\ space o < Z.of_nat (length (unread i)).
Proof. cbv zeta. unfold o_inside, i_inside, space. cbn. lia. Qed.

(** ** C148 *)
(** insert (start, n) into the written part, with room for it: n bytes of any
    value appear at [start], what was written behind it is moved, the position
    follows. *)
Theorem C148_insert (e : env) (s : ostream) (start n : Z) : o_inside s -> env_for e s ->
  0 <= start <= opos s -> 0 <= n <= space s -> steady start (Z.of_nat (length (odata s)) - n) (Z.of_nat (length (odata s))) ->
  exists s' gap, o_insert e start n s = Ok (s', Val tt) /\ Z.of_nat (length gap) = n /\
    written_part s' = firstn (Z.to_nat start) (written_part s) ++ gap ++ skipn (Z.to_nat start) (written_part s) /\
    opos s' = opos s + n /\ oaddr s' = oaddr s /\ ostate s' = ostate s /\ oexc s' = oexc s /\ length (odata s') = length (odata s).
Proof. intros Hs He H0 Hn Hst. apply o_insert_ok; auto; unfold space, zlen in *; lia. Qed.
Print Assumptions C148_insert.
(** erase (start, n) of written bytes: they are gone, the position follows. *)
Theorem C148_erase (e : env) (s : ostream) (start n : Z) : o_inside s -> env_for e s ->
  0 <= start -> 0 <= n -> start + n <= opos s -> steady start (start + n) (Z.of_nat (length (odata s))) ->
  exists s', o_erase e start n s = Ok (s', Val tt) /\
    written_part s' = firstn (Z.to_nat start) (written_part s) ++ skipn (Z.to_nat (start + n)) (written_part s) /\
    opos s' = opos s - n /\ oaddr s' = oaddr s /\ ostate s' = ostate s /\ oexc s' = oexc s /\ length (odata s') = length (odata s).
Proof. intros Hs He H0 Hn Hf Hst. now apply o_erase_ok. Qed.
Print Assumptions C148_erase.

(** Inserting 4 bytes behind the first 4 of 8 written bytes, and taking 4 away. *)
Example C148_case : let e := mkenv (fun _ => 4096) (fun _ => true) (2 ^ 40) in let s := mkos [1; 2; 3; 4; 5; 6; 7; 8; 90; 90; 90; 90; 91; 91; 91; 91] 64 8 0 7 in
  o_inside s /\ env_for e s /\ steady 4 12 16 /\
  (exists s', o_insert e 4 4 s = Ok (s', Val tt) /\ odata s' = [1; 2; 3; 4; 91; 91; 91; 91; 5; 6; 7; 8; 90; 90; 90; 90] /\ opos s' = 12) /\
  exists s', o_erase e 0 4 s = Ok (s', Val tt) /\ odata s' = [5; 6; 7; 8; 90; 90; 90; 90; 91; 91; 91; 91; 1; 2; 3; 4] /\ opos s' = 4.
Proof.
  cbv zeta. split; [unfold o_inside; cbn; lia|]. split; [unfold env_for; vm_compute; repeat split; discriminate|].
  split; [left; split; reflexivity|]. split; eexists; (split; [vm_compute; reflexivity|split; reflexivity]).
Qed.

(** ** C149 *)
(** insert that makes the written part longer than the buffer: the call
    succeeds, the position is behind the end, and the next byte is written
    outside the buffer without any complaint. *)
Theorem C149_insert_refuted : exists e s s', o_inside s /\ env_for e s /\ opos s = 8 /\ length (odata s) = 8%nat /\
  o_insert e 4 4 s = Ok (s', Val tt) /\ opos s' = 12 /\ o_remaining s' = 2 ^ 64 - 4 /\ forall b, o_write [b] s' = UB.
Proof.
  exists (mkenv (fun _ => 4096) (fun _ => true) (2 ^ 40)), (mkos [1; 2; 3; 4; 5; 6; 7; 8] 64 8 0 7). eexists.
  split; [unfold o_inside; cbn; lia|]. split; [unfold env_for; vm_compute; repeat split; discriminate|]. split; [reflexivity|]. split; [reflexivity|].
  split; [vm_compute; reflexivity|]. split; [reflexivity|]. split; [vm_compute; reflexivity|].
  intros b. apply write_outside; cbn [odata opos length]; [lia|vm_compute; reflexivity].
Qed.
Print Assumptions C149_insert_refuted.
(** Whenever that happens, so it ends. *)
Theorem C149_beyond_refuted (e : env) (s s' : ostream) (start n b : Z) : o_inside s -> 0 <= n -> opos s + n < 2 ^ 64 ->
  space s < n -> o_insert e start n s = Ok (s', Val tt) -> length (odata s') = length (odata s) -> o_write [b] s' = UB.
Proof. intros Hs Hn H1 H2 E L. eapply insert_beyond; eauto. unfold space in H2. lia. Qed.
Print Assumptions C149_beyond_refuted.
(** erase of more bytes than are written: the position becomes 2^64 - 4, and the
    next byte goes to the four bytes before the buffer. *)
Theorem C149_erase_refuted : exists e s s', o_inside s /\ env_for e s /\ opos s = 4 /\ length (odata s) = 16%nat /\
  o_erase e 0 8 s = Ok (s', Val tt) /\ opos s' = 2 ^ 64 - 4 /\ forall b, o_write [b] s' = UB.
Proof.
  exists (mkenv (fun _ => 4096) (fun _ => true) (2 ^ 40)), (mkos [1; 2; 3; 4; 5; 6; 7; 8; 9; 10; 11; 12; 13; 14; 15; 16] 64 4 0 7). eexists.
  split; [unfold o_inside; cbn; lia|]. split; [unfold env_for; vm_compute; repeat split; discriminate|]. split; [reflexivity|]. split; [reflexivity|].
  split; [vm_compute; reflexivity|]. split; [reflexivity|].
  intros b. apply write_outside; cbn [odata opos length]; [lia|vm_compute; reflexivity].
Qed.
Print Assumptions C149_erase_refuted.
(** erase behind the position takes written bytes away from its front. *)
Theorem C149_behind_refuted : exists e s s', o_inside s /\ env_for e s /\ written_part s = [1; 2; 3; 4; 5; 6; 7; 8] /\
  o_erase e 8 4 s = Ok (s', Val tt) /\ written_part s' = [1; 2; 3; 4].
Proof.
  exists (mkenv (fun _ => 4096) (fun _ => true) (2 ^ 40)), (mkos [1; 2; 3; 4; 5; 6; 7; 8; 9; 10; 11; 12; 13; 14; 15; 16] 64 8 0 7). eexists.
  split; [unfold o_inside; cbn; lia|]. split; [unfold env_for; vm_compute; repeat split; discriminate|]. split; [reflexivity|].
  split; [vm_compute; reflexivity|reflexivity].
Qed.
Print Assumptions C149_behind_refuted.
(** insert of one byte at offset 1 of four bytes writes outside the buffer. *)
Theorem C149_odd_refuted : exists e s, o_inside s /\ env_for e s /\ opos s = 3 /\ space s = 1 /\ o_insert e 1 1 s = UB.
Proof.
  exists (mkenv (fun _ => 4096) (fun _ => true) (2 ^ 40)), (mkos [1; 2; 3; 90] 64 3 0 7).
  split; [unfold o_inside; cbn; lia|]. split; [unfold env_for; vm_compute; repeat split; discriminate|]. split; [reflexivity|]. split; [reflexivity|].
  unfold o_insert. cbn [opos odata oaddr osize length].
  unfold osize. cbn [odata length]. change ((0 <=? 1) && (0 <=? 1) && (1 + 1 <=? Z.of_nat 4)) with true. cbv iota.
  change (Z.to_nat 1) with 1%nat. change (Z.to_nat (Z.of_nat 4 - 1)) with 3%nat. change (Z.to_nat (Z.of_nat 4)) with 4%nat.
  rewrite VectorFacts.rotate_bytes_crash; [reflexivity|reflexivity|reflexivity|lia| |]; cbn [stack_at]; lia.
Qed.
Print Assumptions C149_odd_refuted.
