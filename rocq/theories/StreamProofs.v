(** * StreamProofs: the memory streams stay inside their buffers. *)
From Verif Require Import Base UtilModel UtilProofs StreamModel StreamSpec.
From Coq Require Import ZArith Lia.
Local Open Scope Z_scope.

Lemma u64_id x : 0 <= x < 2 ^ 64 -> u64 x = x.
Proof. intros H. unfold u64, two64. apply Z.mod_small. lia. Qed.
Lemma u64_neg x : - 2 ^ 63 <= x < 0 -> u64 x = x + 2 ^ 64.
Proof. intros H. unfold u64, two64. rewrite <- (Z.mod_add x 1) by lia. apply Z.mod_small. lia. Qed.

Lemma bits_case rem : overrun_bits rem = 4 \/ overrun_bits rem = 6.
Proof. unfold overrun_bits. destruct (_ =? _); [right|left]; reflexivity. Qed.
Lemma refused_ok st exc rem :
  let b := overrun_bits rem in
  refused st (Z.lor st b) exc (negb (Z.land exc b =? 0)).
Proof.
  cbv zeta. set (b := overrun_bits rem).
  assert (Hb : Z.testbit b 2 = true) by (destruct (bits_case rem) as [E | E]; unfold b; rewrite E; reflexivity).
  split; [|split; [|split]].
  - rewrite Z.lor_spec, Hb. apply orb_true_r.
  - intros i Hi. now rewrite Z.lor_spec, Hi.
  - intros He. apply negb_true_iff, Z.eqb_neq. intros E.
    assert (Ht : Z.testbit (Z.land exc b) 2 = true) by (rewrite Z.land_spec, He, Hb; reflexivity).
    rewrite E in Ht. now rewrite Z.bits_0 in Ht.
  - intros ->. rewrite Z.land_0_l. reflexivity.
Qed.

(** ** istream *)
Lemma i_rem s : i_inside s -> i_remaining s = Z.of_nat (length (idata s)) - ipos s.
Proof. intros [H1 H2]. unfold i_remaining, isize. apply u64_id. lia. Qed.

Definition i_failed (s : istream) (rem : Z) : istream :=
  mkis (idata s) (ipos s) (Z.lor (istate s) (overrun_bits rem)) (iexc s).
Lemma i_overrun_ok s rem : exists r, i_overrun rem s = Ok (i_failed s rem, r) /\
  refused (istate s) (istate (i_failed s rem)) (iexc s) (threw r) /\ (r = Val tt \/ r = Thrown stream_bounds).
Proof.
  unfold i_overrun. pose proof (refused_ok (istate s) (iexc s) rem) as H. cbv zeta in H.
  destruct (Z.land (iexc s) (overrun_bits rem) =? 0); eexists; (split; [reflexivity|]); cbn [threw i_failed istate]; auto.
Qed.
Lemma i_verify_ok s n : i_inside s -> 0 <= n ->
  if ipos s + n <=? Z.of_nat (length (idata s)) then i_verify n s = Ok (s, Val true)
  else exists rem r, i_verify n s = Ok (i_failed s rem, r) /\
       refused (istate s) (istate (i_failed s rem)) (iexc s) (threw r) /\ (r = Val false \/ r = Thrown stream_bounds).
Proof.
  intros Hs Hn. unfold i_verify. rewrite (i_rem s Hs). cbv zeta.
  destruct (Z.leb_spec (ipos s + n) (Z.of_nat (length (idata s)))) as [H | H].
  - destruct (Z.leb_spec n (Z.of_nat (length (idata s)) - ipos s)); [reflexivity|lia].
  - destruct (Z.leb_spec n (Z.of_nat (length (idata s)) - ipos s)); [lia|].
    set (rem := Z.of_nat (length (idata s)) - ipos s).
    destruct (i_overrun_ok s rem) as (r & E & Hr & Hc). unfold iobind. rewrite E. cbn [bind].
    destruct Hc as [-> | ->]; exists rem; eexists; (split; [reflexivity|]); auto.
Qed.
Lemma i_failed_inside s rem : i_inside s -> i_inside (i_failed s rem).
Proof. exact (fun H => H). Qed.

(** Putting together a refusal. *)
Lemma i_refusal s o rem (r : res (list Z)) q : i_inside s -> i_asks (ipos s) (Z.of_nat (length (idata s))) o q ->
  (0 <=? q) && (q <=? Z.of_nat (length (idata s))) = false ->
  refused (istate s) (istate (i_failed s rem)) (iexc s) (threw r) ->
  (r = Val [] /\ (forall n, o <> IReadsome n)) \/ r = Thrown stream_bounds ->
  i_step_spec s o (i_failed s rem) r.
Proof.
  intros Hs Hq Hf Hr Hc. split; [reflexivity|]. split; [reflexivity|]. split; [exact Hs|].
  exists q. split; [exact Hq|]. rewrite Hf. split; [exact Hr|].
  destruct Hc as [[-> Ho] | ->]; cbn [threw].
  - destruct o; try (split; reflexivity). exfalso. now apply (Ho n).
  - destruct o; reflexivity.
Qed.
Lemma slice_same {A} (a : list A) i : slice a i i = [].
Proof. unfold slice. now rewrite Nat.sub_diag. Qed.
Lemma i_raw_ok s n : i_inside s -> 0 <= n -> ipos s + n <= Z.of_nat (length (idata s)) ->
  i_raw n s = Ok (s, Val (slice (idata s) (Z.to_nat (ipos s)) (Z.to_nat (ipos s + n)))).
Proof.
  intros [H1 H2] Hn Hf. unfold i_raw, isize. destruct (Z.eqb_spec n 0) as [-> | Hz].
  - rewrite Z.add_0_r, slice_same. reflexivity.
  - replace (0 <=? ipos s) with true by (symmetry; apply Z.leb_le; lia).
    replace (0 <=? n) with true by (symmetry; apply Z.leb_le; lia).
    replace (ipos s + n <=? Z.of_nat (length (idata s))) with true by (symmetry; apply Z.leb_le; lia). reflexivity.
Qed.
Definition i_at (s : istream) (p : Z) : istream := mkis (idata s) p (istate s) (iexc s).
Lemma i_set_pos_ok s p : 0 <= p < 2 ^ 64 -> i_set_pos p s = Ok (i_at s p, Val tt).
Proof. intros H. unfold i_set_pos. now rewrite u64_id by exact H. Qed.
Lemma i_at_same s : i_at s (ipos s) = s.
Proof. now destruct s. Qed.

Lemma i_read_ok s n : i_inside s -> 0 <= n ->
  if ipos s + n <=? Z.of_nat (length (idata s)) then
    i_read n s = Ok (i_at s (ipos s + n), Val (Some (slice (idata s) (Z.to_nat (ipos s)) (Z.to_nat (ipos s + n)))))
  else exists rem r, i_read n s = Ok (i_failed s rem, r) /\
       refused (istate s) (istate (i_failed s rem)) (iexc s) (threw r) /\ (r = Val None \/ r = Thrown stream_bounds).
Proof.
  intros Hs Hn. pose proof (i_verify_ok s n Hs Hn) as Hv. unfold i_read, iobind.
  destruct (Z.leb_spec (ipos s + n) (Z.of_nat (length (idata s)))) as [H | H].
  - rewrite Hv. cbn [bind]. rewrite (i_raw_ok s n Hs Hn H). cbn [bind].
    rewrite i_set_pos_ok by (unfold i_inside in Hs; lia). cbn [bind ret]. reflexivity.
  - destruct Hv as (rem & r & -> & Hr & [-> | ->]); cbn [bind]; exists rem; eexists; (split; [reflexivity|]); auto.
Qed.
Lemma i_seek_ok s p : i_inside s -> 0 <= p ->
  if p <=? Z.of_nat (length (idata s)) then i_seek p s = Ok (i_at s p, Val tt)
  else exists rem r, i_seek p s = Ok (i_failed s rem, r) /\
       refused (istate s) (istate (i_failed s rem)) (iexc s) (threw r) /\ (r = Val tt \/ r = Thrown stream_bounds).
Proof.
  intros Hs Hp. unfold i_seek, isize.
  destruct (Z.leb_spec p (Z.of_nat (length (idata s)))) as [H | H].
  - destruct (Z.ltb_spec (Z.of_nat (length (idata s))) p); [lia|]. apply i_set_pos_ok. unfold i_inside in Hs. lia.
  - destruct (Z.ltb_spec (Z.of_nat (length (idata s))) p); [|lia].
    destruct (i_overrun_ok s (Z.of_nat (length (idata s)))) as (r & E & Hr). exists (Z.of_nat (length (idata s))), r. auto.
Qed.
(** A seek to [q], where [u64 q] is what is passed. *)
Lemma i_seek_step s o q : i_inside s -> - 2 ^ 63 <= q < 2 ^ 64 -> i_asks (ipos s) (Z.of_nat (length (idata s))) o q ->
  delivers o = false -> (forall n, o <> IVerify n) ->
  exists s' r, iobind (i_seek (u64 q)) (fun _ => ret []) s = Ok (s', r) /\ i_step_spec s o s' r.
Proof.
  intros Hs Hq Ha Hd Hv. unfold iobind.
  assert (Hn : forall n, o <> IReadsome n) by (intros n ->; discriminate Hd).
  assert (Hsz : Z.of_nat (length (idata s)) < 2 ^ 63) by apply Hs.
  destruct (Z.lt_ge_cases q 0) as [Hneg | Hpos].
  - pose proof (i_seek_ok s (u64 q) Hs ltac:(rewrite u64_neg by lia; lia)) as Hk.
    destruct (Z.leb_spec (u64 q) (Z.of_nat (length (idata s)))) as [Hl | Hl]; [rewrite u64_neg in Hl by lia; lia|].
    destruct Hk as (rem & r & -> & Hr & Hc). cbn [bind].
    assert (Hf : (0 <=? q) && (q <=? Z.of_nat (length (idata s))) = false)
      by (destruct (Z.leb_spec 0 q); [lia|reflexivity]).
    destruct Hc as [-> | ->]; eexists; eexists; (split; [reflexivity|]); apply (i_refusal s o rem _ q); auto.
  - rewrite u64_id by lia. pose proof (i_seek_ok s q Hs Hpos) as Hk.
    destruct (Z.leb_spec q (Z.of_nat (length (idata s)))) as [Hl | Hl].
    + rewrite Hk. cbn [bind ret]. eexists. eexists. split; [reflexivity|].
      split; [reflexivity|]. split; [reflexivity|]. split; [unfold i_inside; cbn [i_at ipos idata]; lia|].
      exists q. split; [exact Ha|].
      replace (0 <=? q) with true by (symmetry; apply Z.leb_le; lia).
      replace (q <=? Z.of_nat (length (idata s))) with true by (symmetry; apply Z.leb_le; lia). cbn [andb].
      rewrite Hd. split; [reflexivity|]. split; [|reflexivity].
      destruct o; try reflexivity. exfalso. now apply (Hv n).
    + destruct Hk as (rem & r & -> & Hr & Hc). cbn [bind].
      assert (Hf : (0 <=? q) && (q <=? Z.of_nat (length (idata s))) = false)
        by (destruct (Z.leb_spec q (Z.of_nat (length (idata s)))); [lia|now rewrite andb_false_r]).
      destruct Hc as [-> | ->]; eexists; eexists; (split; [reflexivity|]); apply (i_refusal s o rem _ q); auto.
Qed.
Lemma fits_true p n k : 0 <= p -> p <= n -> k = Z.leb p n -> (0 <=? p) && k = true.
Proof. intros H1 H2 ->. destruct (Z.leb_spec 0 p); [|lia]. destruct (Z.leb_spec p n); [reflexivity|lia]. Qed.
Lemma slice_bytes (l : list Z) i n : (i + n <= length l)%nat -> length (slice l i (i + n)) = n.
Proof. intros H. unfold slice. rewrite firstn_length, skipn_length. lia. Qed.

(** The bytes of a buffer are bytes. *)
Definition i_bytes (s : istream) : Prop := Forall (fun b => 0 <= b < 256) (idata s).
Lemma Forall_slice {A} (P : A -> Prop) l i j : Forall P l -> Forall P (slice l i j).
Proof.
  intros H. unfold slice. apply Forall_forall. intros x Hx. rewrite Forall_forall in H. apply H.
  assert (Hs : In x (skipn i l)).
  { rewrite <- (firstn_skipn (j - i) (skipn i l)). apply in_or_app. now left. }
  rewrite <- (firstn_skipn i l). apply in_or_app. now right.
Qed.

Lemma iread_false_ok s w : i_inside s -> i_bytes s ->
  if ipos s + Z.of_nat w <=? Z.of_nat (length (idata s)) then
    exists v, iread false w s = Ok (i_at s (ipos s + Z.of_nat w), Val (Some v)) /\
      bytes_le w v = slice (idata s) (Z.to_nat (ipos s)) (Z.to_nat (ipos s + Z.of_nat w)) /\
      v = of_bytes_le (slice (idata s) (Z.to_nat (ipos s)) (Z.to_nat (ipos s + Z.of_nat w)))
  else exists rem r, iread false w s = Ok (i_failed s rem, r) /\
       refused (istate s) (istate (i_failed s rem)) (iexc s) (threw r) /\ (r = Val None \/ r = Thrown stream_bounds).
Proof.
  intros Hs Hb. pose proof (i_read_ok s (Z.of_nat w) Hs ltac:(lia)) as Hr. unfold iread. cbn [andb]. unfold iobind.
  destruct (Z.leb_spec (ipos s + Z.of_nat w) (Z.of_nat (length (idata s)))) as [H | H].
  - rewrite Hr. cbn [bind ret]. eexists. split; [reflexivity|]. split; [|reflexivity].
    set (l := slice _ _ _). assert (Hl : length l = w).
    { unfold l. rewrite Z2Nat.inj_add by (unfold i_inside in Hs; lia). rewrite Nat2Z.id. apply slice_bytes.
      unfold i_inside in Hs. lia. }
    rewrite <- Hl at 1. apply bytes_of_bytes. apply Forall_slice. exact Hb.
  - destruct Hr as (rem & r & -> & Hr & [-> | ->]); cbn [bind ret]; exists rem; eexists; (split; [reflexivity|]); auto.
Qed.

Lemma i_step_ok s o : i_inside s -> i_bytes s -> i_args o -> exists s' r, i_step o s = Ok (s', r) /\ i_step_spec s o s' r.
Proof.
  intros Hs Hb Ha. assert (Hsz : Z.of_nat (length (idata s)) < 2 ^ 63) by apply Hs.
  assert (Hp : 0 <= ipos s <= Z.of_nat (length (idata s))) by apply Hs.
  destruct o as [n | w | n | p | p d | n | | g | n]; cbn [i_args] in Ha; cbn [i_step].
  - pose proof (i_read_ok s n Hs ltac:(lia)) as Hr. unfold iobind.
    destruct (Z.leb_spec (ipos s + n) (Z.of_nat (length (idata s)))) as [H | H].
    + rewrite Hr. cbn [bind ret given]. eexists. eexists. split; [reflexivity|].
      split; [reflexivity|]. split; [reflexivity|]. split; [unfold i_inside; cbn [i_at ipos idata]; lia|].
      exists (ipos s + n). split; [reflexivity|]. rewrite (fits_true _ (Z.of_nat (length (idata s)))) by (lia || reflexivity).
      cbn [delivers i_at ipos istate]. auto.
    + destruct Hr as (rem & r & -> & Hr & Hc). cbn [bind].
      assert (Hf : (0 <=? ipos s + n) && (ipos s + n <=? Z.of_nat (length (idata s))) = false)
        by (destruct (Z.leb_spec (ipos s + n) (Z.of_nat (length (idata s)))); [lia|now rewrite andb_false_r]).
      destruct Hc as [-> | ->]; eexists; eexists; (split; [reflexivity|]);
        (apply (i_refusal s (IRead n) rem _ (ipos s + n)); [exact Hs|reflexivity|exact Hf|exact Hr|]); [left|right; reflexivity].
      split; [reflexivity|]. intros; discriminate.
  - pose proof (iread_false_ok s w Hs Hb) as Hr. unfold iobind.
    destruct (Z.leb_spec (ipos s + Z.of_nat w) (Z.of_nat (length (idata s)))) as [H | H].
    + destruct Hr as (v & -> & Hv & _). cbn [bind ret]. eexists. eexists. split; [reflexivity|].
      split; [reflexivity|]. split; [reflexivity|]. split; [unfold i_inside; cbn [i_at ipos idata]; lia|].
      exists (ipos s + Z.of_nat w). split; [reflexivity|]. rewrite (fits_true _ (Z.of_nat (length (idata s)))) by (lia || reflexivity).
      cbn [delivers i_at ipos istate]. rewrite Hv. auto.
    + destruct Hr as (rem & r & -> & Hr & Hc). cbn [bind].
      assert (Hf : (0 <=? ipos s + Z.of_nat w) && (ipos s + Z.of_nat w <=? Z.of_nat (length (idata s))) = false)
        by (destruct (Z.leb_spec (ipos s + Z.of_nat w) (Z.of_nat (length (idata s)))); [lia|now rewrite andb_false_r]).
      destruct Hc as [-> | ->]; eexists; eexists; (split; [reflexivity|]);
        (apply (i_refusal s (IGet w) rem _ (ipos s + Z.of_nat w)); [exact Hs|reflexivity|exact Hf|exact Hr|]); [left|right; reflexivity].
      split; [reflexivity|]. intros; discriminate.
  - unfold i_readsome, iobind. rewrite (i_rem s Hs).
    destruct (Z.ltb_spec (Z.of_nat (length (idata s)) - ipos s) n) as [H | H].
    + pose proof (i_verify_ok s n Hs ltac:(lia)) as Hv.
      destruct (Z.leb_spec (ipos s + n) (Z.of_nat (length (idata s)))) as [H1 | H1]; [lia|].
      destruct Hv as (rem & r & E & Hr & Hc). unfold i_underflow, iobind. rewrite E. cbn [bind].
      assert (Hf : (0 <=? ipos s + n) && (ipos s + n <=? Z.of_nat (length (idata s))) = false)
        by (destruct (Z.leb_spec (ipos s + n) (Z.of_nat (length (idata s)))); [lia|now rewrite andb_false_r]).
      destruct Hc as [-> | ->]; cbn [bind ret].
      2: { eexists; eexists; split; [reflexivity|]. apply (i_refusal s (IReadsome n) rem _ (ipos s + n)); auto. reflexivity. }
      change (i_remaining (i_failed s rem)) with (i_remaining s). rewrite (i_rem s Hs).
      rewrite Z.min_r by lia. set (k := Z.of_nat (length (idata s)) - ipos s).
      pose proof (i_read_ok (i_failed s rem) k Hs ltac:(lia)) as Hk. cbn [i_failed ipos idata] in Hk.
      replace (ipos s + k) with (Z.of_nat (length (idata s))) in Hk by lia. rewrite Z.leb_refl in Hk.
      fold (i_failed s rem) in Hk. rewrite Hk. cbn [bind ret]. eexists. eexists. split; [reflexivity|].
      split; [reflexivity|]. split; [reflexivity|]. split; [unfold i_inside; cbn [i_at ipos idata i_failed]; lia|].
      exists (ipos s + n). split; [reflexivity|]. rewrite Hf. cbn [threw]. split; [exact Hr|].
      split; [reflexivity|]. f_equal. unfold slice. rewrite Nat2Z.id. apply firstn_all2. rewrite skipn_length. lia.
    + cbn [bind]. rewrite (i_rem s Hs). rewrite Z.min_l by lia.
      pose proof (i_read_ok s n Hs ltac:(lia)) as Hr. unfold iobind.
      destruct (Z.leb_spec (ipos s + n) (Z.of_nat (length (idata s)))) as [H1 | H1]; [|lia].
      rewrite Hr. cbn [bind ret]. eexists. eexists. split; [reflexivity|].
      split; [reflexivity|]. split; [reflexivity|]. split; [unfold i_inside; cbn [i_at ipos idata]; lia|].
      exists (ipos s + n). split; [reflexivity|]. rewrite (fits_true _ (Z.of_nat (length (idata s)))) by (lia || reflexivity).
      cbn [delivers i_at ipos istate]. auto.
  - rewrite <- (u64_id p) by lia. destruct (i_seek_step s (ISeek p) p Hs) as (s' & r & E & H); try reflexivity; try lia; try (intros; discriminate).
    exists s', r. split; [exact E|]. rewrite u64_id by lia. exact H.
  - destruct d; unfold i_seekg;
      [apply (i_seek_step s (ISeekg p Beg) p)|apply (i_seek_step s (ISeekg p Cur) (ipos s + p))|apply (i_seek_step s (ISeekg p End) (Z.of_nat (length (idata s)) - p))];
      try reflexivity; try lia; try (intros; discriminate); auto.
  - apply (i_seek_step s (ISkip n) (ipos s + n)); try reflexivity; try lia; try (intros; discriminate); auto.
  - apply (i_seek_step s IUngetc (ipos s - 1)); try reflexivity; try lia; try (intros; discriminate); auto.
  - destruct (align_ok (ipos s) g) as (q & E & [k Hk] & H2); [lia|lia|unfold two64; lia|].
    unfold iobind, i_align. rewrite E.
    destruct (i_seek_step s (IAlign g) q Hs) as (s' & r & E' & H); try reflexivity; try (intros; discriminate).
    + lia.
    + cbn [i_asks]. split; [lia|]. exists k. exact Hk.
    + unfold iobind in E'. rewrite u64_id in E' by lia. exists s', r. auto.
  - pose proof (i_verify_ok s n Hs ltac:(lia)) as Hr. unfold iobind.
    destruct (Z.leb_spec (ipos s + n) (Z.of_nat (length (idata s)))) as [H | H].
    + rewrite Hr. cbn [bind ret]. eexists. eexists. split; [reflexivity|].
      split; [reflexivity|]. split; [reflexivity|]. split; [exact Hs|].
      exists (ipos s + n). split; [reflexivity|]. rewrite (fits_true _ (Z.of_nat (length (idata s)))) by (lia || reflexivity).
      cbn [delivers]. auto.
    + destruct Hr as (rem & r & -> & Hr & Hc). cbn [bind].
      assert (Hf : (0 <=? ipos s + n) && (ipos s + n <=? Z.of_nat (length (idata s))) = false)
        by (destruct (Z.leb_spec (ipos s + n) (Z.of_nat (length (idata s)))); [lia|now rewrite andb_false_r]).
      destruct Hc as [-> | ->]; eexists; eexists; (split; [reflexivity|]);
        (apply (i_refusal s (IVerify n) rem _ (ipos s + n)); [exact Hs|reflexivity|exact Hf|exact Hr|]); [left|right; reflexivity].
      split; [reflexivity|]. intros; discriminate.
Qed.

(** ** ostream *)
Lemma o_rem s : o_inside s -> o_remaining s = Z.of_nat (length (odata s)) - opos s.
Proof. intros (H1 & H2 & _). unfold o_remaining, osize. apply u64_id. lia. Qed.
Definition o_failed (s : ostream) (rem : Z) : ostream :=
  mkos (odata s) (oaddr s) (opos s) (Z.lor (ostate s) (overrun_bits rem)) (oexc s).
Lemma o_overrun_ok s rem : exists r, o_overrun rem s = Ok (o_failed s rem, r) /\
  refused (ostate s) (ostate (o_failed s rem)) (oexc s) (threw r) /\ (r = Val tt \/ r = Thrown stream_bounds).
Proof.
  unfold o_overrun. pose proof (refused_ok (ostate s) (oexc s) rem) as H. cbv zeta in H.
  destruct (Z.land (oexc s) (overrun_bits rem) =? 0); eexists; (split; [reflexivity|]); cbn [threw o_failed ostate]; auto.
Qed.
Lemma o_verify_ok s n : o_inside s -> 0 <= n ->
  if opos s + n <=? Z.of_nat (length (odata s)) then o_verify n s = Ok (s, Val true)
  else exists rem r, o_verify n s = Ok (o_failed s rem, r) /\
       refused (ostate s) (ostate (o_failed s rem)) (oexc s) (threw r) /\ (r = Val false \/ r = Thrown stream_bounds).
Proof.
  intros Hs Hn. unfold o_verify. rewrite (o_rem s Hs). cbv zeta.
  destruct (Z.leb_spec (opos s + n) (Z.of_nat (length (odata s)))) as [H | H].
  - destruct (Z.leb_spec n (Z.of_nat (length (odata s)) - opos s)); [reflexivity|lia].
  - destruct (Z.leb_spec n (Z.of_nat (length (odata s)) - opos s)); [lia|].
    set (rem := Z.of_nat (length (odata s)) - opos s).
    destruct (o_overrun_ok s rem) as (r & E & Hr & Hc). unfold iobind. rewrite E. cbn [bind].
    destruct Hc as [-> | ->]; exists rem; eexists; (split; [reflexivity|]); auto.
Qed.
(** The stream after putting [l] at its position. *)
Definition o_after (s : ostream) (l : list Z) : ostream :=
  mkos (firstn (Z.to_nat (opos s)) (odata s) ++ l ++ skipn (Z.to_nat (opos s) + length l) (odata s))
    (oaddr s) (opos s + Z.of_nat (length l)) (ostate s) (oexc s).
Lemma o_after_length s l : o_inside s -> opos s + Z.of_nat (length l) <= Z.of_nat (length (odata s)) ->
  length (odata (o_after s l)) = length (odata s).
Proof.
  intros (H1 & _) H. cbn [o_after odata]. rewrite !app_length, firstn_length, skipn_length. lia.
Qed.
Lemma o_after_inside s l : o_inside s -> opos s + Z.of_nat (length l) <= Z.of_nat (length (odata s)) -> o_inside (o_after s l).
Proof.
  intros Hs H. unfold o_inside. rewrite (o_after_length s l Hs H). cbn [o_after opos oaddr]. unfold o_inside in Hs. lia.
Qed.
Lemma o_after_nil s : o_after s [] = s.
Proof. destruct s. unfold o_after. cbn. rewrite Nat.add_0_r, firstn_skipn, Z.add_0_r. reflexivity. Qed.
Lemma o_put_ok s l : o_inside s -> opos s + Z.of_nat (length l) <= Z.of_nat (length (odata s)) ->
  o_put l s = Ok (o_after s l, Val tt).
Proof.
  intros Hs H. unfold o_put, iobind, o_raw, osize. destruct l as [|x t].
  - cbn [bind length]. unfold o_set_pos. change (Z.of_nat 0) with 0. rewrite u64_id by (unfold o_inside in Hs; lia).
    rewrite Z.add_0_r, o_after_nil. now destruct s.
  - replace (0 <=? opos s) with true by (symmetry; apply Z.leb_le; unfold o_inside in Hs; lia).
    replace (opos s + Z.of_nat (length (x :: t)) <=? Z.of_nat (length (odata s))) with true by (symmetry; apply Z.leb_le; lia).
    cbn [andb bind]. unfold o_set_pos. cbn [odata oaddr opos ostate oexc].
    rewrite u64_id by (unfold o_inside in Hs; lia). reflexivity.
Qed.
Lemma o_write_ok s l : o_inside s ->
  if opos s + Z.of_nat (length l) <=? Z.of_nat (length (odata s)) then o_write l s = Ok (o_after s l, Val true)
  else exists rem r, o_write l s = Ok (o_failed s rem, r) /\
       refused (ostate s) (ostate (o_failed s rem)) (oexc s) (threw r) /\ (r = Val false \/ r = Thrown stream_bounds).
Proof.
  intros Hs. pose proof (o_verify_ok s (Z.of_nat (length l)) Hs ltac:(lia)) as Hv. unfold o_write, iobind.
  destruct (Z.leb_spec (opos s + Z.of_nat (length l)) (Z.of_nat (length (odata s)))) as [H | H].
  - rewrite Hv. cbn [bind]. rewrite o_put_ok by assumption. reflexivity.
  - destruct Hv as (rem & r & -> & Hr & [-> | ->]); cbn [bind]; exists rem; eexists; (split; [reflexivity|]); auto.
Qed.
Definition o_at (s : ostream) (p : Z) : ostream := mkos (odata s) (oaddr s) p (ostate s) (oexc s).
Lemma o_seek_ok s p : o_inside s -> 0 <= p ->
  if p <=? Z.of_nat (length (odata s)) then o_seek p s = Ok (o_at s p, Val tt)
  else exists rem r, o_seek p s = Ok (o_failed s rem, r) /\
       refused (ostate s) (ostate (o_failed s rem)) (oexc s) (threw r) /\ (r = Val tt \/ r = Thrown stream_bounds).
Proof.
  intros Hs Hp. unfold o_seek, osize.
  destruct (Z.leb_spec p (Z.of_nat (length (odata s)))) as [H | H].
  - destruct (Z.ltb_spec (Z.of_nat (length (odata s))) p); [lia|].
    unfold o_set_pos. rewrite u64_id by (unfold o_inside in Hs; lia). reflexivity.
  - destruct (Z.ltb_spec (Z.of_nat (length (odata s))) p); [|lia].
    destruct (o_overrun_ok s (Z.of_nat (length (odata s)))) as (r & E & Hr). exists (Z.of_nat (length (odata s))), r. auto.
Qed.
Lemma o_refusal s o rem (r : res unit) l q : o_inside s -> o_asks (oaddr s) (opos s) (Z.of_nat (length (odata s))) o l q ->
  (0 <=? q) && (q <=? Z.of_nat (length (odata s))) = false ->
  refused (ostate s) (ostate (o_failed s rem)) (oexc s) (threw r) -> r = Val tt \/ r = Thrown stream_bounds ->
  o_step_spec s o (o_failed s rem) r.
Proof.
  intros Hs Hq Hf Hr Hc. split; [reflexivity|]. split; [reflexivity|]. split; [reflexivity|]. split; [exact Hs|].
  exists l, q. split; [exact Hq|]. rewrite Hf. split; [exact Hr|]. split; [reflexivity|]. split; [reflexivity|].
  destruct Hc as [-> | ->]; [now left|now right].
Qed.
Lemma unfits p n : p < 0 \/ n < p -> (0 <=? p) && (p <=? n) = false.
Proof. intros H. destruct (Z.leb_spec 0 p); [|reflexivity]. destruct (Z.leb_spec p n); [lia|reflexivity]. Qed.
Lemma o_seek_step s o q : o_inside s -> - 2 ^ 63 <= q < 2 ^ 64 -> o_asks (oaddr s) (opos s) (Z.of_nat (length (odata s))) o [] q ->
  (forall n, o <> OVerify n) ->
  exists s' r, o_seek (u64 q) s = Ok (s', r) /\ o_step_spec s o s' r.
Proof.
  intros Hs Hq Ha Hv. assert (Hsz : Z.of_nat (length (odata s)) < 2 ^ 63) by apply Hs.
  destruct (Z.lt_ge_cases q 0) as [Hneg | Hpos].
  - pose proof (o_seek_ok s (u64 q) Hs ltac:(rewrite u64_neg by lia; lia)) as Hk.
    destruct (Z.leb_spec (u64 q) (Z.of_nat (length (odata s)))) as [Hl | Hl]; [rewrite u64_neg in Hl by lia; lia|].
    destruct Hk as (rem & r & -> & Hr & Hc). eexists; eexists; (split; [reflexivity|]).
    apply (o_refusal s o rem _ [] q); auto. apply unfits. lia.
  - rewrite u64_id by lia. pose proof (o_seek_ok s q Hs Hpos) as Hk.
    destruct (Z.leb_spec q (Z.of_nat (length (odata s)))) as [Hl | Hl].
    + rewrite Hk. eexists. eexists. split; [reflexivity|].
      split; [reflexivity|]. split; [reflexivity|]. split; [reflexivity|].
      split; [unfold o_inside in *; cbn [o_at opos odata oaddr]; lia|].
      exists [], q. split; [exact Ha|]. rewrite (fits_true q (Z.of_nat (length (odata s)))) by (lia || reflexivity).
      split; [reflexivity|]. split; [destruct o; try reflexivity; exfalso; now apply (Hv n)|]. split; [reflexivity|].
      cbn [o_at odata app length]. now rewrite Nat.add_0_r, firstn_skipn.
    + destruct Hk as (rem & r & -> & Hr & Hc). eexists; eexists; (split; [reflexivity|]).
      apply (o_refusal s o rem _ [] q); auto. apply unfits. lia.
Qed.
Lemma o_write_step s o l : o_inside s -> o_asks (oaddr s) (opos s) (Z.of_nat (length (odata s))) o l (opos s + Z.of_nat (length l)) ->
  (forall n, o <> OVerify n) ->
  exists s' r, iobind (o_write l) (fun _ => ret tt) s = Ok (s', r) /\ o_step_spec s o s' r.
Proof.
  intros Hs Ha Hv. pose proof (o_write_ok s l Hs) as Hw. unfold iobind.
  destruct (Z.leb_spec (opos s + Z.of_nat (length l)) (Z.of_nat (length (odata s)))) as [H | H].
  - rewrite Hw. cbn [bind ret]. eexists. eexists. split; [reflexivity|].
    split; [reflexivity|]. split; [reflexivity|]. split; [now apply o_after_length|]. split; [now apply o_after_inside|].
    exists l, (opos s + Z.of_nat (length l)). split; [exact Ha|].
    rewrite (fits_true _ (Z.of_nat (length (odata s)))) by (unfold o_inside in Hs; (lia || reflexivity)).
    split; [reflexivity|]. split; [destruct o; try reflexivity; exfalso; now apply (Hv n)|]. split; reflexivity.
  - destruct Hw as (rem & r & -> & Hr & Hc). cbn [bind].
    destruct Hc as [-> | ->]; eexists; eexists; (split; [reflexivity|]);
      (apply (o_refusal s o rem _ l (opos s + Z.of_nat (length l))); [exact Hs|exact Ha|apply unfits; lia|exact Hr|auto]).
Qed.

(** The masking of the address in align. *)
Lemma mask_div x k : 0 <= x < 2 ^ 64 -> 0 <= k < 64 -> Z.land x (u64 (Z.lnot (2 ^ k - 1))) = x - x mod 2 ^ k.
Proof.
  intros Hx Hk. replace (2 ^ k - 1) with (Z.ones k) by (rewrite Z.ones_equiv; lia).
  unfold u64, two64. change 18446744073709551616 with (2 ^ 64). rewrite <- Z.land_ones by lia.
  rewrite (Z.land_comm (Z.lnot _)), Z.land_assoc. rewrite Z.land_ones by lia. rewrite Z.mod_small by exact Hx.
  rewrite <- Z.ldiff_land, Z.ldiff_ones_r by lia. rewrite Z.shiftr_div_pow2, Z.shiftl_mul_pow2 by lia.
  pose proof (Z.div_mod x (2 ^ k) ltac:(lia)). lia.
Qed.
Lemma pow2_div k : 0 <= k <= 64 -> exists m, 2 ^ 64 = m * 2 ^ k.
Proof. intros H. exists (2 ^ (64 - k)). rewrite <- Z.pow_add_r by lia. f_equal. lia. Qed.
(** The padding [o_align] computes, [ip] being the address. *)
Lemma pad_bytes ip k : 0 <= ip < 2 ^ 64 -> 0 <= k <= 62 ->
  u64 (Z.land (u64 (ip + (2 ^ k - 1))) (u64 (Z.lnot (2 ^ k - 1))) - ip) = (- ip) mod 2 ^ k /\
  rounded_up ip (2 ^ k) (ip + (- ip) mod 2 ^ k).
Proof.
  intros Hip Hk. set (g := 2 ^ k). assert (Hg : 0 < g) by (apply Z.pow_pos_nonneg; lia).
  assert (Hg2 : g <= 2 ^ 62) by (apply Z.pow_le_mono_r; lia).
  destruct (pow2_div k ltac:(lia)) as [m Hm]. fold g in Hm.
  pose proof (Z.mod_pos_bound (- ip) g Hg) as Hn.
  split.
  - unfold g at 2. rewrite mask_div by (try lia; apply Z.mod_pos_bound; unfold two64; lia). fold g.
    set (x := ip + (g - 1)).
    assert (Hux : exists c, u64 x = x - c * g /\ c * g = (x / 2 ^ 64) * 2 ^ 64).
    { exists ((x / 2 ^ 64) * m). unfold u64, two64. change 18446744073709551616 with (2 ^ 64).
      rewrite Z.mod_eq by lia. generalize (x / 2 ^ 64). intros D. rewrite Hm. split; ring. }
    destruct Hux as (c & Hux & Hc).
    assert (Hmx : u64 x mod g = x mod g).
    { rewrite Hux. replace (x - c * g) with (x + (- c) * g) by ring. apply Z.mod_add. lia. }
    rewrite Hmx.
    assert (Hr : x - x mod g - ip = (- ip) mod g).
    { pose proof (Z.div_mod (- ip) g ltac:(lia)). pose proof (Z.div_mod x g ltac:(lia)). pose proof (Z.mod_pos_bound x g Hg).
      unfold x in *. set (A := (ip + (g - 1)) / g) in *. set (B := - ip / g) in *.
      set (M := (ip + (g - 1)) mod g) in *. set (N := (- ip) mod g) in *.
      assert (A = - B) by nia. subst A. nia. }
    replace (u64 x - x mod g - ip) with ((- ip) mod g + (- (x / 2 ^ 64)) * 2 ^ 64) by (rewrite Hux, Hc; lia).
    unfold u64, two64. change 18446744073709551616 with (2 ^ 64). rewrite Z.mod_add by lia. apply Z.mod_small. lia.
  - split; [lia|]. exists (- ((- ip) / g)). pose proof (Z.div_mod (- ip) g ltac:(lia)). lia.
Qed.
Lemma o_align_ok s k : o_inside s -> 0 <= k <= 62 ->
  let nb := (- (oaddr s + opos s)) mod 2 ^ k in
  if opos s + nb <=? Z.of_nat (length (odata s)) then o_align (2 ^ k) s = Ok (o_after s (repeat 0 (Z.to_nat nb)), Val tt)
  else exists rem r, o_align (2 ^ k) s = Ok (o_failed s rem, r) /\
       refused (ostate s) (ostate (o_failed s rem)) (oexc s) (threw r) /\ (r = Val tt \/ r = Thrown stream_bounds).
Proof.
  intros Hs Hk nb. unfold o_align. cbv zeta. rewrite (u64_id (oaddr s + opos s)) by (unfold o_inside in Hs; lia).
  rewrite (proj1 (pad_bytes (oaddr s + opos s) k ltac:(unfold o_inside in Hs; lia) Hk)). fold nb.
  assert (Hn : 0 <= nb) by (apply Z.mod_pos_bound, Z.pow_pos_nonneg; lia).
  pose proof (o_verify_ok s nb Hs Hn) as Hv. unfold iobind.
  destruct (Z.leb_spec (opos s + nb) (Z.of_nat (length (odata s)))) as [H | H].
  - rewrite Hv. cbn [bind]. apply o_put_ok; [exact Hs|]. rewrite repeat_length. lia.
  - destruct Hv as (rem & r & -> & Hr & [-> | ->]); cbn [bind]; exists rem; eexists; (split; [reflexivity|]); auto.
Qed.

Lemma o_step_ok s o : o_inside s -> o_args o -> exists s' r, o_step o s = Ok (s', r) /\ o_step_spec s o s' r.
Proof.
  intros Hs Ha. assert (Hsz : Z.of_nat (length (odata s)) < 2 ^ 63) by apply Hs.
  assert (Hp : 0 <= opos s <= Z.of_nat (length (odata s))) by apply Hs.
  destruct o as [l | w v | l | p | p d | n | g | n]; cbn [o_args] in Ha; cbn [o_step].
  - apply (o_write_step s (OWrite l) l Hs); [split; reflexivity|intros; discriminate].
  - unfold iwrite. cbn [andb].
    apply (o_write_step s (OPut w v) (bytes_le w v) Hs); [split; [reflexivity|now rewrite bytes_le_length]|intros; discriminate].
  - unfold o_write_strz. apply (o_write_step s (OWriteStrz l) (l ++ [0]) Hs); [split; [reflexivity|]|intros; discriminate].
    rewrite app_length. cbn [length]. lia.
  - rewrite <- (u64_id p) by lia. destruct (o_seek_step s (OSeek p) p Hs) as (s' & r & E & H);
      try (split; reflexivity); try lia; try (intros; discriminate).
    exists s', r. split; [exact E|]. rewrite u64_id by lia. exact H.
  - destruct d; unfold o_seekp;
      [apply (o_seek_step s (OSeekp p Beg) p)|apply (o_seek_step s (OSeekp p Cur) (opos s + p))|apply (o_seek_step s (OSeekp p End) (Z.of_nat (length (odata s)) - p))];
      try (split; reflexivity); try lia; try (intros; discriminate); auto.
  - apply (o_seek_step s (OSkip n) (opos s + n)); try (split; reflexivity); try lia; try (intros; discriminate); auto.
  - destruct Ha as (k & Hk & ->). pose proof (o_align_ok s k Hs ltac:(lia)) as Hw. cbv zeta in Hw.
    destruct (pad_bytes (oaddr s + opos s) k ltac:(unfold o_inside in Hs; lia) ltac:(lia)) as [_ Hr].
    set (nb := (- (oaddr s + opos s)) mod 2 ^ k) in *.
    assert (Hn : 0 <= nb) by (apply Z.mod_pos_bound, Z.pow_pos_nonneg; lia).
    assert (Has : o_asks (oaddr s) (opos s) (Z.of_nat (length (odata s))) (OAlign (2 ^ k)) (repeat 0 (Z.to_nat nb)) (opos s + nb)).
    { split; [do 2 f_equal; lia|]. replace (oaddr s + (opos s + nb)) with (oaddr s + opos s + nb) by lia. exact Hr. }
    destruct (Z.leb_spec (opos s + nb) (Z.of_nat (length (odata s)))) as [H | H].
    + rewrite Hw. eexists. eexists. split; [reflexivity|].
      assert (Hl : opos s + Z.of_nat (length (repeat 0 (Z.to_nat nb))) <= Z.of_nat (length (odata s))) by (rewrite repeat_length; lia).
      split; [reflexivity|]. split; [reflexivity|]. split; [now apply o_after_length|]. split; [now apply o_after_inside|].
      exists (repeat 0 (Z.to_nat nb)), (opos s + nb). split; [exact Has|].
      rewrite (fits_true _ (Z.of_nat (length (odata s)))) by (lia || reflexivity).
      split; [reflexivity|]. split; [|split; reflexivity]. cbn [o_after opos]. rewrite repeat_length. lia.
    + destruct Hw as (rem & r & -> & Hrf & Hc). eexists; eexists; (split; [reflexivity|]).
      apply (o_refusal s _ rem _ (repeat 0 (Z.to_nat nb)) (opos s + nb)); auto. apply unfits. lia.
  - pose proof (o_verify_ok s n Hs ltac:(lia)) as Hw. unfold iobind.
    destruct (Z.leb_spec (opos s + n) (Z.of_nat (length (odata s)))) as [H | H].
    + rewrite Hw. cbn [bind ret]. eexists. eexists. split; [reflexivity|].
      split; [reflexivity|]. split; [reflexivity|]. split; [reflexivity|]. split; [exact Hs|].
      exists [], (opos s + n). split; [split; reflexivity|]. rewrite (fits_true _ (Z.of_nat (length (odata s)))) by (lia || reflexivity).
      split; [reflexivity|]. split; [reflexivity|]. split; [reflexivity|]. cbn [app length]. now rewrite Nat.add_0_r, firstn_skipn.
    + destruct Hw as (rem & r & -> & Hr & Hc). cbn [bind].
      destruct Hc as [-> | ->]; eexists; eexists; (split; [reflexivity|]);
        (apply (o_refusal s _ rem _ [] (opos s + n)); [exact Hs|split; reflexivity|apply unfits; lia|exact Hr|auto]).
Qed.

(** ** Histories *)
Lemma io_run_ok {S O R} (step : O -> io S R) (spec : S -> O -> S -> res R -> Prop) (inv : S -> Prop) (args : O -> Prop) :
  (forall s o, inv s -> args o -> exists s' r, step o s = Ok (s', r) /\ spec s o s' r) ->
  (forall s o s' r, inv s -> spec s o s' r -> inv s') ->
  forall ops s, inv s -> Forall args ops -> exists hist, io_run step s ops = Ok hist /\ history spec s ops hist.
Proof.
  intros H1 H2 ops. induction ops as [|o t IH]; intros s Hs Ha.
  - exists []. split; [reflexivity|exact I].
  - inversion Ha as [|o' t' Ho Ht]; subst. destruct (H1 s o Hs Ho) as (s' & r & E & Hsp).
    destruct (IH s' (H2 _ _ _ _ Hs Hsp) Ht) as (h & Eh & Hh). exists ((s', r) :: h).
    cbn [io_run]. rewrite E. cbn [bind]. rewrite Eh. split; [reflexivity|]. split; assumption.
Qed.
Lemma i_run_ok ops s : i_inside s -> i_bytes s -> Forall i_args ops ->
  exists hist, io_run i_step s ops = Ok hist /\ history i_step_spec s ops hist.
Proof.
  intros Hs Hb Ha. apply (io_run_ok i_step i_step_spec (fun s => i_inside s /\ i_bytes s) i_args); auto.
  - intros s0 o [H1 H2] Ho. now apply i_step_ok.
  - intros s0 o s' r [H1 H2] (E & _ & Hi & _). split; [exact Hi|]. unfold i_bytes. now rewrite E.
Qed.
Lemma o_run_ok ops s : o_inside s -> Forall o_args ops ->
  exists hist, io_run o_step s ops = Ok hist /\ history o_step_spec s ops hist.
Proof.
  intros Hs Ha. apply (io_run_ok o_step o_step_spec o_inside o_args); auto.
  - intros s0 o H1 Ho. now apply o_step_ok.
  - intros s0 o s' r H1 (_ & _ & _ & Hi & _). exact Hi.
Qed.
