(** * StreamFacts: read_strz, reading strings from arbitrary bytes, and
    counterexamples. *)
From Verif Require Import Base UtilModel UtilSpec UtilProofs StoreModel StoreProofs VectorModel VectorSpec VectorProofs VectorFacts.
From Verif Require Import MemModel MemSpec MemProofs StringModel StringSpec StringProofs.
From Verif Require Import Utf8Model Utf8Spec Utf8Proofs StreamModel StreamSpec StreamProofs SerialModel SerialTypes SerialSpec SerialProofs SerialTypesProofs SerialHeapProofs.
From Coq Require Import ZArith ZifyBool ZifyNat Znumtheory.
Local Open Scope Z_scope.

(** ** read_strz *)
Lemma find_zero_some l k : find_zero l = Some k -> exists t, l = firstn k l ++ 0 :: t /\ Forall (fun c => c <> 0) (firstn k l) /\ (k < length l)%nat.
Proof.
  revert k. induction l as [|x t IH]; intros k; cbn [find_zero]; [discriminate|].
  destruct (Z.eqb_spec x 0) as [-> | N].
  - intros E. injection E as <-. exists t. cbn [firstn app length]. split; [reflexivity|]. split; [constructor|lia].
  - destruct (find_zero t) as [j|] eqn:E; [|discriminate]. intros F. injection F as <-.
    destruct (IH j eq_refl) as (u & H1 & H2 & H3). exists u. cbn [firstn app length]. split; [now f_equal|]. split; [now constructor|lia].
Qed.
Lemma find_zero_app l t : Forall (fun c => c <> 0) l -> find_zero (l ++ 0 :: t) = Some (length l).
Proof.
  induction l as [|x l IH]; intros H; cbn [find_zero app]; [reflexivity|]. inversion H as [|x' l' Hx Hl]; subst.
  destruct (Z.eqb_spec x 0); [contradiction|]. now rewrite IH.
Qed.
Lemma find_zero_none l : Forall (fun c => c <> 0) l -> find_zero l = None.
Proof. induction 1 as [|x l Hx Hl IH]; cbn [find_zero]; [reflexivity|]. destruct (Z.eqb_spec x 0); [contradiction|]. now rewrite IH. Qed.
(** With a terminator: the text up to it, and the position behind it. *)
Lemma strz_ok pre l t st exc : Forall (fun c => c <> 0) l -> zlen (pre ++ l ++ 0 :: t) < 2 ^ 63 ->
  i_read_strz (rdr pre (l ++ 0 :: t) st exc) = Ok (rdr (pre ++ l ++ [0]) t st exc, Val l).
Proof.
  intros Hl H. pose proof (rdr_inside _ _ st exc H) as Hi. unfold i_read_strz. unfold isize. cbn [rdr idata ipos].
  destruct (Z.ltb_spec (Z.of_nat (length (pre ++ l ++ 0 :: t))) (zlen pre)) as [Hc | _]; [unfold zlen in Hc; rewrite app_length in Hc; lia|].
  assert (E : skipn (Z.to_nat (zlen pre)) (pre ++ l ++ 0 :: t) = l ++ 0 :: t).
  { unfold zlen. rewrite Nat2Z.id, skipn_app, skipn_all, Nat.sub_diag. reflexivity. }
  rewrite E, find_zero_app by exact Hl. unfold iobind.
  fold (rdr pre (l ++ 0 :: t) st exc). fold (zlen l). rewrite !zlen_app, zlen_cons in H. pose proof (zlen_nonneg pre). pose proof (zlen_nonneg l). pose proof (zlen_nonneg t).
  rewrite i_raw_ok; [|exact Hi|lia|cbn [rdr ipos idata]; fold (zlen (pre ++ l ++ 0 :: t)); rewrite !zlen_app, zlen_cons; lia].
  cbn [bind rdr ipos idata]. rewrite i_set_pos_ok by lia. cbn [bind ret]. unfold i_at, rdr. cbn [idata istate iexc].
  replace (zlen pre + zlen l + 1) with (zlen (pre ++ l ++ [0])) by (rewrite !zlen_app; change (zlen [0]) with 1; lia).
  unfold zlen at 1 2 3. rewrite Z2Nat.inj_add, !Nat2Z.id by lia. rewrite slice_here. rewrite <- !app_assoc. reflexivity.
Qed.
(** Without one: the empty text, and the position moves by one, past the end
    if it was there. *)
Lemma strz_no pre l st exc : Forall (fun c => c <> 0) l -> zlen (pre ++ l) < 2 ^ 63 ->
  i_read_strz (rdr pre l st exc) = Ok (mkis (pre ++ l) (zlen pre + 1) st exc, Val []).
Proof.
  intros Hl H. unfold i_read_strz. unfold isize. cbn [rdr idata ipos].
  destruct (Z.ltb_spec (Z.of_nat (length (pre ++ l))) (zlen pre)) as [Hc | _]; [unfold zlen in Hc; rewrite app_length in Hc; lia|].
  assert (E : skipn (Z.to_nat (zlen pre)) (pre ++ l) = l).
  { unfold zlen. rewrite Nat2Z.id, skipn_app, skipn_all, Nat.sub_diag. reflexivity. }
  rewrite E, find_zero_none by exact Hl. unfold iobind, i_raw. cbn [Z.eqb bind rdr ipos]. rewrite zlen_app in H. pose proof (zlen_nonneg pre). pose proof (zlen_nonneg l).
  rewrite i_set_pos_ok by lia. cbn [bind ret]. unfold i_at. cbn [rdr idata istate iexc]. rewrite Z.add_0_r. reflexivity.
Qed.
(** Behind the end every read goes through. *)
Lemma behind_read data st exc n : zlen data < 2 ^ 62 -> 0 < n < 2 ^ 63 ->
  i_read n (mkis data (zlen data + 1) st exc) = UB.
Proof.
  intros H Hn. pose proof (zlen_nonneg data). unfold i_read, iobind, i_verify, i_remaining, isize. cbn [idata ipos]. fold (zlen data).
  rewrite u64_neg by lia. destruct (Z.leb_spec n (zlen data - (zlen data + 1) + 2 ^ 64)); [|lia]. cbn [bind].
  unfold i_raw, isize. cbn [idata ipos]. fold (zlen data). destruct (Z.eqb_spec n 0); [lia|].
  destruct (Z.leb_spec (zlen data + 1 + n) (zlen data)); [lia|]. rewrite !andb_false_r. reflexivity.
Qed.

(** ** Reading a string from any bytes *)
Definition checked (s : istream) : Prop := Z.testbit (iexc s) 2 = true.
Definition same_stream (s s' : istream) : Prop := idata s' = idata s /\ iexc s' = iexc s /\ i_inside s'.
Lemma verify_on s n : i_inside s -> checked s -> 0 <= n ->
  (ipos s + n <= Z.of_nat (length (idata s)) /\ i_verify n s = Ok (s, Val true)) \/
  (exists s', i_verify n s = Ok (s', Thrown stream_bounds) /\ same_stream s s').
Proof.
  intros Hs Hc Hn. pose proof (i_verify_ok s n Hs Hn) as V.
  destruct (Z.leb_spec (ipos s + n) (Z.of_nat (length (idata s)))) as [H | H]; [left; auto|right].
  destruct V as (rem & r & E & (_ & _ & T & _) & Hr). exists (i_failed s rem).
  destruct Hr as [-> | ->]; [discriminate (T Hc)|]. split; [exact E|]. split; [reflexivity|]. split; [reflexivity|exact Hs].
Qed.
Lemma read_on s n : i_inside s -> checked s -> 0 <= n ->
  (ipos s + n <= Z.of_nat (length (idata s)) /\
   i_read n s = Ok (i_at s (ipos s + n), Val (Some (slice (idata s) (Z.to_nat (ipos s)) (Z.to_nat (ipos s + n)))))) \/
  (exists s', i_read n s = Ok (s', Thrown stream_bounds) /\ same_stream s s').
Proof.
  intros Hs Hc Hn. pose proof (i_read_ok s n Hs Hn) as V.
  destruct (Z.leb_spec (ipos s + n) (Z.of_nat (length (idata s)))) as [H | H]; [left; auto|right].
  destruct V as (rem & r & E & (_ & _ & T & _) & Hr). exists (i_failed s rem).
  destruct Hr as [-> | ->]; [discriminate (T Hc)|]. split; [exact E|]. split; [reflexivity|]. split; [reflexivity|exact Hs].
Qed.
Lemma at_inside s p : i_inside s -> 0 <= p <= Z.of_nat (length (idata s)) -> i_inside (i_at s p).
Proof. unfold i_inside, i_at. cbn [ipos idata]. lia. Qed.

Lemma read_tail_total buf : Forall (fun b => 0 <= b < 256) buf -> forall n i v, (i + n < length buf)%nat ->
  0 <= v -> v * 64 ^ Z.of_nat n + (64 ^ Z.of_nat n - 1) < 2 ^ 31 -> exists j u, read_tail buf i v n = Ok (j, u) /\ 0 <= u < 2 ^ 31.
Proof.
  intros Hb n. induction n as [|n IH]; intros i v Hi Hv Hm; cbn [read_tail].
  - change (64 ^ Z.of_nat 0) with 1 in Hm. exists i, v. split; [reflexivity|lia].
  - destruct (nth_error buf (S i)) as [b|] eqn:E; [|apply nth_error_None in E; lia].
    assert (B : 0 <= b < 256) by (rewrite Forall_forall in Hb; apply Hb; eapply nth_error_In; eauto).
    unfold rd. rewrite E. cbn [bind]. rewrite Nat2Z.inj_succ, Z.pow_succ_r in Hm by lia.
    assert (P : 1 <= 64 ^ Z.of_nat n) by (pose proof (Z.pow_pos_nonneg 64 (Z.of_nat n)); lia).
    destruct (b =? 0).
    + exists (S i), v. split; [reflexivity|]. nia.
    + assert (Em : (128 + b mod 64) mod 64 = b mod 64).
      { replace (128 + b mod 64) with (b mod 64 + 2 * 64) by lia. rewrite Z.mod_add by lia. apply Z.mod_mod. lia. }
      pose proof (Z.mod_pos_bound b 64 ltac:(lia)) as Mb.
      assert (A : shl6 v b = shl6 v (128 + b mod 64)) by (unfold shl6; now rewrite !land63, Em).
      assert (Pv : push v (128 + b mod 64) = v * 64 + b mod 64) by (unfold push; lia).
      rewrite A, shl6_ok; [|exact Hv|lia|rewrite Pv; nia]. cbn [bind]. rewrite Pv. apply IH; [lia|lia|nia].
Qed.
Lemma utf8_read_total c rest k : 0 <= c < 254 -> Forall (fun b => 0 <= b < 256) rest -> seq_bytes c = Ok k -> zlen rest = k - 1 ->
  exists j v, utf8_read (c :: rest) 0 = Ok (j, v) /\ 0 <= v < 2 ^ 31.
Proof.
  intros Hc Hr Hk Hl. unfold utf8_read. change (rd (c :: rest) 0) with (Ok c). cbn [bind]. rewrite Hk. cbn [bind].
  rewrite seq_bytes_lead in Hk by lia. injection Hk as Hk.
  assert (L : exists x, Z.land c (Z.shiftr 255 k) = x /\ 0 <= x /\ x * 64 ^ (k - 1) + (64 ^ (k - 1) - 1) < 2 ^ 31 /\ 1 <= k).
  { pose proof (all_below 254 (fun c => let k := lead c in let x := Z.land c (Z.shiftr 255 k) in
      (0 <=? x) && (x * 64 ^ (k - 1) + (64 ^ (k - 1) - 1) <? 2 ^ 31) && (1 <=? k)) eq_refl c Hc) as A. cbv beta zeta in A. rewrite Hk in A.
    exists (Z.land c (Z.shiftr 255 k)). split; [reflexivity|]. lia. }
  destruct L as (x & -> & X0 & X1 & K1).
  apply read_tail_total.
  - constructor; [lia|exact Hr].
  - cbn [length]. unfold zlen in Hl. lia.
  - exact X0.
  - rewrite Z2Nat.id by lia. exact X1.
Qed.
Lemma slice_len {A} (l : list A) p n : 0 <= p -> 0 <= n -> p + n <= Z.of_nat (length l) -> zlen (slice l (Z.to_nat p) (Z.to_nat (p + n))) = n.
Proof. intros H1 H2 H3. unfold zlen, slice. rewrite firstn_length, skipn_length. lia. Qed.
Lemma str_read_gen_total {X} dbg (rsz : Z -> outcome X) (fill : X -> list Z -> outcome X) old s :
  i_inside s -> i_bytes s -> checked s -> nth (Z.to_nat (ipos s)) (idata s) 0 < 254 ->
  (forall n, 0 <= n < 2 ^ 31 -> exists x, rsz n = Ok x /\ forall l, zlen l = n -> exists y, fill x l = Ok y) ->
  exists s' r, str_read_gen dbg rsz fill old s = Ok (s', r) /\ same_stream s s' /\
    match r with
    | Thrown x => x = stream_bounds
    | Val y => exists n x, 0 <= n < 2 ^ 31 /\ rsz n = Ok x /\ n <= ipos s' /\ ipos s <= ipos s' - n /\
                fill x (slice (idata s) (Z.to_nat (ipos s' - n)) (Z.to_nat (ipos s'))) = Ok y
    end.
Proof.
  intros Hs Hb Hc Hlead HX. unfold str_read_gen, iobind, iread.
  replace (dbg && negb (ipos s mod Z.of_nat 1 =? 0)) with false by (change (Z.of_nat 1) with 1; rewrite Z.mod_1_r; now destruct dbg).
  unfold iobind. change (Z.of_nat 1) with 1.
  destruct (read_on s 1 Hs Hc ltac:(lia)) as [(F1 & E1) | (s1 & E1 & S1)]; rewrite E1; cbn [bind].
  2: { exists s1, (Thrown stream_bounds). split; [reflexivity|]. split; [exact S1|reflexivity]. }
  unfold i_inside in Hs. set (p := ipos s) in *. set (D := idata s) in *.
  cbn [ret]. destruct (skipn (Z.to_nat p) D) as [|c rest] eqn:ED.
  { apply (f_equal (@length Z)) in ED. rewrite skipn_length in ED. cbn [length] in ED. lia. }
  assert (Es : slice D (Z.to_nat p) (Z.to_nat (p + 1)) = [c]).
  { unfold slice. rewrite ED. replace (Z.to_nat (p + 1) - Z.to_nat p)%nat with 1%nat by lia. reflexivity. }
  rewrite Es. cbn [of_bytes_le bind].
  assert (Ec : nth (Z.to_nat p) D 0 = c) by (rewrite <- (firstn_skipn (Z.to_nat p) D), ED, app_nth2; rewrite firstn_length; [replace (Z.to_nat p - Nat.min (Z.to_nat p) (length D))%nat with 0%nat by lia; reflexivity|lia]).
  assert (Bc : 0 <= c < 256).
  { assert (In c D) by (rewrite <- (firstn_skipn (Z.to_nat p) D), ED; apply in_or_app; right; now left).
    unfold i_bytes in Hb. rewrite Forall_forall in Hb. now apply Hb. }
  rewrite Ec in Hlead. replace (c + 256 * 0) with c by lia. unfold lift.
  unfold ret at 1. cbn [bind].   rewrite seq_bytes_lead by exact Bc. cbn [bind].
  assert (K : 1 <= lead c <= 8) by (unfold lead; repeat match goal with |- context [if ?b then _ else _] => destruct b end; lia).
  set (k := lead c) in *. set (s2 := i_at s (p + 1)).
  assert (Hs2 : i_inside s2) by (apply at_inside; [exact Hs|fold D; lia]).
  assert (P2 : ipos s2 = p + 1) by reflexivity. assert (D2 : idata s2 = D) by reflexivity.
  assert (SS : forall s', same_stream s2 s' -> same_stream s s') by (intros s' (A1 & A2 & A3); split; [exact A1|]; split; [exact A2|exact A3]).
  destruct (verify_on s2 (k - 1) Hs2 Hc ltac:(lia)) as [(F2 & E2) | (s' & E2 & S2)]; rewrite E2; cbn [bind].
  2: { exists s', (Thrown stream_bounds). split; [reflexivity|]. split; [now apply SS|reflexivity]. }
  destruct (read_on s2 (k - 1) Hs2 Hc ltac:(lia)) as [(F3 & E3) | (s' & E3 & S3)]; rewrite E3; cbn [bind].
  2: { exists s', (Thrown stream_bounds). split; [reflexivity|]. split; [now apply SS|reflexivity]. }
  rewrite P2, D2 in *. set (rs := slice D (Z.to_nat (p + 1)) (Z.to_nat (p + 1 + (k - 1)))) in *.
  assert (Lr : zlen rs = k - 1) by (apply slice_len; lia).
  assert (Br : Forall (fun b => 0 <= b < 256) rs) by (apply Forall_slice; exact Hb).
  destruct (utf8_read_total c rs k ltac:(lia) Br ltac:(apply seq_bytes_lead; lia) Lr) as (j & v & Ev & Hv).
  cbn [given]. rewrite Ev. cbn [bind snd]. rewrite u64_id by lia.
  set (s3 := i_at s2 (p + 1 + (k - 1))). assert (Hs3 : i_inside s3) by (apply at_inside; [exact Hs2|rewrite D2; lia]).
  assert (SS3 : forall s', same_stream s3 s' -> same_stream s s') by (intros s' (A1 & A2 & A3); split; [exact A1|]; split; [exact A2|exact A3]).
  destruct (verify_on s3 v Hs3 Hc ltac:(lia)) as [(F4 & E4) | (s' & E4 & S4)]; rewrite E4; cbn [bind].
  2: { exists s', (Thrown stream_bounds). split; [reflexivity|]. split; [now apply SS3|reflexivity]. }
  destruct (HX v Hv) as (x & Ex & Hfill). rewrite Ex. cbn [bind].
  destruct (read_on s3 v Hs3 Hc ltac:(lia)) as [(F5 & E5) | (s' & E5 & S5)]; rewrite E5; cbn [bind].
  2: { exists s', (Thrown stream_bounds). split; [reflexivity|]. split; [now apply SS3|reflexivity]. }
  assert (P3 : ipos s3 = p + k) by (unfold s3; cbn [i_at ipos]; lia). assert (D3 : idata s3 = D) by reflexivity.
  rewrite P3, D3 in *.
  destruct (Hfill (slice D (Z.to_nat (p + k)) (Z.to_nat (p + k + v)))) as (y & Ey); [apply slice_len; lia|].
  rewrite Ey. eexists; exists (Val y). split; [reflexivity|].
  split; [apply SS3; split; [reflexivity|]; split; [reflexivity|]; apply at_inside; [exact Hs3|rewrite D3; lia]|].
  cbn [i_at ipos]. exists v, x. split; [exact Hv|]. split; [exact Ex|]. split; [lia|]. split; [lia|].
  replace (p + k + v - v) with (p + k) by lia. exact Ey.
Qed.
