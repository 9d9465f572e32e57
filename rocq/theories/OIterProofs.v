(** * OIterProofs: copying to a stream through ostream_iterator and utf8out. *)
From Coq Require Import ZArith ZifyBool ZifyNat Lia.
From Verif Require Import Base UtilModel UtilSpec UtilProofs Utf8Model Utf8Spec Utf8Proofs StreamModel StreamSpec StreamProofs SerialProofs IsIterModel Utf8IterModel Utf8IterProofs.
Local Open Scope Z_scope.

Definition flat (w : nat) (l : list Z) : list Z := concat (map (bytes_le w) l).
Lemma flat_cons w v l : flat w (v :: l) = bytes_le w v ++ flat w l.
Proof. reflexivity. Qed.
Lemma flat_len w l : zlen (flat w l) = Z.of_nat w * zlen l.
Proof. induction l as [|v l IH]; [unfold zlen; cbn; lia|]. rewrite flat_cons, zlen_app, IH, bytes_zlen, zlen_cons. lia. Qed.

Section Copy.
  Variables (dbg : bool) (w : nat).
  Hypothesis Hw : (0 < w)%nat.

  Lemma write_no_room v s : o_inside s -> (dbg = true -> opos s mod Z.of_nat w = 0) -> zlen (odata s) < opos s + Z.of_nat w ->
    exists rem r, iwrite dbg w v s = Ok (o_failed s rem, r) /\ refused (ostate s) (ostate (o_failed s rem)) (oexc s) (threw r) /\ (r = Val false \/ r = Thrown stream_bounds).
  Proof using Hw.
    intros Hs Hd Hf. unfold iwrite. replace (dbg && negb (opos s mod Z.of_nat w =? 0)) with false by (destruct dbg; [rewrite (Hd eq_refl)|]; reflexivity).
    pose proof (o_write_ok s (bytes_le w v) Hs) as W. rewrite bytes_le_length in W. unfold zlen in Hf.
    destruct (Z.leb_spec (opos s + Z.of_nat w) (Z.of_nat (length (odata s)))); [lia|exact W].
  Qed.
  Lemma copy_no_room : forall l s, o_inside s -> (dbg = true -> opos s mod Z.of_nat w = 0) -> zlen (odata s) < opos s + Z.of_nat w ->
    exists s' r, oi_copy dbg w l s = Ok (s', r) /\ odata s' = odata s /\ opos s' = opos s /\ oexc s' = oexc s /\
      (Z.testbit (ostate s) 2 = true -> Z.testbit (ostate s') 2 = true) /\ (oexc s = 0 -> r = Val tt) /\
      (l <> [] -> Z.testbit (ostate s') 2 = true /\ (Z.testbit (oexc s) 2 = true -> r = Thrown stream_bounds)).
  Proof using Hw.
    induction l as [|v l IH]; intros s Hs Hd Hf; cbn [oi_copy].
    - exists s, (Val tt). repeat (split; [reflexivity || auto|]). intros N; congruence.
    - destruct (write_no_room v s Hs Hd Hf) as (rem & r & E & (R1 & R2 & R3 & R4) & Hr). unfold iobind at 1. rewrite E. cbn [bind]. destruct Hr as [-> | ->].
      + destruct (IH (o_failed s rem)) as (s' & r' & E' & A1 & A2 & A3 & A4 & A5 & A6); [exact Hs|exact Hd|exact Hf|]. exists s', r'. split; [exact E'|].
        split; [exact A1|]. split; [exact A2|]. split; [exact A3|]. split; [intros _; apply A4, R1|]. split; [exact A5|]. intros _. split; [apply A4, R1|].
        intros Hx. specialize (R3 Hx). discriminate.
      + exists (o_failed s rem), (Thrown stream_bounds). split; [reflexivity|]. split; [reflexivity|]. split; [reflexivity|]. split; [reflexivity|].
        split; [intros _; exact R1|]. split; [intros H0; specialize (R4 H0); discriminate|]. intros _. split; [exact R1|reflexivity].
  Qed.
  Lemma copy_fits : forall l s, o_inside s -> (dbg = true -> opos s mod Z.of_nat w = 0) -> fits s (flat w l) ->
    oi_copy dbg w l s = Ok (o_after s (flat w l), Val tt).
  Proof using Hw.
    induction l as [|v l IH]; intros s Hs Hd Hf; cbn [oi_copy].
    - change (flat w []) with (@nil Z). rewrite o_after_nil. reflexivity.
    - rewrite flat_cons in *. unfold iobind at 1. rewrite iwrite_fits; [|exact Hs|exact Hd|exact (fits_l _ _ _ Hf)]. cbn [bind].
      rewrite IH; [rewrite o_after_app by assumption; reflexivity|exact (after_inside _ _ _ Hs Hf)| |exact (fits_r _ _ _ Hs Hf)].
      intros D. cbn [o_after opos]. rewrite bytes_le_length. specialize (Hd D). replace (opos s + Z.of_nat w) with (opos s + 1 * Z.of_nat w) by lia. rewrite Z.mod_add by lia. exact Hd.
  Qed.
  Lemma copy_app : forall a b s, oi_copy dbg w (a ++ b) s = (_ <~ oi_copy dbg w a ;; oi_copy dbg w b) s.
  Proof using.
    induction a as [|v a IH]; intros b s; [reflexivity|]. cbn [app oi_copy]. unfold iobind at 1. unfold iobind at 1. unfold iobind at 1.
    destruct (iwrite dbg w v s) as [[s1 [x|x]]| | |]; cbn [bind]; try reflexivity. rewrite IH. reflexivity.
  Qed.
  (** As many values as there is room for. *)
  Lemma copy_short l s k : o_inside s -> (dbg = true -> opos s mod Z.of_nat w = 0) -> k = Z.to_nat ((zlen (odata s) - opos s) / Z.of_nat w) -> (k < length l)%nat ->
    exists s' r, oi_copy dbg w l s = Ok (s', r) /\ odata s' = odata (o_after s (flat w (firstn k l))) /\ opos s' = opos s + Z.of_nat w * Z.of_nat k /\
      Z.testbit (ostate s') 2 = true /\ (oexc s = 0 -> r = Val tt) /\ (Z.testbit (oexc s) 2 = true -> r = Thrown stream_bounds).
  Proof using Hw.
    intros Hs Hd Hk Hl. set (room := zlen (odata s) - opos s) in *. assert (R0 : 0 <= room) by (unfold room, zlen, o_inside in *; lia).
    pose proof (Z.div_mod room (Z.of_nat w) ltac:(lia)) as DM. pose proof (Z.mod_pos_bound room (Z.of_nat w) ltac:(lia)) as MB.
    assert (Q0 : 0 <= room / Z.of_nat w) by (apply Z.div_pos; lia).
    assert (Ek : Z.of_nat k = room / Z.of_nat w) by lia.
    assert (Lf : zlen (flat w (firstn k l)) = Z.of_nat w * Z.of_nat k) by (rewrite flat_len; unfold zlen; rewrite firstn_length; f_equal; lia).
    assert (Ff : fits s (flat w (firstn k l))) by (unfold fits; rewrite Lf, Ek; unfold room in *; lia).
    replace (oi_copy dbg w l s) with (oi_copy dbg w (firstn k l ++ skipn k l) s) by (rewrite firstn_skipn; reflexivity). rewrite copy_app. unfold iobind. rewrite copy_fits by assumption. cbn [bind].
    set (s1 := o_after s (flat w (firstn k l))).
    assert (P1 : opos s1 = opos s + Z.of_nat w * Z.of_nat k) by (unfold s1; cbn [o_after opos]; fold (zlen (flat w (firstn k l))); rewrite Lf; reflexivity).
    assert (D1 : zlen (odata s1) = zlen (odata s)) by (unfold zlen, s1; rewrite (o_after_length s _ Hs Ff); reflexivity).
    destruct (copy_no_room (skipn k l) s1) as (s' & r & E & A1 & A2 & A3 & A4 & A5 & A6).
    - exact (o_after_inside _ _ Hs Ff).
    - intros D. rewrite P1. rewrite Z.mul_comm, Z.mod_add by lia. exact (Hd D).
    - rewrite P1, D1. unfold room in *. lia.
    - assert (N : skipn k l <> []) by (intros Z0; apply (f_equal (@length Z)) in Z0; rewrite skipn_length in Z0; cbn in Z0; lia).
      destruct (A6 N) as (B1 & B2). exists s', r. split; [exact E|]. split; [exact A1|]. split; [rewrite A2; exact P1|]. split; [exact B1|]. split; [exact A5|exact B2].
  Qed.
End Copy.

Lemma encode_bytes v : is_char v -> Forall (fun b => 0 <= b < 256) (encode v).
Proof.
  intros H. pose proof (parts_ok v H) as P. destruct (parts v) as [[c cs] x]. destruct P as (E & C & _ & _ & _ & Fc & _). rewrite E. constructor; [exact C|].
  apply (Forall_impl (P := fun b => 128 <= b < 192)); [lia|exact Fc].
Qed.
Lemma flat_bytes l : Forall (fun b => 0 <= b < 256) l -> flat 1 l = l.
Proof. induction 1 as [|b l Hb H IH]; [reflexivity|]. rewrite flat_cons, IH, byte_le by exact Hb. reflexivity. Qed.
Lemma encode_all_bytes l : Forall is_char l -> Forall (fun b => 0 <= b < 256) (encode_all l).
Proof. induction 1 as [|v l Hv H IH]; [constructor|]. change (encode_all (v :: l)) with (encode v ++ encode_all l). apply Forall_app. split; [apply encode_bytes, Hv|exact IH]. Qed.
Lemma uo_copy_ok dbg l s : Forall is_char l -> uo_copy dbg l s = oi_copy dbg 1 (encode_all l) s.
Proof.
  intros H. revert s. induction H as [|v l Hv H IH]; intros s; [reflexivity|]. change (encode_all (v :: l)) with (encode v ++ encode_all l).
  rewrite copy_app. cbn [uo_copy]. rewrite utf8_out_ok by exact Hv. unfold iobind at 1. cbn [lift bind]. unfold iobind.
  destruct (oi_copy dbg 1 (encode v) s) as [[s1 [x|x]]| | |]; cbn [bind]; try reflexivity. apply IH.
Qed.
