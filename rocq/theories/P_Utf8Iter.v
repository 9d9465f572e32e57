(** * P_Utf8Iter: UTF-8 iterators moved about, over damaged text and over
    streams; ostream_iterator (C185-C191). *)
From Coq Require Import ZArith ZifyBool ZifyNat Lia.
From Verif Require Import Base UtilModel Utf8Model Utf8Spec Utf8Proofs StreamModel StreamSpec StreamProofs SerialProofs IsIterModel Utf8IterModel Utf8IterSpec Utf8IterProofs Utf8BadProofs OIterProofs.
Local Open Scope Z_scope.

(** The character with index [i]; the terminator follows the last. *)
Definition char_of (l : list Z) (i : nat) : Z := nth i (l ++ [0]) 0.

(** ** C185: an iterator moved on by [i] shows character [i], base() is where it
    starts, and the difference of two is the number of characters between them
    if the second is at the end or at a character of one byte *)
Theorem C185_position : forall l i, Forall is_char l -> (i <= length l)%nat ->
  exists it, utf8_at (encode_all l) i = Ok it /\ snd it = char_of l i /\ utf8_base it = Z.of_nat (length (encode_all (firstn i l))).
Proof.
  intros l i H Hi. rewrite at_ok by assumption. eexists. split; [reflexivity|]. cbn [snd]. split; [reflexivity|]. apply base_ok.
  assert (F : Forall is_char (l ++ [0])) by (apply Forall_app; split; [exact H|]; repeat constructor; unfold is_char; lia).
  apply (proj1 (Forall_nth is_char (l ++ [0])) F i 0). rewrite app_length. cbn [length]. lia.
Qed.
Print Assumptions C185_position.
Theorem C185_difference : forall l i j a b, Forall is_char l -> (i <= j <= length l)%nat ->
  utf8_at (encode_all l) i = Ok a -> utf8_at (encode_all l) j = Ok b -> j = length l \/ char_of l j < 128 ->
  utf8_minus (encode_all l) b a = Ok (Z.of_nat j - Z.of_nat i).
Proof.
  intros l i j a b H Hij Ea Eb Hj. rewrite (minus_ok l i j a b) by assumption. f_equal.
  assert (S : char_of l j < 128) by (destruct Hj as [-> |S]; [unfold char_of; rewrite app_nth2, Nat.sub_diag by lia; cbn; lia|exact S]).
  unfold char_of in S. replace (_ <? 128) with true by lia. destruct (i =? j)%nat; lia.
Qed.
Print Assumptions C185_difference.
Example C185_case : encode_all [65; 233; 66; 8364] = [65; 195; 169; 66; 226; 130; 172] /\
  utf8_at (encode_all [65; 233; 66; 8364]) 1 = Ok (2%nat, 233) /\ utf8_at (encode_all [65; 233; 66; 8364]) 4 = Ok (7%nat, 0) /\
  utf8_minus (encode_all [65; 233; 66; 8364]) (7%nat, 0) (2%nat, 233) = Ok 3.
Proof. repeat (split; [vm_compute; reflexivity|]). vm_compute. reflexivity. Qed.

(** ** C186: ... and for any two: one too many if the second is at a longer character *)
Theorem C186_difference_refuted : forall l i j a b, Forall is_char l -> (i < j < length l)%nat ->
  utf8_at (encode_all l) i = Ok a -> utf8_at (encode_all l) j = Ok b -> 128 <= char_of l j ->
  utf8_minus (encode_all l) b a = Ok (Z.of_nat j - Z.of_nat i + 1).
Proof.
  intros l i j a b H Hij Ea Eb Hj. rewrite (minus_ok l i j a b) by (auto; lia). f_equal. unfold char_of in Hj.
  replace (_ <? 128) with false by lia. replace (i =? j)%nat with false by lia. lia.
Qed.
Print Assumptions C186_difference_refuted.
Example C186_case : utf8_at (encode_all [65; 233]) 0 = Ok (0%nat, 65) /\ utf8_at (encode_all [65; 233]) 1 = Ok (2%nat, 233) /\
  utf8_minus (encode_all [65; 233]) (2%nat, 233) (0%nat, 65) = Ok 2.
Proof. repeat (split; [vm_compute; reflexivity|]). vm_compute. reflexivity. Qed.

(** ** C187: any bytes but FE and FF can be read: nothing outside the string is
    touched, every value is a character, and there are no more than bytes *)
Theorem C187_any_bytes : forall l, Forall (fun b => 0 <= b < 254) l ->
  exists vs n, utf8_in_all l = Ok vs /\ Forall is_char vs /\ (length vs <= length l)%nat /\ str_length l = Ok n /\ 0 <= n <= Z.of_nat (length l).
Proof. intros l H. exact (in_all_safe l H). Qed.
Print Assumptions C187_any_bytes.
(** Stray continuation bytes show as a character each and do not disturb the others. *)
Theorem C187_stray_bytes : forall xs, Forall item_ok xs -> utf8_in_all (concat (map item_bytes xs)) = Ok (map item_char xs).
Proof. exact items_all. Qed.
Print Assumptions C187_stray_bytes.
Example C187_case : concat (map item_bytes [Stray 130; Char 233; Stray 191; Char 65]) = [130; 195; 169; 191; 65] /\
  utf8_in_all [130; 195; 169; 191; 65] = Ok [2; 233; 63; 65] /\ utf8_in_all [253; 255 - 64; 195; 65; 226] = Ok [] /\ str_length [65; 195; 66; 226] = Ok 3.
Proof. repeat (split; [vm_compute; reflexivity|]). vm_compute. reflexivity. Qed.

(** ** C188: bytes FE and FF too: the value does not fit into wchar_t, which is undefined *)
Theorem C188_fe_refuted : forall xs c b1 b2 b3 b4 b5 b6 rest, Forall item_ok xs ->
  254 <= c < 256 -> Forall (fun b => 0 < b < 256) [b1; b2; b3; b4; b5; b6] -> 4 <= b1 mod 64 ->
  utf8_in_all (concat (map item_bytes xs) ++ c :: [b1; b2; b3; b4; b5; b6] ++ rest) = UB.
Proof. exact fe_all. Qed.
Print Assumptions C188_fe_refuted.
Example C188_case : utf8_in_all [65; 255; 254; 65; 65; 65; 65; 65; 65] = UB.
Proof. vm_compute. reflexivity. Qed.
(** A character cut off by the end of the string is to show as something: it vanishes. *)
Theorem C188_truncated_refuted : forall xs v k, Forall item_ok xs -> is_char v -> (0 < k < length (encode v))%nat ->
  utf8_in_all (concat (map item_bytes xs) ++ firstn k (encode v)) = Ok (map item_char xs).
Proof. exact trunc_all. Qed.
Print Assumptions C188_truncated_refuted.
Example C188_truncated_case : firstn 2 (encode 8364) = [226; 130] /\ utf8_in_all [65; 226; 130] = Ok [65].
Proof. split; vm_compute; reflexivity. Qed.

(** In a stream, a zero byte inside a character ends it: what comes out are the bits read so far, and the zero is gone. *)
Theorem C188_stream_cut_refuted : forall dbg pre v k post st e old (data := pre ++ firstn k (encode v) ++ 0 :: post), is_char v -> (0 < k < length (encode v))%nat ->
  Z.of_nat (length data) < 2 ^ 62 ->
  us_next dbg (mkiter true old, 0) (mkis data (Z.of_nat (length pre)) st e) =
    Ok (mkis data (Z.of_nat (length pre + k + 1)) st e, Val (mkiter true 0, v / 64 ^ Z.of_nat (length (encode v) - k))).
Proof. intros dbg pre v k post st e old data Hv Hk HL. exact (us_cut dbg data st e HL pre v k post old eq_refl Hv Hk). Qed.
Print Assumptions C188_stream_cut_refuted.
Example C188_stream_case : is_char 8364 /\ firstn 2 (encode 8364) = [226; 130] /\ 8364 / 64 = 130 /\ us_next true (mkiter true 0, 0) (mkis [226; 130; 0; 65] 0 0 0) = Ok (mkis [226; 130; 0; 65] 3 0 0, Val (mkiter true 0, 130)).
Proof. split; [unfold is_char; lia|]. split; [vm_compute; reflexivity|]. split; vm_compute; reflexivity. Qed.

(** ** C189: utf8in over a memory stream gives the characters; the stream is
    left just after the last character taken *)
Theorem C189_read : forall dbg l st e fuel, Z.land e 6 = 0 -> Forall is_char l -> Z.of_nat (length (encode_all l)) < 2 ^ 62 -> (length l + 1 < fuel)%nat ->
  exists s', us_all dbg fuel (mkis (encode_all l) 0 st e) = Ok (s', Val l).
Proof. intros dbg l st e fuel He Hl HL Hf. exact (us_all_ok dbg l st e fuel He Hl HL Hf). Qed.
Print Assumptions C189_read.
Theorem C189_steps : forall dbg v l post st e (data := encode v ++ encode_all l ++ post), is_char v -> Forall is_char l -> Z.of_nat (length data) < 2 ^ 62 ->
  exists it, (it0 <~ us_new dbg ;; us_skip dbg (length l) it0) (mkis data 0 st e) =
    Ok (mkis data (Z.of_nat (length (encode_all (v :: l)))) st e, Val it) /\ snd it = last l v.
Proof.
  intros dbg v l post st e data Hv Hl HL. unfold us_new. pose proof (us_char dbg data st e HL [] v (encode_all l ++ post) 0 eq_refl Hv) as Q.
  cbn [length] in Q. change (Z.of_nat 0) with 0 in Q. eexists. split.
  - unfold iobind at 1. unfold bi_new. rewrite Q. cbn [bind].
    pose proof (us_skip_ok dbg data st e HL l [] v post eq_refl Hv Hl) as K. cbn [length Nat.add] in K. cbn [Nat.add]. rewrite K.
    change (encode_all (v :: l)) with (encode v ++ encode_all l). rewrite app_length. reflexivity.
  - reflexivity.
Qed.
Print Assumptions C189_steps.
Example C189_case : (exists s', us_all true 9 (mkis [65; 195; 169; 226; 130; 172] 0 0 0) = Ok (s', Val [65; 233; 8364])) /\
  exists it, (it0 <~ us_new true ;; us_skip true 1 it0) (mkis [65; 195; 169; 66; 67] 0 0 7) = Ok (mkis [65; 195; 169; 66; 67] 3 0 7, Val it).
Proof. split; eexists; vm_compute; reflexivity. Qed.

(** ** C190: copying values to a memory stream through ostream_iterator puts
    their bytes there one after another; with too little room, as many whole
    values as fit, and the failure is reported *)
Theorem C190_all : forall dbg w l s (out := concat (map (bytes_le w) l)), (0 < w)%nat -> o_inside s -> (dbg = true -> opos s mod Z.of_nat w = 0) ->
  opos s + Z.of_nat (length out) <= Z.of_nat (length (odata s)) ->
  oi_copy dbg w l s = Ok (mkos (firstn (Z.to_nat (opos s)) (odata s) ++ out ++ skipn (Z.to_nat (opos s) + length out) (odata s)) (oaddr s)
    (opos s + Z.of_nat (length out)) (ostate s) (oexc s), Val tt).
Proof. intros dbg w l s out Hw Hs Hd Hf. exact (copy_fits dbg w Hw l s Hs Hd Hf). Qed.
Print Assumptions C190_all.
Theorem C190_short : forall dbg w l s k (out := concat (map (bytes_le w) (firstn k l))), (0 < w)%nat -> o_inside s -> (dbg = true -> opos s mod Z.of_nat w = 0) ->
  k = Z.to_nat ((Z.of_nat (length (odata s)) - opos s) / Z.of_nat w) -> (k < length l)%nat ->
  exists s' r, oi_copy dbg w l s = Ok (s', r) /\
    odata s' = firstn (Z.to_nat (opos s)) (odata s) ++ out ++ skipn (Z.to_nat (opos s) + length out) (odata s) /\
    opos s' = opos s + Z.of_nat w * Z.of_nat k /\ Z.land (ostate s') failbit <> 0 /\
    (oexc s = 0 -> r = Val tt) /\ (oexc s = allbadbits -> r = Thrown stream_bounds).
Proof.
  intros dbg w l s k out Hw Hs Hd Hk Hl. destruct (copy_short dbg w Hw l s k Hs Hd Hk Hl) as (s' & r & E & A1 & A2 & A3 & A4 & A5).
  exists s', r. split; [exact E|]. split; [exact A1|]. split; [exact A2|]. split.
  - intros Z0. assert (T : Z.testbit (Z.land (ostate s') failbit) 2 = true) by (rewrite Z.land_spec, A3; reflexivity). rewrite Z0, Z.bits_0 in T. discriminate.
  - split; [exact A4|]. intros Hx. apply A5. rewrite Hx. reflexivity.
Qed.
Print Assumptions C190_short.
Example C190_case : oi_copy true 2 [1; 258] (os_open [9; 9; 9; 9; 9] 64) = Ok (mkos [1; 0; 2; 1; 9] 64 4 0 7, Val tt) /\
  (exists s', oi_copy true 2 [1; 258; 3] (os_open [9; 9; 9; 9; 9] 64) = Ok (s', Thrown stream_bounds) /\ odata s' = [1; 0; 2; 1; 9]).
Proof. split; [vm_compute; reflexivity|]. eexists. split; vm_compute; reflexivity. Qed.

(** ** C191: utf8out over a memory stream writes the encoding of the characters *)
Theorem C191_write : forall dbg l s (out := encode_all l), Forall is_char l -> o_inside s -> opos s + Z.of_nat (length out) <= Z.of_nat (length (odata s)) ->
  uo_copy dbg l s = Ok (mkos (firstn (Z.to_nat (opos s)) (odata s) ++ out ++ skipn (Z.to_nat (opos s) + length out) (odata s)) (oaddr s)
    (opos s + Z.of_nat (length out)) (ostate s) (oexc s), Val tt).
Proof.
  intros dbg l s out Hl Hs Hf. rewrite uo_copy_ok by exact Hl.
  assert (FB : flat 1 (encode_all l) = out) by (apply flat_bytes, encode_all_bytes, Hl).
  pose proof (copy_fits dbg 1 ltac:(lia) (encode_all l) s Hs ltac:(intros _; apply Z.mod_1_r)) as C. rewrite FB in C. exact (C Hf).
Qed.
Print Assumptions C191_write.
(** What was written reads back. *)
Theorem C191_roundtrip : forall dbg l (n := length (encode_all l)) st e, Forall is_char l -> Z.of_nat n < 2 ^ 62 -> Z.land e 6 = 0 ->
  exists s r, uo_copy dbg l (os_open (repeat 0 n) 64) = Ok (s, Val tt) /\ us_all dbg (n + 2) (mkis (odata s) 0 st e) = Ok (r, Val l).
Proof.
  intros dbg l n st e Hl HL He.
  pose proof (C191_write dbg l (os_open (repeat 0 n) 64) Hl) as W. unfold os_open in *. cbn [odata opos oaddr ostate oexc] in W. rewrite repeat_length in W.
  specialize (W ltac:(unfold o_inside; cbn [odata opos oaddr]; rewrite repeat_length; lia) ltac:(unfold n; lia)). fold n in W.
  destruct (C189_read dbg l st e (n + 2) He Hl HL ltac:(pose proof (encode_all_length l Hl); unfold n; lia)) as (r & R).
  eexists _, r. split; [exact W|]. cbn [odata]. change (Z.to_nat 0) with 0%nat. cbn [firstn app Nat.add]. rewrite skipn_all2, app_nil_r by (rewrite repeat_length; lia). exact R.
Qed.
Print Assumptions C191_roundtrip.
Example C191_case : uo_copy true [65; 233] (os_open [9; 9; 9; 9] 64) = Ok (mkos [65; 195; 169; 9] 64 3 0 7, Val tt).
Proof. vm_compute. reflexivity. Qed.
