(** * Properties C01, C02, C03, C60: UTF-8. *)
From Verif Require Import Base UtilModel Utf8Model Utf8Spec Utf8Proofs.
From Coq Require Import ZArith ZifyBool ZifyNat.
Local Open Scope Z_scope.

(** C01: the encoder writes the standard encoding; reading it back gives the
    same characters.  [utf8_in_all] stops exactly at the end of the bytes. *)
Theorem C01_roundtrip (l : list Z) : Forall is_char l ->
  exists bytes, utf8_out_all l = Ok bytes /\ bytes = encode_all l /\ utf8_in_all bytes = Ok l.
Proof. intros H. exists (encode_all l). exact (conj (utf8_out_all_ok l H) (conj eq_refl (utf8_in_all_ok l H))). Qed.
Print Assumptions C01_roundtrip.
(** Anywhere in a buffer: reading the encoding of [v] gives [v] and stops on its last byte. *)
Theorem C01_read_one (pre post : list Z) (v : Z) (bytes : list Z) : is_char v -> utf8_out v = Ok bytes ->
  utf8_read (pre ++ bytes ++ post) (length pre) = Ok ((length pre + length bytes - 1)%nat, v).
Proof. intros H E. rewrite utf8_out_ok in E by exact H. injection E as <-. exact (utf8_read_ok pre v post H). Qed.
Print Assumptions C01_read_one.

(** C02: both ways to compute the length agree for every 32 bit value. *)
Theorem C02_formulas (v : Z) : 0 <= v < 2 ^ 32 -> utf8_bytes_portable v = Ok (utf8_bytes v).
Proof. intros H. rewrite utf8_bytes_len by exact H. exact (portable_len v H). Qed.
Print Assumptions C02_formulas.
(** The encoder emits that many bytes, the first of which tells the length;
    and the sum for an array is the length of its encoding.
    Values from 2^31 on are no characters: the encoder is undefined there (C03). *)
Theorem C02_encoder (v : Z) : is_char v ->
  exists c t, utf8_out v = Ok (c :: t) /\ Z.of_nat (length (c :: t)) = utf8_bytes v /\ seq_bytes c = Ok (utf8_bytes v).
Proof.
  intros H. pose proof (parts_ok v H) as P. destruct (parts v) as [[c cs] x]. destruct P as (E & C & L & _).
  pose proof (encode_length v H) as N. rewrite E in N.
  assert (U : utf8_bytes v = len_of v) by (apply utf8_bytes_len; unfold is_char in H; lia).
  exists c, cs. rewrite utf8_out_ok, E by exact H. split; [reflexivity|]. split; [congruence|].
  rewrite seq_bytes_lead by exact C. f_equal. rewrite L. cbn [length] in N. congruence.
Qed.
Print Assumptions C02_encoder.
Theorem C02_array (l : list Z) (bytes : list Z) : Forall is_char l -> utf8_out_all l = Ok bytes -> utf8_bytes_all l = Z.of_nat (length bytes).
Proof. intros H E. rewrite utf8_out_all_ok in E by exact H. injection E as <-. exact (bytes_all_ok l H). Qed.
Print Assumptions C02_array.
(** All 256 leading bytes. *)
Theorem C02_leading_byte (c : Z) : 0 <= c < 256 ->
  seq_bytes c = Ok (if c <? 192 then 1 else if c <? 224 then 2 else if c <? 240 then 3 else if c <? 248 then 4
    else if c <? 252 then 5 else if c <? 254 then 6 else if c <? 255 then 7 else 8).
Proof. exact (seq_bytes_lead c). Qed.
Print Assumptions C02_leading_byte.

(** C03: the upper half of wchar_t: the encoder shifts a 32 bit value by 36. *)
Theorem C03_upper_half_refuted (v : Z) : -(2 ^ 31) <= v < 0 -> utf8_out v = UB.
Proof. exact (utf8_out_negative v). Qed.
Print Assumptions C03_upper_half_refuted.

(** C60: length() of a string holding the encoding of [l] is the number of
    characters, and wiat (i) is where character i starts. *)
Theorem C60_length (l : list Z) : Forall is_char l -> str_length (encode_all l) = Ok (Z.of_nat (length l)).
Proof. exact (str_length_ok l). Qed.
Print Assumptions C60_length.
Theorem C60_wiat (l : list Z) (i : nat) : Forall is_char l -> (i <= length l)%nat ->
  str_wiat (encode_all l) i = Ok (Z.of_nat (length (encode_all (firstn i l)))).
Proof. exact (wiat_ok l i). Qed.
Print Assumptions C60_wiat.

(** Non-vacuity: characters of every length. *)
Example utf8_sample : Forall is_char [0; 65; 233; 8364; 128512; 2 ^ 25; 2 ^ 31 - 1] /\
  utf8_out_all [0; 65; 233; 8364; 128512; 2 ^ 25; 2 ^ 31 - 1] =
    Ok [0; 65; 195; 169; 226; 130; 172; 240; 159; 152; 128; 248 + 2; 128; 128; 128; 128; 253; 191; 191; 191; 191; 191].
Proof. split; [repeat (apply Forall_cons; [unfold is_char; lia|]); apply Forall_nil|vm_compute; reflexivity]. Qed.
