(** * Properties C164-C170: the operators and conversions of string. *)
From Verif Require Import Base UtilModel StoreModel VectorSpec VectorFacts MemModel MemSpec MemProofs MemRun MemFacts
  StringModel StringSpec StringProofs StringRun StringFindModel StringFindSpec StringFindProofs StringFacts
  StrFmtModel StrFmtSpec StrFmtProofs IstrModel StrOpsModel StrOpsSpec StrOpsProofs StrNumProofs StrNumBase StrPlus.
From Coq Require Import ZArith Lia ZifyBool ZifyNat.
Local Open Scope Z_scope.

Lemma lt_c_iff s c t : points_to c t -> ssize s < 2 ^ 31 -> ssize t < 2 ^ 31 ->
  (exists b, lt_c s c = Ok b /\ (b = true <-> lex s t)) /\ (exists b, gt_c s c = Ok b /\ (b = true <-> lex t s)).
Proof.
  intros H Hs Ht. unfold lt_c, gt_c. rewrite (compare_c_ok s c t H). cbn [bind].
  assert (Y : forall u v, lex u v -> ~ lex v u) by (intros u v K J; exact (lex_irrefl u (lex_trans u v u K J))).
  split; eexists; (split; [reflexivity|]); rewrite Z.ltb_lt; destruct (str_compare_cases s t Hs Ht) as [(C & L)|[(C & L)|(C & L)]].
  - split; [auto|lia].
  - subst t. split; [lia|]. intros L. destruct (lex_irrefl _ L).
  - split; [lia|]. intros L'. destruct (Y _ _ L L').
  - split; [lia|]. intros L'. destruct (Y _ _ L L').
  - subst t. split; [lia|]. intros L. destruct (lex_irrefl _ L).
  - split; [auto|lia].
Qed.

(** ** C164: strings and C strings *)
(** == and != with a C string on either side, whatever bytes the string holds. *)
Theorem C164_equal (s t : list Z) (c : cstr) : points_to c t ->
  exists b, eq_c s c = Ok b /\ c_eq c s = Ok b /\ ne_c s c = Ok (negb b) /\ c_ne c s = Ok (negb b) /\ (b = true <-> s = t).
Proof.
  intros H. destruct (eq_c_ok s c t H) as (b & E & I). exists b. unfold c_eq, c_ne, ne_c. rewrite E. auto.
Qed.
Print Assumptions C164_equal.
(** A null pointer counts as the empty text. *)
Theorem C164_null (s : list Z) : exists b, eq_c s None = Ok b /\ ne_c s None = Ok (negb b) /\ (b = true <-> s = []).
Proof. destruct (eq_c_null s) as (b & E & I). exists b. unfold ne_c. rewrite E. auto. Qed.
Print Assumptions C164_null.
(** < and > are the lexicographic order of the bytes, on either side. *)
Theorem C164_order (s t : list Z) (c : cstr) : points_to c t -> ssize s < 2 ^ 31 -> ssize t < 2 ^ 31 ->
  exists lt gt, lt_c s c = Ok lt /\ gt_c s c = Ok gt /\ c_gt c s = Ok lt /\ c_lt c s = Ok gt /\
    (lt = true <-> lex s t) /\ (gt = true <-> lex t s).
Proof.
  intros H Hs Ht. destruct (lt_c_iff s c t H Hs Ht) as ((b & E & I) & (b' & E' & I')).
  exists b, b'. unfold c_gt, c_lt. repeat split; try assumption; try apply I; try apply I'.
Qed.
Print Assumptions C164_order.
(** A single character is a text of one byte. *)
Theorem C164_character (s : list Z) (c : Z) : ssize s < 2 ^ 31 ->
  (exists b, eq_char s c = Ok b /\ (b = true <-> s = [c])) /\ (lt_char s c = true <-> lex s [c]).
Proof.
  intros Hs. split.
  - unfold eq_char. destruct (Z.eqb_spec (ssize s) 1) as [E|N].
    + destruct s as [|x [|y s]]; unfold ssize in E; cbn [length] in E; try lia. exists (c =? x). split; [reflexivity|].
      rewrite Z.eqb_eq. split; [intros ->; reflexivity|intros Q; now injection Q].
    + exists false. split; [reflexivity|]. split; [discriminate|]. intros ->. destruct N. reflexivity.
  - unfold lt_char. rewrite Z.ltb_lt. assert (Y : forall u v, lex u v -> ~ lex v u) by (intros u v K J; exact (lex_irrefl u (lex_trans u v u K J))).
    destruct (str_compare_cases s [c] Hs) as [(C & L)|[(C & L)|(C & L)]]; [reflexivity|..].
    + split; [auto|lia].
    + rewrite L in *. split; [lia|]. intros L'. destruct (lex_irrefl _ L').
    + split; [lia|]. intros L'. destruct (Y _ _ L L').
Qed.
Print Assumptions C164_character.

(** ** C165: <= and >= with C strings *)
(** They compare the addresses: whatever the texts are, exactly one of <= and
    >= holds - also for equal texts. *)
Theorem C165_addresses_refuted (sa ca : Z) (s t : list Z) (c : cstr) : points_to c t -> c_addr c = ca -> sa <> ca ->
  (c_le c sa = negb (c_ge c sa)) /\ (le_c sa c = negb (ge_c sa c)) /\ (c_le c sa = true <-> ca <= sa) /\ (le_c sa c = true <-> sa <= ca).
Proof.
  intros _ <- N. unfold c_le, c_ge, le_c, ge_c. repeat split; try lia.
Qed.
Print Assumptions C165_addresses_refuted.
(** A null pointer comes before every string, whatever its text, the empty one too. *)
Theorem C165_null_address_refuted (sa : Z) : 0 < sa -> c_le None sa = true /\ c_ge None sa = false /\ le_c sa None = false /\ ge_c sa None = true.
Proof. intros H. unfold c_le, c_ge, le_c, ge_c, c_addr. repeat split; lia. Qed.
Print Assumptions C165_null_address_refuted.
(** "b" <= string ("a") is true if the literal lies below the string. *)
Theorem C165_wrong_refuted : exists c sa, points_to c [98] /\ c_gt c [97] = Ok true /\ c_le c sa = true.
Proof.
  exists (Some (4096, [98; 0])), 8192. split; [|split; reflexivity].
  exists 4096, []. split; [reflexivity|]. constructor; [discriminate|constructor].
Qed.
Print Assumptions C165_wrong_refuted.
(** < and > with a null pointer, which == takes for "", are undefined. *)
Theorem C165_null_refuted (s : list Z) : lt_c s None = UB /\ gt_c s None = UB /\ eq_c s None <> UB.
Proof. split; [reflexivity|]. split; [reflexivity|]. destruct (eq_c_null s) as (b & -> & _). discriminate. Qed.
Print Assumptions C165_null_refuted.

(** ** C166: concatenation *)
(** After any history over [k] strings, "string r (a + b)" in the place of
    string [r] (a and b may be the same): the text is that of a followed by
    that of b; all other strings and the caller's memory are as before. *)
Theorem C166_plus (e : env) (h0 : heap) (nul : ptr) (k fuel : nat) (ops : list fop) (h : heap) (ms : list mb) (r i j : nat) :
  good_env e -> enough_memory e -> callers h0 -> NulBlk nul h0 ->
  fops_pre h0 (repeat [] k) ops -> fcareful e nul (2 + fuel) h0 (repeat [] k) (h0, repeat (str_nil nul) k) ops ->
  frun e nul (2 + fuel) (h0, repeat (str_nil nul) k) ops = Ok (h, ms) ->
  let ss := fspec_run h0 (repeat [] k) ops in
  (r < length ss)%nat -> (i < length ss)%nat -> (j < length ss)%nat -> i <> r -> j <> r ->
  Z.of_nat (length (get ss i)) + Z.of_nat (length (get ss j)) < 2 ^ 31 ->
  exists h' ms', plus_into e nul (h, ms) r i j = Ok (h', ms') /\
    Forall2 (sresult h') ms' (put ss r (get ss i ++ get ss j)) /\ firstn (length h0) h' = h0.
Proof.
  intros He Hm Hc Hn P C R ss Hr Hi Hj Ni Nj L.
  destruct (frun_tinv e He Hm h0 Hc nul Hn fuel ops _ _ _ (tinv_init e h0 nul Hn k) P C) as (h1 & ms1 & E & T & _).
  change (S (S fuel)) with (2 + fuel)%nat in E. rewrite R in E. injection E as <- <-. fold ss in T.
  destruct (plus_ok e He Hm h0 Hc nul Hn h ms ss r i j T Hr Hi Hj Ni Nj L) as (h' & ms' & E & T').
  exists h', ms'. split; [exact E|]. split; [eapply tinv_result; eauto|eapply sinv_foreign; eauto using t_sinv].
Qed.
Print Assumptions C166_plus.
(** The same for "text" + b. *)
Theorem C166_cplus (e : env) (h0 : heap) (nul : ptr) (k fuel : nat) (ops : list fop) (h : heap) (ms : list mb) (r : nat) (p : ptr) (j : nat) :
  good_env e -> enough_memory e -> callers h0 -> NulBlk nul h0 ->
  fops_pre h0 (repeat [] k) ops -> fcareful e nul (2 + fuel) h0 (repeat [] k) (h0, repeat (str_nil nul) k) ops ->
  frun e nul (2 + fuel) (h0, repeat (str_nil nul) k) ops = Ok (h, ms) ->
  let ss := fspec_run h0 (repeat [] k) ops in
  (r < length ss)%nat -> (j < length ss)%nat -> j <> r -> can_read_c h0 p -> p <> None ->
  Z.of_nat (length (c_bytes h0 p)) + Z.of_nat (length (get ss j)) < 2 ^ 31 ->
  exists h' ms', cplus_into e nul (h, ms) r p j = Ok (h', ms') /\
    Forall2 (sresult h') ms' (put ss r (c_bytes h0 p ++ get ss j)) /\ firstn (length h0) h' = h0.
Proof.
  intros He Hm Hc Hn P C R ss Hr Hj Nj Hp Hpn L.
  destruct (frun_tinv e He Hm h0 Hc nul Hn fuel ops _ _ _ (tinv_init e h0 nul Hn k) P C) as (h1 & ms1 & E & T & _).
  change (S (S fuel)) with (2 + fuel)%nat in E. rewrite R in E. injection E as <- <-. fold ss in T.
  destruct (cplus_ok e He Hm h0 Hc nul Hn h ms ss r p j T Hr Hj Nj Hp Hpn L) as (h' & ms' & E & T').
  exists h', ms'. split; [exact E|]. split; [eapply tinv_result; eauto|eapply sinv_foreign; eauto using t_sinv].
Qed.
Print Assumptions C166_cplus.

(** ** C167: numbers *)
(** stol, stoul and stoi give the number at the start of the string, in every
    base, and the characters it takes. *)
Theorem C167_value (s : list Z) (base n used : Z) : 2 <= base <= 36 -> number_at s base n used ->
  (- 2 ^ 63 <= n < 2 ^ 63 -> stol s base = Ok (n, used)) /\
  (0 <= n < 2 ^ 64 -> stoul s base = Ok (n, used)) /\
  (- 2 ^ 31 <= n < 2 ^ 31 -> stoi s base = Ok (n, used)).
Proof.
  intros Hb H. split; [|split]; intros R.
  - rewrite (stol_ok s base n used Hb H). unfold clamp_long. do 2 f_equal. lia.
  - rewrite (stoul_ok s base n used Hb H). replace (Z.abs n <? 2 ^ 64) with true by lia. rewrite StringFindProofs.u64_id by lia. reflexivity.
  - unfold stoi. rewrite (stol_ok s base n used Hb H). cbn [bind]. unfold clamp_long. do 2 f_equal.
    replace (Z.max _ _) with n by lia. unfold to_int, u32. change two32 with (2 ^ 32).
    destruct (Z.ltb_spec n 0).
    + replace (n mod 2 ^ 32) with (n + 2 ^ 32) by (apply (Z.mod_unique n (2 ^ 32) (-1)); lia).
      replace (n + 2 ^ 32 <? 2 ^ 31) with false by lia. lia.
    + rewrite Z.mod_small by lia. replace (n <? 2 ^ 31) with true by lia. reflexivity.
Qed.
Print Assumptions C167_value.
(** to_string makes the decimal text, in a string like any other. *)
Theorem C167_to_string (e : env) (h0 : heap) (nul : ptr) (k fuel : nat) (ops : list fop) (h : heap) (ms : list mb) (r : nat) (v : Z) :
  good_env e -> enough_memory e -> callers h0 -> NulBlk nul h0 ->
  fops_pre h0 (repeat [] k) ops -> fcareful e nul (2 + fuel) h0 (repeat [] k) (h0, repeat (str_nil nul) k) ops ->
  frun e nul (2 + fuel) (h0, repeat (str_nil nul) k) ops = Ok (h, ms) ->
  let ss := fspec_run h0 (repeat [] k) ops in
  (r < length ss)%nat -> - 2 ^ 63 <= v < 2 ^ 64 ->
  exists h' ms', to_string_into e nul (2 + fuel) (h, ms) r (dec_text v) = Ok (h', ms') /\
    Forall2 (sresult h') ms' (put ss r (map Some (dec_text v))) /\ firstn (length h0) h' = h0 /\
    number_at (dec_text v) 10 v (Z.of_nat (length (dec_text v))).
Proof.
  intros He Hm Hc Hn P C R ss Hr Hv.
  destruct (frun_tinv e He Hm h0 Hc nul Hn fuel ops _ _ _ (tinv_init e h0 nul Hn k) P C) as (h1 & ms1 & E & T & _).
  change (S (S fuel)) with (2 + fuel)%nat in E. rewrite R in E. injection E as <- <-. fold ss in T.
  pose proof (dec_text_number v ltac:(lia)) as N. destruct (dec_text_size v) as (N0 & L).
  destruct (to_string_ok e He Hm h0 Hc nul Hn fuel h ms ss r (dec_text v) T Hr N0 ltac:(lia)) as (h' & ms' & E & T').
  exists h', ms'. split; [exact E|]. split; [eapply tinv_result; eauto|]. split; [eapply sinv_foreign; eauto using t_sinv|exact N].
Qed.
Print Assumptions C167_to_string.
(** There and back again, with all characters used. *)
Theorem C167_round_trip (v : Z) :
  (- 2 ^ 63 <= v < 2 ^ 63 -> stol (dec_text v) 10 = Ok (v, ssize (dec_text v))) /\
  (0 <= v < 2 ^ 64 -> stoul (dec_text v) 10 = Ok (v, ssize (dec_text v))) /\
  (- 2 ^ 31 <= v < 2 ^ 31 -> stoi (dec_text v) 10 = Ok (v, ssize (dec_text v))).
Proof.
  pose proof (fun H => C167_value (dec_text v) 10 v _ ltac:(lia) (dec_text_number v H)) as Q. unfold ssize.
  split; [|split]; intros R; apply Q; lia.
Qed.
Print Assumptions C167_round_trip.

(** 0x in front of the digits is skipped in base 16 and means base 16 in base 0; in base 0 any other
    0 in front means octal, and no 0 decimal. *)
Theorem C167_prefix (sp sg ds rest : list Z) (m n base : Z) :
  Forall is_white sp -> no_digit rest -> (sg = [] /\ n = m \/ sg = [43] /\ n = m \/ sg = [45] /\ n = - m) ->
  - 2 ^ 63 <= n < 2 ^ 63 ->
  (forall x, x = 120 \/ x = 88 -> base = 0 \/ base = 16 -> numeral 16 ds m ->
     stol (sp ++ sg ++ [48; x] ++ ds ++ rest) base = Ok (n, ssize (sp ++ sg ++ [48; x] ++ ds))) /\
  (forall d, d <> 48 -> numeral 10 (d :: ds) m ->
     stol (sp ++ sg ++ (d :: ds) ++ rest) 0 = Ok (n, ssize (sp ++ sg ++ d :: ds))) /\
  (numeral 8 (48 :: ds) m -> stol (sp ++ sg ++ (48 :: ds) ++ rest) 0 = Ok (n, ssize (sp ++ sg ++ 48 :: ds))).
Proof.
  intros Hsp Hr Hsg R.
  assert (N : exists neg : bool, (sg = [] /\ neg = false \/ sg = [43] /\ neg = false \/ sg = [45] /\ neg = true) /\ fin_long neg m = n).
  { unfold fin_long, clamp_long. destruct Hsg as [(-> & ->)|[(-> & ->)|(-> & ->)]]; [exists false|exists false|exists true]; (split; [tauto|lia]). }
  destruct N as (neg & Hs & <-). unfold stol, ssize. split; [|split].
  - intros x Hx Hb Hn. cbn [app]. rewrite (strto_hex fin_long sp sg neg x ds m rest base) by assumption. reflexivity.
  - intros d Hd Hn. rewrite (strto_dec fin_long sp sg neg d ds m rest) by assumption. reflexivity.
  - intros Hn. rewrite (strto_oct fin_long sp sg neg ds m rest) by assumption. reflexivity.
Qed.
Print Assumptions C167_prefix.
(** " -0x1Fz" in base 0, "017," and "19" *)
Example C167_prefix_cases :
  stol [32; 45; 48; 120; 49; 70; 44] 0 = Ok (-31, 6) /\ stol [48; 49; 55; 44] 0 = Ok (15, 3) /\ stol [49; 57] 0 = Ok (19, 2).
Proof. vm_compute. auto. Qed.

(** ** C168: errors *)
(** A number that does not fit int comes back as another one; one that does
    not fit long as the nearest long; no number as 0; nothing is reported. *)
Theorem C168_stoi_refuted (v : Z) : 2 ^ 31 <= v < 2 ^ 32 -> stoi (dec_text v) 10 = Ok (v - 2 ^ 32, ssize (dec_text v)).
Proof.
  intros R. unfold stoi. destruct (C167_round_trip v) as (E & _). rewrite E by lia. cbn [bind]. do 2 f_equal.
  unfold to_int, u32. change two32 with (2 ^ 32). rewrite Z.mod_small by lia. replace (v <? 2 ^ 31) with false by lia. reflexivity.
Qed.
Print Assumptions C168_stoi_refuted.
Theorem C168_range_refuted (v : Z) : 2 ^ 63 <= v < 2 ^ 64 -> stol (dec_text v) 10 = Ok (2 ^ 63 - 1, ssize (dec_text v)).
Proof.
  intros R. rewrite (stol_ok (dec_text v) 10 v _ ltac:(lia) (dec_text_number v ltac:(lia))). unfold clamp_long, ssize. do 2 f_equal. lia.
Qed.
Print Assumptions C168_range_refuted.
Theorem C168_no_number_refuted (s : list Z) (base : Z) : 2 <= base <= 36 -> no_digit s ->
  (forall c t, s = c :: t -> ~ is_white c /\ c <> 43 /\ c <> 45) -> stol s base = Ok (0, 0).
Proof. exact (stol_none s base). Qed.
Print Assumptions C168_no_number_refuted.
(** stoul of a negative number wraps around. *)
Theorem C168_negative_refuted (n : Z) : 0 < n < 2 ^ 64 -> stoul (dec_text (- n)) 10 = Ok (2 ^ 64 - n, ssize (dec_text (- n))).
Proof.
  intros R. rewrite (stoul_ok (dec_text (- n)) 10 (- n) _ ltac:(lia) (dec_text_number (- n) ltac:(lia))).
  replace (Z.abs (- n) <? 2 ^ 64) with true by lia. unfold ssize, u64. do 2 f_equal. change two64 with (2 ^ 64).
  symmetry. apply (Z.mod_unique _ _ (-1)); lia.
Qed.
Print Assumptions C168_negative_refuted.

(** ** C169: parts *)
Theorem C169_compare (s t : list Z) (s1 l1 s2 l2 : Z) : 0 <= s1 -> 0 <= l1 -> s1 + l1 < 2 ^ 64 -> 0 <= s2 -> 0 <= l2 -> s2 + l2 < 2 ^ 64 ->
  compare_sub s s1 l1 t = Ok (str_compare (part_of s s1 l1) t) /\
  compare_sub2 s s1 l1 t s2 l2 = Ok (str_compare (part_of s s1 l1) (part_of t s2 l2)).
Proof. intros. split; [now apply compare_sub_ok|now apply compare_sub2_ok]. Qed.
Print Assumptions C169_compare.
(** copy writes the part, copyto the part and a zero; nothing else of the
    caller's array changes. *)
Theorem C169_copy (s buf : list Z) (n start : Z) : 0 < n -> 0 <= start <= ssize s -> n <= ssize buf ->
  exists x rest, s_copy s buf n start = Ok (x ++ rest, ssize x) /\ x = part_of s start n /\
    ssize x = Z.min n (ssize s - start) /\ rest = skipn (length x) buf.
Proof.
  intros H1 H2 H3. destruct (s_copy_ok s buf n start H1 H2 H3) as (E & L).
  exists (part_of s start n), (skipn (length (part_of s start n)) buf). auto.
Qed.
Print Assumptions C169_copy.
Theorem C169_copyto (s buf : list Z) (n start : Z) : 2 <= n < 2 ^ 64 -> 0 <= start <= ssize s -> n <= ssize buf ->
  exists x rest, s_copyto s buf n start = Ok (x ++ 0 :: rest, ssize x) /\ x = part_of s start (n - 1) /\
    ssize x = Z.min (n - 1) (ssize s - start) /\ rest = skipn (S (length x)) buf.
Proof.
  intros H1 H2 H3. destruct (s_copyto_ok s buf n start H1 H2 H3) as (c & E & -> & L).
  exists (part_of s start (n - 1)), (skipn (S (length (part_of s start (n - 1)))) buf). auto.
Qed.
Print Assumptions C169_copyto.

(** ** C170 *)
(** copyto into an array of one byte fails an assertion, and with size 0 it
    writes the whole string and a zero. *)
Theorem C170_copyto_refuted (s buf : list Z) (start : Z) : 0 <= start <= ssize s ->
  s_copyto s buf 1 start = UB /\ (ssize buf <= ssize s - start -> ssize s < 2 ^ 63 -> s_copyto s buf 0 start = UB).
Proof.
  intros Hs. split; [reflexivity|]. intros Hb Hl. unfold s_copyto, s_copy. replace (u64 (0 - 1)) with (2 ^ 64 - 1) by reflexivity.
  replace ((2 ^ 64 - 1 =? 0) || (ssize s <? start)) with false by lia.
  rewrite Z.min_r by lia. unfold iat. rewrite Z.min_l by lia.
  set (x := firstn _ _). assert (Lx : ssize x = ssize s - start).
  { unfold x, ssize in *. rewrite firstn_length, skipn_length. lia. }
  unfold put_front. destruct (Nat.leb_spec (length x) (length buf)) as [Q|Q]; [|reflexivity]. cbn [bind].
  assert (Eq : skipn (length x) buf = []) by (apply skipn_all2; unfold ssize in *; lia). rewrite Eq, app_nil_r.
  unfold wr. replace (Z.to_nat (ssize s - start)) with (length x) by (unfold ssize in *; lia).
  replace (upd x (length x) 0) with (@None (list Z)); [reflexivity|]. clear. induction x as [|y x IH]; [reflexivity|]. cbn. now rewrite <- IH.
Qed.
Print Assumptions C170_copyto_refuted.
(** A length of SIZE_MAX - "to the end" with std::string - wraps around: the
    range is negative, from the second character on. *)
Theorem C170_compare_refuted (s t : list Z) (start : Z) : 1 <= start <= ssize s -> ssize s < 2 ^ 63 -> compare_sub s start (2 ^ 64 - 1) t = UB.
Proof.
  intros H L. unfold compare_sub, u64. change two64 with (2 ^ 64).
  replace ((start + (2 ^ 64 - 1)) mod 2 ^ 64) with (start - 1) by (apply (Z.mod_unique _ _ 1); lia).
  unfold iat. replace (_ <=? _) with false by lia. reflexivity.
Qed.
Print Assumptions C170_compare_refuted.

(** ** Not vacuous *)
Example points_to_case : points_to (Some (4096, [97; 98; 0; 99])) [97; 98] /\ lt_c [97] (Some (4096, [97; 98; 0; 99])) = Ok true.
Proof. split; [|reflexivity]. exists 4096, [99]. split; [reflexivity|]. repeat (constructor; [discriminate|]). constructor. Qed.
Example number_case : number_at [32; 45; 102; 70; 46] 16 (-255) 4 /\ stol [32; 45; 102; 70; 46] 16 = Ok (-255, 4) /\
  dec_text (-2 ^ 63) = [45; 57; 50; 50; 51; 51; 55; 50; 48; 51; 54; 56; 53; 52; 55; 55; 53; 56; 48; 56].
Proof.
  split; [|split; vm_compute; reflexivity]. exists [32], [45], [102; 70], [46], 255. split; [reflexivity|]. split; [repeat constructor|].
  split.
  { split; [discriminate|]. exists [15; 15]. split.
    - constructor; [right; split; [lia|left; reflexivity]|]. constructor; [right; split; [lia|right; reflexivity]|constructor].
    - split; [repeat constructor; lia|reflexivity]. }
  split; [intros d; unfold digit_is; lia|]. split; [right; right; split; reflexivity|reflexivity].
Qed.
Definition plus_sample : list fop := [FFormat 0 (Some [49; 50; 51]); FFormat 1 (Some [120])].
Example plus_case : fops_pre text (repeat [] 3) plus_sample /\ fcareful env0 nul0 2 text (repeat [] 3) (start 3) plus_sample /\
  exists h ms h' m0 m1 m2, frun env0 nul0 2 (start 3) plus_sample = Ok (h, ms) /\ plus_into env0 nul0 (h, ms) 2 0 1 = Ok (h', [m0; m1; m2]) /\
    mb_bytes h' m2 = Ok (map Some [49; 50; 51; 120]).
Proof.
  split.
  { unfold plus_sample. cbn [fops_pre]. split; [split; vm_compute; [lia|reflexivity]|]. split; [split; vm_compute; [lia|reflexivity]|]. exact I. }
  split.
  { unfold plus_sample. repeat match goal with
    | |- fcareful ?e ?n ?f ?h ?ss ?s (?o :: ?t) =>
      change (fcareful_op h ss (snd s) o /\ forall s', fstep e n f s o = Ok s' -> fcareful e n f h (fspec_step h ss o) s' t); split;
      [try exact I; try (intros m Em; vm_compute in Em; injection Em as <-; split; [vm_compute; reflexivity|intros E; try discriminate E; vm_compute; reflexivity])
      |let s' := fresh "s" in let E := fresh "E" in intros s' E; vm_compute in E; injection E as <-]
    end. exact I. }
  eexists _, _, _, _, _, _. split; [vm_compute; reflexivity|]. split; vm_compute; reflexivity.
Qed.
Example copy_case : s_copyto [104; 101; 108; 108; 111] [1; 2; 3; 4] 3 1 = Ok ([101; 108; 0; 4], 2).
Proof. reflexivity. Qed.
