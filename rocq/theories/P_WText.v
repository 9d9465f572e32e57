(** * P_WText: characters, wide characters and bitsets in text streams (C150-C153). *)
From Verif Require Import Base UtilModel StoreModel MemModel StringModel Utf8Model Utf8Spec Utf8Proofs BitsetModel BitsetSpec BitsetProofs StreamModel FileModel
  OStrModel OStrSpec OStrRun OStrExt IstrModel IstrSpec IstrProofs IstrRun WTextModel WTextSpec WTextProofs VectorSpec P_Text.
From Coq Require Import ZArith ZifyBool ZifyNat Lia.
Local Open Scope Z_scope.

Lemma chars_ext p q l : (forall c, p c = q c) -> chars_of p l = chars_of q l.
Proof. intros E. apply filter_ext. intros c. rewrite E. reflexivity. Qed.
Lemma default_set txt after : set_delimiters [32; 9; 10; 13; 59; 58; 44; 46; 63] (iss_new txt after) = iss_new txt after.
Proof. reflexivity. Qed.

(** ** C150: is >> c repeatedly gives the characters that are not delimiters, in
    order, and then 0 with the stream at its end. *)
Theorem C150_memory : forall dl txt after fuel n (isd := fun c => existsb (Z.eqb c) (0 :: dl)),
  Z.of_nat (length txt) < 2 ^ 61 -> (length txt + 1 < fuel)%nat -> (length dl < 15)%nat -> (n <= length (chars_of isd txt))%nat ->
  exists s' s'' c, times n (iread_char iss_underflow fuel) (set_delimiters dl (iss_new txt after)) = Ok (s', Val (firstn n (chars_of isd txt))) /\ t_state s' = 0 /\
    iread_char iss_underflow fuel s' = Ok (s'', Val c) /\
    (n = length (chars_of isd txt) -> c = 0 /\ t_state s'' = Z.lor failbit eofbit).
Proof.
  intros dl txt after fuel n isd H Hf Hd Hn. set (s := set_delimiters dl (iss_new txt after)).
  assert (D : forall c, isd c = is_delim s c) by (intros c; symmetry; apply is_delim_set, Hd).
  rewrite (chars_ext isd (is_delim s) txt D) in *.
  destruct (chars_ok iss_underflow IInv IInv_view IInv_move IInv_gc IInv_state IInv_uf fuel n s txt (IInv_set dl _ _ (IInv_new txt after H)) Hf (first_delim dl _ Hd) Hn) as (s' & rest & E & H' & C' & L' & K' & S').
  assert (Dl : is_delim s' = is_delim s) by (unfold is_delim; destruct K' as (-> & _); reflexivity).
  assert (Dn : t_delims s' = t_delims s) by apply K'.
  destruct (char_ok iss_underflow IInv IInv_view IInv_move IInv_gc IInv_state IInv_uf fuel s' rest H' ltac:(lia)) as (s'' & r & E2 & _ & _ & _ & _ & S2).
  { rewrite Dl, Dn. apply first_delim, Hd. }
  eexists s', s'', _. split; [exact E|]. split; [apply S'; reflexivity|]. split; [exact E2|]. rewrite Dl, C' in *. intros ->. rewrite skipn_all in *. split; [reflexivity|exact S2].
Qed.
Print Assumptions C150_memory.
Theorem C150_file : forall dl sz f fuel n (isd := fun c => existsb (Z.eqb c) (0 :: dl)),
  readable f -> Z.of_nat sz < 2 ^ 60 -> (length (f_in f) + 1 < fuel)%nat -> (length dl < 15)%nat -> (n <= length (chars_of isd (f_in f)))%nat ->
  exists s' s'' c, times n (iread_char ifs_underflow fuel) (set_delimiters dl (ifs_new sz f)) = Ok (s', Val (firstn n (chars_of isd (f_in f)))) /\ t_state s' = 0 /\
    iread_char ifs_underflow fuel s' = Ok (s'', Val c) /\
    (n = length (chars_of isd (f_in f)) -> c = 0 /\ t_state s'' = Z.lor failbit eofbit).
Proof.
  intros dl sz f fuel n isd R H Hf Hd Hn. set (s := set_delimiters dl (ifs_new sz f)).
  assert (D : forall c, isd c = is_delim s c) by (intros c; symmetry; apply is_delim_set, Hd).
  rewrite (chars_ext isd (is_delim s) _ D) in *.
  destruct (chars_ok ifs_underflow FInv FInv_view FInv_move FInv_gc FInv_state FInv_uf fuel n s _ (FInv_set dl _ _ (FInv_new sz f R H)) Hf (first_delim dl _ Hd) Hn) as (s' & rest & E & H' & C' & L' & K' & S').
  assert (Dl : is_delim s' = is_delim s) by (unfold is_delim; destruct K' as (-> & _); reflexivity).
  assert (Dn : t_delims s' = t_delims s) by apply K'.
  destruct (char_ok ifs_underflow FInv FInv_view FInv_move FInv_gc FInv_state FInv_uf fuel s' rest H' ltac:(lia)) as (s'' & r & E2 & _ & _ & _ & _ & S2).
  { rewrite Dl, Dn. apply first_delim, Hd. }
  eexists s', s'', _. split; [exact E|]. split; [apply S'; destruct R as (Rs & _); exact Rs|]. split; [exact E2|]. rewrite Dl, C' in *. intros ->. rewrite skipn_all in *. split; [reflexivity|exact S2].
Qed.
Print Assumptions C150_file.
Example C150_case : exists s', times 3 (iread_char iss_underflow 20) (iss_new [32; 97; 44; 32; 98; 99; 10] []) = Ok (s', Val [97; 98; 99]).
Proof. eexists. vm_compute. reflexivity. Qed.

(** ** C151: a bitset read from text: the characters that are not delimiters
    give the bits from the highest down, '1' a one and everything else a zero;
    the bits a short text does not reach keep their values and the stream fails. *)
Theorem C151_read : forall sz dl txt after fuel ws (isd := fun c => existsb (Z.eqb c) (0 :: dl)) (cs := chars_of isd txt),
  Z.of_nat (length txt) < 2 ^ 61 -> (length txt + 1 < fuel)%nat -> (length dl < 15)%nat ->
  length ws = nwords sz -> Forall (fun w => 0 <= w < 2 ^ 32) ws ->
  exists s' ws', bs_text_read iss_underflow sz fuel sz ws (set_delimiters dl (iss_new txt after)) = Ok (s', Val ws') /\
    (forall n, (n < sz)%nat -> bs_test sz ws' n = if (sz - 1 - n <? length cs)%nat then Ok (nth (sz - 1 - n) cs 0 =? 49) else bs_test sz ws n) /\
    (t_state s' = 0 <-> (sz <= length cs)%nat).
Proof.
  intros sz dl txt after fuel ws isd cs H Hf Hd Lw Fw. set (s := set_delimiters dl (iss_new txt after)).
  assert (D : forall c, isd c = is_delim s c) by (intros c; symmetry; apply is_delim_set, Hd).
  unfold cs. rewrite (chars_ext isd (is_delim s) txt D).
  assert (HB : Binv sz false ws (firstn sz (bits ws))) by (split; [exact Lw|split; [exact Fw|split; [reflexivity|discriminate]]]).
  destruct (bs_read_ok iss_underflow IInv IInv_view IInv_move IInv_gc IInv_state IInv_uf sz fuel sz ws _ s txt (le_n _) HB (IInv_set dl _ _ (IInv_new txt after H)) Hf (first_delim dl _ Hd) eq_refl)
    as (s' & ws' & l' & E & B' & N' & S' & _).
  exists s', ws'. split; [exact E|]. split.
  - intros n Hn. rewrite (bs_test_ok sz _ _ _ n B' Hn), N', (bs_test_ok sz _ _ _ n HB Hn). replace (n <? sz)%nat with true by lia. cbn [andb]. destruct (_ <? _)%nat; reflexivity.
  - rewrite S'. destruct (Nat.leb_spec sz (length (chars_of (is_delim s) txt))); split; intros; try lia; discriminate.
Qed.
Print Assumptions C151_read.
(** What is written to a text stream and read back is the same bitset. *)
Theorem C151_roundtrip : forall e nul h f sz a b fuel after op s s1,
  has_nul h nul -> oss_default e nul h f = Ok s -> enough_memory e -> Z.of_nat sz + 2 <= 2 ^ 31 -> (sz + 1 < fuel)%nat ->
  length a = nwords sz -> Forall (fun w => 0 <= w < 2 ^ 32) a -> length b = nwords sz -> Forall (fun w => 0 <= w < 2 ^ 32) b ->
  bs_text_op sz a = Ok op -> oss_step e nul op s = Ok (s1, Val tt) ->
  exists s2 txt s' b', oss_str e nul s1 = Ok (s2, Val (map Some txt)) /\
    bs_text_read iss_underflow sz fuel sz b (iss_new txt after) = Ok (s', Val b') /\ t_state s' = 0 /\
    forall n, (n < sz)%nat -> bs_test sz b' n = bs_test sz a n.
Proof.
  intros e nul h f sz a b fuel after op s s1 Hn Eo Hm Hsz Hfu La Fa Lb Fb Et Es.
  assert (HA : Binv sz false a (firstn sz (bits a))) by (split; [exact La|split; [exact Fa|split; [reflexivity|discriminate]]]).
  pose proof (Binv_length sz _ _ _ HA) as Ll. set (l := firstn sz (bits a)) in *.
  unfold bs_text_op in Et. rewrite (bs_to_string_ok sz false a l HA) in Et. cbn [bind] in Et. injection Et as <-.
  set (t := text_of_bits l) in *. assert (Lt : length t = sz) by (unfold t, text_of_bits; rewrite rev_length, map_length; exact Ll).
  destruct (C51_ostringstream e nul h f [OWrite t] s Hn Eo) as (s1' & rs & W & s2 & R & _ & O & Q).
  { unfold total_bytes. cbn [map bytes_of fold_right list_sum flat_map app]. rewrite ?app_nil_r. lia. }
  destruct (Q Hm) as (EW & _). cbn [flat_map bytes_of] in EW. rewrite app_nil_r in EW. subst W.
  cbn [orun] in R. rewrite Es in R. cbn [bind] in R. injection R as <- _.
  assert (Hc : chars_of (fun c => existsb (Z.eqb c) [0; 32; 9; 10; 13; 59; 58; 44; 46; 63]) t = t).
  { assert (F : Forall (fun c => c = 48 \/ c = 49) t).
    { unfold t, text_of_bits. apply Forall_forall. intros c Hc. apply in_rev, in_map_iff in Hc. destruct Hc as ([|] & <- & _); auto. }
    unfold chars_of. clear - F. induction F as [|c t Hc F IH]; [reflexivity|]. cbn [filter]. rewrite IH. destruct Hc as [-> | ->]; reflexivity. }
  destruct (C151_read sz [32; 9; 10; 13; 59; 58; 44; 46; 63] t after fuel b) as (s' & b' & E & T & St).
  { change (2 ^ 31) with 2147483648 in Hsz. change (2 ^ 61) with 2305843009213693952. lia. } { lia. } { cbn [length]; lia. } { exact Lb. } { exact Fb. }
  rewrite default_set in E. exists s2, t, s', b'. split; [exact O|]. split; [exact E|]. rewrite Hc in *. split; [apply St; lia|].
  intros n Hn'. rewrite T by exact Hn'. replace (sz - 1 - n <? length t)%nat with true by lia. rewrite (bs_test_ok sz _ _ _ n HA Hn'). f_equal.
  unfold t, text_of_bits. rewrite rev_nth by (rewrite map_length; lia). rewrite map_length, Ll. replace (sz - S (sz - 1 - n))%nat with n by lia.
  assert (En : forall k (q : list bool), (k < length q)%nat -> nth k (map (fun b : bool => if b then 49 else 48) q) 0 = if nth k q false then 49 else 48).
  { clear. induction k as [|k IH]; intros [|x q] H; cbn [length] in H; try lia; [reflexivity|]. cbn [map nth]. apply IH. lia. }
  rewrite En by lia. destruct (nth n l false); reflexivity.
Qed.
Print Assumptions C151_roundtrip.
Example C151_case : exists s', bs_text_read iss_underflow 5 20 5 [31] (iss_new [49; 32; 48; 49] []) = Ok (s', Val [23]) /\ t_state s' = 6.
Proof. eexists. split; vm_compute; reflexivity. Qed.
Example C151_roundtrip_case : exists op s s1, bs_text_op 5 [19] = Ok op /\ oss_default small_env lnul lit (mkf 0 0 [] [] []) = Ok s /\ oss_step small_env lnul op s = Ok (s1, Val tt) /\
  exists s2, oss_str small_env lnul s1 = Ok (s2, Val (map Some [49; 48; 48; 49; 49])).
Proof. eexists _, _, _. split; [vm_compute; reflexivity|]. split; [reflexivity|]. split; [vm_compute; reflexivity|]. eexists. vm_compute. reflexivity. Qed.

(** ** C152: wide characters read from memory: any characters below 2^31 that
    are not delimiters, with any delimiters between them, are read back from
    their UTF-8 text, and then the stream is at its end. *)
Theorem C152_read : forall dl l trail after fuel (isd := fun c => existsb (Z.eqb c) (0 :: dl)) (txt := wide_text l trail),
  Z.of_nat (length txt) < 2 ^ 61 -> (length txt + 1 < fuel)%nat -> (length dl < 15)%nat -> Forall (fun c => isd c = true) trail ->
  Forall (fun x => Forall (fun c => isd c = true) (fst x) /\ is_char (snd x) /\ isd (hd 0 (encode (snd x))) = false) l ->
  exists s' s'', times (length l) (iread_wchar iss_underflow fuel) (set_delimiters dl (iss_new txt after)) = Ok (s', Val (map snd l)) /\ t_state s' = 0 /\
    iread_wchar iss_underflow fuel s' = Ok (s'', Val 0) /\ t_state s'' = Z.lor failbit eofbit.
Proof.
  intros dl l trail after fuel isd txt H Hf Hd HT HF. set (s := set_delimiters dl (iss_new txt after)).
  assert (D : forall c, is_delim s c = isd c) by (intros c; apply is_delim_set, Hd).
  destruct (wide_ok fuel l trail s (IInv_set dl _ _ (IInv_new txt after H)) Hf (first_delim dl _ Hd)) as (s' & E & S' & I' & K').
  { rewrite D. reflexivity. }
  { eapply Forall_impl; [|exact HF]. intros (d, v) (A & B & C). cbn [fst snd] in *. rewrite D. split; [|split; [exact B|exact C]]. eapply Forall_impl; [|exact A]. intros c Hc. cbn beta. rewrite D. exact Hc. }
  { reflexivity. }
  assert (Dl : is_delim s' = is_delim s) by (unfold is_delim; destruct K' as (-> & _); reflexivity).
  assert (Dn : t_delims s' = t_delims s) by apply K'.
  destruct (at_end fuel s' trail I') as (s'' & E2 & S2).
  { enough ((length trail <= length txt)%nat) by lia. unfold txt. clear. induction l as [|(d, v) l IH]; cbn [wide_text]; [lia|]. rewrite !app_length. lia. }
  { rewrite Dl, Dn. apply first_delim, Hd. }
  { rewrite Dl. eapply Forall_impl; [|exact HT]. intros c Hc. cbn beta. rewrite D. exact Hc. }
  exists s', s''. auto.
Qed.
Print Assumptions C152_read.
(** Written to a text stream and read back. *)
Lemma wchar_ops_ok l : Forall is_char l -> exists ops, wchar_ops l = Ok ops /\ flat_map bytes_of ops = encode_all l.
Proof.
  induction 1 as [|v l Hv Hl (ops & E & B)]; [exists []; auto|]. cbn [wchar_ops]. unfold wchar_op. rewrite (utf8_out_ok v Hv). cbn [bind].
  rewrite E. cbn [bind]. eexists. split; [reflexivity|]. cbn [flat_map bytes_of]. rewrite B.
  rewrite utf8_bytes_len by (unfold is_char in Hv; lia). rewrite <- encode_length by exact Hv. rewrite Nat2Z.id, firstn_all. reflexivity.
Qed.
Theorem C152_roundtrip : forall e nul h f l fuel after ops s,
  has_nul h nul -> oss_default e nul h f = Ok s -> enough_memory e -> Z.of_nat (length (encode_all l)) + 2 <= 2 ^ 31 -> (length (encode_all l) + 1 < fuel)%nat ->
  Forall is_char l -> Forall (fun v => ~ In v [0; 32; 9; 10; 13; 59; 58; 44; 46; 63]) l -> wchar_ops l = Ok ops ->
  exists s1 rs s2 txt s', orun (oss_step e nul) ops s = Ok (s1, rs) /\ oss_str e nul s1 = Ok (s2, Val (map Some txt)) /\
    times (length l) (iread_wchar iss_underflow fuel) (iss_new txt after) = Ok (s', Val l) /\ t_state s' = 0.
Proof.
  intros e nul h f l fuel after ops s Hn Eo Hm Hsz Hfu HC HD Eops.
  destruct (wchar_ops_ok l HC) as (ops' & E' & B'). rewrite Eops in E'. injection E' as <-.
  destruct (C51_ostringstream e nul h f ops s Hn Eo) as (s1 & rs & W & s2 & R & _ & O & Q).
  { assert (T : total_bytes ops = length (flat_map bytes_of ops)). { unfold total_bytes. clear. induction ops as [|o ops IH]; [reflexivity|]. cbn [map flat_map]. rewrite app_length, <- IH. reflexivity. } rewrite T, B'. exact Hsz. }
  destruct (Q Hm) as (-> & _). rewrite B' in *.
  assert (Ew : wide_text (map (fun v => ([], v)) l) [] = encode_all l). { clear. unfold encode_all. induction l as [|v l IH]; cbn [map wide_text concat app]; [reflexivity|]. rewrite IH. reflexivity. }
  destruct (C152_read [32; 9; 10; 13; 59; 58; 44; 46; 63] (map (fun v => ([], v)) l) [] after fuel) as (s' & _ & E & St & _).
  { rewrite Ew. change (2 ^ 31) with 2147483648 in Hsz. change (2 ^ 61) with 2305843009213693952. lia. } { rewrite Ew. exact Hfu. } { cbn [length]; lia. } { constructor. }
  { apply Forall_map. apply Forall_forall. intros v Hv. cbn [fst snd]. split; [constructor|]. rewrite Forall_forall in HC, HD. split; [apply HC, Hv|].
    specialize (HC v Hv). specialize (HD v Hv). apply Bool.not_true_iff_false. intros Ex. apply existsb_exists in Ex. destruct Ex as (x & Hx & Ex). apply Z.eqb_eq in Ex. subst x.
    apply HD. assert (Hs : hd 0 (encode v) < 128). { cbn [In] in Hx. lia. }
    unfold encode in Hx, Hs. destruct (Z.ltb_spec v (2 ^ 7)); [exact Hx|].
    pose proof HC as (Hv0 & Hv1). exfalso. clear - Hs Hv0.
    repeat match type of Hs with context [if ?b then _ else _] => destruct b end; cbn [hd] in Hs;
      match type of Hs with context [v / ?d] => pose proof (Z.div_pos v d Hv0 ltac:(reflexivity)) end; lia. }
  rewrite map_length, map_map in E. rewrite default_set, Ew in E. cbn [snd] in E. rewrite map_id in E.
  exists s1, rs, s2, (encode_all l), s'. auto.
Qed.
Print Assumptions C152_roundtrip.
Example C152_case : exists s', times 3 (iread_wchar iss_underflow 30) (iss_new (wide_text [([], 233); ([32; 44], 97); ([10], 8364)] [32]) []) = Ok (s', Val [233; 97; 8364]).
Proof. eexists. vm_compute. reflexivity. Qed.
Example C152_roundtrip_case : exists ops s s1 rs s2, wchar_ops [8364; 97] = Ok ops /\ oss_default small_env lnul lit (mkf 0 0 [] [] []) = Ok s /\ orun (oss_step small_env lnul) ops s = Ok (s1, rs) /\
  oss_str small_env lnul s1 = Ok (s2, Val (map Some [226; 130; 172; 97])).
Proof. eexists _, _, _, _, _. split; [vm_compute; reflexivity|]. split; [reflexivity|]. split; [vm_compute; reflexivity|]. vm_compute. reflexivity. Qed.
(** A character cut off by the end of the text fails the stream, which stays
    before the character. *)
Theorem C152_cut : forall dl d v a b after fuel (isd := fun c => existsb (Z.eqb c) (0 :: dl)),
  Z.of_nat (length (d ++ a)) < 2 ^ 61 -> (length (d ++ a) + 1 < fuel)%nat -> (length dl < 15)%nat ->
  Forall (fun c => isd c = true) d -> is_char v -> isd (hd 0 (encode v)) = false -> encode v = a ++ b -> a <> [] -> b <> [] ->
  exists s' x, iread_wchar iss_underflow fuel (set_delimiters dl (iss_new (d ++ a) after)) = Ok (s', Val x) /\ t_state s' = failbit /\
    t_pos s' = Z.of_nat (length d).
Proof.
  intros dl d v a b after fuel isd H Hf Hd HD Hv Hh Hab Na Nb. set (s := set_delimiters dl (iss_new (d ++ a) after)).
  assert (D : forall c, is_delim s c = isd c) by (intros c; apply is_delim_set, Hd).
  destruct (at_cut fuel s d v a b (IInv_set dl _ _ (IInv_new (d ++ a) after H)) Hf (first_delim dl _ Hd)) as (s' & x & E & S & V & Z).
  { rewrite D. reflexivity. } { eapply Forall_impl; [|exact HD]. intros c Hc. cbn beta. rewrite D. exact Hc. } { exact Hv. } { rewrite D. exact Hh. } { exact Hab. } { exact Na. } { exact Nb. } { reflexivity. }
  exists s', x. split; [exact E|]. split; [exact S|]. destruct V as (pre & post & _ & P & Sz & _). unfold s in Z. cbn [set_delimiters iss_new t_size] in Z. rewrite app_length in Z. lia.
Qed.
Print Assumptions C152_cut.
Example C152_cut_case : exists s', iread_wchar iss_underflow 20 (iss_new [32; 226; 130] []) = Ok (s', Val (-30)) /\ t_state s' = failbit /\ t_pos s' = 1.
Proof. eexists. split; [vm_compute; reflexivity|]. split; reflexivity. Qed.

(** ** C153: the same over a file.  It does not hold: if read(2) returns the
    bytes of one character in two portions, the first portion is overwritten by
    the second. *)
Theorem C153_refuted : exists f s', readable f /\ f_in f = encode 8364 ++ encode 97 /\
  times 2 (iread_wchar ifs_underflow 20) (ifs_new 64 f) = Ok (s', Val [2; 0]).
Proof.
  exists (mkf 0 0 [] [226; 130; 172; 97] [SOk 0; SOk 10; SOk 10; SOk 10; SOk 10]). eexists.
  split; [repeat split; try reflexivity; [repeat constructor|cbn; lia]|]. split; [reflexivity|]. vm_compute; reflexivity.
Qed.
Print Assumptions C153_refuted.
