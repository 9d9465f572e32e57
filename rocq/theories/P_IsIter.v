(** * P_IsIter: istream_iterator (C125-C129). *)
From Verif Require Import Base UtilModel StreamModel FileModel SerialSpec SerialProofs FmtSpec IstrModel IstrSpec IstrProofs IstrRun IstrNum IsIterModel IsIterSpec IsIterProofs IsIterNum.
From Coq Require Import ZArith ZifyBool ZifyNat Lia.
Local Open Scope Z_scope.

(** ** C125: copying from an iterator over text visits every item followed by a delimiter *)
Theorem C125_words : forall dl txt after fuel (isd := fun c => existsb (Z.eqb c) (0 :: dl)),
  Z.of_nat (length txt) < 2 ^ 61 -> (length txt + 1 < fuel)%nat -> (length dl < 15)%nat -> Forall plain txt -> finished isd txt ->
  exists s', wi_all iss_underflow fuel (set_delimiters dl (iss_new txt after)) = Ok (s', Val (words isd txt)).
Proof.
  intros dl txt after fuel isd H Hf Hd HW HE. set (s := set_delimiters dl (iss_new txt after)).
  assert (D : forall c, isd c = is_delim s c) by (intros c; symmetry; apply is_delim_set, Hd).
  destruct (all_words iss_underflow IInv IInv_view IInv_move IInv_gc IInv_state IInv_uf fuel s txt (IInv_set dl _ _ (IInv_new txt after H)) Hf HW) as (s' & E).
  { unfold s. rewrite is_delim_set by exact Hd. reflexivity. } { apply first_delim, Hd. }
  exists s'. rewrite E. unfold visited. rewrite <- D, HE. rewrite (words_ext isd (is_delim s) txt D). reflexivity.
Qed.
Print Assumptions C125_words.
Example C125_words_case : exists s', wi_all iss_underflow 20 (iss_new [32; 97; 98; 32; 32; 99; 10] []) = Ok (s', Val [[97; 98]; [99]]).
Proof. eexists. vm_compute. reflexivity. Qed.
(** The same over a file, whatever portions read(2) returns. *)
Theorem C125_file_words : forall dl sz f fuel (isd := fun c => existsb (Z.eqb c) (0 :: dl)),
  readable f -> Z.of_nat sz < 2 ^ 60 -> (length (f_in f) + 1 < fuel)%nat -> (length dl < 15)%nat -> Forall plain (f_in f) -> finished isd (f_in f) ->
  exists s', wi_all ifs_underflow fuel (set_delimiters dl (ifs_new sz f)) = Ok (s', Val (words isd (f_in f))).
Proof.
  intros dl sz f fuel isd R H Hf Hd HW HE. set (s := set_delimiters dl (ifs_new sz f)).
  assert (D : forall c, isd c = is_delim s c) by (intros c; symmetry; apply is_delim_set, Hd).
  destruct (all_words ifs_underflow FInv FInv_view FInv_move FInv_gc FInv_state FInv_uf fuel s _ (FInv_set dl _ _ (FInv_new sz f R H)) Hf HW) as (s' & E).
  { unfold s. rewrite is_delim_set by exact Hd. reflexivity. } { apply first_delim, Hd. }
  exists s'. rewrite E. unfold visited. rewrite <- D, HE. rewrite (words_ext isd (is_delim s) _ D). reflexivity.
Qed.
Print Assumptions C125_file_words.
(** Integers, each followed by [d]. *)
Theorem C125_numbers : forall cast ts ns d after fuel (txt := terminated d ts),
  Forall2 integer_text ts ns -> Forall (fun n => - 2 ^ 63 <= n < 2 ^ 63) ns -> In d [32; 9; 10; 13; 59; 58; 44; 46; 63] ->
  Z.of_nat (length txt) < 2 ^ 61 -> (length txt + 1 < fuel)%nat ->
  exists s', ni_all iss_underflow cast fuel (iss_new txt (Some 0 :: after)) = Ok (s', Val (map cast ns)).
Proof.
  intros cast ts ns d after fuel txt H2 HR Hd HL Hf. set (s := iss_new txt (Some 0 :: after)).
  destruct (read_nums cast (Some 0 :: after) fuel d ts ns s [] [] fuel 0) as (s' & E).
  - cbn [app]. rewrite app_nil_r. exact (NInv_new (Some 0 :: after) txt HL).
  - cbn [app]. rewrite app_nil_r. exact Hf.
  - enough ((length ts <= length txt)%nat) by lia. unfold txt, terminated. clear. induction ts as [|t ts IH]; cbn [map concat length]; [lia|]. rewrite !app_length. cbn [length]. lia.
  - exact H2.
  - auto.
  - constructor.
  - destruct Hd as [<-|[<-|[<-|[<-|[<-|[<-|[<-|[<-|[<-|[]]]]]]]]]]; reflexivity.
  - destruct Hd as [<-|[<-|[<-|[<-|[<-|[<-|[<-|[<-|[<-|[]]]]]]]]]]; reflexivity.
  - intros c Hc. assert (In c [45;48;49;50;51;52;53;54;55;56;57]) as [<-|[<-|[<-|[<-|[<-|[<-|[<-|[<-|[<-|[<-|[<-|[]]]]]]]]]]]] by (cbn; lia); reflexivity.
  - exists 0, after. auto.
  - reflexivity.
  - exists s'. unfold ni_all, it_all, it_new, it_end. rewrite E. do 3 f_equal. clear - HR. induction HR as [|n ns Hn HR IH]; cbn [map]; [reflexivity|]. rewrite IH. do 2 f_equal. unfold clamp_long. lia.
Qed.
Print Assumptions C125_numbers.
Example C125_numbers_case : exists s', terminated 32 [[45; 49; 50]; [48]; [55]] = [45; 49; 50; 32; 48; 32; 55; 32] /\
  ni_all iss_underflow as_int 20 (iss_new (terminated 32 [[45; 49; 50]; [48]; [55]]) [Some 0]) = Ok (s', Val [-12; 0; 7]).
Proof. eexists. split; [reflexivity|]. vm_compute. reflexivity. Qed.

(** ** C126: ... and the last item even if nothing follows it: it is lost *)
Theorem C126_words_refuted : forall dl txt after fuel (isd := fun c => existsb (Z.eqb c) (0 :: dl)),
  Z.of_nat (length txt) < 2 ^ 61 -> (length txt + 1 < fuel)%nat -> (length dl < 15)%nat -> Forall plain txt -> ~ finished isd txt ->
  words isd txt <> [] /\
  exists s', wi_all iss_underflow fuel (set_delimiters dl (iss_new txt after)) = Ok (s', Val (removelast (words isd txt))).
Proof.
  intros dl txt after fuel isd H Hf Hd HW HE. set (s := set_delimiters dl (iss_new txt after)). unfold finished in HE. apply Bool.not_true_iff_false in HE.
  assert (D : forall c, isd c = is_delim s c) by (intros c; symmetry; apply is_delim_set, Hd).
  split; [apply words_nonempty; [reflexivity|exact HE]|].
  destruct (all_words iss_underflow IInv IInv_view IInv_move IInv_gc IInv_state IInv_uf fuel s txt (IInv_set dl _ _ (IInv_new txt after H)) Hf HW) as (s' & E).
  { unfold s. rewrite is_delim_set by exact Hd. reflexivity. } { apply first_delim, Hd. }
  exists s'. rewrite E. unfold visited. rewrite <- D, HE. rewrite (words_ext isd (is_delim s) txt D). reflexivity.
Qed.
Print Assumptions C126_words_refuted.
Example C126_words_case : exists s', wi_all iss_underflow 20 (iss_new [97; 98; 32; 99] []) = Ok (s', Val [[97; 98]]).
Proof. eexists. vm_compute. reflexivity. Qed.
Theorem C126_numbers_refuted : forall cast ts ns t n d after fuel (txt := terminated d ts ++ t),
  Forall2 integer_text ts ns -> integer_text t n -> Forall (fun n => - 2 ^ 63 <= n < 2 ^ 63) ns -> In d [32; 9; 10; 13; 59; 58; 44; 46; 63] ->
  Z.of_nat (length txt) < 2 ^ 61 -> (length txt + 1 < fuel)%nat ->
  exists s', ni_all iss_underflow cast fuel (iss_new txt (Some 0 :: after)) = Ok (s', Val (map cast ns)).
Proof.
  intros cast ts ns t n d after fuel txt H2 Ht HR Hd HL Hf. set (s := iss_new txt (Some 0 :: after)).
  destruct (read_nums cast (Some 0 :: after) fuel d ts ns s [] t fuel 0) as (s' & E).
  - cbn [app]. exact (NInv_new (Some 0 :: after) txt HL).
  - cbn [app]. exact Hf.
  - enough ((length ts <= length txt)%nat) by lia. unfold txt. rewrite app_length. unfold terminated. clear. induction ts as [|u ts IH]; cbn [map concat length]; [lia|]. rewrite !app_length in *. cbn [length]. lia.
  - exact H2.
  - right. exists n. exact Ht.
  - constructor.
  - destruct Hd as [<-|[<-|[<-|[<-|[<-|[<-|[<-|[<-|[<-|[]]]]]]]]]]; reflexivity.
  - destruct Hd as [<-|[<-|[<-|[<-|[<-|[<-|[<-|[<-|[<-|[]]]]]]]]]]; reflexivity.
  - intros c Hc. assert (In c [45;48;49;50;51;52;53;54;55;56;57]) as [<-|[<-|[<-|[<-|[<-|[<-|[<-|[<-|[<-|[<-|[<-|[]]]]]]]]]]]] by (cbn; lia); reflexivity.
  - exists 0, after. auto.
  - reflexivity.
  - exists s'. unfold ni_all, it_all, it_new, it_end. rewrite E. do 3 f_equal. clear - HR. induction HR as [|m ns Hn HR IH]; cbn [map]; [reflexivity|]. rewrite IH. do 2 f_equal. unfold clamp_long. lia.
Qed.
Print Assumptions C126_numbers_refuted.

(** ** C127: over binary data, with exceptions off *)
(** Copying gives all the values; bytes that do not make a whole one are left. *)
Theorem C127_copy : forall dbg w vs tail st fuel (data := concat (map (bytes_le w) vs) ++ tail),
  (0 < w)%nat -> Forall (fun v => 0 <= v < 256 ^ Z.of_nat w) vs -> (length tail < w)%nat -> Z.of_nat (length data) < 2 ^ 62 -> (length vs < fuel)%nat ->
  exists s', bi_all dbg w fuel (mkis data 0 st 0) = Ok (s', Val vs).
Proof.
  intros dbg w vs tail st fuel data Hw Hv Ht HL Hf.
  destruct (copy_bin dbg w tail st 0 Hw ltac:(unfold zlen; lia) vs [] fuel 0) as (E & _); [split; assumption|exact Hf|].
  destruct (E eq_refl) as (s' & E'). exists s'. exact E'.
Qed.
Print Assumptions C127_copy.
Example C127_copy_case : exists s', bi_all true 2 9 (mkis [1; 0; 2; 1; 9] 0 0 0) = Ok (s', Val [1; 258]).
Proof. eexists. vm_compute. reflexivity. Qed.
(** From the value with index [a] on, "+= k" gives the value [k] further, "-= k"
    then the one with index [a] again, and "--" the one before. *)
Theorem C127_steps : forall dbg w vs tail st e a k x y (data := concat (map (bytes_le w) vs) ++ tail),
  (0 < w)%nat -> Forall (fun v => 0 <= v < 256 ^ Z.of_nat w) vs -> (length tail < w)%nat -> Z.of_nat (length data) < 2 ^ 62 ->
  nth_error vs a = Some x -> nth_error vs (a + k) = Some y ->
  exists s1 s2 s3,
    (i <~ bi_new dbg w ;; bi_plus dbg w a i) (mkis data 0 st e) = Ok (s1, Val (mkiter true x)) /\
    bi_plus dbg w k (mkiter true x) s1 = Ok (s2, Val (mkiter true y)) /\
    bi_minus dbg w (Z.of_nat k) (mkiter true y) s2 = Ok (s3, Val (mkiter true x)) /\
    (forall z, (0 < k)%nat -> nth_error vs (a + k - 1) = Some z -> exists s4, bi_decr dbg w (mkiter true y) s2 = Ok (s4, Val (mkiter true z))).
Proof.
  intros dbg w vs tail st e a k x y data Hw Hv Ht HL Ha Hk.
  assert (T : zlen tail < Z.of_nat w) by (unfold zlen; lia).
  assert (Cut : forall i z, nth_error vs i = Some z -> vs = firstn i vs ++ z :: skipn (S i) vs).
  { clear. intros i z. revert vs. induction i as [|i IH]; intros [|v vs] E; try discriminate; cbn [nth_error firstn skipn app] in *; [congruence|]. f_equal. apply IH, E. }
  assert (Fit : forall l m, l ++ m = vs -> fit w tail l m) by (intros l m El; unfold fit; rewrite El; split; assumption).
  destruct vs as [|v0 vs0]; [destruct a; discriminate|].
  assert (La : (a <= length vs0)%nat) by (assert ((a < length (v0 :: vs0))%nat) by (apply nth_error_Some; congruence); cbn [length] in *; lia).
  assert (Lk : (a + k <= length vs0)%nat) by (assert ((a + k < length (v0 :: vs0))%nat) by (apply nth_error_Some; congruence); cbn [length] in *; lia).
  pose proof (Read_step dbg w tail st e Hw [] v0 vs0 0 (Fit [] (v0 :: vs0) eq_refl)) as R0.
  destruct (plus_ok dbg w tail st e Hw a [] v0 vs0 La (Fit [v0] vs0 eq_refl)) as (x' & Ex & P0). rewrite Ha in Ex. injection Ex as <-.
  pose proof (Cut a x Ha) as Ca. set (pre := firstn a (v0 :: vs0)) in *. set (post := skipn (S a) (v0 :: vs0)) in *.
  assert (S1 : at_pos w tail st e ([] ++ firstn (S a) (v0 :: vs0)) (skipn a vs0) = at_pos w tail st e (pre ++ [x]) post).
  { change (skipn a vs0) with post. f_equal. cbn [app]. rewrite Ca. replace (S a) with (length pre + 1)%nat at 1 by (unfold pre; rewrite firstn_length; cbn [length]; lia).
    rewrite firstn_app, firstn_all2 by lia. replace (length pre + 1 - length pre)%nat with 1%nat by lia. reflexivity. }
  assert (Lp : length pre = a) by (unfold pre; rewrite firstn_length; cbn [length]; lia).
  assert (Lq : (k <= length post)%nat) by (unfold post; rewrite skipn_length; cbn [length]; lia).
  assert (Fx : fit w tail (pre ++ [x]) post) by (apply Fit; rewrite <- app_assoc; symmetry; exact Ca).
  destruct (plus_ok dbg w tail st e Hw k pre x post Lq Fx) as (y' & Ey & P1).
  assert (y' = y). { rewrite Ca, nth_error_app2 in Hk by lia. rewrite Lp in Hk. replace (a + k - a)%nat with k in Hk by lia. rewrite Hk in Ey. congruence. } subst y'.
  assert (Fs : forall l m, l = pre ++ x :: firstn k post -> m = skipn k post -> fit w tail l m).
  { intros l m -> ->. apply Fit. rewrite <- app_assoc. cbn [app]. rewrite firstn_skipn. symmetry. exact Ca. }
  exists (at_pos w tail st e (pre ++ [x]) post), (at_pos w tail st e (pre ++ x :: firstn k post) (skipn k post)), (at_pos w tail st e (pre ++ [x]) (firstn k post ++ skipn k post)).
  split; [|split; [exact P1|split]].
  - unfold iobind, bi_new. change (mkis data 0 st e) with (at_pos w tail st e [] (v0 :: vs0)). rewrite R0. cbn [bind]. rewrite P0. rewrite S1. reflexivity.
  - apply back_ok; [exact Hw|apply Fs; reflexivity|]. rewrite firstn_length. lia.
  - intros z Kp Hz. rewrite decr_is_minus. change 1 with (Z.of_nat 1).
    destruct k as [|k]; [lia|].
    assert (Cz : exists q, pre ++ x :: firstn (S k) post = q ++ [z; y]).
    { exists (firstn (a + k) (v0 :: vs0)). assert (Q : pre ++ x :: firstn (S k) post = firstn (a + k + 2) (v0 :: vs0)).
      { rewrite Ca. replace (a + k + 2)%nat with (length pre + S (S k))%nat by lia. rewrite firstn_app_2. reflexivity. }
      rewrite Q. replace (a + S k - 1)%nat with (a + k)%nat in Hz by lia. replace (a + S k)%nat with (S (a + k)) in Hk by lia. clear - Hz Hk.
      revert Hz Hk. generalize (v0 :: vs0). generalize (a + k)%nat. intros i. induction i as [|i IH]; intros l E1 E2.
      - destruct l as [|b [|c l]]; try discriminate. cbn in *. congruence.
      - destruct l as [|b l]; [discriminate|]. cbn [Nat.add firstn app]. f_equal. apply IH; assumption. }
    destruct Cz as (q & Eq). rewrite Eq. change (q ++ [z; y]) with (q ++ z :: [y]). eexists. apply back_ok; [exact Hw| |reflexivity].
    change (q ++ z :: [y]) with (q ++ [z; y]). rewrite <- Eq. apply Fs; reflexivity.
Qed.
Print Assumptions C127_steps.
Example C127_steps_case : exists s1 s2 s3, (i <~ bi_new true 2 ;; bi_plus true 2 2 i) (mkis [1; 0; 2; 0; 3; 0] 0 0 7) = Ok (s1, Val (mkiter true 3)) /\
  bi_decr true 2 (mkiter true 3) s1 = Ok (s2, Val (mkiter true 2)) /\ bi_minus true 2 2 (mkiter true 3) s1 = Ok (s3, Val (mkiter true 1)).
Proof. eexists _, _, _. split; [vm_compute; reflexivity|]. split; vm_compute; reflexivity. Qed.

(** ** C128: ... and with exceptions() as they are: the end is an exception *)
Theorem C128_end_refuted : forall dbg w vs tail fuel (data := concat (map (bytes_le w) vs) ++ tail),
  (0 < w)%nat -> Forall (fun v => 0 <= v < 256 ^ Z.of_nat w) vs -> (length tail < w)%nat -> Z.of_nat (length data) < 2 ^ 62 -> (length vs < fuel)%nat ->
  exists s', bi_all dbg w fuel (is_open data) = Ok (s', Thrown stream_bounds).
Proof.
  intros dbg w vs tail fuel data Hw Hv Ht HL Hf.
  destruct (copy_bin dbg w tail 0 7 Hw ltac:(unfold zlen; lia) vs [] fuel 0) as (_ & E); [split; assumption|exact Hf|].
  destruct (E eq_refl) as (s' & E'). exists s'. exact E'.
Qed.
Print Assumptions C128_end_refuted.
Example C128_end_case : exists s', bi_all true 2 9 (is_open [1; 0; 2; 1]) = Ok (s', Thrown stream_bounds).
Proof. eexists. vm_compute. reflexivity. Qed.

(** ** C129: the difference of two iterators is the number of steps between them: it is 0 *)
Theorem C129_difference_refuted : forall w s i j, it_live i = true -> it_live j = true -> bi_diff w s i j = Ok 0.
Proof. intros w s i j Hi Hj. unfold bi_diff, it_diff. rewrite Hi, Hj, Z.sub_diag. cbn [andb]. destruct (Z.of_nat w); reflexivity. Qed.
Print Assumptions C129_difference_refuted.
Example C129_difference_case : exists s1 s2, bi_new true 2 (is_open [1; 0; 2; 0]) = Ok (s1, Val (mkiter true 1)) /\
  bi_plus true 2 1 (mkiter true 1) s1 = Ok (s2, Val (mkiter true 2)) /\ bi_diff 2 s2 (mkiter true 2) (mkiter true 1) = Ok 0.
Proof. eexists _, _. split; [vm_compute; reflexivity|]. split; vm_compute; reflexivity. Qed.
