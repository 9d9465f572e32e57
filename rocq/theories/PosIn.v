(** * PosIn: proofs about ifstream::seekg and tellg. *)
From Verif Require Import Base UtilModel StringFindModel StreamModel FileModel FmtSpec IstrModel IstrSpec IstrProg IstrProofs IstrRun PosModel PosSpec PosProg PosInSpec.
From Coq Require Import ZArith ZifyBool ZifyNat Lia.
Local Open Scope Z_scope.

Lemma skipn_rest {A} (a b : list A) : b = skipn (length (a ++ b) - length b) (a ++ b).
Proof. rewrite app_length, Nat.add_sub, skipn_app, skipn_all, Nat.sub_diag. reflexivity. Qed.
Lemma skipd_suffix p l : exists a, l = a ++ skipd p l.
Proof. induction l as [|c l (a & IH)]; [exists []; reflexivity|]. cbn [skipd]. destruct (p c); [exists (c :: a); cbn; congruence|exists []; reflexivity]. Qed.
Lemma tl_suffix {A} (l : list A) : exists a, l = a ++ tl l.
Proof. destruct l as [|x l]; [exists []|exists [x]]; reflexivity. Qed.
Lemma answer_suffix p r txt : exists a, txt = a ++ snd (answer p r txt).
Proof.
  destruct r as [d| |n d]; cbn [answer].
  - pose proof (until_spec d txt) as US. destruct (until d txt) as (a, b). destruct US as (E & _). cbn [snd]. destruct (tl_suffix b) as (c & Ec).
    exists (a ++ c). rewrite <- app_assoc, <- Ec. exact E.
  - destruct (skipd_suffix p txt) as (s & Es). pose proof (wordof_spec p (skipd p txt)) as WS. destruct (wordof p (skipd p txt)) as (a, b). destruct WS as (E & _). cbn [snd].
    destruct (tl_suffix b) as (c & Ec). exists (s ++ a ++ c). rewrite <- !app_assoc, <- Ec, <- E. exact Es.
  - cbn [snd]. exists (firstn (length (firstn (Z.to_nat (n - 1)) (fst (until d txt)))) txt). symmetry. apply firstn_skipn.
Qed.

Lemma skipn_skipn {A} i j (l : list A) : skipn i (skipn j l) = skipn (j + i) l.
Proof. revert l. induction j as [|j IH]; intros [|x l]; cbn [skipn Nat.add]; try reflexivity; [apply skipn_nil|apply IH]. Qed.

Definition PInv (k : nat) (d : list Z) (fresh : bool) (q : Z) (p : pif) : Prop :=
  0 <= q /\ pi_data p = d /\ FInvR k (pi_s p) (skipn (Z.to_nat q) d) /\
  pi_pos p + size (pi_ahead p) - size (skipn (Z.to_nat q) d) = q /\ (fresh = true -> t_state (pi_s p) = 0).

Lemma FInvR_less k k' s txt : (k' <= k)%nat -> FInvR k s txt -> FInvR k' s txt.
Proof.
  intros H (w & V & E & S & R). exists w. split; [exact V|]. split; [exact E|]. split; [|exact R].
  destruct S as [(S1 & S2 & S3)|(S1 & S2 & S3 & S4)]; [left|right]; repeat (split; [assumption|]); lia.
Qed.
Lemma PInv_offset k d fresh q p : PInv k d fresh q p -> pi_offset p - t_remaining (pi_s p) = q.
Proof.
  intros (H0 & Hd & (w & V & E & _) & Hq & _). unfold pi_offset. rewrite (view_rem _ _ V). unfold size in *. rewrite E, app_length in Hq. lia.
Qed.
Lemma PInv_clear k d fresh q p : PInv (S k) d fresh q p -> exists p', pi_clear 0 p = Ok (p', Val tt) /\ PInv k d true q p' /\ kept (pi_s p) (pi_s p').
Proof.
  intros (H0 & Hd & (w & V & E & S & X & N & B) & Hq & Hf). unfold pi_clear, on_text. eexists. split; [reflexivity|]. split; [|split; reflexivity].
  split; [exact H0|]. split; [exact Hd|]. split; [|split; [exact Hq|reflexivity]].
  exists w. cbn [pi_s tput_state tput_file t_file t_state f_in f_state f_sched f_exc]. split; [exact V|]. split; [exact E|]. split; [|auto].
  left. split; [reflexivity|]. split; [reflexivity|]. destruct S as [(S1 & S2 & S3)|(S1 & S2 & S3 & S4)]; [lia|].
  rewrite S3 in E. symmetry in E. apply app_eq_nil in E. destruct E as (_ & ->). cbn [length]. lia.
Qed.
Lemma PInv_seek k d fresh q p n w : PInv (length d + 1 + k) d fresh q p -> fresh = true \/ q < size d -> w <> Scur -> 0 <= seek_to q (size d) n w ->
  exists p', pi_seekg n w p = Ok (p', Val tt) /\ PInv k d true (seek_to q (size d) n w) p' /\ kept (pi_s p) (pi_s p').
Proof.
  intros (H0 & Hd & HF & Hq & Hf) Hs Hw Ht.
  assert (S0 : t_state (pi_s p) = 0).
  { destruct Hs as [Hs|Hs]; [exact (Hf Hs)|]. destruct (FInvR_state _ _ _ HF) as [S|(_ & S)]; [exact S|]. apply (f_equal (@length _)) in S. rewrite skipn_length in S. unfold size in Hs. cbn [length] in S. lia. }
  destruct HF as (v & V & E & S & X & N & B). destruct S as [(S1 & S2 & S3)|(S1 & _)]; [|congruence].
  unfold pi_seekg. unfold iobind at 1, on_text at 1. cbn [bind]. unfold iobind at 1, pi_lseek. cbn [pi_data pi_s tput_view t_file].
  set (p1 := mkpi _ _ _).
  assert (Et : seek_to (pi_offset p1) (Z.of_nat (length (pi_data p))) n w = seek_to q (size d) n w) by (destruct w; [reflexivity|congruence|rewrite Hd; reflexivity]).
  change target with seek_to. rewrite Et. set (t := seek_to q (size d) n w) in *. replace (t <? 0) with false by lia. cbn [bind]. unfold pi_clear, on_text. cbn [pi_s tput_file tput_view t_file f_state].
  rewrite S2. eexists. split; [reflexivity|]. split; [|split; reflexivity].
  split; [exact Ht|]. split; [exact Hd|]. split; [|split; [|reflexivity]].
  - exists []. cbn [pi_s tput_state tput_file tput_view t_file t_state f_in f_state f_sched f_exc app].
    assert (Lm : length (buf_resize 0 (t_mem (pi_s p))) = 1%nat). { apply buf_resize_length. unfold b_size in B. destruct V as (? & ? & M & Vp & Vs & Vb). lia. }
    split.
    { exists [], (buf_resize 0 (t_mem (pi_s p))). cbn [tput_state tput_file tput_view t_mem t_pos t_size length map app]. repeat split; lia. }
    split; [rewrite Hd; reflexivity|]. split; [left; split; [reflexivity|]; split; [reflexivity|]|].
    { rewrite skipn_length, Hd. lia. }
    split; [exact X|]. split; [exact N|]. unfold b_size. cbn [tput_state tput_file tput_view t_mem t_size]. rewrite Lm. lia.
  - cbn [pi_pos]. unfold pi_ahead. cbn [pi_pos pi_data]. rewrite Hd. lia.
Qed.
Lemma PInv_read k d fresh q p fuel r : PInv k d fresh q p -> (length d + 1 < fuel)%nat -> (r = RWord -> Forall plain d) -> reasonable r ->
  is_delim (pi_s p) 0 = true -> is_delim (pi_s p) (nth 0 (t_delims (pi_s p)) 0) = true ->
  let txt := skipn (Z.to_nat q) d in let '(a, rest) := answer (is_delim (pi_s p)) r txt in
  exists p', on_text (read_one ifs_underflow fuel r) p = Ok (p', Val a) /\ PInv k d false (q + (size txt - size rest)) p' /\ kept (pi_s p) (pi_s p').
Proof.
  intros (H0 & Hd & HF & Hq & Hf) Hfu HP HR D0 Dn. cbv zeta. set (txt := skipn (Z.to_nat q) d) in *.
  assert (Lt : (length txt <= length d)%nat) by (unfold txt; rewrite skipn_length; lia).
  destruct (read_one_ok ifs_underflow (FInvR k) (FInvR_view k) (FInvR_move k) (FInvR_gc k) (FInvR_state k) (FInvR_uf k) fuel (pi_s p) txt r HF) as (s' & E & F' & K);
    [lia| |exact HR|exact D0|exact Dn|].
  { intros Er. apply HP in Er. rewrite <- (firstn_skipn (Z.to_nat q) d) in Er. apply Forall_app in Er. apply Er. }
  destruct (answer_suffix (is_delim (pi_s p)) r txt) as (u & Eu). destruct (answer (is_delim (pi_s p)) r txt) as (a, rest). cbn [fst snd] in *.
  unfold on_text. rewrite E. eexists. split; [reflexivity|]. split; [|exact K].
  assert (Sz : size txt - size rest = size u) by (unfold size; rewrite Eu, app_length; lia).
  assert (Er : rest = skipn (Z.to_nat (q + (size txt - size rest))) d).
  { rewrite Sz. replace (Z.to_nat (q + size u)) with (Z.to_nat q + length u)%nat by (unfold size; lia). rewrite <- skipn_skipn. fold txt. rewrite Eu, skipn_app, skipn_all, Nat.sub_diag. reflexivity. }
  split; [rewrite Sz; unfold size; lia|]. split; [exact Hd|]. cbn [pi_s pi_pos]. unfold pi_ahead in *. cbn [pi_pos pi_data]. rewrite <- Er. split; [exact F'|]. split; [lia|discriminate].
Qed.

Lemma pi_run_ok fuel d isd : (length d + 1 < fuel)%nat -> forall ops k fresh q p, PInv (needs d ops + k) d fresh q p -> (In (InRead RWord) ops -> Forall plain d) -> sensible isd d fresh q ops ->
  (forall c, is_delim (pi_s p) c = isd c) -> isd 0 = true -> isd (nth 0 (t_delims (pi_s p)) 0) = true ->
  exists p', pi_run fuel ops p = Ok (p', Val (visits isd d q ops)) /\ kept (pi_s p) (pi_s p').
Proof.
  intros Hfu. induction ops as [|o ops IH]; intros k fresh q p HI HW HS HD H0 Hn; cbn [pi_run visits].
  - exists p. split; [reflexivity|apply kept_refl].
  - assert (step : forall p1 x q1 fr k1 rest, pi_step fuel o p = Ok (p1, Val x) -> PInv (needs d ops + k1) d fr q1 p1 -> kept (pi_s p) (pi_s p1) -> sensible isd d fr q1 ops -> rest = visits isd d q1 ops ->
      exists p', (x0 <~ pi_step fuel o;; xs <~ pi_run fuel ops;; ret (x0 :: xs)) p = Ok (p', Val (x :: rest)) /\ kept (pi_s p) (pi_s p')).
    { intros p1 x q1 fr k1 rest E1 I1 K1 S1 ->. unfold iobind. rewrite E1. cbn [bind].
      destruct (IH k1 fr q1 p1 I1) as (p' & E' & K').
      - intros Hi. apply HW. right. exact Hi.
      - exact S1.
      - intros c. rewrite <- HD. unfold is_delim. destruct K1 as (-> & _). reflexivity.
      - exact H0.
      - destruct K1 as (-> & _). exact Hn.
      - rewrite E'. cbn [bind ret]. exists p'. split; [reflexivity|exact (kept_trans _ _ _ K1 K')]. }
    destruct o as [r| |n w|]; cbn [sensible needs] in *.
    + destruct HS as (HR & HS).
      pose proof (PInv_read _ _ _ _ _ fuel r HI Hfu ltac:(intros ->; apply HW; left; reflexivity) HR ltac:(rewrite HD; exact H0) ltac:(rewrite HD; exact Hn)) as P. cbv zeta in P.
      assert (EA : forall txt, answer (is_delim (pi_s p)) r txt = answer isd r txt).
      { intros txt. destruct r as [dd| |nn dd]; cbn [answer]; [reflexivity| |reflexivity]. rewrite (skipd_ext _ isd) by exact HD. rewrite (wordof_ext _ isd) by exact HD. reflexivity. }
      rewrite EA in P. destruct (answer isd r (skipn (Z.to_nat q) d)) as (a, rest). destruct P as (p1 & E1 & I1 & K1).
      eapply (step p1 (Text a)); [|exact I1|exact K1|exact HS|reflexivity]. cbn [pi_step]. unfold iobind. rewrite E1. reflexivity.
    + apply (step p (Position q) q fresh k _); [|exact HI|apply kept_refl|exact HS|reflexivity]. cbn [pi_step]. unfold iobind, pi_tellg. cbn [bind ret].
      rewrite (PInv_offset _ _ _ _ _ HI). reflexivity.
    + destruct HS as (Hs & Hw & Ht & HS). rewrite <- Nat.add_assoc in HI.
      destruct (PInv_seek _ _ _ _ _ n w HI Hs Hw Ht) as (p1 & E1 & I1 & K1).
      eapply (step p1 Done); [|exact I1|exact K1|exact HS|reflexivity]. cbn [pi_step]. unfold iobind. rewrite E1. reflexivity.
    + cbn [Nat.add] in HI. destruct (PInv_clear _ _ _ _ _ HI) as (p1 & E1 & I1 & K1).
      apply (step p1 Done q true k _); [|exact I1|exact K1|exact HS|reflexivity]. cbn [pi_step]. unfold iobind. rewrite E1. reflexivity.
Qed.
Lemma PInv_open sz d sched dl k : no_errors sched -> (length d + k < answers sched)%nat -> Z.of_nat sz < 2 ^ 60 -> PInv k d true 0 (pi_delims dl (pi_open sz d sched)).
Proof.
  intros N A H. split; [lia|]. split; [reflexivity|]. split; [|split; [|reflexivity]].
  - apply (FInvR_new k sz (mkf 0 0 [] d sched)); [|exact A|exact H]. repeat split; [exact N|]. cbn [f_in f_sched]. lia.
  - unfold pi_ahead, pi_open. cbn. lia.
Qed.

(** ** One character, and putting one back *)
Lemma f_get_ok k fuel s c txt : FInvR k s (c :: txt) ->
  exists s', t_get ifs_underflow fuel s = Ok (s', Val c) /\ FInvR k s' txt /\ t_state s' = 0 /\ 1 <= t_pos s' /\ kept s s'.
Proof.
  intros H.
  assert (A : forall s, FInvR k s (c :: txt) -> 0 < t_remaining s ->
    exists s', (o <~ (_ <~ (fun s => Ok (tput_gcount 1 s, Val tt)) ;; t_raw 1) ;; ret (match o with Some (c :: _) => c | _ => 255 end)) s = Ok (s', Val c) /\
      FInvR k s' txt /\ t_state s' = 0 /\ 1 <= t_pos s' /\ kept s s').
  { clear s H. intros s H R. destruct H as (w & V & E & S & X & N & B). pose proof (view_rem s w V) as Rw.
    destruct w as [|c' w]; [cbn [length] in Rw; lia|]. cbn [app] in E. injection E as <- E.
    assert (H : FInvR k s (c :: txt)) by (exists (c :: w); split; [exact V|]; split; [cbn [app]; congruence|auto]).
    unfold iobind at 1. unfold iobind at 1. cbn [bind]. unfold t_raw, iobind, t_verify.
    assert (R' : t_remaining (tput_gcount 1 s) = t_remaining s) by reflexivity. rewrite R'. replace (1 <=? t_remaining s) with true by lia. cbn [bind].
    pose proof (view_bytes (tput_gcount 1 s) (c :: w) V 1 0 ltac:(cbn; lia)) as Bt. rewrite Z.add_0_r in Bt. cbn [skipn firstn] in Bt.
    change (Z.to_nat 1) with 1%nat. rewrite Bt. cbn [bind ret].
    pose proof V as (pre & post & M & P & Sz & L). cbn [length] in *.
    cbn [tput_gcount t_pos]. rewrite u64_id by lia. eexists. split; [reflexivity|]. split; [|split; [|split; [cbn [tput_pos t_pos]; lia|split; reflexivity]]].
    - exact (FInvR_move k _ _ 1 (FInvR_gc k _ _ 1 H) ltac:(rewrite R'; lia)).
    - cbn [tput_pos tput_gcount t_state]. destruct (FInvR_state _ _ _ H) as [Q|(_ & Q)]; [exact Q|discriminate]. }
  unfold t_get, t_read. destruct (Z.ltb_spec (t_remaining s) 1) as [L|L].
  - assert (R0 : t_remaining s = 0). { destruct (FInvR_view _ _ _ H) as (w & rest & _ & V). rewrite (view_rem s w V) in *. lia. }
    destruct (FInvR_uf k s _ H R0) as (s1 & E & H1 & G1 & K1 & _ & B1). specialize (B1 ltac:(discriminate)).
    destruct (A s1 H1 B1) as (s2 & E2 & H2 & S2 & P2 & K2). exists s2. split; [|split; [exact H2|split; [exact S2|split; [exact P2|exact (kept_trans _ _ _ K1 K2)]]]].
    unfold iobind at 1. unfold iobind at 1. replace (t_remaining s <? 1) with true by lia. unfold iobind at 1. rewrite E. cbn [bind ret].
    replace (t_remaining s1 <? 1) with false by lia. exact E2.
  - destruct (A s H ltac:(lia)) as (s2 & E2 & H2). exists s2. split; [|exact H2].
    unfold iobind at 1. unfold iobind at 1. replace (t_remaining s <? 1) with false by lia. cbn [bind]. exact E2.
Qed.
Lemma putback_ok k s txt x : FInvR k s txt -> t_state s = 0 -> 1 <= t_pos s ->
  exists s', t_putback x s = Ok (s', Val tt) /\ FInvR k s' (x :: txt) /\ kept s s'.
Proof.
  intros (w & V & E & S & X & N & B) Hs Hp. destruct S as [(S1 & S2 & S3)|(S1 & _)]; [|congruence].
  destruct V as (pre & post & M & P & Sz & L).
  destruct (exists_last (l := pre)) as (pre' & y & ->). { intros ->. cbn [length] in P. lia. }
  rewrite app_length in *. cbn [length] in *. rewrite <- app_assoc in M. cbn [app] in M.
  unfold t_putback, t_ungetc, t_seek, iobind. rewrite u64_id by lia. replace (t_size s <? t_pos s - 1) with false by lia. cbn [bind tput_pos t_mem t_pos].
  rewrite upd_some by (rewrite M, app_length; cbn [length]; lia).
  assert (Ep : Z.to_nat (t_pos s - 1) = length pre') by lia. rewrite Ep, M.
  replace (firstn (length pre') (pre' ++ y :: map Some w ++ post)) with pre' by (rewrite firstn_app, firstn_all, Nat.sub_diag; cbn [firstn]; symmetry; apply app_nil_r).
  replace (skipn (S (length pre')) (pre' ++ y :: map Some w ++ post)) with (map Some w ++ post)
    by (rewrite skipn_app, skipn_all2 by lia; replace (S (length pre') - length pre')%nat with 1%nat by lia; reflexivity).
  eexists. split; [reflexivity|]. split; [|split; reflexivity].
  exists (x :: w). cbn [tput_pos t_mem t_size t_pos t_state t_gcount t_delims t_base t_file].
  split. { exists pre', post. cbn [t_mem t_size t_pos map app length]. split; [reflexivity|]. lia. }
  split; [cbn [app]; congruence|]. split; [left; auto|]. split; [exact X|]. split; [exact N|].
  unfold b_size in *. cbn [t_mem t_size]. rewrite M in B. rewrite !app_length in *. cbn [length] in *. rewrite !app_length in *. lia.
Qed.
Lemma f_read_all k isd fuel : forall ops s txt, FInvR k s txt -> (length txt + 1 < fuel)%nat -> (In RWord ops -> Forall plain txt) -> Forall reasonable ops ->
  (forall c, is_delim s c = isd c) -> isd 0 = true -> isd (nth 0 (t_delims s) 0) = true ->
  exists s', read_all ifs_underflow fuel ops s = Ok (s', Val (answers_to isd ops txt)) /\ FInvR k s' (left_after isd ops txt) /\ kept s s'.
Proof.
  induction ops as [|r ops IH]; intros s txt H Hf HW HR HD H0 Hn; cbn [read_all answers_to left_after].
  - exists s. split; [reflexivity|]. split; [exact H|apply kept_refl].
  - inversion HR as [|? ? Hr HR']; subst.
    destruct (read_one_ok ifs_underflow (FInvR k) (FInvR_view k) (FInvR_move k) (FInvR_gc k) (FInvR_state k) (FInvR_uf k) fuel s txt r H Hf) as (s1 & E & H1 & K1);
      [intros ->; apply HW; left; reflexivity|exact Hr|rewrite HD; exact H0|rewrite HD; exact Hn|].
    assert (EA : answer (is_delim s) r txt = answer isd r txt).
    { destruct r as [dd| |nn dd]; cbn [answer]; [reflexivity| |reflexivity]. rewrite (skipd_ext _ isd) by exact HD. rewrite (wordof_ext _ isd) by exact HD. reflexivity. }
    rewrite EA in *. destruct (answer_suffix isd r txt) as (u & Eu). destruct (answer isd r txt) as (a, rest). cbn [fst snd] in *. subst txt. rewrite app_length in Hf.
    unfold iobind. rewrite E. cbn [bind].
    destruct (IH s1 rest H1 ltac:(lia)) as (s' & E' & F' & K').
    + intros I. specialize (HW (or_intror I)). apply Forall_app in HW. apply HW.
    + exact HR'.
    + intros c. rewrite <- HD. unfold is_delim. destruct K1 as (-> & _). reflexivity.
    + exact H0.
    + destruct K1 as (-> & _). exact Hn.
    + rewrite E'. cbn [bind ret]. exists s'. split; [reflexivity|]. split; [exact F'|exact (kept_trans _ _ _ K1 K')].
Qed.
Lemma left_after_suffix isd ops txt : exists a, txt = a ++ left_after isd ops txt.
Proof.
  revert txt. induction ops as [|r ops IH]; intros txt; cbn [left_after]; [exists []; reflexivity|].
  destruct (answer_suffix isd r txt) as (u & Eu). destruct (IH (snd (answer isd r txt))) as (v & Ev). exists (u ++ v). rewrite <- app_assoc, <- Ev. exact Eu.
Qed.
Lemma with_putback_ok k isd fuel ops x ops' s txt c rest : FInvR k s txt -> (length txt + 1 < fuel)%nat ->
  (In RWord ops -> Forall plain txt) -> (In RWord ops' -> Forall plain (x :: rest)) -> Forall reasonable ops -> Forall reasonable ops' ->
  (forall c, is_delim s c = isd c) -> isd 0 = true -> isd (nth 0 (t_delims s) 0) = true ->
  left_after isd ops txt = c :: rest ->
  exists s', with_putback fuel ops x ops' s = Ok (s', Val (answers_to isd ops txt, c, answers_to isd ops' (x :: rest))).
Proof.
  intros H Hf HW HW' HR HR' HD H0 Hn HL. unfold with_putback. unfold iobind at 1.
  destruct (f_read_all k isd fuel ops s txt H Hf HW HR HD H0 Hn) as (s1 & E1 & F1 & K1). rewrite E1. rewrite HL in F1. cbn [bind]. unfold iobind at 1.
  destruct (f_get_ok k fuel s1 c rest F1) as (s2 & E2 & F2 & S2 & P2 & K2). rewrite E2. cbn [bind]. unfold iobind at 1.
  destruct (putback_ok k s2 rest x F2 S2 P2) as (s3 & E3 & F3 & K3). rewrite E3. cbn [bind]. unfold iobind at 1.
  pose proof (kept_trans _ _ _ K1 (kept_trans _ _ _ K2 K3)) as K.
  destruct (left_after_suffix isd ops txt) as (u & Eu). rewrite HL in Eu.
  destruct (f_read_all k isd fuel ops' s3 (x :: rest) F3) as (s4 & E4 & _).
  - rewrite Eu, app_length in Hf. cbn [length] in *. lia.
  - exact HW'.
  - exact HR'.
  - intros y. rewrite <- HD. unfold is_delim. destruct K as (-> & _). reflexivity.
  - exact H0.
  - destruct K as (-> & _). exact Hn.
  - rewrite E4. cbn [bind ret]. exists s4. reflexivity.
Qed.
